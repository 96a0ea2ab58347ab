(** Lemmas about the interface to the package's parameters: its names, its
    units and its values. *)

From Coq Require Import String Ascii List Bool ZArith QArith Qcanon Lia Relations.
From Verif Require Import Py PyFacts PyDict SymbolicModel AliasedModel AliasedSpec AliasedProofs AliasedGroupProofs AliasedMoreProofs AliasedProps.
From Verif Require Import RuntimeModel RuntimeSpec RuntimeProofs PackageModel PackageSpec PackageProofs.
Import ListNotations.
Open Scope list_scope.
Open Scope nat_scope.

(** * Names *)

Definition ref_names : list (list str) := map members reference_keys.
Definition row_names (r : str * (option (list str) * option str)) : list str :=
  fst r :: match fst (snd r) with Some l => l | None => [] end.
Definition all_groups : list (list str) := ref_names ++ map row_names metadata.
Definition base_names : list str := map fst local_values ++ map fst parameters.
Definition common (g h : list str) : bool := existsb (fun a => gin a h) g.
Definition near (k : str) : list str := k :: concat (filter (gin k) all_groups).
Definition at_most_one {A} (l : list A) : bool := match l with [] | [_] => true | _ => false end.

Lemma ref_nodup : NoDup (concat ref_names).
Proof. apply nodupb_ok. vm_compute. reflexivity. Qed.
Lemma rows_nodup : NoDup (concat (map row_names metadata)).
Proof. apply nodupb_ok. vm_compute. reflexivity. Qed.
Lemma base_nodup : NoDup base_names.
Proof. apply nodupb_ok. vm_compute. reflexivity. Qed.
Lemma match_rows : forallb (fun r => at_most_one (filter (common (row_names r)) ref_names)) metadata = true.
Proof. vm_compute. reflexivity. Qed.
Lemma match_refs : forallb (fun g => at_most_one (filter (fun r => common (row_names r) g) metadata)) ref_names = true.
Proof. vm_compute. reflexivity. Qed.
Lemma near_closed : forallb (fun k => let n := near k in forallb (fun g => negb (common g n) || forallb (fun a => gin a n) g) all_groups) base_names = true.
Proof. vm_compute. reflexivity. Qed.
Lemma near_base : forallb (fun k => forallb (fun a => negb (gin a base_names) || str_eqb a k) (near k)) base_names = true.
Proof. vm_compute. reflexivity. Qed.
Lemma aliases_new : forallb (fun r => forallb (fun a => negb (gin a base_names)) (tl (row_names r))) metadata = true.
Proof. vm_compute. reflexivity. Qed.

Lemma gin_In a g : gin a g = true <-> In a g.
Proof.
  unfold gin. rewrite existsb_exists. split.
  - intros (b & I & E). destruct (str_eqb_spec a b) as [->|]; [exact I|discriminate].
  - intros I. exists a. split; [exact I|apply str_eqb_refl].
Qed.
Lemma common_meets g h : common g h = true <-> meets g h.
Proof. unfold common, meets. rewrite existsb_exists. split; intros (a & I & J); exists a; split; auto; now apply gin_In. Qed.
Lemma one_only {A} (f : A -> bool) l x y : at_most_one (filter f l) = true -> In x l -> In y l -> f x = true -> f y = true -> x = y.
Proof.
  intros E X Y Fx Fy. assert (In x (filter f l)) as X' by (now apply filter_In). assert (In y (filter f l)) as Y' by (now apply filter_In).
  destruct (filter f l) as [|a [|b t]]; [destruct X'| |discriminate E]. destruct X' as [<-|[]], Y' as [<-|[]]. reflexivity.
Qed.
Lemma concat_disjoint (gs : list (list str)) : NoDup (concat gs) -> disjoint gs.
Proof.
  unfold disjoint. induction gs as [|g gs IH]; intros N; [constructor|]. cbn [concat] in N. constructor.
  - apply Forall_forall. intros h I a A B. eapply NoDup_app_disj; [exact N|exact A|]. apply in_concat. eauto.
  - apply IH. eapply NoDup_app_r; eauto.
Qed.

(** The tables are not to be unfolded below. *)
Local Opaque metadata parameters reference_keys local_values.

Section Order.
Context (mkset : list str -> list str) (order : set_order mkset).
Notation self := (groups_init mkset reference_keys).
Notation rows := (metadata_keys mkset).
Definition row_key (r : str * (option (list str) * option str)) : list str :=
  interior_key mkset (fun l : list str => l) (lit "aliases") (fst r, match fst (snd r) with Some l => [(lit "aliases", l)] | None => [] end).
Lemma row_key_In r a : In a (row_key r) <-> In a (row_names r).
Proof.
  unfold row_key. rewrite interior_key_In by exact order. destruct r as [k [[l|] u]]; unfold entry_names; cbn [fst snd row_names inner_get];
    [change (str_eqb (lit "aliases") (lit "aliases")) with true; cbn iota|]; reflexivity.
Qed.
Lemma new_rows : new_groups (map AIter rows) = rows.
Proof. unfold new_groups. rewrite map_map. induction rows as [|r l IH]; [reflexivity|]. cbn [map concat app]. now rewrite IH. Qed.
Lemma self_disjoint : disjoint self.
Proof.
  unfold groups_init. apply (disjoint_map_incl (group_of mkset) members).
  - intros x a _ I. now apply gof_In in I.
  - apply concat_disjoint, ref_nodup.
Qed.
Lemma rows_disjoint : disjoint rows.
Proof.
  apply (disjoint_map_incl row_key row_names).
  - intros x a _ I. now apply row_key_In.
  - apply concat_disjoint, rows_nodup.
Qed.
Lemma rows_match : matching self rows.
Proof.
  pose proof match_rows as M1. pose proof match_refs as M2. rewrite forallb_forall in M1, M2.
  assert (forall r k, meets (row_key r) (group_of mkset k) -> common (row_names r) (members k) = true) as T.
  { intros r k (a & A & B). apply common_meets. exists a. split; [now apply row_key_In|now apply (gof_In mkset order) in B]. }
  split.
  - intros o g h O G H Mg Mh. apply in_map_iff in O as (r & <- & O). apply in_map_iff in G as (kg & <- & G). apply in_map_iff in H as (kh & <- & H).
    unfold group_of. f_equal. apply (one_only _ _ _ _ (M1 r O)); [now apply in_map|now apply in_map|now apply T|now apply T].
  - intros o p g O P G Mo Mp. apply in_map_iff in O as (r & <- & O). apply in_map_iff in P as (r' & <- & P). apply in_map_iff in G as (kg & <- & G).
    assert (r = r') as ->; [|reflexivity]. apply (one_only _ _ _ _ (M2 (members kg) (in_map members _ _ G))); auto; apply T; assumption.
Qed.
Lemma together_all a b : together (self ++ rows) a b <-> together all_groups a b.
Proof.
  unfold all_groups. rewrite !together_app. apply Morphisms_Prop.or_iff_morphism.
  - split; intros (g & G & A & B).
    + apply in_map_iff in G as (k & <- & G). exists (members k). split; [now apply in_map|]. now rewrite <- !(gof_In mkset order).
    + apply in_map_iff in G as (k & <- & G). exists (group_of mkset k). split; [now apply in_map|]. now rewrite !(gof_In mkset order).
  - split; intros (g & G & A & B).
    + apply in_map_iff in G as (k & <- & G). exists (row_names k). split; [now apply in_map|]. now rewrite <- !row_key_In.
    + apply in_map_iff in G as (k & <- & G). exists (row_key k). split; [now apply (in_map row_key)|]. now rewrite !row_key_In.
Qed.
Lemma near_together k a : In k base_names -> clos_trans _ (together (self ++ rows)) k a -> In a (near k).
Proof.
  intros K T. apply clos_trans_tn1 in T. pose proof near_closed as C. rewrite forallb_forall in C. specialize (C k K). cbn zeta in C. rewrite forallb_forall in C.
  assert (forall y z, In y (near k) -> together (self ++ rows) y z -> In z (near k)) as St.
  { intros y z Y TT. apply together_all in TT as (g & G & A & B). specialize (C g G). apply orb_true_iff in C as [C|C].
    - apply negb_true_iff in C. assert (common g (near k) = true) as C' by (apply common_meets; now exists y). congruence.
    - rewrite forallb_forall in C. now apply gin_In, C. }
  induction T as [y T|y z T _ IH]; [apply (St k); [now left|exact T]|now apply (St y)].
Qed.
Lemma near_names k a : In k base_names -> In a (near k) <-> names_parameter k a.
Proof.
  intros K. split.
  - unfold near. intros I. apply in_inv in I as [<-|I]; [left; reflexivity|]. unfold names_parameter. destruct (str_eqb_spec a k) as [->|Na]; [left; reflexivity|]. right. apply in_concat in I as (g & G & A). apply filter_In in G as [G E]. apply gin_In in E.
    unfold all_groups in G. apply in_app_iff in G as [G|G]; [right; exists g; auto|].
    apply in_map_iff in G as ([k' [l u]] & <- & G). cbn [row_names fst snd] in *. destruct (str_eqb_spec k k') as [<-|Nk].
    + destruct A as [A|A]; [exfalso; apply Na; symmetry; exact A|]. left. destruct l as [l|]; [exists l, u; auto|destruct A].
    + exfalso. destruct E as [E|E]; [apply Nk; symmetry; exact E|]. pose proof aliases_new as N. rewrite forallb_forall in N. specialize (N _ G). rewrite forallb_forall in N.
      specialize (N k E). apply negb_true_iff in N. assert (gin k base_names = true) by (now apply gin_In). congruence.
  - unfold near. intros [->|[(l & u & I & A)|(g & G & A & B)]]; [left; reflexivity| |].
    + right. apply in_concat. exists (row_names (k, (Some l, u))). split; [|right; exact A]. apply filter_In. split; [apply in_app_iff; right; now apply in_map|].
      apply gin_In. left. reflexivity.
    + right. apply in_concat. exists g. split; [|exact B]. apply filter_In. split; [apply in_app_iff; left; exact G|now apply gin_In].
Qed.
Lemma named k a : In k base_names -> (a = k \/ clos_trans _ (together (self ++ rows)) k a) <-> names_parameter k a.
Proof.
  intros K. split.
  - intros [->|T]; [left; reflexivity|]. apply near_names; [exact K|now apply near_together].
  - intros [->|[(l & u & I & A)|(g & G & A & B)]]; [left; reflexivity|right|right]; apply t_step, together_all.
    + exists (row_names (k, (Some l, u))). split; [apply in_app_iff; right; now apply in_map|]. split; [left; reflexivity|right; exact A].
    + exists g. split; [apply in_app_iff; left; exact G|split; assumption].
Qed.
Lemma groups_ok : exists gs, interface_groups mkset = Ok gs /\ disjoint gs
  /\ (forall k a, In k base_names -> (a = k \/ together gs k a) <-> names_parameter k a)
  /\ (forall g a b, In g gs -> In a g -> In b g -> In a base_names -> In b base_names -> a = b).
Proof.
  destruct (C15_merge_partial mkset self (map AIter rows) order self_disjoint) as (gs & E & D & T).
  - unfold listed. apply Forall_forall. intros x I. apply in_map_iff in I as (y & <- & _). exact I.
  - rewrite new_rows. exact rows_disjoint.
  - rewrite new_rows. exact rows_match.
  - rewrite new_rows in T. exists gs. split; [exact E|]. split; [exact D|]. split.
    + intros k a K. rewrite T. now apply named.
    + intros g a b G A B Ka Kb. assert (In b (near a)) as I by (apply near_together; [exact Ka|]; apply T; now exists g).
      pose proof near_base as N. rewrite forallb_forall in N. specialize (N a Ka). rewrite forallb_forall in N. specialize (N b I).
      apply orb_true_iff in N as [N|N]; [apply negb_true_iff in N; assert (gin b base_names = true) by (now apply gin_In); congruence|].
      destruct (str_eqb_spec b a) as [->|]; [reflexivity|discriminate].
Qed.

(** * Units *)
Lemma metadata_nodup : NoDup (map fst metadata).
Proof. apply nodupb_ok. vm_compute. reflexivity. Qed.
Lemma unit_of_spec k u : has_unit k u -> unit_of k = u.
Proof.
  unfold unit_of. intros [(l & I)|[N ->]].
  - apply (d_get_iff str_eqb str_eqb_spec) in I; [|exact metadata_nodup]. now rewrite I.
  - apply (d_get_none str_eqb str_eqb_spec) in N. now rewrite N.
Qed.

(** * The interface *)
Definition value_in (values : list (str * rvalue)) (k : str) : rvalue := match d_get str_eqb values k with Some v => v | None => RNone end.
Lemma open_named fuel contents user values :
  match contents with Some s => config_file [] s | None => Ok [] end = Ok user -> all_values F64 fuel user = Ok values ->
  exists m, open_package F64 mkset fuel contents = Ok m
  /\ (forall k a u, In k base_names -> names_parameter k a -> has_unit k u -> getitem m a = Ok (value_in values k, u))
  /\ (forall a, (forall k, In k base_names -> ~ names_parameter k a) -> getitem m a = Err KeyError).
Proof.
  intros U A. destruct groups_ok as (gs & E & D & N & Un). unfold open_package. rewrite U. cbn [bind]. rewrite A. cbn [bind].
  fold base_names.
  rewrite (IterablesProofs.mapM_ok _ (fun k => (k, (value_in values k, unit_of k)))) by reflexivity. cbn [bind]. rewrite E. cbn [bind].
  set (l := map (fun k => (k, (value_in values k, unit_of k))) (mkset base_names)).
  assert (map fst l = mkset base_names) as Kl by (unfold l; rewrite map_map; cbn [fst]; apply map_id).
  assert (forall k, In k (map fst l) <-> In k base_names) as Ks by (intros k; rewrite Kl; apply order).
  destruct (C67_with_groups mkset _ l gs order) as (_ & G & X & _).
  - rewrite Kl. apply order.
  - exact D.
  - intros g a b Hg Ha Hb Ia Ib. apply (Un g); auto; now apply Ks.
  - eexists. split; [reflexivity|]. split.
    + intros k a u K Na Hu. rewrite <- (unit_of_spec k u Hu). apply (G k); [|now apply N].
      unfold l. apply (in_map (fun k => (k, (value_in values k, unit_of k)))). now apply order.
    + intros a Na. apply X. intros k K. apply Ks in K. specialize (Na k K). rewrite <- (N k a K) in Na. tauto.
Qed.
Lemma all_values_ok fuel user (w : str -> rvalue) : (forall n, In n (map fst parameters) -> runtime_getitem F64 (the_run user) fuel n = Ok (w n)) ->
  exists values, all_values F64 fuel user = Ok values /\ (forall n, In n (map fst parameters) -> value_in values n = w n)
  /\ (forall n v, In (n, v) local_values -> value_in values n = v).
Proof.
  intros H. unfold all_values. rewrite (IterablesProofs.mapM_ok _ (fun k => (k, w k))) by (intros x I; now rewrite (H x I)). cbn [bind].
  eexists. split; [reflexivity|]. unfold value_in.
  assert (forall n, d_get str_eqb (rev (map (fun k => (k, w k)) (map fst parameters))) n = if gin n (map fst parameters) then Some (w n) else None) as L.
  { intros n. destruct (gin n (map fst parameters)) eqn:G.
    - apply gin_In in G. apply (d_get_iff str_eqb str_eqb_spec).
      + rewrite map_rev, map_map, map_id. apply NoDup_rev, parameters_nodup.
      + apply in_rev. rewrite rev_involutive. now apply (in_map (fun k => (k, w k))).
    - apply (d_get_none str_eqb str_eqb_spec). rewrite map_rev, map_map, map_id. intros I. apply in_rev in I. apply gin_In in I. congruence. }
  split; intros n; rewrite (d_update_get str_eqb str_eqb_spec), L.
  - intros I. apply gin_In in I. now rewrite I.
  - intros v I. assert (gin n (map fst parameters) = false) as ->.
    { destruct (gin n (map fst parameters)) eqn:G; [|reflexivity]. apply gin_In in G. exfalso. pose proof base_nodup as N. unfold base_names in N.
      eapply NoDup_app_disj; [exact N|exact (in_map fst _ _ I)|exact G]. }
    apply (d_get_iff str_eqb str_eqb_spec) in I; [now rewrite I|]. eapply NoDup_app_l, base_nodup.
Qed.
End Order.

(** * Files *)
Lemma get_find (l : list (str * str)) n : d_get str_eqb l n = option_map snd (find (fun p : str * str => str_eqb (fst p) n) l).
Proof. induction l as [|[k v] l IH]; [reflexivity|]. cbn [d_get find fst]. rewrite (str_eqb_sym k n). destruct (str_eqb n k); [reflexivity|exact IH]. Qed.
Lemma chosen_given ls n : given (d_of str_eqb (entries ls)) n = chosen ls n.
Proof.
  unfold given, chosen. rewrite (d_of_get str_eqb str_eqb_spec), get_find. destruct (find _ _) as [[k [|c s]]|]; reflexivity.
Qed.
Lemma means_ext (f g : str -> option str) : (forall n, f n = g n) -> forall n v, means f n v -> means g n v.
Proof.
  intros E. induction 1; [eapply means_given|eapply means_default|eapply means_other|eapply means_sum|eapply means_third|eapply means_processes|eapply means_rotation];
    try rewrite <- E; eassumption.
Qed.

(** * Texts without a meaning *)
Section Failures.
Context (u : list (str * str)).
Notation R := (the_run u).
Lemma no_argument s k : d_get str_eqb parameters s = None -> d_get str_eqb constants s = None -> get_argument F64 R (S k) s = Ok None.
Proof.
  intros P C. unfold get_argument. change (r_reference R) with parameters. rewrite P.
  change (r_constants R) with constants. cbn [compute_constant]. now rewrite C.
Qed.
Lemma stop_zero x y : given u (lit "simStopTime") = None -> means (given u) (lit "simStartTime") (RReal x) -> means (given u) (lit "tDel") (RReal y) ->
  (x + y = 0)%Qc -> eventually (fun k => evaluate F64 R k (RStr (lit "simStopTime")) = Err TypeError).
Proof.
  intros G Mx My Z. destruct (eventually_and _ _ (means_evaluated u _ _ Mx) (means_evaluated u _ _ My)) as [N H].
  exists (N + 20). intros k L. replace k with (S (S (S (S (S (k - 5)))))) by lia.
  rewrite (default_step u _ TFloat _ stop_row G); [|vm_compute; reflexivity|discriminate].
  rewrite evaluate_S. assert (cast sum_text = None) as -> by (vm_compute; reflexivity). rewrite evaluate_name_S.
  assert (str_eqb sum_text (lit "N_PROCS") = false) as -> by reflexivity. assert (str_eqb sum_text (lit "third") = false) as -> by reflexivity.
  rewrite no_argument; [|vm_compute; reflexivity|vm_compute; reflexivity]. cbn [bind]. rewrite resolve_S.
  assert (member sum_text = None) as -> by (vm_compute; reflexivity). assert (has_char "+" sum_text = true) as -> by (vm_compute; reflexivity).
  assert (sum_of F64 R (k - 5) sum_text Qcplus "+"%char = Ok (x + y)%Qc) as ->.
  { unfold sum_of. assert (split_on "+"%char sum_text = [lit "config.simStartTime "; lit " config.tDel"]) as -> by (vm_compute; reflexivity). cbn [mapM].
    assert (strip (lit "config.simStartTime ") = lit "config." ++ lit "simStartTime") as -> by (vm_compute; reflexivity).
    assert (strip (lit " config.tDel") = lit "config." ++ lit "tDel") as -> by (vm_compute; reflexivity).
    replace (k - 5) with (S (S (S (k - 8)))) by lia. destruct (H (k - 8) ltac:(lia)) as [Ex Ey].
    rewrite (member_step u (lit "simStartTime")), Ex by (apply table_proper; left; exact (row_in _ _ _ start_row)).
    rewrite (member_step u (lit "tDel")), Ey by (apply table_proper; left; exact (row_in _ _ _ step_row)). reflexivity. }
  cbn [bind]. rewrite Z. reflexivity.
Qed.
Lemma whole_zero n d : In (n, (TInt, d)) parameters -> given u n = Some (lit "0.0") -> forall k, evaluate F64 R (6 + k) (RStr n) = Err TypeError.
Proof.
  intros H G k. change (6 + k) with (S (S (4 + k))). rewrite (parameter_step u n TInt d (4 + k) H), G. cbv zeta.
  assert (convert (lit "0.0") TInt = RStr (lit "0.0")) as -> by (vm_compute; reflexivity). cbn [is_instance].
  change (4 + k) with (S (S (S (S k)))). rewrite evaluate_S.
  assert (match cast (lit "0.0") with Some q => Qc_eqb q 0 | None => false end = true) as Q by (vm_compute; reflexivity).
  destruct (cast (lit "0.0")) as [q|]; [rewrite Q|discriminate Q]. rewrite evaluate_name_S.
  assert (str_eqb (lit "0.0") (lit "N_PROCS") = false) as -> by reflexivity. assert (str_eqb (lit "0.0") (lit "third") = false) as -> by reflexivity.
  rewrite no_argument; [|vm_compute; reflexivity|vm_compute; reflexivity]. cbn [bind]. rewrite resolve_S.
  assert (member (lit "0.0") = None) as -> by (vm_compute; reflexivity). reflexivity.
Qed.
End Failures.
