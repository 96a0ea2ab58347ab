(** Proofs about observable quantities. *)

From Coq Require Import String Ascii List Bool ZArith QArith Qcanon Lia.
From Verif Require Import Py PyFacts PyDict ParametersModel ParametersSpec ParametersProofs ArrayModel ArraySpec ArrayProofs
  ArrayOpsProofs ObservingModel ObservingSpec ObservingProofs ObservablesModel ObservablesSpec.
Import ListNotations.
Open Scope list_scope.
Open Scope nat_scope.

Lemma str_eqb_eq a b : str_eqb a b = true <-> a = b.
Proof. destruct (str_eqb_spec a b); split; congruence. Qed.
Lemma is_system_spec x : is_system x = true <-> system_name x.
Proof.
  unfold is_system, system_name. rewrite orb_true_iff, !str_eqb_eq.
  rewrite !lower_spells by apply small_systems. tauto.
Qed.

Lemma same_names_spec a : forall b, same_names a b = true <-> a = b.
Proof.
  induction a as [|x a IH]; intros [|y b]; cbn; try (split; [discriminate|discriminate]).
  - tauto.
  - rewrite andb_true_iff, str_eqb_eq, IH. split; [intros [-> ->]; reflexivity|intros E; injection E; auto].
Qed.
Lemma existsb_str x l : existsb (str_eqb x) l = true <-> In x l.
Proof.
  rewrite existsb_exists. split; [intros (y & I & E); apply str_eqb_eq in E; now subst|].
  intros I. exists x. split; [exact I|]. now apply str_eqb_eq.
Qed.
Lemma same_members_spec a b : same_members a b = true <-> forall x, In x a <-> In x b.
Proof.
  unfold same_members. rewrite andb_true_iff, !forallb_forall. split.
  - intros [H1 H2] x. split; intros I; [apply existsb_str, H1, I|apply existsb_str, H2, I].
  - intros H. split; intros x I; apply existsb_str, H, I.
Qed.
Lemma names_equal_members a b : NoDup a -> NoDup b -> names_equal a b = same_members a b.
Proof.
  intros Na Nb. apply eq_true_iff_eq. rewrite same_members_spec. unfold names_equal.
  rewrite orb_true_iff, andb_true_iff, same_names_spec, Nat.eqb_eq, forallb_forall. split.
  - intros [-> | [L H]]; [tauto|].
    assert (I : incl b a) by (intros x Ix; apply existsb_str, H, Ix).
    intros x. split; [|apply I]. apply (NoDup_length_incl Nb); [lia|exact I].
  - intros H. right. split; [|intros x I; apply existsb_str, H, I].
    apply Nat.le_antisymm; apply NoDup_incl_length; auto; intros x; apply H.
Qed.

(** * Axes *)

Lemma axes_of_none {IX AX} (axis_truth : IX -> bool) (axis_array : IX -> AX) (l : list (str * option IX)) x : ~ In x (map fst l) -> d_get str_eqb (axes_of axis_truth axis_array l) x = None.
Proof.
  intros H. induction l as [|[k o] l IH]; cbn; [reflexivity|]. cbn in H.
  destruct o as [i|]; [destruct (axis_truth i)|]; cbn; try (apply IH; tauto).
  destruct (str_eqb_spec x k) as [->|]; [tauto|]. apply IH; tauto.
Qed.
Lemma axes_of_in {IX AX} (axis_truth : IX -> bool) (axis_array : IX -> AX) (l : list (str * option IX)) x i : NoDup (map fst l) -> In (x, Some i) l -> axis_truth i = true ->
  d_get str_eqb (axes_of axis_truth axis_array l) x = Some (axis_array i).
Proof.
  intros N I T. induction l as [|[k o] l IH]; [contradiction|]. cbn in N. inversion N as [|? ? N1 N2]; subst. cbn.
  destruct I as [[= -> ->]|I].
  - rewrite T. cbn. now rewrite str_eqb_refl.
  - assert (x <> k) by (intros ->; apply N1; apply in_map_iff; now exists (k, Some i)).
    destruct o as [j|]; [destruct (axis_truth j)|]; cbn; try (now apply IH).
    destruct (str_eqb_spec x k); [contradiction|]. now apply IH.
Qed.

Section Machines.
Context {D U V IX SC AX A : Type}.
Context (asarray : D -> arr) (get : D -> nindex -> res arr) (has_shape : D -> bool)
        (ueq uor : U -> U -> res bool) (ufactor : U -> U -> res Qc).
Context (uread : str -> res U) (ustr : U -> str) (norms : U -> res (list (str * U))).
Context (default_unit : str -> res U) (default_dims default_params : str -> res (list str))
        (observe_name : str -> program IX SC (observation IX SC (object D U))).
Context (defaults : list (str * V)) (find : str -> list str) (names : list str)
        (in_axes : str -> bool) (axis_all : str -> res IX)
        (axis_at : str -> V -> res IX) (as_index : V -> option IX) (constants : list (str * V))
        (scalar : V -> res SC).
Context (axis_truth : IX -> bool) (axis_array : IX -> AX) (system : str -> bool).
Hypothesis S : sound asarray get has_shape uread ustr default_dims default_params observe_name
                 in_axes axis_all axis_at as_index constants scalar system.
Hypothesis Q : decides ueq.
Notation consistent := (@ObservingProofs.consistent V IX SC defaults in_axes axis_all axis_at as_index constants scalar).
Notation result_for := (@ObservingSpec.result_for V IX SC in_axes axis_all axis_at as_index constants scalar).
Notation unit_of := (unit_of default_unit).
Notation dims_of := (dims_of default_dims).
Notation params_of := (params_of default_params).
Notation target_of := (target_of default_unit).
Notation related := (@ArrayProofs.related D U asarray).

Lemma system_is x : system x = is_system x.
Proof. apply eq_true_iff_eq. rewrite is_system_spec. apply (sound_system _ _ _ _ _ _ _ _ _ _ _ _ _ _ _ S). Qed.

(** ** Observables *)

Record stands (b : observable U) (r : str * res U) : Prop := mkStands
  { st_name : b_name b = fst r;
    st_unit : match b_unit b with Some u => snd r = Ok u | None => snd r = default_unit (fst r) end;
    st_target : forall t, b_target b = Some t -> fst t = fst r /\ snd r = Ok (snd t);
    st_dims : forall l, b_dims b = Some l -> default_dims (fst r) = Ok l;
    st_params : forall l, b_params b = Some l -> default_params (fst r) = Ok l }.

Lemma unit_of_ok b r : stands b r -> fst (unit_of b) = snd r /\ stands (snd (unit_of b)) r /\
  (forall u, snd r = Ok u -> b_unit (snd (unit_of b)) = Some u).
Proof.
  intros H. destruct H as [H1 H2 H3 H4 H5]. unfold ObservablesModel.unit_of.
  destruct (b_unit b) as [u|] eqn:E.
  - cbn. split; [now symmetry|]. split; [split; auto; now rewrite E|]. intros v Hv. rewrite E. congruence.
  - rewrite H1. destruct (default_unit (fst r)) as [u|e] eqn:F; cbn [fst snd].
    + split; [now symmetry|]. split; [split; cbn; auto|]. intros v Hv. cbn. congruence.
    + split; [now symmetry|]. split; [split; auto; now rewrite E, F|]. intros v Hv. congruence.
Qed.
Lemma dims_of_ok b r : stands b r -> fst (dims_of b) = default_dims (fst r) /\ stands (snd (dims_of b)) r.
Proof.
  intros H. destruct H as [H1 H2 H3 H4 H5]. unfold ObservablesModel.dims_of.
  destruct (b_dims b) as [l|] eqn:E.
  - cbn. split; [symmetry; now apply H4|]. split; auto. intros l' Hl. rewrite E in Hl. now apply H4.
  - rewrite H1. destruct (default_dims (fst r)) as [l|e] eqn:F; cbn [fst snd]; (split; [reflexivity|]).
    + split; cbn; auto. intros l' Hl. now injection Hl as <-.
    + split; auto. congruence.
Qed.
Lemma params_of_ok b r : stands b r -> fst (params_of b) = default_params (fst r) /\ stands (snd (params_of b)) r.
Proof.
  intros H. destruct H as [H1 H2 H3 H4 H5]. unfold ObservablesModel.params_of.
  destruct (b_params b) as [l|] eqn:E.
  - cbn. split; [symmetry; now apply H5|]. split; auto. intros l' Hl. rewrite E in Hl. now apply H5.
  - rewrite H1. destruct (default_params (fst r)) as [l|e] eqn:F; cbn [fst snd]; (split; [reflexivity|]).
    + split; cbn; auto. intros l' Hl. now injection Hl as <-.
    + split; auto. congruence.
Qed.
Lemma target_of_ok b r : stands b r ->
  fst (target_of b) = rmap (fun u => (fst r, u)) (snd r) /\ stands (snd (target_of b)) r.
Proof.
  intros H. unfold ObservablesModel.target_of. destruct (b_target b) as [t|] eqn:E.
  - destruct (st_target _ _ H t E) as [T1 T2]. cbn. rewrite T2. cbn. split; [|exact H].
    rewrite <- T1. now destruct t.
  - destruct (unit_of_ok b r H) as (F1 & F2 & F3). destruct (unit_of b) as [[u|e] b'] eqn:Eu; cbn [fst snd] in *; rewrite <- F1; cbn [rmap].
    + split; [now rewrite (st_name _ _ F2)|]. destruct F2 as [G1 G2 G3 G4 G5].
      split; cbn; auto. intros t Ht. injection Ht as <-. cbn. split; [exact G1|now symmetry].
    + split; auto.
Qed.
Lemma drop_target_ok b r : stands b r -> stands (drop_target b) r.
Proof. intros [H1 H2 H3 H4 H5]. split; cbn; auto. discriminate. Qed.
Lemma stands_new n u : stands (new_observable n (Some u)) (n, Ok u).
Proof. split; cbn; auto; discriminate. Qed.
Lemma change_unit_ok b r u : stands b r ->
  (exists n, change_unit ueq b u = Ok (Some n) /\ stands n (fst r, Ok u)) \/
  (change_unit ueq b u = Ok None /\ snd r = Ok u).
Proof.
  intros H. unfold change_unit. rewrite (st_name _ _ H). pose proof (st_unit _ _ H) as E.
  destruct (b_unit b) as [u0|]; [|left; eexists; split; [reflexivity|apply stands_new]].
  destruct (Q u u0) as (e & -> & He). cbn [bind]. destruct e.
  - right. split; [reflexivity|]. rewrite E. f_equal. symmetry. now apply He.
  - left. eexists; split; [reflexivity|apply stands_new].
Qed.

Definition meant (r : str * res U) (x : str) : res U :=
  if system x then (do u <- snd r; unit_meant uread norms system u x)%py else uread x.
Lemma index_ok b r x : stands b r ->
  stands (snd (index_observable ueq uread norms default_unit b x)) r /\
  match meant r x with
  | Ok u => (exists n, fst (index_observable ueq uread norms default_unit b x) = Ok (Some n) /\ stands n (fst r, Ok u)) \/
            (fst (index_observable ueq uread norms default_unit b x) = Ok None /\ r = (fst r, Ok u))
  | Err e => fst (index_observable ueq uread norms default_unit b x) = Err e
  end.
Proof.
  intros H. unfold index_observable, meant, unit_meant. rewrite <- system_is. destruct (system x).
  - destruct (unit_of_ok b r H) as (F1 & F2 & F3). destruct (unit_of b) as [[u|e] b']; cbn [fst snd] in *; rewrite <- F1; cbn [bind].
    2:{ auto. }
    unfold norm_in. destruct (norms u) as [d|e]; cbn [bind fst snd]; [|auto].
    destruct (d_get str_eqb d x) as [n|]; cbn [fst snd]; [|auto].
    split; [now apply drop_target_ok|].
    destruct (change_unit_ok b' r n F2) as [G|[G1 G2]]; [now left|right]. split; [exact G1|].
    destruct r; cbn in *; congruence.
  - cbn [fst snd]. split; [now apply drop_target_ok|].
    destruct (uread x) as [u|e]; cbn [bind]; [|reflexivity].
    destruct (change_unit_ok b r u H) as [G|[G1 G2]]; [now left|right]. split; [exact G1|].
    destruct r; cbn in *; congruence.
Qed.
Lemma equal_ok a b r s : stands a r -> stands b s ->
  equal_observables ueq default_unit default_dims default_params a b = compared ueq default_dims default_params r s.
Proof.
  intros Ha Hb. unfold equal_observables, compared.
  destruct (unit_of_ok a r Ha) as (-> & _). destruct (unit_of_ok b s Hb) as (-> & _).
  destruct (dims_of_ok a r Ha) as (-> & _). destruct (dims_of_ok b s Hb) as (-> & _).
  destruct (params_of_ok a r Ha) as (-> & _). destruct (params_of_ok b s Hb) as (-> & _).
  destruct (snd r) as [u|e]; [|reflexivity]. cbn [bind]. destruct (snd s) as [v|e]; [|reflexivity]. cbn [bind].
  destruct (ueq u v) as [[]|e]; [|reflexivity|reflexivity]. cbn [bind negb].
  destruct (default_dims (fst r)) as [k|e] eqn:E1; [|reflexivity]. cbn [bind].
  destruct (default_dims (fst s)) as [l|e] eqn:E2; [|reflexivity]. cbn [bind].
  rewrite (names_equal_members k l) by (eapply (sound_dims _ _ _ _ _ _ _ _ _ _ _ _ _ _ _ S); eassumption).
  destruct (same_members k l); [|reflexivity]. cbn [negb].
  destruct (default_params (fst r)) as [p|e] eqn:E3; [|reflexivity]. cbn [bind].
  destruct (default_params (fst s)) as [q|e] eqn:E4; [|reflexivity]. cbn [bind].
  now rewrite (names_equal_members p q) by (eapply (sound_params _ _ _ _ _ _ _ _ _ _ _ _ _ _ _ S); eassumption).
Qed.

(** ** Observations *)

Record pictures (s : seen D U IX SC AX) (g : sight) : Prop := mkPictures
  { pc_data : exists m, related (s_data s) (g_value g) m /\ snd m = false;
    pc_axes : s_axes s = g_axes g;
    pc_indices : axes_of axis_truth axis_array (s_indices s) = g_axes g;
    pc_assumptions : s_assumptions s = Some (g_assumptions g);
    pc_array : forall a, s_array s = Some a -> a = squeezed (v_array (g_value g));
    pc_params : forall l, s_parameters s = Some l -> l = map fst (g_assumptions g) }.
Lemma subscripted_related o : subscripted asarray get has_shape o ->
  related o (mkValue (meaning asarray o) (o_unit o) (o_dims o)) (false, false).
Proof.
  intros (q & s & Sq & E).
  destruct (subset_ok asarray get has_shape (sound_reads _ _ _ _ _ _ _ _ _ _ _ _ _ _ _ S) q _ _ s (related_self asarray q Sq)) as (r & q' & G & _ & W).
  rewrite G in E. cbn [fst] in E. subst r.
  destruct (value_subset _ s) as [w|e]; [|discriminate]. destruct W as (n & F & W). injection F as <-.
  destruct W as (W1 & W2 & W3 & W4 & W5 & W6). repeat split; auto; apply W4.
Qed.
Lemma sight_ok o : subscripted asarray get has_shape (q_data (ob_quantity o)) ->
  pictures (new_seen axis_truth axis_array (q_data (ob_quantity o)) (ob_indices o) (Some (ob_assumptions o)))
    (sight_of asarray axis_truth axis_array o).
Proof.
  intros H. split; cbn; auto; try discriminate.
  exists (false, false). split; [now apply subscripted_related|reflexivity].
Qed.
Lemma array_of_ok s g : pictures s g ->
  fst (array_of asarray get s) = Ok (squeezed (v_array (g_value g))) /\ pictures (snd (array_of asarray get s)) g.
Proof.
  intros [(m & P1 & P1') P2 P3 P4 P5 P6]. unfold array_of. destruct (s_array s) as [a|] eqn:E.
  - cbn. rewrite (P5 a eq_refl). split; [reflexivity|]. split; auto; [now exists m|]. intros a' Ha. apply P5. congruence.
  - destruct (get_array_ok asarray get (sound_reads _ _ _ _ _ _ _ _ _ _ _ _ _ _ _ S) (s_data s) NAll)
      as (o' & G & G1 & G2 & G3 & G4 & G5 & G6). rewrite G. cbn [missing fst snd].
    pose proof P1 as (_ & _ & Em & _). rewrite Em. split; [reflexivity|].
    split; cbn; auto.
    + exists m. split; [|exact P1']. eapply related_update; eauto.
    + intros a Ha. injection Ha as <-. rewrite Em. reflexivity.
Qed.
Lemma parameters_of_ok s g : pictures s g ->
  fst (parameters_of s) = Ok (map fst (g_assumptions g)) /\ pictures (snd (parameters_of s)) g.
Proof.
  intros [P1 P2 P3 P4 P5 P6]. unfold parameters_of. destruct (s_parameters s) as [l|] eqn:E.
  - cbn. rewrite (P6 l eq_refl). split; [reflexivity|]. split; auto. intros l' Hl. apply P6. congruence.
  - rewrite P4. cbn. split; [reflexivity|]. split; cbn; auto. intros l Hl. now injection Hl as <-.
Qed.
Lemma data_in_ok o v m x : related o v m -> snd m = false ->
  match value_in ueq uor ufactor uread norms system v x with
  | Ok w => exists n m', data_in asarray get has_shape ueq uor ufactor uread norms o x = Ok n /\ related n w m' /\ snd m' = false
  | Err e => data_in asarray get has_shape ueq uor ufactor uread norms o x = Err e
  end.
Proof.
  intros R M. unfold value_in, data_in, unit_meant. rewrite <- system_is. pose proof R as (R1 & _).
  unfold norm_in. rewrite R1. destruct (if system x then _ else _) as [u|e]; [|reflexivity]. cbn [bind].
  pose proof (convert_ok asarray get has_shape ueq uor ufactor o v m u R) as C.
  assert (T : forall w, value_convert ueq uor ufactor v u = Ok (true, w) -> w = v /\
                exists y, update_unit asarray get has_shape ueq uor ufactor o u = Ok (true, y) /\ y = o).
  { intros w. unfold value_convert, update_unit. rewrite R1.
    destruct (ueq u (v_unit v)) as [[]|]; cbn [bind].
    - intros F. injection F as <-. eauto.
    - destruct (uor (v_unit v) u) as [[]|]; cbn [bind negb]; try discriminate.
      destruct (ufactor (v_unit v) u); cbn [bind]; discriminate.
    - discriminate. }
  destruct (value_convert ueq uor ufactor v u) as [[[] w]|e]; cbn [bind snd].
  - destruct (T w eq_refl) as (-> & y & -> & ->). cbn. exists o, m. auto.
  - destruct C as (n & -> & G). cbn. exists n, (true, snd m). auto.
  - now rewrite C.
Qed.
Definition found_ok (f : res (found D U IX SC AX)) (r : res (AX + option SC + sight)) : Prop :=
  match r with
  | Ok (inl (inl a)) => f = Ok (FAxis a)
  | Ok (inl (inr v)) => f = Ok (FAssumption v)
  | Ok (inr g) => exists s, f = Ok (FSeen s) /\ pictures s g
  | Err e => f = Err e
  end.
Lemma retrieve_ok s g x : pictures s g ->
  found_ok (retrieve asarray get has_shape ueq uor ufactor uread norms axis_truth axis_array s x)
    (look ueq uor ufactor uread norms system g x).
Proof.
  intros [(m & P1 & P1') P2 P3 P4 P5 P6]. unfold retrieve, look. rewrite P2, P4.
  destruct (d_get str_eqb (g_axes g) x) as [a|]; [reflexivity|].
  destruct (d_get str_eqb (g_assumptions g) x) as [v|]; [reflexivity|].
  pose proof (data_in_ok _ _ _ x P1 P1') as C.
  destruct (value_in ueq uor ufactor uread norms system (g_value g) x) as [w|e]; cbn [bind].
  - destruct C as (n & m' & -> & C1 & C2). cbn. eexists. split; [reflexivity|].
    split; cbn; auto; try discriminate. now exists m'.
  - rewrite C. reflexivity.
Qed.


(** ** Programs *)

Lemma constrained (c : context V IX SC) cs k :
  d_get str_eqb (current defaults (constrain c cs false)) k = effective defaults [(cs, false)] k.
Proof.
  transitivity (d_get str_eqb (current defaults (constrain (@new_context V IX SC) cs false)) k); [reflexivity|].
  exact (user_effective (A := unit) defaults find names in_axes axis_all axis_at as_index constants scalar [Constrain cs false] k).
Qed.
Lemma observe_it_ok b r c cs : stands b r -> consistent c ->
  let '(f, b', c') := observe_it asarray get has_shape ueq uor ufactor uread ustr norms default_unit observe_name
        defaults in_axes axis_all axis_at as_index constants scalar axis_truth axis_array b c cs in
  stands b' r /\ consistent c' /\
  found_ok f (observed asarray ueq uor ufactor uread ustr norms observe_name defaults in_axes axis_all axis_at
                as_index constants scalar axis_truth axis_array system (fst r) (snd r) cs).
Proof.
  intros Hb Hc. unfold observe_it, observed. destruct (target_of_ok b r Hb) as (T1 & T2).
  destruct (target_of b) as [[[n u]|e] b']; cbn [fst snd] in *.
  2:{ destruct (snd r) as [u|e']; cbn [rmap] in T1; [discriminate|]. injection T1 as <-. cbn. auto. }
  destruct (snd r) as [u'|e']; cbn [rmap] in T1; [|discriminate]. injection T1 as -> ->. cbn [bind].
  assert (Hc' : consistent (constrain c cs false)) by (now apply constrain_consistent).
  destruct (ObservingProofs.run_ok defaults in_axes axis_all axis_at as_index constants scalar (observe_name (fst r)) _ Hc') as (F1 & F2 & _).
  rewrite (result_ext in_axes axis_all axis_at as_index constants scalar (observe_name (fst r)) _ _ (constrained c cs)) in F1.
  destruct (run_program _ _ _ _ _ _ _ _ _) as [f c']. cbn [fst snd] in *. subst f.
  split; [exact T2|]. split; [exact F2|].
  destruct (result_for (effective defaults [(cs, false)]) (observe_name (fst r))) as [o|e] eqn:E; cbn [bind]; [|reflexivity].
  apply retrieve_ok, sight_ok. exact (sound_observed _ _ _ _ _ _ _ _ _ _ _ _ _ _ _ S _ _ _ E).
Qed.

Notation state := (state (D := D) (U := U) (V := V) (IX := IX) (SC := SC) (AX := AX)).
Notation view := (view (U := U) (SC := SC) (AX := AX)).
Record matches (s : state) (w : view) : Prop := mkMatches
  { mt_vars : Forall2 (fun p r => exists b, nth_error (st_heap s) p = Some b /\ stands b r) (st_vars s) (w_vars w);
    mt_seen : Forall2 pictures (st_seen s) (w_seen w);
    mt_context : consistent (st_context s) }.

Lemma Forall2_weaken {X Y} (R R' : X -> Y -> Prop) l m : (forall x y, R x y -> R' x y) -> Forall2 R l m -> Forall2 R' l m.
Proof. intros H F. induction F; constructor; auto. Qed.
Lemma Forall2_nth {X Y} (R : X -> Y -> Prop) l m k : Forall2 R l m ->
  match nth_error l k, nth_error m k with
  | Some x, Some y => R x y
  | None, None => True
  | _, _ => False
  end.
Proof. intros H. revert k. induction H; intros [|k]; cbn; auto. apply IHForall2. Qed.
Lemma Forall2_replace {X Y} (R : X -> Y -> Prop) l m k x y : Forall2 R l m -> nth_error m k = Some y -> R x y ->
  Forall2 R (replace_nth l k x) m.
Proof.
  intros H. revert k. induction H; intros [|k] E Rx; cbn in *; try discriminate.
  - injection E as ->. now constructor.
  - constructor; auto.
Qed.
Lemma Forall2_snoc {X Y} (R : X -> Y -> Prop) l m x y : Forall2 R l m -> R x y -> Forall2 R (l ++ [x]) (m ++ [y]).
Proof. intros H Rx. apply Forall2_app; auto. Qed.

Lemma vars_put heap vars ws p b b' : nth_error heap p = Some b -> (forall r, stands b r -> stands b' r) ->
  Forall2 (fun p r => exists b, nth_error heap p = Some b /\ stands b r) vars ws ->
  Forall2 (fun q r => exists b, nth_error (replace_nth heap p b') q = Some b /\ stands b r) vars ws.
Proof.
  intros E H F. eapply Forall2_weaken; [|exact F]. intros q r (c & Ec & Hc). cbn.
  rewrite nth_error_replace. destruct (Nat.eqb_spec q p) as [-> | Hne].
  - rewrite E in *. injection Ec as <-. exists b'. split; [reflexivity|auto].
  - eauto.
Qed.
Lemma vars_more heap vars ws b : 
  Forall2 (fun p r => exists b, nth_error heap p = Some b /\ stands b r) vars ws ->
  Forall2 (fun q r => exists c, nth_error (heap ++ [b]) q = Some c /\ stands c r) vars ws.
Proof.
  intros F. eapply Forall2_weaken; [|exact F]. intros q r (c & Ec & Hc). exists c. split; [|exact Hc].
  rewrite nth_error_app1; [exact Ec|]. apply nth_error_Some. congruence.
Qed.
Lemma create_ok s w b r : matches s w -> stands b r -> matches (create s b) (mkView (w_vars w ++ [r]) (w_seen w)).
Proof.
  intros [H1 H2 H3] Hb. split; cbn; auto. apply Forall2_snoc; [now apply vars_more|].
  exists b. split; [|exact Hb]. rewrite nth_error_app2 by lia. now rewrite Nat.sub_diag.
Qed.
Lemma put_ok s w p b b' : matches s w -> nth_error (st_heap s) p = Some b -> (forall r, stands b r -> stands b' r) ->
  matches (put s p b') w.
Proof. intros [H1 H2 H3] E H. split; cbn; auto. eapply vars_put; eauto. Qed.
Lemma put_seen_ok s w j x g : matches s w -> nth_error (w_seen w) j = Some g -> pictures x g -> matches (put_seen s j x) w.
Proof. intros [H1 H2 H3] E H. split; cbn; auto. eapply Forall2_replace; eauto. Qed.
Lemma given_ok s w f r : matches s w -> found_ok f r ->
  matches (fst (given s f)) (fst (view_given w r)) /\ snd (given s f) = snd (view_given w r).
Proof.
  intros M. destruct r as [[[a|v]|g]|e]; cbn; try (intros ->; cbn; auto; fail).
  intros (x & -> & P). cbn. split; [|reflexivity]. destruct M as [H1 H2 H3]. split; cbn; auto. now apply Forall2_snoc.
Qed.

Notation step := (step asarray get has_shape ueq uor ufactor uread ustr norms default_unit default_dims default_params
  observe_name defaults find names in_axes axis_all axis_at as_index constants scalar axis_truth axis_array).
Notation view_step := (view_step asarray ueq uor ufactor uread ustr norms default_unit default_dims default_params
  observe_name defaults in_axes axis_all axis_at as_index constants scalar axis_truth axis_array system).

Lemma instance_ok s w k : matches s w ->
  match nth_error (w_vars w) k with
  | Some r => exists p b, instance s k = Some (p, b) /\ nth_error (st_vars s) k = Some p /\ nth_error (st_heap s) p = Some b /\ stands b r
  | None => instance s k = None
  end.
Proof.
  intros M. pose proof (Forall2_nth _ _ _ k (mt_vars _ _ M)) as H. unfold instance.
  destruct (nth_error (st_vars s) k) as [p|], (nth_error (w_vars w) k) as [r|]; try contradiction; auto.
  destruct H as (b & E & Hb). rewrite E. eauto 10.
Qed.
(** Changes of an instance that matter to nothing it stands for. *)
Definition keeps (b b' : observable U) : Prop := forall r, stands b r -> stands b' r.
Lemma step_ok s w (c : use V (command V IX SC A)) : matches s w ->
  matches (fst (step s c)) (fst (view_step w c)) /\ snd (step s c) = snd (view_step w c).
Proof.
  intros M. destruct c as [name [x|]|k x|k|k|k|j k|k cs|j x|j|j|j|j|x]; cbn [ObservablesSpec.step ObservablesSpec.view_step].
  - destruct (uread x) as [u|e]; cbn; [|auto]. split; [|reflexivity]. apply create_ok; [exact M|apply stands_new].
  - cbn. split; [|reflexivity]. apply create_ok; [exact M|]. split; cbn; auto; discriminate.
  - unfold with_instance, view_var. pose proof (instance_ok s w k M) as H.
    destruct (nth_error (w_vars w) k) as [r|]; [|rewrite H; auto].
    destruct H as (p & b & -> & Ev & Eh & Hb). destruct (index_ok b r x Hb) as (_ & G).
    assert (K : keeps b (snd (index_observable ueq uread norms default_unit b x))) by (intros r' Hr; now apply index_ok).
    fold (meant r x). destruct (index_observable ueq uread norms default_unit b x) as [f b']. cbn [fst snd] in *.
    assert (M' : matches (put s p b') w) by (eapply put_ok; eauto).
    destruct (meant r x) as [u|e]; cbn [fst snd].
    + destruct G as [(n & -> & Hn)|(-> & Er)]; cbn [fst snd].
      * split; [|reflexivity]. now apply create_ok.
      * split; [|reflexivity]. rewrite <- Er. destruct M' as [H1 H2 H3]. split; cbn in *; auto.
        apply Forall2_snoc; [exact H1|]. exists b'. split; [|now apply K].
        rewrite nth_error_replace, Nat.eqb_refl, Eh. reflexivity.
    + rewrite G. cbn. auto.
  - unfold with_instance, view_var. pose proof (instance_ok s w k M) as H.
    destruct (nth_error (w_vars w) k) as [r|]; [|rewrite H; auto].
    destruct H as (p & b & -> & Ev & Eh & Hb). destruct (unit_of_ok b r Hb) as (G & _).
    assert (K : keeps b (snd (unit_of b))) by (intros r' Hr; now apply unit_of_ok).
    destruct (unit_of b) as [f b']. cbn [fst snd] in *. subst f. split; [|reflexivity]. eapply put_ok; eauto.
  - unfold with_instance, view_var. pose proof (instance_ok s w k M) as H.
    destruct (nth_error (w_vars w) k) as [r|]; [|rewrite H; auto].
    destruct H as (p & b & -> & Ev & Eh & Hb). destruct (dims_of_ok b r Hb) as (G & _).
    assert (K : keeps b (snd (dims_of b))) by (intros r' Hr; now apply dims_of_ok).
    destruct (dims_of b) as [f b']. cbn [fst snd] in *. subst f. split; [|reflexivity]. eapply put_ok; eauto.
  - unfold with_instance, view_var. pose proof (instance_ok s w k M) as H.
    destruct (nth_error (w_vars w) k) as [r|]; [|rewrite H; auto].
    destruct H as (p & b & -> & Ev & Eh & Hb). destruct (params_of_ok b r Hb) as (G & _).
    assert (K : keeps b (snd (params_of b))) by (intros r' Hr; now apply params_of_ok).
    destruct (params_of b) as [f b']. cbn [fst snd] in *. subst f. split; [|reflexivity]. eapply put_ok; eauto.
  - unfold with_instance, view_var. pose proof (instance_ok s w j M) as H.
    destruct (nth_error (w_vars w) j) as [r|]; [|rewrite H; auto].
    destruct H as (p & a & -> & _ & _ & Ha). pose proof (instance_ok s w k M) as H.
    destruct (nth_error (w_vars w) k) as [r'|]; [|rewrite H; auto].
    destruct H as (p' & b & -> & _ & _ & Hb). cbn. split; [exact M|]. f_equal. now apply equal_ok.
  - unfold with_instance, view_var. pose proof (instance_ok s w k M) as H.
    destruct (nth_error (w_vars w) k) as [r|]; [|rewrite H; auto].
    destruct H as (p & b & -> & Ev & Eh & Hb).
    pose proof (observe_it_ok b r (st_context s) cs Hb (mt_context _ _ M)) as G.
    assert (K : forall r', stands b r' -> stands (snd (fst (observe_it asarray get has_shape ueq uor ufactor uread ustr norms
       default_unit observe_name defaults in_axes axis_all axis_at as_index constants scalar axis_truth axis_array b (st_context s) cs))) r').
    { intros r' Hr. pose proof (observe_it_ok b r' (st_context s) cs Hr (mt_context _ _ M)) as G'.
      destruct (observe_it _ _ _ _ _ _ _ _ _ _ _ _ _ _ _ _ _ _ _ _ b (st_context s) cs) as [[f b'] c']. cbn. apply G'. }
    destruct (observe_it _ _ _ _ _ _ _ _ _ _ _ _ _ _ _ _ _ _ _ _ b (st_context s) cs) as [[f b'] c'].
    destruct G as (G1 & G2 & G3). cbn [fst snd] in K.
    apply given_ok; [|exact G3]. destruct M as [H1 H2 H3]. split; cbn; auto. eapply vars_put; eauto.
  - unfold with_seen, view_sight. pose proof (Forall2_nth _ _ _ j (mt_seen _ _ M)) as H.
    destruct (nth_error (st_seen s) j) as [o|], (nth_error (w_seen w) j) as [g|]; try contradiction; auto.
    apply given_ok; [exact M|]. now apply retrieve_ok.
  - unfold with_seen, view_sight. pose proof (Forall2_nth _ _ _ j (mt_seen _ _ M)) as H.
    destruct (nth_error (st_seen s) j) as [o|] eqn:E1, (nth_error (w_seen w) j) as [g|] eqn:E2; try contradiction; auto.
    destruct (array_of_ok o g H) as (F1 & F2). destruct (array_of asarray get o) as [f o']. cbn [fst snd] in *. subst f.
    split; [|reflexivity]. eapply put_seen_ok; eauto.
  - unfold with_seen, view_sight. pose proof (Forall2_nth _ _ _ j (mt_seen _ _ M)) as H.
    destruct (nth_error (st_seen s) j) as [o|] eqn:E1, (nth_error (w_seen w) j) as [g|] eqn:E2; try contradiction; auto.
    cbn. split; [exact M|]. destruct (pc_data _ _ H) as (m & R1 & _). now rewrite (proj1 R1).
  - unfold with_seen, view_sight. pose proof (Forall2_nth _ _ _ j (mt_seen _ _ M)) as H.
    destruct (nth_error (st_seen s) j) as [o|] eqn:E1, (nth_error (w_seen w) j) as [g|] eqn:E2; try contradiction; auto.
    cbn. split; [exact M|]. destruct (pc_data _ _ H) as (m & R1 & _). now rewrite (proj1 (proj2 R1)).
  - unfold with_seen, view_sight. pose proof (Forall2_nth _ _ _ j (mt_seen _ _ M)) as H.
    destruct (nth_error (st_seen s) j) as [o|] eqn:E1, (nth_error (w_seen w) j) as [g|] eqn:E2; try contradiction; auto.
    destruct (parameters_of_ok o g H) as (F1 & F2). destruct (parameters_of o) as [f o']. cbn [fst snd] in *. subst f.
    split; [|reflexivity]. eapply put_seen_ok; eauto.
  - cbn. split; [|reflexivity]. destruct M as [H1 H2 H3]. split; cbn; auto. now apply perform_consistent.
Qed.

Theorem run_view l : forall s w, matches s w ->
  run asarray get has_shape ueq uor ufactor uread ustr norms default_unit default_dims default_params
    observe_name defaults find names in_axes axis_all axis_at as_index constants scalar axis_truth axis_array s l =
  view_run (A := A) asarray ueq uor ufactor uread ustr norms default_unit default_dims default_params
    observe_name defaults in_axes axis_all axis_at as_index constants scalar axis_truth axis_array system w l.
Proof.
  induction l as [|c l IH]; intros s w M; cbn; [reflexivity|].
  destruct (step_ok s w c M) as (F1 & F2). destruct (step s c) as [s' a], (view_step w c) as [w' a']. cbn [fst snd] in *.
  subst a'. f_equal. now apply IH.
Qed.
Lemma start_matches : matches start (mkView [] []).
Proof. split; cbn; [constructor|constructor|apply new_consistent]. Qed.

Lemma observe_once (h : list (command V IX SC A)) name u cs o :
  result_for (effective defaults [(cs, false)]) (observe_name name) = Ok o ->
  ~ In (ustr u) (map fst (ob_indices o)) -> ~ In (ustr u) (map fst (ob_assumptions o)) ->
  exists b c, observe_it asarray get has_shape ueq uor ufactor uread ustr norms default_unit observe_name
      defaults in_axes axis_all axis_at as_index constants scalar axis_truth axis_array (new_observable name (Some u))
      (after (A := A) defaults find names in_axes axis_all axis_at as_index constants scalar h) cs =
    ((do r <- update_unit asarray get has_shape ueq uor ufactor (q_data (ob_quantity o)) u;
      Ok (FSeen (new_seen axis_truth axis_array (snd r) (ob_indices o) (Some (ob_assumptions o)))))%py, b, c).
Proof.
  intros E N1 N2. unfold observe_it, target_of, unit_of. cbn [b_unit b_target new_observable b_name].
  assert (Hc : consistent (constrain (after (A := A) defaults find names in_axes axis_all axis_at as_index constants scalar h) cs false))
    by (apply constrain_consistent, after_consistent).
  destruct (ObservingProofs.run_ok defaults in_axes axis_all axis_at as_index constants scalar (observe_name name) _ Hc) as (F1 & _ & _).
  rewrite (result_ext in_axes axis_all axis_at as_index constants scalar (observe_name name) _ _ (constrained _ cs)), E in F1.
  destruct (run_program _ _ _ _ _ _ _ _ _) as [f c']. cbn [fst] in F1. subst f. cbn [bind].
  unfold retrieve. cbn [s_axes new_seen s_assumptions s_data s_indices].
  rewrite (axes_of_none axis_truth axis_array _ _ N1).
  assert (d_get str_eqb (ob_assumptions o) (ustr u) = None) as ->.
  { destruct (d_get str_eqb (ob_assumptions o) (ustr u)) eqn:G; [|reflexivity]. exfalso. apply N2.
    apply (d_get_in str_eqb str_eqb_spec) in G. apply in_map_iff. now exists (ustr u, o0). }
  unfold data_in. destruct (sound_shows _ _ _ _ _ _ _ _ _ _ _ _ _ _ _ S u) as [-> Ns].
  replace (is_system (ustr u)) with false
    by (symmetry; apply not_true_iff_false; intros H; apply is_system_spec in H; contradiction).
  cbn [bind]. eexists _, _. destruct (update_unit _ _ _ _ _ _ _ _) as [r|e]; reflexivity.
Qed.
End Machines.
