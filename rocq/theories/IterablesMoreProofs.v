(** Lemmas about bijections, registries, tables, connections, guards and
    instance caches. *)

From Coq Require Import String Ascii List Bool ZArith NArith QArith Qcanon Lia Arith.
From Verif Require Import Py PyFacts PyDict IterablesModel IterablesSpec IterablesProofs.
Import ListNotations.
Open Scope list_scope.
Open Scope py_scope.

(** * Bijections *)

Lemma sub_length {A} (l m : list A) : subsequence l m -> (length l <= length m)%nat.
Proof. induction 1; simpl; lia. Qed.
Lemma sub_full {A} (l m : list A) : subsequence l m -> length l = length m -> l = m.
Proof.
  induction 1 as [|x l m H IH|x l m H IH]; intro L; auto; simpl in *.
  - apply sub_length in H. lia.
  - f_equal. auto.
Qed.

Section Bij.
Context {K V : Type}.
Variable keq : K -> K -> bool.
Variable veq : V -> V -> bool.
Hypothesis DK : decides keq.
Hypothesis DV : decides veq.

Lemma NoDup_distinct (l : list V) : NoDup l -> ForallOrdPairs (fun x y => veq x y = false) l.
Proof.
  induction 1 as [|x l N D IH]; [apply FOP_nil|]. apply FOP_cons; auto. apply Forall_forall. intros y I.
  destruct (DV x y); [subst; contradiction|auto].
Qed.

Lemma bijection_spec (m : list (K * V)) :
  (NoDup (map snd m) -> bijection veq m = Ok m) /\ (~ NoDup (map snd m) -> bijection veq m = Err InjectiveTypeError).
Proof.
  unfold bijection. assert (S := unique_sub veq (map snd m)). split; intro H.
  - rewrite unique_fixed; auto using NoDup_distinct, decides_equiv. rewrite map_length, Nat.ltb_irrefl, Nat.eqb_refl. reflexivity.
  - assert (L := sub_length _ _ S). rewrite map_length in L.
    destruct (Nat.ltb_spec (length (unique veq (map snd m))) (length m)); auto.
    exfalso. apply H. rewrite <- (sub_full _ _ S); [now apply unique_NoDup|rewrite map_length; lia].
Qed.

Definition swap (m : list (K * V)) : list (V * K) := map (fun p => (snd p, fst p)) m.
Lemma swap_fst (m : list (K * V)) : map fst (swap m) = map snd m.
Proof. unfold swap. now rewrite map_map. Qed.
Lemma swap_snd (m : list (K * V)) : map snd (swap m) = map fst m.
Proof. unfold swap. now rewrite map_map. Qed.
End Bij.

Lemma swap_swap {K V} (m : list (K * V)) : swap (swap m) = m.
Proof. unfold swap. rewrite map_map. simpl. induction m as [|[k v] m IH]; simpl; congruence. Qed.

Lemma invert_spec {K V} (keq : K -> K -> bool) (veq : V -> V -> bool) (m : list (K * V)) :
  decides keq -> decides veq -> NoDup (map fst m) -> NoDup (map snd m) -> invert veq keq m = Ok (swap m).
Proof.
  intros DK DV N1 N2. unfold invert. fold (swap m). rewrite d_of_id; auto.
  - apply bijection_spec; auto. now rewrite swap_snd.
  - now rewrite swap_fst.
Qed.

Lemma bijection_inverts {K V} (keq : K -> K -> bool) (veq : V -> V -> bool) (m b : list (K * V)) :
  decides keq -> decides veq -> NoDup (map fst m) -> bijection veq m = Ok b ->
  exists i, invert veq keq b = Ok i /\ (forall k v, In (v, k) i <-> In (k, v) m) /\ invert keq veq i = Ok b.
Proof.
  intros DK DV N1 H. destruct (bijection_spec veq DV m) as [H1 H2].
  assert (NoDup (map snd m)) as N2.
  { unfold bijection in H. destruct (Nat.ltb_spec (length (unique veq (map snd m))) (length m)) as [L|L]; [discriminate|].
    assert (S := unique_sub veq (map snd m)). rewrite <- (sub_full _ _ S); [now apply unique_NoDup|].
    assert (L' := sub_length _ _ S). rewrite map_length in *. lia. }
  rewrite H1 in H by auto. injection H as <-. exists (swap m). split; [now apply invert_spec|]. split.
  - intros k v. unfold swap. rewrite in_map_iff. split.
    + intros [[k' v'] [E I]]. injection E as <- <-. exact I.
    + intro I. exists (k, v). auto.
  - rewrite invert_spec; auto; [now rewrite swap_swap|now rewrite swap_fst|now rewrite swap_snd].
Qed.

(** * Registries *)

Lemma rkey_eqb_spec a b : reflect (a = b) (rkey_eqb a b).
Proof.
  destruct a as [x|], b as [y|]; simpl; try (constructor; congruence).
  destruct (str_eqb_spec x y); constructor; congruence.
Qed.

Lemma dec_inj n m : dec_of_N n = dec_of_N m -> n = m.
Proof. intro H. rewrite <- (digits_val_dec n), <- (digits_val_dec m). now rewrite H. Qed.
Lemma dec_plain n : ~ In "_"%char (dec_of_N n).
Proof.
  intro I. destruct (dec_of_N_spec n) as [_ [H _]]. rewrite forallb_forall in H. specialize (H _ I). discriminate.
Qed.

Lemma last_sep (c : ascii) (p q d e : str) : ~ In c d -> ~ In c e -> p ++ c :: d = q ++ c :: e -> d = e.
Proof.
  intros Nd Ne. revert q. induction p as [|x p IH]; intros [|y q] H; simpl in H.
  - congruence.
  - injection H as -> H. subst d. exfalso. apply Nd. apply in_or_app. right. now left.
  - injection H as -> H. subst e. exfalso. apply Ne. apply in_or_app. right. now left.
  - injection H as _ H. eauto.
Qed.

Section Reg.
Context {O : Type}.
Variable qualname : O -> option str.

Lemma register_frame r o u w : exists k, forall j,
  d_get rkey_eqb (items (register qualname r o u w)) j = if rkey_eqb j k then Some o else d_get rkey_eqb (items r) j.
Proof.
  unfold register. destruct (mapping_key qualname r o u w) as [k n]. exists k. intro j. simpl.
  apply d_get_set. apply rkey_eqb_spec.
Qed.

(** Keys are names that were proposed, or numbered below the counter. *)
Definition reg_keys (r : registry O) : Prop :=
  forall k, In k (map fst (items r)) ->
    exists s, k = Some s /\ (unnumbered s \/ exists p n, s = p ++ lit "_" ++ dec_of_N n /\ (n < count r)%N).

Lemma register_fresh r o s : reg_keys r -> qualname o = Some s -> unnumbered s ->
  exists k, ~ In k (map fst (items r)) /\ items (register qualname r o None false) = items r ++ [(k, o)]
  /\ reg_keys (register qualname r o None false).
Proof.
  intros I Q U. unfold register, mapping_key, default_key. rewrite Q.
  destruct (d_has rkey_eqb (items r) (Some s)) eqn:H.
  - set (k := Some (s ++ lit "_" ++ dec_of_N (count r))). exists k.
    assert (~ In k (map fst (items r))) as N.
    { intro J. destruct (I k J) as [t [E [Ut|[p [n [Et L]]]]]]; injection E as E; subst t.
      - now apply (Ut s (count r)).
      - apply (last_sep "_"%char) in Et; auto using dec_plain. apply dec_inj in Et. lia. }
    simpl. rewrite d_set_new by (auto using rkey_eqb_spec). split; auto. split; auto.
    intros j J. simpl in *. rewrite map_app in J. apply in_app_or in J as [J|[<-|[]]].
    + destruct (I j J) as [t [E [Ut|[p [n [Et L]]]]]]; exists t; split; auto. right. exists p, n. split; auto. lia.
    + eexists. split; [reflexivity|]. right. exists s, (count r). split; auto. lia.
  - apply d_has_false in H; [|apply rkey_eqb_spec]. exists (Some s). split; auto. simpl.
    rewrite d_set_new by (auto using rkey_eqb_spec). split; auto.
    intros j J. simpl in *. rewrite map_app in J. apply in_app_or in J as [J|[<-|[]]]; auto.
    exists s. auto.
Qed.

Lemma reg_run_app r h1 h2 : reg_run qualname r (h1 ++ h2) = reg_run qualname (reg_run qualname r h1) h2.
Proof. apply fold_left_app. Qed.

Definition named_well (o : O) : Prop := exists s, qualname o = Some s /\ unnumbered s.

Lemma reg_run_grows l : forall r, reg_keys r -> NoDup (map fst (items r)) -> Forall named_well l ->
  exists ks, items (reg_run qualname r (map (fun o => (o, None, false)) l)) = items r ++ combine ks l
   /\ length ks = length l /\ NoDup (map fst (items r) ++ ks).
Proof.
  induction l as [|o l IH]; intros r I N F; simpl.
  - exists []. rewrite !app_nil_r. auto.
  - inversion F as [|? ? [s [Q U]] F']; subst. destruct (register_fresh r o s I Q U) as [k [Nk [E I']]].
    assert (NoDup (map fst (items (register qualname r o None false)))) as N'.
    { rewrite E, map_app. simpl. now apply NoDup_snoc. }
    destruct (IH _ I' N' F') as [ks [E2 [L N2]]]. exists (k :: ks). rewrite E in *. split.
    + unfold reg_run in *. simpl. rewrite E2, <- app_assoc. reflexivity.
    + split; [simpl; lia|]. rewrite map_app in N2. simpl in N2. now rewrite <- app_assoc in N2.
Qed.

Lemma reg_init_keys (base : list (rkey * O)) :
  (forall k, In k (map fst base) -> exists s, k = Some s /\ unnumbered s) -> reg_keys (reg_init base).
Proof. intros H k I. destruct (H k I) as [s [-> U]]. exists s. auto. Qed.

Lemma reg_keeps base l1 l2 :
  NoDup (map fst base) -> (forall k, In k (map fst base) -> exists s, k = Some s /\ unnumbered s) ->
  Forall named_well (l1 ++ l2) ->
  let run l := items (reg_run qualname (reg_init base) (map (fun o => (o, None, false)) l)) in
  (forall k o, d_get rkey_eqb (run l1) k = Some o -> d_get rkey_eqb (run (l1 ++ l2)) k = Some o)
  /\ (forall o, In o l1 -> exists k, d_get rkey_eqb (run (l1 ++ l2)) k = Some o)
  /\ length (run l1) = (length base + length l1)%nat.
Proof.
  intros N B F run. apply Forall_app in F as [F1 F2].
  assert (forall l, Forall named_well l -> exists ks, run l = base ++ combine ks l /\ length ks = length l /\ NoDup (map fst base ++ ks)) as G.
  { intros l Fl. destruct (reg_run_grows l (reg_init base) (reg_init_keys base B) N Fl) as [ks H]. eauto. }
  assert (run (l1 ++ l2) = items (reg_run qualname (reg_run qualname (reg_init base) (map (fun o => (o, None, false)) l1)) (map (fun o => (o, None, false)) l2))) as Eapp.
  { unfold run. now rewrite map_app, reg_run_app. }
  assert (forall r l, reg_keys r -> NoDup (map fst (items r)) -> Forall named_well l ->
            reg_keys (reg_run qualname r (map (fun o => (o, None, false)) l))) as RK.
  { intros r l. revert r. induction l as [|o l IH]; intros r I Nr Fl; simpl; auto.
    inversion Fl as [|? ? [s [Q U]] F']; subst. destruct (register_fresh r o s I Q U) as [k [Nk [E I']]].
    apply IH; auto. rewrite E, map_app. simpl. now apply NoDup_snoc. }
  destruct (G l1 F1) as [ks [E1 [L1 N1]]].
  assert (map fst (run l1) = map fst base ++ ks) as K1.
  { rewrite E1, map_app. f_equal. clear - L1. revert l1 L1. induction ks as [|k ks IH]; intros [|o l] L; simpl in *; try lia; auto.
    f_equal. apply IH. lia. }
  assert (NoDup (map fst (run l1))) as N1' by now rewrite K1.
  destruct (reg_run_grows l2 (reg_run qualname (reg_init base) (map (fun o => (o, None, false)) l1))) as [ks2 [E2 [L2 N2]]]; auto.
  { apply RK; auto. now apply reg_init_keys. }
  fold (run l1) in E2, N2. rewrite <- Eapp in E2.
  assert (forall k o, d_get rkey_eqb (run l1) k = Some o -> d_get rkey_eqb (run (l1 ++ l2)) k = Some o) as P1.
  { intros k o H. rewrite E2. apply d_get_iff; [apply rkey_eqb_spec| |].
    - rewrite map_app. assert (map fst (combine ks2 l2) = ks2) as ->; auto.
      clear - L2. revert l2 L2. induction ks2 as [|k ks IH]; intros [|o l] L; simpl in *; try lia; auto. f_equal. apply IH. lia.
    - apply in_or_app. left. eapply d_get_in; eauto using rkey_eqb_spec. }
  split; [exact P1|]. split.
  - intros o I. apply (In_nth_error l1) in I as [i Hi].
    assert (exists k, nth_error ks i = Some k) as [k Hk].
    { destruct (nth_error ks i) eqn:X; eauto. apply nth_error_None in X.
      assert (nth_error l1 i <> None) as Y by congruence. apply nth_error_Some in Y. lia. }
    exists k. apply P1. apply d_get_iff; auto using rkey_eqb_spec. rewrite E1. apply in_or_app. right.
    clear - Hi Hk. revert ks l1 Hi Hk. induction i as [|i IH]; intros [|k' ks] [|o' l] Hi Hk; simpl in *; try discriminate.
    + left. injection Hi as ->. injection Hk as ->. reflexivity.
    + right. apply IH; assumption.
  - rewrite E1, app_length, combine_length, L1. lia.
Qed.

End Reg.

(** * Tables *)

Section Tab.
Context {V : Type}.
Variable veq : V -> V -> bool.

Lemma filter_only {A} (f : A -> bool) l r : filter f l = [r] <-> only (fun x => f x = true) l r.
Proof.
  split.
  - induction l as [|x l IH]; simpl; [discriminate|]. destruct (f x) eqn:E; intro H.
    + injection H as -> H. exists [], l. simpl. split; auto. split; auto. intros y I X.
      assert (In y (filter f l)) as J by (apply filter_In; auto). rewrite H in J. contradiction.
    + destruct (IH H) as [l1 [l2 [-> [P N]]]]. exists (x :: l1), l2. split; auto. split; auto.
      intros y [<-|I]; [congruence|auto].
  - intros [l1 [l2 [-> [P N]]]]. rewrite filter_app. simpl. rewrite P.
    assert (forall m, (forall x, In x m -> f x <> true) -> filter f m = []) as Z.
    { clear. induction m as [|x m IH]; intro H; simpl; auto. destruct (f x) eqn:E.
      - exfalso. apply (H x); simpl; auto.
      - apply IH. intros y I. apply H. now right. }
    rewrite !Z; auto; intros x I; apply N; apply in_or_app; auto.
Qed.

Lemma only_iff {A} (P Q : A -> Prop) l r : (forall x, In x l -> (P x <-> Q x)) -> only P l r -> only Q l r.
Proof.
  intros H [l1 [l2 [-> [HP N]]]]. exists l1, l2. split; auto. split.
  - apply H; auto. apply in_or_app. right. now left.
  - intros x I X. apply (N x I). apply H; auto. apply in_or_app. apply in_app_or in I as [I|I]; auto. right. now right.
Qed.

Definition sat (request : list (str * V)) (e : @entry V) : bool :=
  forallb (fun p => entry_is veq (fst p) (snd p) e) request.

Lemma entry_is_iff k v (e : @entry V) : NoDup (map fst e) ->
  (entry_is veq k v e = true <-> exists w, In (k, w) e /\ veq w v = true).
Proof.
  intro N. unfold entry_is. destruct (sd_get e k) as [w|] eqn:G.
  - split.
    + intro H. exists w. split; auto. eapply d_get_in; eauto using str_eqb_spec.
    + intros [u [I H]]. apply (d_get_iff str_eqb str_eqb_spec) in I; auto. congruence.
  - split; [discriminate|]. intros [u [I H]]. apply (d_get_iff str_eqb str_eqb_spec) in I; auto. congruence.
Qed.

Lemma sat_iff request (e : @entry V) : NoDup (map fst e) -> (sat request e = true <-> satisfies veq request e).
Proof.
  intro N. unfold sat, satisfies. rewrite forallb_forall. split.
  - intros H k v I. apply (entry_is_iff k v e N). apply (H (k, v) I).
  - intros H [k v] I. simpl. apply entry_is_iff; auto.
Qed.

Lemma only_sat request rows r : dicts rows -> (filter (sat request) rows = [r] <-> only (satisfies veq request) rows r).
Proof.
  intro D. unfold dicts in D. rewrite Forall_forall in D. rewrite filter_only. split; apply only_iff; intros x I;
    [|symmetry]; now apply sat_iff, D.
Qed.

Lemma common_true rows k : rows <> [] -> common_key rows k -> @common V rows k = Ok true.
Proof.
  intros N C. unfold common. destruct rows as [|e rows]; [congruence|]. f_equal. apply forallb_forall. intros x I.
  apply d_has_in; [apply str_eqb_spec|]. now apply C.
Qed.
Lemma common_false rows k : rows <> [] -> ~ common_key rows k -> @common V rows k = Ok false.
Proof.
  intros N C. unfold common. destruct rows as [|e rows]; [congruence|]. f_equal.
  destruct (forallb (fun e => sd_has e k) (e :: rows)) eqn:F; auto. exfalso. apply C. intros x I. rewrite forallb_forall in F.
  apply (d_has_in str_eqb str_eqb_spec). now apply F.
Qed.
Lemma common_dec rows k : common_key (V := V) rows k \/ ~ common_key rows k.
Proof.
  destruct (forallb (fun e => sd_has e k) rows) eqn:F.
  - left. intros e I. rewrite forallb_forall in F. apply (d_has_in str_eqb str_eqb_spec). now apply F.
  - right. intro C. assert (forallb (fun e => sd_has e k) rows = true); [|congruence].
    apply forallb_forall. intros e I. apply (d_has_in str_eqb str_eqb_spec). now apply C.
Qed.

Lemma filter_filter {A} (f g : A -> bool) l : filter f (filter g l) = filter (fun x => g x && f x) l.
Proof. induction l as [|x l IH]; simpl; auto. destruct (g x); simpl; [destruct (f x)|]; now rewrite IH. Qed.

Lemma strict_loop rows total request : rows <> [] ->
  (forall k v, In (k, v) request -> common_key rows k) ->
  forall n subset, call_loop veq rows true total n subset request
  = match filter (sat request) subset with [e] => Ok e | _ => Err TableLookupError end.
Proof.
  intros N. induction request as [|[k v] request IH]; intros C n subset; cbn [call_loop].
  - assert (filter (sat []) subset = subset) as -> by (clear; induction subset; simpl; congruence).
    destruct subset as [|e [|e' s]]; reflexivity.
  - rewrite common_true; [|auto|eapply C; now left]. cbn [bind negb]. rewrite IH by (intros j w I; apply (C j w); now right).
    rewrite filter_filter. reflexivity.
Qed.

Lemma strict_key rows total request k v : rows <> [] -> In (k, v) request -> ~ common_key rows k ->
  forall n subset, call_loop veq rows true total n subset request = Err TableKeyError.
Proof.
  intros N. induction request as [|[k' v'] request IH]; intros I C n subset; [contradiction|]. cbn [call_loop].
  destruct (common_dec rows k') as [C'|C'].
  - rewrite common_true by auto. cbn [bind negb]. apply IH; auto. destruct I as [E|I]; auto. congruence.
  - rewrite common_false by auto. reflexivity.
Qed.

Lemma all_common_dec rows (request : list (str * V)) :
  (forall k v, In (k, v) request -> common_key rows k) \/ exists k v, In (k, v) request /\ ~ common_key (V := V) rows k.
Proof.
  induction request as [|[k v] request [IH|[k' [v' [I C]]]]].
  - left. intros k v [].
  - destruct (common_dec rows k) as [C|C].
    + left. intros j w [E|I]; [injection E as <- <-; auto|eauto].
    + right. exists k, v. split; auto. now left.
  - right. exists k', v'. split; auto. now right.
Qed.

Lemma strict_call rows request r : dicts rows ->
  (table_call veq rows true request = Ok r <->
   (forall k v, In (k, v) request -> common_key rows k) /\ only (satisfies veq request) rows r).
Proof.
  intro D. unfold table_call. destruct rows as [|e rows'].
  - split.
    + destruct request as [|[k v] request]; discriminate.
    + intros [_ [l1 [l2 [E _]]]]. destruct l1; discriminate.
  - destruct (all_common_dec (e :: rows') request) as [C|[k [v [I C]]]].
    + rewrite strict_loop by (auto; discriminate). rewrite <- only_sat by auto.
      destruct (filter (sat request) (e :: rows')) as [|x [|y l]]; split; try (intros [_ H]; discriminate); try discriminate.
      * intro H. injection H as ->. auto.
      * intros [_ H]. injection H as ->. auto.
    + erewrite strict_key; eauto; [|discriminate]. split; [discriminate|]. intros [H _]. exfalso. eauto.
Qed.

Lemma strict_errors rows request : dicts rows -> rows <> [] ->
  ((exists k v, In (k, v) request /\ ~ common_key rows k) -> table_call veq rows true request = Err TableKeyError)
  /\ ((forall k v, In (k, v) request -> common_key rows k) -> (forall r, ~ only (satisfies veq request) rows r) ->
      table_call veq rows true request = Err TableLookupError).
Proof.
  intros D N. split.
  - intros [k [v [I C]]]. unfold table_call. eapply strict_key; eauto.
  - intros C H. unfold table_call. rewrite strict_loop by auto.
    destruct (filter (sat request) rows) as [|x [|y l]] eqn:F; auto. exfalso. apply (H x). now apply only_sat.
Qed.

Lemma getitem_common rows k : rows <> [] -> common_key rows k -> dicts rows ->
  exists values, table_getitem rows k = Ok values /\ forall v, count_of veq v values = holders veq k v rows.
Proof.
  intros N C D. unfold table_getitem. rewrite common_true by auto. cbn [bind].
  clear N. induction rows as [|e rows IH]; [exists []; split; reflexivity|].
  destruct IH as [vs [E H]].
  { intros x I. apply C. now right. }
  { inversion D; auto. }
  assert (In k (map fst e)) as I by (apply C; now left).
  destruct (sd_get e k) as [w|] eqn:G.
  2:{ apply d_get_none in G; [contradiction|apply str_eqb_spec]. }
  exists (w :: vs). simpl. rewrite G. simpl. rewrite E. split; [reflexivity|]. intro v. specialize (H v). unfold count_of in *. simpl.
  assert (existsb (fun p => str_eqb (fst p) k && veq (snd p) v) e = veq w v) as ->.
  { assert (NoDup (map fst e)) as Ne by now inversion D. apply eq_true_iff_eq. rewrite existsb_exists. split.
    - intros [[j u] [J X]]. simpl in X. apply andb_true_iff in X as [X Y].
      destruct (str_eqb_spec j k); [subst j|discriminate]. apply (d_get_iff str_eqb str_eqb_spec) in J; auto. congruence.
    - intro X. exists (k, w). split; [eapply d_get_in; eauto using str_eqb_spec|]. simpl. now rewrite str_eqb_refl. }
  destruct (veq w v); simpl; lia.
Qed.

Lemma firstn_In {A} n (l : list A) x : In x (firstn n l) -> In x l.
Proof. revert l. induction n as [|n IH]; intros [|y l]; simpl; try tauto. intros [H|H]; auto. Qed.

Lemma loose_loop rows r : rows <> [] -> dicts rows -> forall request done,
  call_loop veq rows false (length done + length request) (length done) (filter (sat done) rows) request = Ok r <->
  exists n, (1 <= n <= length request)%nat
    /\ (forall k v, In (k, v) (firstn n request) -> common_key rows k)
    /\ filter (sat (done ++ firstn n request)) rows = [r]
    /\ (forall m, (1 <= m < n)%nat -> forall x, filter (sat (done ++ firstn m request)) rows <> [x])
    /\ (n = length request -> forall k v, nth_error request (n - 1) = Some (k, v) ->
        (holders veq k v rows <= length done + n)%nat).
Proof.
  intros N D. induction request as [|[k v] request IH]; intro done; cbn [call_loop].
  - split.
    + destruct (filter (sat done) rows) as [|x [|y l]]; discriminate.
    + intros [n [L _]]. simpl in L. lia.
  - destruct (common_dec rows k) as [C|C].
    2:{ rewrite common_false by auto. cbn [bind negb]. split; [discriminate|].
        intros [n [L [H _]]]. exfalso. apply C. apply (H k v). destruct n; [lia|]. now left. }
    rewrite common_true by auto. cbn [bind negb].
    destruct (getitem_common rows k N C D) as [vs [G Hc]]. rewrite G. cbn [bind]. rewrite Hc.
    assert (filter (entry_is veq k v) (filter (sat done) rows) = filter (sat (done ++ [(k, v)])) rows) as EF.
    { rewrite filter_filter. apply filter_ext. intro e. unfold sat. rewrite forallb_app. simpl. now rewrite andb_true_r. }
    rewrite EF. specialize (IH (done ++ [(k, v)])). rewrite app_length in IH. simpl length in IH.
    replace (length done + 1 + length request)%nat with (length done + length ((k, v) :: request))%nat in IH by (simpl; lia).
    replace (length done + 1)%nat with (S (length done)) in IH by lia.
    destruct (Nat.ltb (S (length done)) (holders veq k v rows) && Nat.eqb (length done + length ((k, v) :: request)) (S (length done))) eqn:T.
    + apply andb_true_iff in T as [T1 T2]. apply Nat.ltb_lt in T1. apply Nat.eqb_eq in T2. simpl in T2.
      assert (request = []) as -> by (destruct request; auto; simpl in T2; lia).
      split; [discriminate|]. intros [n [L [_ [_ [_ H]]]]]. simpl in L. assert (n = 1%nat) as -> by lia.
      specialize (H eq_refl k v eq_refl). lia.
    + assert (forall x, filter (sat (done ++ [(k, v)])) rows = [x] ->
        (Ok x = Ok r <-> exists n, (1 <= n <= length ((k, v) :: request))%nat
          /\ (forall k0 v0, In (k0, v0) (firstn n ((k, v) :: request)) -> common_key rows k0)
          /\ filter (sat (done ++ firstn n ((k, v) :: request))) rows = [r]
          /\ (forall m, (1 <= m < n)%nat -> forall x, filter (sat (done ++ firstn m ((k, v) :: request))) rows <> [x])
          /\ (n = length ((k, v) :: request) -> forall k0 v0, nth_error ((k, v) :: request) (n - 1) = Some (k0, v0) ->
              (holders veq k0 v0 rows <= length done + n)%nat))) as One.
      { intros x F. split.
        - intro E. injection E as ->. exists 1%nat. split; [simpl; lia|]. split; [|split; [exact F|split; [intros; lia|]]].
          + intros k0 v0 [E|[]]. injection E as <- <-. exact C.
          + intros En k0 v0 E. injection E as <- <-. simpl in En. assert (request = []) as -> by (destruct request; auto; simpl in En; lia).
            simpl in T. rewrite Nat.add_1_r, Nat.eqb_refl, andb_true_r in T. apply Nat.ltb_ge in T. lia.
        - intros [n [L [_ [F2 [H _]]]]]. assert (n = 1%nat) as ->.
          { destruct (Nat.eq_dec n 1); auto. exfalso. apply (H 1%nat ltac:(lia) x). exact F. }
          simpl in F2. rewrite F in F2. injection F2 as ->. reflexivity. }
      assert ((forall x, filter (sat (done ++ [(k, v)])) rows <> [x]) ->
        (call_loop veq rows false (length done + length ((k, v) :: request)) (S (length done)) (filter (sat (done ++ [(k, v)])) rows) request = Ok r
         <-> exists n, (1 <= n <= length ((k, v) :: request))%nat
          /\ (forall k0 v0, In (k0, v0) (firstn n ((k, v) :: request)) -> common_key rows k0)
          /\ filter (sat (done ++ firstn n ((k, v) :: request))) rows = [r]
          /\ (forall m, (1 <= m < n)%nat -> forall x, filter (sat (done ++ firstn m ((k, v) :: request))) rows <> [x])
          /\ (n = length ((k, v) :: request) -> forall k0 v0, nth_error ((k, v) :: request) (n - 1) = Some (k0, v0) ->
              (holders veq k0 v0 rows <= length done + n)%nat))) as More.
      { intro NF. rewrite IH. split.
        - intros [n [L [H1 [H2 [H3 H4]]]]]. exists (S n). split; [simpl; lia|]. split; [|split; [|split]].
          + intros k0 v0 [E|I]; [injection E as <- <-; exact C|eauto].
          + rewrite <- app_assoc in H2. exact H2.
          + intros [|[|m]] Hm x; [lia|exact (NF x)|]. specialize (H3 (S m) ltac:(lia) x). rewrite <- app_assoc in H3. exact H3.
          + intros En k0 v0 E. simpl in En. replace (S n - 1)%nat with (S (n - 1)) in E by lia. simpl in E.
            specialize (H4 ltac:(lia) k0 v0 E). lia.
        - intros [[|n] [L [H1 [H2 [H3 H4]]]]]; [lia|]. destruct n as [|n]; [exfalso; exact (NF r H2)|].
          exists (S n). split; [simpl in L; lia|]. split; [|split; [|split]].
          + intros k0 v0 I. apply (H1 k0 v0). now right.
          + rewrite <- app_assoc. exact H2.
          + intros m Hm x. specialize (H3 (S m) ltac:(lia) x). rewrite <- app_assoc. exact H3.
          + intros En k0 v0 E. simpl in H4. replace (S n - 0)%nat with (S n) in H4 by lia.
            simpl in E. replace (n - 0)%nat with n in E by lia. simpl in H4. specialize (H4 ltac:(lia) k0 v0 E). lia. }
      destruct (filter (sat (done ++ [(k, v)])) rows) as [|x [|y l]] eqn:F.
      * apply More. discriminate.
      * apply One. reflexivity.
      * apply More. discriminate.
Qed.

Lemma loose_call rows request r : dicts rows ->
  (table_call veq rows false request = Ok r <->
   exists n, (1 <= n <= length request)%nat
    /\ (forall k v, In (k, v) (firstn n request) -> common_key rows k)
    /\ only (satisfies veq (firstn n request)) rows r
    /\ (forall m, (1 <= m < n)%nat -> forall x, ~ only (satisfies veq (firstn m request)) rows x)
    /\ (n = length request -> forall k v, nth_error request (n - 1) = Some (k, v) -> (holders veq k v rows <= n)%nat)).
Proof.
  intro D. destruct rows as [|e rows'].
  { split.
    - destruct request as [|[k v] request]; discriminate.
    - intros [n [_ [_ [[l1 [l2 [E _]]] _]]]]. destruct l1; discriminate. }
  assert (e :: rows' <> []) as N by discriminate. set (rows := e :: rows') in *. clearbody rows.
  unfold table_call. assert (L := loose_loop rows r N D request []). simpl in L.
  assert (filter (sat []) rows = rows) as E by (clear; induction rows; simpl; congruence). rewrite E in L. rewrite L.
  split; intros [n [H1 [H2 [H3 [H4 H5]]]]]; exists n; (split; [auto|]); (split; [auto|]); (split; [now apply only_sat|]); (split; [|auto]);
    intros m Hm x; specialize (H4 m Hm x); intro X; apply H4; now apply only_sat.
Qed.

(** ** find *)
Lemma find_spec rows v :
  let has e := exists k w, In (k, w) e /\ veq w v = true in
  (forall l, table_find veq rows v false = Ok (inl l) -> subsequence l rows /\ l <> [] /\ forall e, In e l <-> In e rows /\ has e)
  /\ (forall e, table_find veq rows v true = Ok (inr e) <-> only has rows e)
  /\ (forall u, (forall e, In e rows -> ~ has e) -> table_find veq rows v u = Err MissingValueError).
Proof.
  intro has. set (f := fun e : @entry V => existsb (fun p => veq (snd p) v) e).
  assert (forall e, f e = true <-> has e) as Hf.
  { intro e. unfold f, has. rewrite existsb_exists. split.
    - intros [[k w] [I H]]. eauto.
    - intros [k [w [I H]]]. exists (k, w). auto. }
  assert (forall u, table_find veq rows v u = match filter f rows with
    | [] => Err MissingValueError
    | e :: es => if negb u then Ok (inl (e :: es)) else match es with [] => Ok (inr e) | _ => Err AmbiguousValueError end
    end) as T by reflexivity.
  split; [|split].
  - intros l H. rewrite T in H. destruct (filter f rows) as [|x s] eqn:F; [discriminate|]. simpl in H. injection H as <-. rewrite <- F. split; [|split].
    + clear. induction rows as [|x l IH]; simpl; [apply sub_nil|]. destruct (f x); [now apply sub_keep|now apply sub_skip].
    + congruence.
    + intro e. rewrite filter_In, Hf. tauto.
  - intro e. rewrite T. assert (only has rows e <-> filter f rows = [e]) as ->.
    { rewrite filter_only. split; apply only_iff; intros x _; rewrite Hf; tauto. }
    destruct (filter f rows) as [|x [|y l]]; simpl; split; try discriminate; intro H; congruence.
  - intros u H. rewrite T. destruct (filter f rows) as [|x s] eqn:F; auto. exfalso.
    assert (In x (filter f rows)) as I by (rewrite F; now left). apply filter_In in I as [I X]. apply (H x I). now apply Hf.
Qed.
End Tab.

(** * Connections *)

Lemma edge_eqb_spec a b : reflect (a = b) (edge_eqb a b).
Proof.
  destruct a as [a1 a2], b as [b1 b2]. unfold edge_eqb. simpl.
  destruct (str_eqb_spec a1 b1), (str_eqb_spec a2 b2); simpl; constructor; congruence.
Qed.

Lemma inverse_eq w : inverse w = option_map Qcinv w.
Proof.
  destruct w as [q|]; simpl; auto. destruct (Qc_eqb_spec q 0) as [E|E]; [|reflexivity]. subst. reflexivity.
Qed.

Lemma d_has_some {K V} (keq : K -> K -> bool) (d : list (K * V)) k v : d_get keq d k = Some v -> d_has keq d k = true.
Proof. unfold d_has. now intros ->. Qed.

Lemma add_edge_get g e w x : d_get edge_eqb (add_edge g e w) x =
  match d_get edge_eqb g x with Some u => Some u | None => if edge_eqb x e then Some w else None end.
Proof.
  unfold add_edge, d_has. destruct (d_get edge_eqb g e) as [u|] eqn:E.
  - destruct (d_get edge_eqb g x) eqn:X; auto. destruct (edge_eqb_spec x e); auto. congruence.
  - rewrite d_get_set by apply edge_eqb_spec. destruct (edge_eqb_spec x e).
    + subst. now rewrite E.
    + now destruct (d_get edge_eqb g x).
Qed.

Lemma add_connection_get g s t w x : d_get edge_eqb (add_connection g ((s, t), w)) x =
  match d_get edge_eqb g x with
  | Some u => Some u
  | None => if edge_eqb x (s, t) then Some w else if edge_eqb x (t, s) then Some (option_map Qcinv w) else None
  end.
Proof.
  unfold add_connection. rewrite !add_edge_get, inverse_eq. destruct (d_get edge_eqb g x); auto. now destruct (edge_eqb x (s, t)).
Qed.

Lemma connect_get l : forall g a b, d_get edge_eqb (fold_left add_connection l g) (a, b) =
  match d_get edge_eqb g (a, b) with Some u => Some u | None => first_link l a b end.
Proof.
  induction l as [|[[s t] w] l IH]; intros g a b; cbn [fold_left first_link].
  - now destruct (d_get edge_eqb g (a, b)).
  - rewrite IH, add_connection_get. destruct (d_get edge_eqb g (a, b)); auto. unfold edge_eqb. simpl.
    rewrite (str_eqb_sym a s), (str_eqb_sym b t). destruct (str_eqb s a && str_eqb t b); auto.
    rewrite (str_eqb_sym a t), (str_eqb_sym b s), (andb_comm (str_eqb t a)). now destruct (str_eqb s b && str_eqb t a).
Qed.

Lemma weight_first l a b : get_weight (connect l) a b =
  match first_link l a b with Some w => Ok w | None => Err KeyError end.
Proof. unfold get_weight, connect. now rewrite connect_get. Qed.

Lemma Qcinv_inv q : (/ / q)%Qc = q.
Proof.
  destruct (Qc_eq_dec q 0) as [->|N]; [reflexivity|].
  assert (q * / q = 1)%Qc as X by now apply Qcmult_inv_r.
  assert (/ q <> 0)%Qc as N' by (intro H; rewrite H, Qcmult_0_r in X; discriminate).
  assert (/ q * / / q = 1)%Qc as Y by now apply Qcmult_inv_r.
  rewrite <- (Qcmult_1_l (/ / q)), <- X, <- Qcmult_assoc, Y. apply Qcmult_1_r.
Qed.

Lemma first_link_flip l a b : a <> b -> first_link l b a = option_map (option_map Qcinv) (first_link l a b).
Proof.
  intro N. induction l as [|[[s t] w] l IH]; simpl; auto.
  destruct (str_eqb_spec s a), (str_eqb_spec s b), (str_eqb_spec t a), (str_eqb_spec t b); subst; try congruence; simpl; auto.
  destruct w as [q|]; simpl; auto. now rewrite Qcinv_inv.
Qed.

Lemma weight_recip l a b w : a <> b -> w <> Q2Qc 0 -> get_weight (connect l) a b = Ok (Some w) ->
  exists w', get_weight (connect l) b a = Ok (Some w') /\ (w * w' = 1)%Qc.
Proof.
  intros N Z. rewrite !weight_first, (first_link_flip l a b N). destruct (first_link l a b) as [u|]; [|discriminate].
  intro H. injection H as ->. exists (/ w)%Qc. split; auto. now apply Qcmult_inv_r.
Qed.

Lemma weight_keeps l l' a b w : get_weight (connect l) a b = Ok w -> get_weight (connect (l ++ l')) a b = Ok w.
Proof.
  rewrite !weight_first. destruct (first_link l a b) as [u|] eqn:E; [|discriminate]. intro H. injection H as ->.
  assert (first_link (l ++ l') a b = Some w) as ->; auto.
  revert E. induction l as [|[[s t] x] l IH]; simpl; [discriminate|].
  destruct (str_eqb s a && str_eqb t b); auto. destruct (str_eqb s b && str_eqb t a); auto.
Qed.

Lemma connect_NoDup l : NoDup (map fst (connect l)).
Proof.
  unfold connect. assert (forall g, NoDup (map fst g) -> NoDup (map fst (fold_left add_connection l g))) as H; [|apply H; constructor].
  induction l as [|[[s t] w] l IH]; intros g N; simpl; auto. apply IH. unfold add_edge.
  assert (forall (g : connections) e w, NoDup (map fst g) -> NoDup (map fst (if d_has edge_eqb g e then g else d_set edge_eqb g e w))) as A.
  { intros g' e' w' N'. destruct (d_has edge_eqb g' e'); auto. apply d_set_NoDup; auto. apply edge_eqb_spec. }
  apply A, A, N.
Qed.

Lemma adjacencies_spec l a b w : In (b, w) (get_adjacencies (connect l) a) <-> get_weight (connect l) a b = Ok w.
Proof.
  assert (N := connect_NoDup l). unfold get_weight, get_adjacencies. set (g := connect l) in *. clearbody g. clear l.
  assert (In (b, w) (map (fun p => (snd (fst p), snd p)) (filter (fun p => str_eqb (fst (fst p)) a) g)) <-> In ((a, b), w) g) as H.
  { rewrite in_map_iff. split.
    - intros [[[s t] u] [E I]]. simpl in E. injection E as -> ->. apply filter_In in I as [I X]. simpl in X.
      destruct (str_eqb_spec s a); [now subst|discriminate].
    - intro I. exists ((a, b), w). split; auto. apply filter_In. split; auto. apply str_eqb_refl. }
  assert (NoDup (map fst (map (fun p : edge * weight => (snd (fst p), snd p)) (filter (fun p => str_eqb (fst (fst p)) a) g)))) as N2.
  { clear H. induction g as [|[[s t] u] g IH]; simpl; [constructor|]. simpl in N. inversion N as [|? ? N1 N3]; subst.
    destruct (str_eqb_spec s a) as [E|E]; simpl; auto. subst s. constructor; auto. intro I. apply N1.
    apply in_map_iff in I as [[t' u'] [E I]]. simpl in E. subst t'. apply in_map_iff in I as [[[s2 t2] u2] [E I]].
    simpl in E. injection E as -> ->. apply filter_In in I as [I X]. simpl in X. destruct (str_eqb_spec s2 a); [subst s2|discriminate].
    apply in_map_iff. exists ((a, t), u'). auto. }
  destruct (is_node g a) eqn:D.
  - rewrite (d_of_id str_eqb str_eqb_spec) by exact N2. rewrite H. rewrite <- (d_get_iff edge_eqb edge_eqb_spec g (a, b) w N).
    destruct (d_get edge_eqb g (a, b)); split; congruence.
  - split; [contradiction|]. intro E. destruct (d_get edge_eqb g (a, b)) as [u|] eqn:G; [|discriminate]. exfalso.
    apply (d_get_in edge_eqb edge_eqb_spec) in G. assert (is_node g a = true); [|congruence].
    apply existsb_exists. exists ((a, b), u). split; auto. simpl. now rewrite str_eqb_refl.
Qed.

(** * Guards *)

Section Grd.
Context {C A R : Type}.
Variable ceq sub : C -> C -> bool.
Hypothesis D : decides ceq.

Definition guards (h : list (C * subst R)) : list (C * subst R) :=
  fold_left (fun d p => catch ceq d (fst p) (snd p)) h [].

Lemma guards_get h c : d_get ceq (guards h) c = d_get ceq (rev h) c.
Proof. unfold guards, catch. fold (d_of ceq h). now apply d_of_get. Qed.

Lemma guards_keys h c : In c (map fst (guards h)) <-> In c (map fst h).
Proof.
  assert (H := guards_get h c). rewrite <- (rev_involutive h) at 2. rewrite map_rev, <- in_rev.
  destruct (d_get ceq (guards h) c) as [s|] eqn:E.
  - apply (d_get_in ceq D) in E. symmetry in H. apply (d_get_in ceq D) in H. split; intros _.
    + apply in_map_iff. now exists (c, s).
    + apply in_map_iff. now exists (c, s).
  - apply (d_get_none ceq D) in E. symmetry in H. apply (d_get_none ceq D) in H. tauto.
Qed.

Lemma guarded_existsb h c : existsb (fun p => sub c (fst p)) (guards h) = existsb (fun p => sub c (fst p)) h.
Proof.
  apply eq_true_iff_eq. rewrite !existsb_exists. split; intros [[k s] [I X]].
  - assert (In k (map fst h)) as J by (apply guards_keys, in_map_iff; now exists (k, s)).
    apply in_map_iff in J as [[k' s'] [E J]]. simpl in E. subst. exists (k, s'). auto.
  - assert (In k (map fst (guards h))) as J by (apply guards_keys, in_map_iff; now exists (k, s)).
    apply in_map_iff in J as [[k' s'] [E J]]. simpl in E. subst. exists (k, s'). auto.
Qed.

Lemma guard_value h1 h2 c r (args : list A) kwargs : sub c c = true -> (forall s, ~ In (c, s) h2) ->
  guard_call ceq sub (guards (h1 ++ (c, Value r) :: h2)) (Raises c) args kwargs = Returns (GValue r).
Proof.
  intros S N. unfold guard_call. rewrite guarded_existsb.
  assert (existsb (fun p => sub c (fst p)) (h1 ++ (c, Value r) :: h2) = true) as ->.
  { apply existsb_exists. exists (c, Value r). split; auto. apply in_or_app. right. now left. }
  rewrite guards_get, rev_app_distr. simpl. rewrite <- app_assoc.
  assert (d_get ceq (rev h2 ++ [(c, Value r)] ++ rev h1) c = Some (Value r)) as ->; auto.
  assert (forall s, ~ In (c, s) (rev h2)) as N' by (intros s I; apply in_rev in I; eapply N; eauto).
  induction (rev h2) as [|[k s] l IH]; simpl.
  - destruct (D c c); congruence.
  - destruct (D c k) as [E|E]; [subst; exfalso; eapply N'; now left|]. apply IH. intros s' I. eapply N'. now right; eauto.
Qed.

Lemma guard_passes h c (args : list A) kwargs : (forall k s, In (k, s) h -> sub c k = false) ->
  guard_call ceq sub (guards h) (Raises (T := R) c) args kwargs = Raises c.
Proof.
  intro H. unfold guard_call. rewrite guarded_existsb.
  assert (existsb (fun p => sub c (fst p)) h = false) as ->; auto.
  destruct (existsb _ h) eqn:E; auto. apply existsb_exists in E as [[k s] [I X]]. simpl in X. rewrite (H k s I) in X. discriminate.
Qed.

Lemma guard_subclass h c p s (args : list A) kwargs : In (p, s) h -> sub c p = true -> (forall s', ~ In (c, s') h) ->
  guard_call ceq sub (guards h) (Raises (T := R) c) args kwargs = KeyErr.
Proof.
  intros I X N. unfold guard_call. rewrite guarded_existsb.
  assert (existsb (fun p => sub c (fst p)) h = true) as -> by (apply existsb_exists; now exists (p, s)).
  assert (d_get ceq (guards h) c = None) as ->; auto. apply (d_get_none ceq D). rewrite guards_keys.
  intro J. apply in_map_iff in J as [[k s'] [E J]]. simpl in E. subst. eapply N; eauto.
Qed.

Lemma guard_result h r (args : list A) kwargs :
  guard_call ceq sub (guards h) (Returns r) args kwargs = Returns (GValue r).
Proof. reflexivity. Qed.
End Grd.

(** * Instance caches *)

Section Inst.
Context {K : Type}.
Variable keq : K -> K -> bool.
Hypothesis D : decides keq.

Fixpoint cache_after (cache : list (K * nat)) (fresh : nat) (ks : list K) : list (K * nat) :=
  match ks with
  | [] => cache
  | k :: ks' => let '(_, cache', fresh') := instance keq cache fresh k in cache_after cache' fresh' ks'
  end.

Definition good (cache : list (K * nat)) (fresh : nat) : Prop :=
  NoDup (map snd cache) /\ forall i, In i (map snd cache) -> (i < fresh)%nat.

Lemma d_get_app d e k : d_get keq (d ++ e) k = match d_get keq d k with Some v => Some v | None => d_get keq e k (V := nat) end.
Proof. induction d as [|[h w] d IH]; simpl; auto. now destruct (keq k h). Qed.

Lemma instance_good cache fresh k i c f : good cache fresh -> instance keq cache fresh k = (i, c, f) ->
  good c f /\ d_get keq c k = Some i /\ (forall j x, d_get keq cache j = Some x -> d_get keq c j = Some x).
Proof.
  intros [G1 G2]. unfold instance. destruct (d_get keq cache k) as [x|] eqn:E; intro H; injection H as <- <- <-.
  - repeat split; auto.
  - split; [split|split].
    + rewrite map_app. simpl. apply NoDup_snoc; auto. intro I. apply G2 in I. lia.
    + intros j I. rewrite map_app in I. apply in_app_or in I as [I|[<-|[]]]; simpl; [apply G2 in I|]; lia.
    + rewrite d_get_app, E. simpl. destruct (D k k); congruence.
    + intros j x H. rewrite d_get_app, H. reflexivity.
Qed.

Lemma instances_after ks : forall cache fresh, good cache fresh ->
  (exists f, good (cache_after cache fresh ks) f)
  /\ (forall j x, d_get keq cache j = Some x -> d_get keq (cache_after cache fresh ks) j = Some x)
  /\ (forall i k x, nth_error ks i = Some k -> nth_error (instances keq cache fresh ks) i = Some x ->
        d_get keq (cache_after cache fresh ks) k = Some x)
  /\ length (instances keq cache fresh ks) = length ks.
Proof.
  induction ks as [|k ks IH]; intros cache fresh G; simpl.
  - split; [eauto|]. split; [auto|]. split; [intros [|i] k x H; discriminate|auto].
  - destruct (instance keq cache fresh k) as [[i c] f] eqn:E.
    destruct (instance_good _ _ _ _ _ _ G E) as [G' [Gk Gm]]. destruct (IH c f G') as [P1 [P2 [P3 P4]]].
    split; [auto|]. split; [auto|]. split; [|simpl; lia].
    intros [|n] k' x H1 H2; simpl in *; [|eauto]. injection H1 as <-. injection H2 as <-. auto.
Qed.

Lemma instances_spec ks i j k k' x x' :
  nth_error ks i = Some k -> nth_error ks j = Some k' ->
  nth_error (instances keq [] 0 ks) i = Some x -> nth_error (instances keq [] 0 ks) j = Some x' ->
  (x = x' <-> k = k').
Proof.
  intros H1 H2 H3 H4. destruct (instances_after ks [] 0%nat) as [[f [G1 G2]] [_ [P _]]].
  { split; [constructor|intros ? []]. }
  assert (X := P _ _ _ H1 H3). assert (Y := P _ _ _ H2 H4). split; [|intros <-; congruence].
  intros <-. apply (d_get_in keq D) in X. apply (d_get_in keq D) in Y.
  revert G1 X Y. clear. induction (cache_after [] 0 ks) as [|[a b] l IH]; [contradiction|]. simpl. intros N X Y.
  inversion N as [|? ? N1 N2]; subst. destruct X as [X|X], Y as [Y|Y].
  - congruence.
  - injection X as -> ->. exfalso. apply N1. apply in_map_iff. now exists (k', x).
  - injection Y as -> ->. exfalso. apply N1. apply in_map_iff. now exists (k, x).
  - auto.
Qed.
End Inst.
