(** Frame conditions, partial failure, copies and merged mappings. *)

From Coq Require Import List Bool Arith Lia Permutation Relations.
From Verif Require Import Py PyFacts AliasedModel AliasedSpec AliasedProofs.
Import ListNotations.
Open Scope list_scope.
Open Scope py_scope.

Lemma consistent_dict {V} (m : amap V) : consistent m <-> exists d, m = of_dict d /\ good d.
Proof.
  split.
  - intros [E G]. exists (as_dict m). split; auto. destruct m as [d f]. simpl in *. now subst f.
  - intros [d [-> G]]. split; auto.
Qed.

(** A consistent dictionary refines the abstract map it describes. *)
Definition self_abs {V} (d : @gdict V) : abs V := abs_of (map (fun p => (Many (fst p), snd p)) d).

Lemma refines_self {V} (d : @gdict V) : good d -> refines d (self_abs d).
Proof.
  intro G. split; auto. unfold self_abs, abs_of. simpl. split.
  - intros a v. split.
    + intro H. destruct (find _ _) as [[k w]|] eqn:Ef; [|discriminate]. simpl in H. injection H as ->.
      apply find_some in Ef as [I Ia]. apply in_map_iff in I as [[g x] [E I]]. simpl in E. injection E as <- <-.
      simpl in Ia. apply gin_In in Ia. eauto.
    + intros [g [I Ia]]. destruct (find _ _) as [[k w]|] eqn:Ef.
      * simpl. apply find_some in Ef as [J Ja]. apply in_map_iff in J as [[h x] [E J]]. simpl in E.
        injection E as <- <-. simpl in Ja. apply gin_In in Ja. f_equal.
        apply (good_uniq d G h x g v a); auto.
      * assert (In (Many g, v) (map (fun p => (Many (fst p), snd p)) d)) as J
          by (apply in_map_iff; exists (g, v); auto).
        apply (find_none _ _ Ef) in J. simpl in J. apply gin_false in J. contradiction.
  - intros a b. rewrite existsb_exists. split.
    + intros [[k w] [I H]]. apply in_map_iff in I as [[g x] [E I]]. simpl in E. injection E as <- <-.
      simpl in H. apply andb_true_iff in H as [Ha Hb]. apply gin_In in Ha, Hb. eauto.
    + intros [g [v [I [Ia Ib]]]]. exists (Many g, v). split; [apply in_map_iff; exists (g, v); auto|].
      simpl. apply andb_true_iff. split; now apply gin_In.
Qed.

Lemma aliases_refines {V} (d : @gdict V) s a b : refines d s -> (aliases_of (of_dict d) a b <-> rel s a b = true).
Proof.
  intros [G [Rv Rr]]. rewrite Rr. unfold aliases_of. split.
  - intros [g [E I]]. apply resolve_spec in E as [v [J Ja]]; eauto.
  - intros [g [v [I [Ia Ib]]]]. exists g. split; auto. apply resolve_spec; eauto.
Qed.

Lemma get_refines {V} (d : @gdict V) s a :
  refines d s -> getitem (of_dict d) a = match val s a with Some v => Ok v | None => Err KeyError end.
Proof. intro R. apply (refines_agrees d s R). Qed.

Lemma contains_refines {V} (d : @gdict V) s a :
  refines d s -> contains (of_dict d) a = match val s a with Some v => true | None => false end.
Proof. intro R. apply (refines_agrees d s R). Qed.

Section Order.

Variable mkset : list str -> group.
Hypothesis order : set_order mkset.

Lemma consistent_run {V} (l : list (op V)) m : consistent m -> consistent (snd (run mkset l m)).
Proof.
  intro C. apply consistent_dict in C as [d [-> G]].
  destruct (refines_run mkset order l d _ (refines_self d G)) as [d' [E [G' _]]].
  rewrite E. simpl. apply consistent_dict. eauto.
Qed.

Lemma consistent_mapping {V} (l : list (key * V)) :
  disjoint (map (fun p => members (fst p)) l) -> Forall (fun p => members (fst p) <> []) l ->
  consistent (mapping mkset l).
Proof.
  intros D F. apply consistent_dict. eexists. split; [reflexivity|].
  now destruct (refines_init mkset order l D F).
Qed.

Lemma set_frame {V} (m : amap V) a v : consistent m ->
  let m' := setitem mkset m a v in
  consistent m'
  /\ getitem m' a = Ok v
  /\ (forall b, aliases_of m a b -> getitem m' b = Ok v)
  /\ (forall b, ~ aliases_of m a b -> b <> a -> getitem m' b = getitem m b)
  /\ (forall x y, aliases_of m' x y <-> aliases_of m x y \/ (contains m a = false /\ x = a /\ y = a)).
Proof.
  intro C. apply consistent_dict in C as [d [-> G]]. assert (R := refines_self d G).
  set (s := self_abs d) in *. clearbody s.
  destruct (refines_set mkset order d s a v R) as [d' [E R']]. cbv zeta. rewrite E.
  assert (Hc := contains_refines d s a R).
  assert (Raa : forall u, val s a = Some u -> rel s a a = true).
  { intros u Eu. apply R. apply R in Eu as [g [I Ia]]. eauto. }
  split; [apply consistent_dict; exists d'; split; auto; apply R'|].
  rewrite (get_refines d' _ a R'). unfold abs_set in *. destruct (val s a) as [u|] eqn:Ea; simpl in *.
  - split; [now rewrite (Raa u)|]. split; [|split].
    + intros b H. rewrite (get_refines d' _ b R'). simpl. apply (aliases_refines d s) in H; auto. now rewrite H.
    + intros b H _. rewrite (get_refines d' _ b R'), (get_refines d s b R). simpl.
      destruct (rel s a b) eqn:Er; auto. exfalso. apply H. now apply (aliases_refines d s).
    + intros x y. rewrite (aliases_refines d' _ x y R'), (aliases_refines d s x y R), Hc. simpl.
      intuition discriminate.
  - rewrite str_eqb_refl. split; [reflexivity|]. split; [|split].
    + intros b H. apply (aliases_refines d s) in H; auto. exfalso.
      apply R in H as [g [w [I [Ia _]]]]. assert (val s a = Some w) by (apply R; eauto). congruence.
    + intros b _ N. rewrite (get_refines d' _ b R'), (get_refines d s b R). simpl. now rewrite str_eqb_neq.
    + intros x y. rewrite (aliases_refines d' _ x y R'), (aliases_refines d s x y R), Hc. simpl.
      rewrite orb_true_iff, andb_true_iff, !str_eqb_iff. intuition.
Qed.

Lemma del_frame {V} (m : amap V) a : consistent m -> contains m a = true ->
  exists m', delitem m a = Ok m' /\ consistent m'
  /\ (forall b, aliases_of m a b -> getitem m' b = Err KeyError)
  /\ (forall b, ~ aliases_of m a b -> getitem m' b = getitem m b)
  /\ (forall x y, aliases_of m' x y <-> aliases_of m x y /\ ~ aliases_of m a x).
Proof.
  intros C P. apply consistent_dict in C as [d [-> G]]. assert (R := refines_self d G).
  set (s := self_abs d) in *. clearbody s. rewrite (contains_refines d s a R) in P.
  destruct (refines_del d s a R) as [d' [E R']]; [now destruct (val s a)|].
  exists (of_dict d'). split; auto. split; [apply consistent_dict; exists d'; split; auto; apply R'|]. split; [|split].
  - intros b H. rewrite (get_refines d' _ b R'). simpl. apply (aliases_refines d s) in H; auto. now rewrite H.
  - intros b H. rewrite (get_refines d' _ b R'), (get_refines d s b R). simpl.
    destruct (rel s a b) eqn:Er; auto. exfalso. apply H. now apply (aliases_refines d s).
  - intros x y. rewrite (aliases_refines d' _ x y R'), (aliases_refines d s x y R), (aliases_refines d s a x R). simpl.
    rewrite andb_true_iff, negb_true_iff. now rewrite not_true_iff_false.
Qed.

Lemma del_absent {V} (m : amap V) a : contains m a = false -> delitem m a = Err KeyError.
Proof. unfold contains, delitem. destruct (resolve_key m a); [discriminate|reflexivity]. Qed.

(** * Partial failure of [alias] *)

Lemma alias_prefix {V} (a : str) (bs : list str) : forall (m m' : amap V) e,
  alias_set mkset m a bs = (Err e, m') -> consistent m ->
  exists pre b post, bs = pre ++ b :: post /\ b <> a /\ alias_set mkset m a pre = (Ok tt, m')
                     /\ (contains m' b = true \/ contains m' a = false).
Proof.
  unfold alias_set. induction bs as [|b bs IH]; intros m m' e H C; simpl in H; [discriminate|].
  destruct (str_eqb_spec b a) as [->|N].
  - destruct (IH m m' e H C) as [pre [c [post [-> [Nc [E K]]]]]]. exists (a :: pre), c, post.
    split; auto. split; auto. split; auto. simpl. now rewrite str_eqb_refl.
  - apply consistent_dict in C as [d [-> G]]. assert (R := refines_self d G).
    set (s := self_abs d) in *. clearbody s.
    destruct (val s a) as [u|] eqn:Ea; [destruct (val s b) as [w|] eqn:Eb|].
    + exists [], b, bs. split; auto. split; auto. assert (contains (of_dict d) b = true) as Cb.
      { rewrite (contains_refines d s b R), Eb. reflexivity. }
      unfold alias_step in H. assert (gin b (flat_keys (of_dict d)) = true) as X.
      { apply gin_In, in_flat_keys. apply R in Eb as [g [I Ib]]. eauto. }
      rewrite X in H. destruct (resolve_key (of_dict d) a); injection H as <- <-; auto.
    + destruct (refines_join mkset order d s a b R) as [d' [E R']]; [congruence|auto|]. rewrite E in H.
      destruct (IH (of_dict d') m' e H) as [pre [c [post [-> [Nc [E' K]]]]]].
      { apply consistent_dict. exists d'. split; auto. apply R'. }
      exists (b :: pre), c, post. split; auto. split; auto. split; auto. simpl. rewrite str_eqb_neq by auto. now rewrite E.
    + exists [], b, bs. split; auto. split; auto. assert (contains (of_dict d) a = false) as Ca.
      { rewrite (contains_refines d s a R), Ea. reflexivity. }
      unfold alias_step in H. assert (resolve_key (of_dict d) a = None) as X.
      { unfold contains in Ca. now destruct (resolve_key (of_dict d) a). }
      rewrite X in H. destruct (gin b (flat_keys (of_dict d))); injection H as <- <-; auto.
Qed.

Lemma alias_one_atomic {V} (m m' : amap V) a b e :
  consistent m -> alias_set mkset m a [b] = (Err e, m') -> m' = m.
Proof.
  intros C H. destruct (alias_prefix a [b] m m' e H C) as [pre [c [post [E [_ [H' _]]]]]].
  destruct pre as [|x [|? ?]]; simpl in E; try discriminate. unfold alias_set in H'. simpl in H'. congruence.
Qed.

Lemma abs_alias_fresh {V} a bs : forall (s : abs V) v,
  val s a = Some v -> (forall b, In b bs -> b <> a -> val s b = None) ->
  NoDup (filter (fun b => negb (str_eqb b a)) bs) ->
  fst (abs_alias s a bs) = Ok tt
  /\ (forall n, val (snd (abs_alias s a bs)) n = if gin n bs then Some v else val s n).
Proof.
  induction bs as [|b bs IH]; intros s v Ea H N; simpl; [auto|]. simpl in N.
  destruct (str_eqb_spec b a) as [->|Nb]; simpl in N.
  - destruct (IH s v Ea) as [IH1 IH2]; auto.
    { intros c Ic. apply H. now right. }
    split; auto. intro n. rewrite IH2. destruct (gin n bs); [now rewrite orb_true_r|]. rewrite orb_false_r.
    destruct (str_eqb_spec n a) as [->|]; auto.
  - inversion N as [|? ? N1 N2]; subst. rewrite Ea. rewrite (H b (or_introl eq_refl) Nb).
    destruct (IH (abs_join s a b) v) as [IH1 IH2]; auto.
    + simpl. rewrite Ea. now destruct (str_eqb a b).
    + intros c Ic Nc. simpl. rewrite str_eqb_neq; [apply H; auto; now right|]. intros ->. apply N1.
      apply filter_In. split; auto. apply negb_true_iff. now apply str_eqb_neq.
    + split; auto. intro n. rewrite IH2. simpl. destruct (gin n bs); [now rewrite orb_true_r|]. rewrite orb_false_r.
      destruct (str_eqb n b); auto.
Qed.

Lemma alias_fresh {V} (m : amap V) a bs v :
  consistent m -> getitem m a = Ok v -> (forall b, In b bs -> b <> a -> contains m b = false) ->
  NoDup (filter (fun b => negb (str_eqb b a)) bs) ->
  exists m', alias_set mkset m a bs = (Ok tt, m') /\ consistent m'
  /\ (forall b, In b bs -> getitem m' b = Ok v)
  /\ (forall b, ~ In b bs -> getitem m' b = getitem m b).
Proof.
  intros C Ga H N. apply consistent_dict in C as [d [-> G]]. assert (R := refines_self d G).
  set (s := self_abs d) in *. clearbody s.
  assert (Ea : val s a = Some v). { rewrite (get_refines d s a R) in Ga. destruct (val s a); congruence. }
  destruct (abs_alias_fresh a bs s v Ea) as [F1 F2]; auto.
  { intros b Ib Nb. specialize (H b Ib Nb). rewrite (contains_refines d s b R) in H. now destruct (val s b). }
  destruct (refines_alias mkset order a bs d s R) as [d' [E R']]. rewrite F1 in E.
  exists (of_dict d'). split; auto. split; [apply consistent_dict; exists d'; split; auto; apply R'|]. split; intros b Ib.
  - rewrite (get_refines d' _ b R'), F2. apply gin_In in Ib. now rewrite Ib.
  - rewrite (get_refines d' _ b R'), F2, (get_refines d s b R). apply gin_false in Ib. now rewrite Ib.
Qed.

(** * Copies *)

Lemma geq_refl g : geq g g = true.
Proof. unfold geq. rewrite Nat.eqb_refl. apply forallb_forall. intros a I. now apply gin_In. Qed.

Lemma geq_member g h a : geq g h = true -> In a g -> In a h.
Proof.
  unfold geq. rewrite andb_true_iff, forallb_forall. intros [_ H] I. now apply gin_In, H.
Qed.

Lemma resolve_group_good {V} (d : @gdict V) g v : good d -> In (g, v) d ->
  resolve_group (of_dict d) g = Some g.
Proof.
  intros G I. unfold resolve_group. simpl. destruct (find _ _) as [h|] eqn:E.
  - apply find_some in E as [J E]. apply in_map_iff in J as [[k w] [Ek J]]. simpl in Ek. subst k.
    destruct (good_nonempty d h w G J) as [_ [a Ia]].
    f_equal. apply (good_uniq d G h w g v a); auto. eapply geq_member; eauto.
  - exfalso. assert (In g (map fst d)) as J by (apply in_map_iff; exists (g, v); auto).
    apply (find_none _ _ E) in J. now rewrite geq_refl in J.
Qed.

Lemma aliased_items_good {V} (d : @gdict V) : good d -> aliased_items (of_dict d) = Ok d.
Proof.
  intro G. unfold aliased_items. simpl.
  assert (forall e, (forall p, In p e -> In p d) ->
    mapM (fun g => do v <- getitem_group (of_dict d) g; Ok (g, v)) (map fst e) = Ok e) as X.
  { induction e as [|[g v] e IH]; intro H; [reflexivity|]. simpl.
    assert (In (g, v) d) as I by (apply H; now left).
    unfold getitem_group at 1. rewrite (resolve_group_good d g v G I).
    destruct (good_nonempty d g v G I) as [_ [a Ia]]. rewrite (truthy_In g a Ia). simpl.
    rewrite (dget_spec d g v G I). simpl. rewrite IH; auto. intros p Ip. apply H. now right. }
  now apply X.
Qed.

Lemma dict_of_good {V} (d : @gdict V) : good d -> dict_of d = d.
Proof.
  unfold dict_of. induction d as [|[g v] d IH] using rev_ind; intro G; [reflexivity|].
  assert (good d /\ ~ In g (map fst d)) as [G1 Ng].
  { clear IH. induction d as [|[h w] d IH]; [split; [apply good_nil|auto]|]. simpl in G.
    apply good_cons in G as [F [D G]]. destruct (IH G) as [G1 N]. split.
    - apply good_cons. split; auto. split; auto. intros k u a I. apply (D k u a). apply in_or_app. auto.
    - intros [E|E]; auto. simpl in E. subst h. destruct F as [_ F]. destruct g as [|a g]; [congruence|].
      apply (D (a :: g) v a); [apply in_or_app; right; now left|now left|now left]. }
  rewrite fold_left_app, IH by auto. simpl. now apply dset_new.
Qed.

Lemma mapping_of_map_good {V} (d : @gdict V) : good d -> mapping_of_map (of_dict d) = Ok (of_dict d).
Proof. intro G. unfold mapping_of_map. rewrite aliased_items_good by auto. simpl. now rewrite dict_of_good. Qed.

Lemma good_members {V} (d : @gdict V) : good d ->
  disjoint (map (fun p => members (fst p)) (map (fun p => (Many (fst p), snd p)) d))
  /\ Forall (fun p => members (fst p) <> []) (map (fun p : group * V => (Many (fst p), snd p)) d).
Proof.
  intros [D F]. rewrite map_map. simpl. split; auto.
  apply Forall_forall. intros p I. apply in_map_iff in I as [[g v] [E I]]. subst p. simpl.
  rewrite Forall_forall in F. destruct (F g) as [_ N]; auto. apply in_map_iff. exists (g, v). auto.
Qed.

Lemma copy_same {V} (m : amap V) : consistent m ->
  consistent (copy mkset m)
  /\ (forall a, getitem (copy mkset m) a = getitem m a)
  /\ (forall a b, aliases_of (copy mkset m) a b <-> aliases_of m a b).
Proof.
  intro C. apply consistent_dict in C as [d [-> G]]. unfold copy. simpl.
  destruct (good_members d G) as [D F]. assert (R1 := refines_init mkset order _ D F).
  assert (R2 := refines_self d G). unfold self_abs in R2. split; [|split].
  - apply consistent_dict. eexists. split; [reflexivity|]. apply R1.
  - intro a. unfold mapping. now rewrite (get_refines _ _ a R1), (get_refines _ _ a R2).
  - intros a b. unfold mapping. now rewrite (aliases_refines _ _ a b R1), (aliases_refines _ _ a b R2).
Qed.

Lemma map_of_map_same {V} (m : amap V) : consistent m -> mapping_of_map m = Ok m.
Proof. intro C. apply consistent_dict in C as [d [-> G]]. now apply mapping_of_map_good. Qed.

(** * Merged mappings *)

Definition has {V} (d : @gdict V) (a : str) : Prop := exists g v, In (g, v) d /\ In a g.
Definition reads {V} (d : @gdict V) (a : str) (v : V) : Prop := exists g, In (g, v) d /\ In a g.

Lemma dset_app_l {V} (d1 d2 : @gdict V) g v : In g (map fst d1) -> dset (d1 ++ d2) g v = dset d1 g v ++ d2.
Proof.
  induction d1 as [|[h w] d1 IH]; [contradiction|]. intro I. simpl. destruct (gmatch g h) eqn:E; [reflexivity|].
  simpl. rewrite IH; auto. destruct I as [I|I]; auto. simpl in I. subst. now rewrite gmatch_refl in E.
Qed.

Lemma good_sub {V} (d1 d2 : @gdict V) : good (d1 ++ d2) -> good d1 /\ good d2.
Proof.
  induction d1 as [|[g v] d1 IH]; simpl; intro G; [split; [apply good_nil|auto]|].
  apply good_cons in G as [F [D G]]. destruct (IH G) as [G1 G2]. split; auto.
  apply good_cons. split; auto. split; auto. intros h w a I. apply (D h w a). apply in_or_app. auto.
Qed.

Lemma good_app_fresh {V} (d : @gdict V) g v : good (d ++ [(g, v)]) -> forall h w a, In (h, w) d -> In a g -> ~ In a h.
Proof.
  induction d as [|[k x] d IH]; [contradiction|]. simpl. intros G h w a I Ia.
  apply good_cons in G as [F [D G]]. destruct I as [I|I]; [|eapply IH; eauto].
  injection I as -> ->. intro Ja. eapply (D g v a); eauto. apply in_or_app. right. now left.
Qed.

(** Folding a disjoint dictionary [d2] into a disjoint [d1]. *)
Lemma fold_layer {V} (d1 : @gdict V) : good d1 -> forall d2, good d2 ->
  exists e1 e2, fold_left (fun d p => dset d (fst p) (snd p)) d2 d1 = e1 ++ e2
  /\ map fst e1 = map fst d1 /\ good e1 /\ good e2
  /\ (forall g, In g (map fst e2) -> ~ In g (map fst e1))
  /\ (forall a, has e2 a -> has d2 a)
  /\ (forall a v, reads d2 a v -> reads e2 a v \/ (~ has e2 a /\ reads e1 a v))
  /\ (forall a v, ~ has d2 a -> (reads e1 a v <-> reads d1 a v)).
Proof.
  intros G1 d2. induction d2 as [|[g v] d2 IH] using rev_ind; intro G2.
  - exists d1, []. rewrite app_nil_r. split; auto. split; auto. split; auto. split; [apply good_nil|].
    split; [intros g []|]. split; [intros a [g [v [[] _]]]|]. split; [intros a v [g [[] _]]|tauto].
  - destruct (good_sub _ _ G2) as [G2' _]. assert (Fr := good_app_fresh d2 g v G2).
    assert (Gg : NoDup g /\ exists a, In a g).
    { apply (good_nonempty (d2 ++ [(g, v)]) g v); auto. apply in_or_app. right. now left. }
    destruct Gg as [Ng [a0 Ia0]].
    destruct (IH G2') as [e1 [e2 [E [K [Ge1 [Ge2 [Nk [H1 [H2 H3]]]]]]]]]. clear IH.
    rewrite fold_left_app, E. cbn [fold_left fst snd].
    assert (N2 : forall a, In a g -> ~ has d2 a).
    { intros a Ia [h [w [J Ja]]]. eapply Fr; eauto. }
    assert (Hs : forall a, has (d2 ++ [(g, v)]) a <-> has d2 a \/ In a g).
    { intro a. unfold has. split.
      - intros [h [w [J Ja]]]. apply in_app_or in J as [J|[J|[]]]; [left; eauto|]. injection J as <- <-. auto.
      - intros [[h [w [J Ja]]]|Ia]; [exists h, w|exists g, v]; split; auto; apply in_or_app; [auto|right; now left]. }
    assert (Rs : forall a w, reads (d2 ++ [(g, v)]) a w <-> reads d2 a w \/ (In a g /\ w = v)).
    { intros a w. unfold reads. split.
      - intros [h [J Ja]]. apply in_app_or in J as [J|[J|[]]]; [left; eauto|]. injection J as <- <-. auto.
      - intros [[h [J Ja]]|[Ia ->]]; [exists h|exists g]; split; auto; apply in_or_app; [auto|right; now left]. }
    destruct (in_dec (list_eq_dec str_eq_dec) g (map fst e1)) as [Ig|Ig].
    + rewrite dset_app_l by auto. exists (dset e1 g v), e2. split; auto.
      assert (K' : map fst (dset e1 g v) = map fst e1).
      { rewrite dset_keys. apply existsb_gmatch in Ig. now rewrite Ig. }
      split; [congruence|]. split; [now apply good_dset_old|]. split; auto. split; [now rewrite K'|].
      assert (exists w, In (g, w) e1) as Ex.
      { apply in_map_iff in Ig as [[h w] [Eh I]]. simpl in Eh. subst. eauto. }
      assert (I' := dset_In_old e1 g v Ge1 Ex). destruct Ex as [w0 Iw0].
      assert (Re : forall a w, reads (dset e1 g v) a w <-> (In a g /\ w = v) \/ (~ In a g /\ reads e1 a w)).
      { intros a w. unfold reads. split.
        - intros [h [J Ja]]. apply I' in J as [[-> ->]|[N J]]; auto. right. split; eauto.
          intro Ia. apply N. apply (good_uniq e1 Ge1 h w g w0 a); auto.
        - intros [[Ia ->]|[N [h [J Ja]]]].
          + exists g. split; auto. apply I'. auto.
          + exists h. split; auto. apply I'. right. split; auto. now intros ->. }
      split; [|split].
      * intros a Ha. apply Hs. auto.
      * intros a w Ra. apply Rs in Ra as [Ra|[Ia ->]].
        -- destruct (H2 a w Ra) as [L|[L1 L2]]; auto. right. split; auto. apply Re. right. split; auto.
           intro Ia. apply (N2 a Ia). destruct Ra as [h [J Ja]]. exists h, w. auto.
        -- right. split; [|apply Re; auto]. intro Ha. apply (N2 a Ia). auto.
      * intros a w Na. rewrite Hs in Na. rewrite Re, H3 by tauto. tauto.
    + assert (Ne2 : ~ In g (map fst e2)).
      { apply (fresh_notin e2 g a0); auto. intros h w J Ja. apply (N2 a0 Ia0). apply H1. exists h, w. auto. }
      exists e1, (e2 ++ [(g, v)]). split.
      { rewrite dset_new; [now rewrite app_assoc|]. rewrite map_app, in_app_iff. tauto. }
      split; auto. split; auto. split.
      { apply good_app; auto; [destruct g; [contradiction|discriminate]|]. intros h w a J Ia Ja. apply (N2 a Ia), H1.
        exists h, w. auto. }
      split. { intros h J. rewrite map_app, in_app_iff in J. destruct J as [J|[<-|[]]]; auto. }
      assert (He : forall a, has (e2 ++ [(g, v)]) a <-> has e2 a \/ In a g).
      { intro a. unfold has. split.
        - intros [h [w [J Ja]]]. apply in_app_or in J as [J|[J|[]]]; [left; eauto|]. injection J as <- <-. auto.
        - intros [[h [w [J Ja]]]|Ia]; [exists h, w|exists g, v]; split; auto; apply in_or_app; [auto|right; now left]. }
      split; [|split].
      * intros a Ha. apply Hs. apply He in Ha as [Ha|Ha]; auto.
      * intros a w Ra. apply Rs in Ra as [Ra|[Ia ->]].
        -- destruct (H2 a w Ra) as [[h [J Ja]]|[L1 L2]].
           ++ left. exists h. split; auto. apply in_or_app. auto.
           ++ right. split; auto. rewrite He. intros [L|L]; auto. apply (N2 a L). destruct Ra as [h [J Ja]].
              exists h, w. auto.
        -- left. exists g. split; auto. apply in_or_app. right. now left.
      * intros a w Na. rewrite Hs in Na. apply H3. tauto.
Qed.

Lemma flat_get_app l m a :
  flat_get (l ++ m) a = match flat_get m a with Some g => Some g | None => flat_get l a end.
Proof.
  induction l as [|[b g] l IH]; simpl; [now destruct (flat_get m a)|]. rewrite IH.
  destruct (flat_get m a); auto.
Qed.

Lemma dget_app_l {V} (d1 d2 : @gdict V) g : In g (map fst d1) -> dget (d1 ++ d2) g = dget d1 g.
Proof.
  induction d1 as [|[h w] d1 IH]; [contradiction|]. intro I. simpl. destruct (gmatch g h) eqn:E; auto.
  apply IH. destruct I as [I|I]; auto. simpl in I. subst. now rewrite gmatch_refl in E.
Qed.

Lemma dget_app_r {V} (d1 d2 : @gdict V) g : ~ In g (map fst d1) -> dget (d1 ++ d2) g = dget d2 g.
Proof.
  induction d1 as [|[h w] d1 IH]; [auto|]. simpl. intro N. destruct (gmatch g h) eqn:E.
  - apply gmatch_eq in E. subst. tauto.
  - apply IH. tauto.
Qed.

(** Look-up in two layers. *)
Lemma getitem_layers {V} (e1 e2 : @gdict V) a :
  good e1 -> good e2 -> (forall g, In g (map fst e2) -> ~ In g (map fst e1)) ->
  getitem (of_dict (e1 ++ e2)) a =
  match getitem (of_dict e2) a with Ok v => Ok v | Err _ => getitem (of_dict e1) a end.
Proof.
  intros G1 G2 N. assert (flat_of (e1 ++ e2) = flat_of e1 ++ flat_of e2) as F.
  { unfold flat_of. now rewrite map_app, concat_app. }
  assert (R : resolve_key (of_dict (e1 ++ e2)) a =
    match resolve_key (of_dict e2) a with Some g => Some g | None => resolve_key (of_dict e1) a end).
  { unfold resolve_key. simpl. rewrite F. apply flat_get_app. }
  unfold getitem. rewrite R. destruct (resolve_key (of_dict e2) a) as [g|] eqn:R2.
  - apply resolve_spec in R2 as [v [I Ia]]; auto. rewrite (truthy_In g a Ia). simpl.
    assert (In g (map fst e2)) as Ig by (apply in_map_iff; exists (g, v); auto).
    rewrite dget_app_r by auto. now rewrite (dget_spec e2 g v).
  - simpl. destruct (resolve_key (of_dict e1) a) as [g|] eqn:R1; [|reflexivity].
    apply resolve_spec in R1 as [v [I Ia]]; auto. rewrite (truthy_In g a Ia). simpl.
    rewrite dget_app_l; auto. apply in_map_iff. exists (g, v). auto.
Qed.

(** The value seen through two layers. *)
Definition lookup2 {V} (d1 d2 : @gdict V) (a : str) : res V :=
  match getitem (of_dict d2) a with Ok v => Ok v | Err _ => getitem (of_dict d1) a end.

Lemma get_cases {V} (d : @gdict V) a : good d ->
  (exists v, getitem (of_dict d) a = Ok v /\ reads d a v) \/ (getitem (of_dict d) a = Err KeyError /\ ~ has d a).
Proof.
  intro G. rewrite (get_refines d _ a (refines_self d G)).
  destruct (val (self_abs d) a) as [v|] eqn:E.
  - left. exists v. split; auto. apply (refines_self d G) in E. exact E.
  - right. split; auto. intros [g [v [I Ia]]]. apply (refines_none d _ a (refines_self d G)) with (g := g) (v := v) in E; auto.
Qed.

Lemma reads_has {V} (d : @gdict V) a v : reads d a v -> has d a.
Proof. intros [g [I Ia]]. exists g, v. auto. Qed.

Lemma reads_fun {V} (d : @gdict V) a v : good d -> reads d a v -> getitem (of_dict d) a = Ok v.
Proof. intros G H. now apply getitem_spec. Qed.

Lemma layer_lookup {V} (d1 d2 e1 e2 : @gdict V) :
  good d1 -> good d2 -> good e1 -> good e2 ->
  (map fst e1 = map fst d1) ->
  (forall a, has e2 a -> has d2 a) ->
  (forall a v, reads d2 a v -> reads e2 a v \/ (~ has e2 a /\ reads e1 a v)) ->
  (forall a v, ~ has d2 a -> (reads e1 a v <-> reads d1 a v)) ->
  forall a, lookup2 e1 e2 a = lookup2 d1 d2 a.
Proof.
  intros G1 G2 Ge1 Ge2 _ H1 H2 H3 a. unfold lookup2.
  destruct (get_cases d2 a G2) as [[v [-> Rv]]|[-> N]].
  - destruct (H2 a v Rv) as [R|[N R]].
    + now rewrite (reads_fun e2 a v).
    + destruct (get_cases e2 a Ge2) as [[w [E Rw]]|[E Nw]]; [exfalso; apply N; eapply reads_has; eauto|].
      rewrite E. now apply reads_fun.
  - destruct (get_cases e2 a Ge2) as [[w [E Rw]]|[E Nw]]; [exfalso; apply N, H1; eapply reads_has; eauto|].
    rewrite E. destruct (get_cases d1 a G1) as [[v [-> Rv]]|[-> Nv]].
    + apply reads_fun; auto. now apply H3.
    + destruct (get_cases e1 a Ge1) as [[v [E' Rv]]|[-> _]]; auto. exfalso. apply Nv.
      apply H3 in Rv; auto. eapply reads_has; eauto.
Qed.

Definition rekey {V} (d : @gdict V) : @gdict V := map (fun p => (mkset (fst p), snd p)) d.

Lemma good_rekey {V} (d : @gdict V) : good d -> good (rekey d).
Proof.
  induction d as [|[g v] d IH]; intro G; [apply good_nil|]. simpl. apply good_cons in G as [[N E] [D G]].
  apply good_cons. split; [split; [apply mkset_NoDup|apply mkset_nonempty]; auto|]. split; auto.
  intros h w a I. apply in_map_iff in I as [[k u] [Ek I]]. injection Ek as <- <-.
  rewrite !mkset_In by auto. eauto.
Qed.

Lemma get_rekey {V} (d : @gdict V) a : good d -> getitem (of_dict (rekey d)) a = getitem (of_dict d) a.
Proof.
  intro G. assert (G' := good_rekey d G). destruct (get_cases d a G) as [[v [-> [g [I Ia]]]]|[-> N]].
  - apply getitem_spec; auto. exists (mkset g). split; [apply in_map_iff; exists (g, v); auto|].
    now apply mkset_In.
  - apply getitem_none; auto. intros g v I Ia. apply in_map_iff in I as [[k u] [Ek I]]. injection Ek as <- <-.
    rewrite mkset_In in Ia by auto. apply N. exists k, u. auto.
Qed.

Lemma build_many {V} (d : @gdict V) : forall out,
  fold_left (build_step mkset) (map (fun p => (Many (fst p), snd p)) d) out
  = fold_left (fun d p => dset d (fst p) (snd p)) (rekey d) out.
Proof. induction d as [|[g v] d IH]; intro out; [reflexivity|]. simpl. apply IH. Qed.

Lemma or_lookup {V} (m n : amap V) : consistent m -> consistent n ->
  exists r, map_or mkset m n = Ok r
  /\ forall a, getitem r a = match getitem n a with Ok v => Ok v | Err _ => getitem m a end.
Proof.
  intros Cm Cn. apply consistent_dict in Cm as [d1 [-> G1]]. apply consistent_dict in Cn as [d2 [-> G2]].
  unfold map_or. rewrite !aliased_items_good by auto. simpl.
  assert (dict_of (d1 ++ d2) = fold_left (fun d p => dset d (fst p) (snd p)) d2 d1) as ->.
  { unfold dict_of. rewrite fold_left_app. f_equal. now apply dict_of_good. }
  destruct (fold_layer d1 G1 d2 G2) as [e1 [e2 [-> [K [Ge1 [Ge2 [Nk [H1 [H2 H3]]]]]]]]].
  eexists. split; [reflexivity|]. intro a.
  assert (L := layer_lookup d1 d2 e1 e2 G1 G2 Ge1 Ge2 K H1 H2 H3 a).
  unfold mapping, build_from_aliases. rewrite build_many.
  assert (rekey (e1 ++ e2) = rekey e1 ++ rekey e2) as -> by apply map_app. rewrite fold_left_app.
  change (fold_left (fun d p => dset d (fst p) (snd p)) (rekey e1) []) with (dict_of (rekey e1)).
  rewrite (dict_of_good (rekey e1)) by now apply good_rekey.
  assert (Gr1 := good_rekey e1 Ge1). assert (Gr2 := good_rekey e2 Ge2).
  destruct (fold_layer (rekey e1) Gr1 (rekey e2) Gr2) as [f1 [f2 [-> [K' [Gf1 [Gf2 [Nk' [H1' [H2' H3']]]]]]]]].
  assert (L' := layer_lookup _ _ f1 f2 Gr1 Gr2 Gf1 Gf2 K' H1' H2' H3' a).
  rewrite getitem_layers by auto. unfold lookup2 in *. rewrite L'. rewrite !get_rekey by auto. exact L.
Qed.

End Order.
