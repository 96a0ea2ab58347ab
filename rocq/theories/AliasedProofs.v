(** Proofs about aliased mappings. *)

From Coq Require Import List Bool Arith Lia Permutation Relations.
From Verif Require Import Py PyFacts AliasedModel AliasedSpec.
Import ListNotations.
Open Scope list_scope.
Open Scope py_scope.

(** * Boolean tests *)

Lemma gin_In a g : gin a g = true <-> In a g.
Proof.
  unfold gin. rewrite existsb_exists. split.
  - intros [b [I E]]. apply (reflect_iff _ _ (str_eqb_spec _ _)) in E. now subst.
  - intro I. exists a. split; auto. apply str_eqb_refl.
Qed.

Lemma gin_false a g : gin a g = false <-> ~ In a g.
Proof. rewrite <- gin_In. destruct (gin a g); intuition congruence. Qed.

Lemma gmatch_eq g h : gmatch g h = true <-> g = h.
Proof. unfold gmatch. destruct (list_eq_dec str_eq_dec g h); intuition congruence. Qed.

Lemma gmatch_refl g : gmatch g g = true.
Proof. now apply gmatch_eq. Qed.

Lemma gmatch_neq g h : gmatch g h = false <-> g <> h.
Proof. rewrite <- gmatch_eq. destruct (gmatch g h); intuition congruence. Qed.

Lemma str_eqb_iff a b : str_eqb a b = true <-> a = b.
Proof. symmetry. apply (reflect_iff _ _ (str_eqb_spec _ _)). Qed.

Lemma geq_same g h : NoDup g -> NoDup h -> (geq g h = true <-> forall a, In a g <-> In a h).
Proof.
  intros Ng Nh. unfold geq. rewrite andb_true_iff, Nat.eqb_eq, forallb_forall. split.
  - intros [L H] a. assert (incl g h) as I by (intros x Ix; now apply gin_In, H).
    split; auto. apply NoDup_length_incl; auto. lia.
  - intro H. split.
    + apply Nat.le_antisymm; apply NoDup_incl_length; auto; intros x; apply H.
    + intros x Ix. apply gin_In. now apply H.
Qed.

Lemma truthy_In (g : group) a : In a g -> truthy (Some g) = Some g.
Proof. destruct g; [contradiction|reflexivity]. Qed.

(** * Disjoint dictionaries *)

Definition good {V} (d : @gdict V) : Prop :=
  disjoint (map fst d) /\ Forall (fun g => NoDup g /\ g <> []) (map fst d).

Lemma good_cons {V} g (v : V) d :
  good ((g, v) :: d) <->
  (NoDup g /\ g <> []) /\ (forall h w a, In (h, w) d -> In a g -> ~ In a h) /\ good d.
Proof.
  unfold good, disjoint. simpl. split.
  - intros [D F]. inversion D as [|? ? D1 D2]; subst. inversion F; subst. split; auto. split; auto.
    intros h w a I Ia Ih. rewrite Forall_forall in D1.
    apply (D1 h (in_map fst _ _ I) a Ia Ih).
  - intros [F [H [D F']]]. split; constructor; auto.
    apply Forall_forall. intros h I a Ia. apply in_map_iff in I as [[h' w] [E I]]. simpl in E. subst.
    eauto.
Qed.

Lemma good_nil {V} : good (@nil (group * V)).
Proof. split; constructor. Qed.

Lemma good_uniq {V} (d : @gdict V) : good d -> forall g v h w a,
  In (g, v) d -> In (h, w) d -> In a g -> In a h -> g = h /\ v = w.
Proof.
  induction d as [|[k x] d IH]; [contradiction|]. intros G g v h w a I J Ia Ja.
  apply good_cons in G as [_ [H G]].
  destruct I as [I|I], J as [J|J]; try (injection I as -> ->); try (injection J as -> ->); auto.
  - exfalso. eapply H; eauto.
  - exfalso. eapply H; eauto.
  - eapply IH; eauto.
Qed.

Lemma good_nonempty {V} (d : @gdict V) g v : good d -> In (g, v) d -> NoDup g /\ exists a, In a g.
Proof.
  intros [_ F] I. rewrite Forall_forall in F. destruct (F g (in_map fst _ _ I)) as [N E]. split; auto.
  destruct g as [|a g]; [congruence|]. exists a. now left.
Qed.

Lemma good_uniq_key {V} (d : @gdict V) g v w : good d -> In (g, v) d -> In (g, w) d -> v = w.
Proof.
  intros G I J. destruct (good_nonempty d g v G I) as [_ [a Ia]].
  now destruct (good_uniq d G g v g w a).
Qed.

(** * Look-up *)

Lemma flat_of_In {V} (d : @gdict V) a g : In (a, g) (flat_of d) <-> exists v, In (g, v) d /\ In a g.
Proof.
  unfold flat_of. rewrite in_concat. split.
  - intros [l [I J]]. apply in_map_iff in I as [[h v] [E I]]. subst l.
    apply in_map_iff in J as [b [E J]]. simpl in *. injection E as -> ->. eauto.
  - intros [v [I J]]. exists (map (fun a => (a, g)) g). split.
    + apply in_map_iff. exists (g, v). auto.
    + apply in_map_iff. eauto.
Qed.

Lemma flat_get_In l a g : flat_get l a = Some g -> In (a, g) l.
Proof.
  induction l as [|[b h] l IH]; simpl; [discriminate|]. destruct (flat_get l a) as [k|] eqn:E.
  - intro H. injection H as ->. auto.
  - destruct (str_eqb_spec a b); [|discriminate]. intro H. injection H as ->. subst. auto.
Qed.

Lemma flat_get_None l a : flat_get l a = None -> forall g, ~ In (a, g) l.
Proof.
  induction l as [|[b h] l IH]; simpl; [auto|]. destruct (flat_get l a) as [k|] eqn:E; [discriminate|].
  destruct (str_eqb_spec a b) as [|N]; [discriminate|]. intros _ g [H|H]; [congruence|]. now apply (IH eq_refl g).
Qed.

Lemma resolve_spec {V} (d : @gdict V) : good d -> forall a g,
  resolve_key (of_dict d) a = Some g <-> exists v, In (g, v) d /\ In a g.
Proof.
  intros G a g. unfold resolve_key. simpl. rewrite <- flat_of_In. split; [apply flat_get_In|].
  intro I. destruct (flat_get (flat_of d) a) as [h|] eqn:E.
  - apply flat_get_In in E. apply flat_of_In in E as [w [J Ja]]. apply flat_of_In in I as [v [I Ia]].
    f_equal. apply (good_uniq d G h w g v a); auto.
  - exfalso. eapply flat_get_None; eauto.
Qed.

Lemma resolve_none {V} (d : @gdict V) a :
  resolve_key (of_dict d) a = None <-> forall g v, In (g, v) d -> ~ In a g.
Proof.
  unfold resolve_key. simpl. split.
  - intros E g v I J. eapply flat_get_None in E. apply E. apply flat_of_In. eauto.
  - intro H. destruct (flat_get (flat_of d) a) as [h|] eqn:E; auto. exfalso.
    apply flat_get_In in E. apply flat_of_In in E as [w [J Ja]]. eapply H; eauto.
Qed.

Lemma dget_spec {V} (d : @gdict V) g v : good d -> In (g, v) d -> dget d g = Some v.
Proof.
  intros G I. induction d as [|[h w] d IH]; [contradiction|]. simpl.
  destruct (gmatch g h) eqn:E.
  - apply gmatch_eq in E. subst h. f_equal. eapply good_uniq_key; eauto. now left.
  - destruct I as [I|I].
    + injection I as -> ->. now rewrite gmatch_refl in E.
    + apply IH; auto. now apply good_cons in G.
Qed.

Lemma getitem_spec {V} (d : @gdict V) : good d -> forall a v,
  getitem (of_dict d) a = Ok v <-> exists g, In (g, v) d /\ In a g.
Proof.
  intros G a v. unfold getitem. destruct (resolve_key (of_dict d) a) as [g|] eqn:R.
  - apply resolve_spec in R as [w [I J]]; auto. rewrite (truthy_In g a J). simpl.
    rewrite (dget_spec d g w) by auto. split.
    + intro E. injection E as ->. eauto.
    + intros [h [I' J']]. f_equal. symmetry. eapply (good_uniq d G h v g w a); eauto.
  - simpl. split; [discriminate|]. intros [g [I J]]. exfalso. rewrite resolve_none in R. eapply R; eauto.
Qed.

Lemma getitem_none {V} (d : @gdict V) : good d -> forall a,
  getitem (of_dict d) a = Err KeyError <-> forall g v, In (g, v) d -> ~ In a g.
Proof.
  intros G a. rewrite <- resolve_none. unfold getitem. destruct (resolve_key (of_dict d) a) as [g|] eqn:R; [|simpl; tauto].
  apply resolve_spec in R as [w [I J]]; auto. rewrite (truthy_In g a J). simpl.
  rewrite (dget_spec d g w) by auto. split; discriminate.
Qed.

(** * Assignment and deletion in dictionaries *)

Lemma dset_keys {V} (d : @gdict V) g v :
  map fst (dset d g v) = if existsb (gmatch g) (map fst d) then map fst d else map fst d ++ [g].
Proof.
  induction d as [|[h w] d IH]; [reflexivity|]. simpl. destruct (gmatch g h) eqn:E; [reflexivity|].
  simpl. rewrite IH. now destruct (existsb (gmatch g) (map fst d)).
Qed.

Lemma existsb_gmatch g l : existsb (gmatch g) l = true <-> In g l.
Proof.
  rewrite existsb_exists. split; [|intro I; exists g; split; auto using gmatch_refl].
  intros [h [I E]]. apply gmatch_eq in E. now subst.
Qed.

Lemma dset_In_old {V} (d : @gdict V) g v : good d -> (exists w, In (g, w) d) ->
  forall h u, In (h, u) (dset d g v) <-> (h = g /\ u = v) \/ (h <> g /\ In (h, u) d).
Proof.
  induction d as [|[k x] d IH]; intros G [w I] h u; [contradiction|]. simpl.
  assert (G' := G). apply good_cons in G' as [[N0 N1] [H G']].
  destruct (gmatch g k) eqn:E.
  - apply gmatch_eq in E. subst k. simpl. split.
    + intros [J|J]; [injection J; auto|]. right. split; auto. intros ->.
      destruct g as [|a g]; [congruence|]. eapply (H _ _ a J); now left.
    + intros [[-> ->]|[N [J|J]]]; auto. congruence.
  - apply gmatch_neq in E. destruct I as [I|I]; [congruence|].
    simpl. rewrite IH by eauto. split.
    + intros [J|[J|J]]; [injection J as <- <-| |]; intuition congruence.
    + intros [J|[N [J|J]]]; intuition.
Qed.

Lemma dset_new {V} (d : @gdict V) g v : ~ In g (map fst d) -> dset d g v = d ++ [(g, v)].
Proof.
  induction d as [|[h w] d IH]; simpl; [auto|]. intro H. destruct (gmatch g h) eqn:E.
  - apply gmatch_eq in E. subst. tauto.
  - rewrite IH; tauto.
Qed.

Lemma good_app {V} (d : @gdict V) g v :
  good d -> NoDup g -> g <> [] -> (forall h w a, In (h, w) d -> In a g -> ~ In a h) ->
  good (d ++ [(g, v)]).
Proof.
  intros G N E H. induction d as [|[k x] d IH]; simpl.
  - apply good_cons. split; [auto|]. split; [|apply good_nil]. intros h w a [].
  - apply good_cons in G as [F [D G]]. apply good_cons. split; auto. split.
    + intros h w a I. apply in_app_or in I as [I|[I|[]]]; eauto. injection I as <- <-. intros Ia Ja.
      eapply (H k x a); eauto. now left.
    + apply IH; auto. intros h w a I. apply (H h w a). now right.
Qed.

Lemma good_dset_old {V} (d : @gdict V) g v : good d -> In g (map fst d) -> good (dset d g v).
Proof.
  intros [D F] I. apply existsb_gmatch in I. unfold good. rewrite dset_keys, I. auto.
Qed.

Lemma fresh_notin {V} (d : @gdict V) g a :
  In a g -> (forall h w, In (h, w) d -> ~ In a h) -> ~ In g (map fst d).
Proof.
  intros Ia H I. apply in_map_iff in I as [[h w] [E I]]. simpl in E. subst h. eapply H; eauto.
Qed.

Lemma ddel_In {V} (d : @gdict V) g : good d -> forall h u,
  In (h, u) (ddel d g) <-> h <> g /\ In (h, u) d.
Proof.
  induction d as [|[k x] d IH]; intros G h u; simpl; [tauto|].
  assert (G' := G). apply good_cons in G' as [[N0 N1] [H G']]. destruct (gmatch g k) eqn:E.
  - apply gmatch_eq in E. subst k. split.
    + intro J. split; auto. intros ->. destruct g as [|a g]; [congruence|]. eapply (H _ _ a J); now left.
    + intros [N [J|J]]; auto. congruence.
  - apply gmatch_neq in E. simpl. rewrite IH by auto. split.
    + intros [J|J]; [injection J as <- <-; auto|tauto].
    + tauto.
Qed.

Lemma good_ddel {V} (d : @gdict V) g : good d -> good (ddel d g).
Proof.
  induction d as [|[k x] d IH]; intro G; simpl; [auto|]. assert (G' := G). apply good_cons in G' as [F [H G']].
  destruct (gmatch g k); auto. apply good_cons. split; auto. split; auto.
  intros h w a I. apply ddel_In in I as [_ I]; auto. eauto.
Qed.

Section Order.

Variable mkset : list str -> group.
Hypothesis order : set_order mkset.

Lemma mkset_In l a : In a (mkset l) <-> In a l.
Proof. apply order. Qed.
Lemma gof_In k a : In a (group_of mkset k) <-> In a (members k).
Proof. apply order. Qed.
Lemma mkset_NoDup l : NoDup (mkset l).
Proof. apply order. Qed.
Lemma mkset_nonempty l : l <> [] -> mkset l <> [].
Proof.
  intros N E. destruct l as [|a l]; [congruence|]. assert (In a (mkset (a :: l))) as I by (apply mkset_In; now left).
  rewrite E in I. contradiction.
Qed.
Lemma group_or_In g h a : In a (group_or mkset g h) <-> In a g \/ In a h.
Proof. unfold group_or. rewrite !mkset_In. apply in_app_iff. Qed.
Lemma group_or_NoDup g h : NoDup (group_or mkset g h).
Proof. apply mkset_NoDup. Qed.

(** * Building *)

(** [build_from_aliases] on disjoint keys appends one group per key. *)
Lemma disjoint_snoc gs g : disjoint (gs ++ [g]) <->
  disjoint gs /\ forall h a, In h gs -> In a h -> ~ In a g.
Proof.
  unfold disjoint. induction gs as [|k gs IH]; simpl.
  - split; [intros _; split; [constructor|contradiction]|]. intros _. constructor; constructor.
  - split.
    + intro D. inversion D as [|? ? F D']; subst. apply IH in D' as [D1 D2]. rewrite Forall_forall in F. split.
      * constructor; auto. apply Forall_forall. intros h I. apply F, in_or_app. now left.
      * intros h a [->|I]; [|now apply D2]. apply F, in_or_app. right; now left.
    + intros [D H]. inversion D as [|? ? F D']; subst. constructor.
      * apply Forall_app. split; [auto|]. constructor; [|constructor]. intro a. apply H. now left.
      * apply IH. split; [auto|]. intros h a I. apply H. now right.
Qed.

Lemma build_disjoint {V} (l : list (key * V)) :
  disjoint (map (fun p => members (fst p)) l) ->
  Forall (fun p => members (fst p) <> []) l ->
  build_from_aliases mkset l = map (fun p => (group_of mkset (fst p), snd p)) l
  /\ good (map (fun p => (group_of mkset (fst p), snd p)) l).
Proof.
  unfold build_from_aliases. induction l as [|p l IH] using rev_ind; intros D F.
  - split; [reflexivity|apply good_nil].
  - rewrite map_app in D. cbn [map] in D. apply disjoint_snoc in D as [D1 D2].
    apply Forall_app in F as [F1 F2]. apply Forall_inv in F2. destruct (IH D1 F1) as [E G]. clear IH.
    rewrite fold_left_app, E. cbn [fold_left]. rewrite map_app. cbn [map].
    assert (forall h w a, In (h, w) (map (fun p => (group_of mkset (fst p), snd p)) l) ->
            In a (group_of mkset (fst p)) -> ~ In a h) as H.
    { intros h w a I Ia Ja. apply in_map_iff in I as [q [Eq I]]. injection Eq as <- <-.
      unfold group_of in *. rewrite mkset_In in *.
      refine (D2 _ a _ Ja Ia). apply in_map_iff. eauto. }
    assert (NN : group_of mkset (fst p) <> []) by (now apply mkset_nonempty).
    split.
    + assert (dset (map (fun p => (group_of mkset (fst p), snd p)) l) (group_of mkset (fst p)) (snd p)
        = map (fun p => (group_of mkset (fst p), snd p)) l ++ [(group_of mkset (fst p), snd p)]) as ED.
      { apply dset_new. destruct (group_of mkset (fst p)) as [|a g] eqn:Eg; [congruence|].
        apply (fresh_notin _ _ a); [now left|]. intros h w I. eapply H; eauto. now left. }
      unfold build_step. destruct p as [[a|ks] v]; cbn [fst snd] in *; auto.
      destruct (find (gin a) _) as [g|] eqn:Ef; auto.
      apply find_some in Ef as [I Ia]. apply gin_In in Ia. exfalso.
      apply in_map_iff in I as [[h w] [Eh I]]. simpl in Eh. subst h.
      apply (H g w a I); auto. apply mkset_In. now left.
    + apply good_app; auto. apply mkset_NoDup.
Qed.

Lemma mapping_get {V} (l : list (key * V)) :
  disjoint (map (fun p => members (fst p)) l) -> Forall (fun p => members (fst p) <> []) l ->
  (forall k v a, In (k, v) l -> In a (members k) -> getitem (mapping mkset l) a = Ok v)
  /\ (forall a, (forall k v, In (k, v) l -> ~ In a (members k)) ->
      getitem (mapping mkset l) a = Err KeyError).
Proof.
  intros D F. destruct (build_disjoint l D F) as [E G]. unfold mapping. rewrite E. split.
  - intros k v a I Ia. apply getitem_spec; auto. exists (group_of mkset k). split.
    + apply in_map_iff. exists (k, v). auto.
    + now apply gof_In.
  - intros a H. apply getitem_none; auto. intros g v I Ia. apply in_map_iff in I as [[k w] [Eq I]].
    injection Eq as <- <-. unfold group_of in Ia. simpl in Ia. rewrite mkset_In in Ia. exact (H k w I Ia).
Qed.

(** * Refinement of the abstract map *)

Definition refines {V} (d : @gdict V) (s : abs V) : Prop :=
  good d
  /\ (forall a v, val s a = Some v <-> exists g, In (g, v) d /\ In a g)
  /\ (forall a b, rel s a b = true <-> exists g v, In (g, v) d /\ In a g /\ In b g).

Lemma refines_none {V} (d : @gdict V) s a :
  refines d s -> (val s a = None <-> forall g v, In (g, v) d -> ~ In a g).
Proof.
  intros [G [Rv _]]. split.
  - intros E g v I Ia. assert (val s a = Some v) as E' by (apply Rv; eauto). congruence.
  - intro H. destruct (val s a) as [v|] eqn:E; auto. apply Rv in E as [g [I Ia]]. exfalso. eapply H; eauto.
Qed.

Lemma refines_init {V} (l : list (key * V)) :
  disjoint (map (fun p => members (fst p)) l) -> Forall (fun p => members (fst p) <> []) l ->
  refines (build_from_aliases mkset l) (abs_of l).
Proof.
  intros D F. destruct (build_disjoint l D F) as [E G]. rewrite E. split; auto.
  assert (forall k v g, In (g, v) (map (fun p => (group_of mkset (fst p), snd p)) l) ->
          k = g -> exists q, In (q, v) l /\ g = group_of mkset q) as X.
  { intros k v g I _. apply in_map_iff in I as [[q w] [Eq I]]. injection Eq as <- <-. eauto. }
  split.
  - intros a v. unfold abs_of. simpl. split.
    + destruct (find _ l) as [[k w]|] eqn:Ef; simpl; [|discriminate]. intro H. injection H as ->.
      apply find_some in Ef as [I Ia]. apply gin_In in Ia. exists (group_of mkset k). split.
      * apply in_map_iff. exists (k, v). auto.
      * now apply gof_In.
    + intros [g [I Ia]]. destruct (X g v g I eq_refl) as [q [Iq ->]]. rewrite gof_In in Ia.
      destruct (find _ l) as [[k w]|] eqn:Ef.
      * simpl. apply find_some in Ef as [J Ja]. apply gin_In in Ja.
        f_equal. eapply (good_uniq _ G (group_of mkset k) w (group_of mkset q) v a); auto.
        -- apply in_map_iff. exists (k, w). auto.
        -- now apply gof_In.
        -- now apply gof_In.
      * apply (find_none _ _ Ef) in Iq. simpl in Iq. apply gin_false in Iq. contradiction.
  - intros a b. unfold abs_of. simpl. rewrite existsb_exists. split.
    + intros [[k w] [I H]]. apply andb_true_iff in H as [Ha Hb]. apply gin_In in Ha, Hb.
      exists (group_of mkset k), w. split; [apply in_map_iff; exists (k, w); auto|].
      split; now apply gof_In.
    + intros [g [v [I [Ia Ib]]]]. destruct (X g v g I eq_refl) as [q [Iq ->]].
      rewrite gof_In in Ia, Ib. exists (q, v). split; auto.
      apply andb_true_iff. split; now apply gin_In.
Qed.

Lemma rel_group {V} (d : @gdict V) s a g v :
  refines d s -> In (g, v) d -> In a g -> forall n, rel s a n = gin n g.
Proof.
  intros [G [_ Rr]] I Ia n. apply eq_true_iff_eq. rewrite gin_In, Rr. split.
  - intros [h [w [J [Ja Jn]]]]. destruct (good_uniq d G g v h w a) as [-> _]; auto.
  - eauto.
Qed.

Lemma refines_set {V} (d : @gdict V) s a v :
  refines d s ->
  exists d', setitem mkset (of_dict d) a v = of_dict d' /\ refines d' (abs_set s a v).
Proof.
  intro R. assert (R' := R). destruct R' as [G [Rv Rr]]. unfold setitem.
  destruct (val s a) as [u|] eqn:Ea.
  - assert (Ea' := Ea). apply Rv in Ea' as [g [I Ia]].
    assert (resolve_key (of_dict d) a = Some g) as -> by (apply resolve_spec; eauto).
    rewrite (truthy_In g a Ia). simpl. eexists. split; [reflexivity|].
    assert (In g (map fst d)) as Ig by (apply in_map_iff; exists (g, u); auto).
    assert (In' := dset_In_old d g v G (ex_intro _ u I)).
    unfold abs_set. rewrite Ea. split; [now apply good_dset_old|]. simpl. split.
    + intros n w. rewrite (rel_group d s a g u R I Ia n).
      destruct (gin n g) eqn:En.
      * apply gin_In in En. split.
        -- intro E. injection E as ->. exists g. rewrite In'. auto.
        -- intros [h [J Jn]]. apply In' in J as [[-> ->]|[N J]]; auto.
           exfalso. apply N. eapply (good_uniq d G h w g u n); auto.
      * apply gin_false in En. rewrite Rv. split; intros [h [J Jn]].
        -- exists h. rewrite In'. split; auto. right. split; auto. now intros ->.
        -- apply In' in J as [[-> ->]|[N J]]; [contradiction|]. eauto.
    + intros x y. rewrite Rr. split; intros [h [w [J [Jx Jy]]]].
      * destruct (list_eq_dec str_eq_dec h g) as [->|N].
        -- exists g, v. rewrite In'. auto.
        -- exists h, w. rewrite In'. auto.
      * apply In' in J as [[-> ->]|[N J]]; [exists g, u|exists h, w]; auto.
  - assert (N := proj1 (refines_none d s a R) Ea).
    assert (resolve_key (of_dict d) a = None) as -> by (now apply resolve_none). simpl.
    eexists. split; [reflexivity|].
    assert (forall b, In b (group_of mkset (One a)) <-> b = a) as Ga.
    { intro b. unfold group_of. rewrite mkset_In. simpl. intuition. }
    assert (dset d (group_of mkset (One a)) v = d ++ [(group_of mkset (One a), v)]) as ->.
    { apply dset_new. apply (fresh_notin d _ a); [now apply Ga|]. intros. eapply N; eauto. }
    unfold abs_set. rewrite Ea. split; [|simpl; split].
    + apply good_app; auto.
      * apply mkset_NoDup.
      * apply mkset_nonempty. discriminate.
      * intros h w b I Ib. apply Ga in Ib. subst. eauto.
    + intros n w. destruct (str_eqb_spec n a) as [->|Na].
      * split.
        -- intro E. injection E as ->. exists (group_of mkset (One a)). split; [|now apply Ga].
           apply in_or_app. right. now left.
        -- intros [h [J Jn]]. apply in_app_or in J as [J|[J|[]]]; [exfalso; eapply N; eauto|]. congruence.
      * rewrite Rv. split; intros [h [J Jn]].
        -- exists h. split; auto. apply in_or_app. auto.
        -- apply in_app_or in J as [J|[J|[]]]; eauto. injection J as <- <-. apply Ga in Jn. contradiction.
    + intros x y. rewrite orb_true_iff, andb_true_iff, !str_eqb_iff, Rr. split.
      * intros [[-> ->]|[h [w [J [Jx Jy]]]]].
        -- exists (group_of mkset (One a)), v. rewrite !Ga. split; auto. apply in_or_app. right. now left.
        -- exists h, w. split; auto. apply in_or_app. auto.
      * intros [h [w [J [Jx Jy]]]]. apply in_app_or in J as [J|[J|[]]]; [right; eauto|].
        injection J as <- <-. apply Ga in Jx. apply Ga in Jy. auto.
Qed.

Lemma refines_del {V} (d : @gdict V) s a :
  refines d s -> val s a <> None ->
  exists d', delitem (of_dict d) a = Ok (of_dict d') /\ refines d' (abs_del s a).
Proof.
  intros R Ea. assert (R' := R). destruct R' as [G [Rv Rr]]. unfold delitem.
  destruct (val s a) as [u|] eqn:E; [|congruence]. apply Rv in E as [g [I Ia]].
  assert (resolve_key (of_dict d) a = Some g) as -> by (apply resolve_spec; eauto).
  rewrite (truthy_In g a Ia). eexists. split; [reflexivity|]. simpl.
  split; [now apply good_ddel|]. simpl. split.
  - intros n w. rewrite (rel_group d s a g u R I Ia n). destruct (gin n g) eqn:En.
    + apply gin_In in En. split; [discriminate|]. intros [h [J Jn]]. apply ddel_In in J as [N J]; auto.
      exfalso. apply N. eapply (good_uniq d G h w g u n); auto.
    + apply gin_false in En. rewrite Rv. split; intros [h [J Jn]].
      * exists h. split; auto. apply ddel_In; auto. split; auto. now intros ->.
      * apply ddel_In in J as [N J]; eauto.
  - intros x y. rewrite andb_true_iff, negb_true_iff, Rr, (rel_group d s a g u R I Ia x), gin_false. split.
    + intros [[h [w [J [Jx Jy]]]] N]. exists h, w. split; auto. apply ddel_In; auto. split; auto. now intros ->.
    + intros [h [w [J [Jx Jy]]]]. apply ddel_In in J as [N J]; auto. split; eauto.
      intro Ix. apply N. eapply (good_uniq d G h w g u x); auto.
Qed.

Lemma in_flat_keys {V} (d : @gdict V) a :
  In a (flat_keys (of_dict d)) <-> exists g v, In (g, v) d /\ In a g.
Proof.
  unfold flat_keys. simpl. rewrite in_concat. split.
  - intros [g [I Ia]]. apply in_map_iff in I as [[h v] [E I]]. simpl in E. subst. eauto.
  - intros [g [v [I Ia]]]. exists g. split; auto. apply in_map_iff. exists (g, v). auto.
Qed.

Lemma refines_join {V} (d : @gdict V) s a b :
  refines d s -> val s a <> None -> val s b = None ->
  exists d', alias_step mkset (of_dict d) a b = (Ok tt, of_dict d') /\ refines d' (abs_join s a b).
Proof.
  intros R Ea Eb. assert (R' := R). destruct R' as [G [Rv Rr]]. unfold alias_step.
  assert (Nb := proj1 (refines_none d s b R) Eb).
  assert (gin b (flat_keys (of_dict d)) = false) as ->.
  { apply gin_false. intro I. apply in_flat_keys in I as [g [v [I Ib]]]. eapply Nb; eauto. }
  destruct (val s a) as [u|] eqn:Es; [|congruence]. assert (Es' := Es). apply Rv in Es' as [g [I Ia]].
  assert (Rk : resolve_key (of_dict d) a = Some g) by (apply resolve_spec; eauto). rewrite Rk.
  assert (getitem (of_dict d) a = Ok u) as -> by (apply getitem_spec; eauto).
  set (g' := group_or mkset g (mkset [b])).
  assert (Ig' : forall x, In x g' <-> In x g \/ x = b).
  { intro x. unfold g'. rewrite group_or_In, mkset_In. simpl. intuition. }
  assert (E : dset d g' u = d ++ [(g', u)]).
  { apply dset_new. apply (fresh_notin d _ b); [apply Ig'; auto|]. intros. eapply Nb; eauto. }
  unfold delitem. unfold resolve_key in *. simpl in *. rewrite Rk, (truthy_In g a Ia), E.
  eexists. split; [reflexivity|].
  assert (Egg : g' <> g). { intro H. eapply (Nb g u I). rewrite <- H. apply Ig'. auto. }
  assert (E2 : ddel (d ++ [(g', u)]) g = ddel d g ++ [(g', u)]).
  { clear - I. induction d as [|[k x] d IH]; [contradiction|]. simpl. destruct (gmatch g k) eqn:Eg; auto.
    simpl. rewrite IH; auto. destruct I as [I|I]; auto. injection I as -> ->. now rewrite gmatch_refl in Eg. }
  rewrite E2.
  assert (In'' : forall h w, In (h, w) (ddel d g ++ [(g', u)]) <-> (h <> g /\ In (h, w) d) \/ (h = g' /\ w = u)).
  { intros h w. rewrite in_app_iff, ddel_In by auto. simpl. split; intros [H|H]; auto.
    - right. destruct H as [H|[]]. injection H; auto.
    - destruct H as [-> ->]. auto. }
  split; [|simpl; split].
  - apply good_app.
    + now apply good_ddel.
    + apply group_or_NoDup.
    + intro Eg. assert (In a g') as X by (apply Ig'; auto). rewrite Eg in X. contradiction.
    + intros h w x J Jx Jh. apply ddel_In in J as [N J]; auto. apply Ig' in Jx as [Jx| ->].
      * apply N. eapply (good_uniq d G h w g u x); auto.
      * eapply Nb; eauto.
  - intros n w. destruct (str_eqb_spec n b) as [->|Nn].
    + rewrite Es. split.
      * intro H. injection H as ->. exists g'. rewrite In''. split; auto. apply Ig'. auto.
      * intros [h [J Jn]]. apply In'' in J as [[N J]|[-> ->]]; auto. exfalso. eapply Nb; eauto.
    + rewrite Rv. split; intros [h [J Jn]].
      * destruct (list_eq_dec str_eq_dec h g) as [->|N].
        -- exists g'. rewrite In'', Ig'. split; auto. right. split; auto. eapply good_uniq_key; eauto.
        -- exists h. rewrite In''. auto.
      * apply In'' in J as [[N J]|[-> ->]]; eauto. apply Ig' in Jn as [Jn|Jn]; [eauto|contradiction].
  - intros x y. rewrite orb_true_iff, andb_true_iff, !orb_true_iff, !str_eqb_iff, Rr.
    rewrite !(rel_group d s a g u R I Ia), !gin_In, <- !Ig'. split.
    + intros [[h [w [J [Jx Jy]]]]|[Jx Jy]].
      * destruct (list_eq_dec str_eq_dec h g) as [->|N].
        -- exists g', u. rewrite In'', !Ig'. auto.
        -- exists h, w. rewrite In''. auto.
      * exists g', u. rewrite In''. auto.
    + intros [h [w [J [Jx Jy]]]]. apply In'' in J as [[N J]|[-> ->]]; [left; eauto|auto].
Qed.

Lemma refines_alias {V} a bs : forall (d : @gdict V) s,
  refines d s ->
  exists d', alias_loop mkset (of_dict d) a bs = (fst (abs_alias s a bs), of_dict d')
             /\ refines d' (snd (abs_alias s a bs)).
Proof.
  induction bs as [|b bs IH]; intros d s R; simpl; [eauto|].
  destruct (str_eqb b a); [now apply IH|].
  assert (Rb := refines_none d s b R). assert (Ra := refines_none d s a R).
  destruct (val s a) as [u|] eqn:Ea.
  - destruct (val s b) as [w|] eqn:Eb.
    + exists d. split; auto. unfold alias_step.
      assert (In b (flat_keys (of_dict d))) as I.
      { apply in_flat_keys. destruct R as [G [Rv Rr]]. apply Rv in Eb as [g [I Ib]]. eauto. }
      apply gin_In in I. rewrite I. destruct R as [G [Rv Rr]]. apply Rv in Ea as [g [J Ja]].
      assert (resolve_key (of_dict d) a = Some g) as -> by (apply resolve_spec; eauto). reflexivity.
    + destruct (refines_join d s a b R) as [d' [E R']]; [congruence|auto|]. rewrite E. now apply IH.
  - exists d. split; auto. unfold alias_step.
    assert (resolve_key (of_dict d) a = None) as -> by (apply resolve_none; now apply Ra).
    destruct (gin b (flat_keys (of_dict d))); reflexivity.
Qed.

Lemma refines_run {V} (l : list (op V)) : forall d s,
  refines d s ->
  exists d', run mkset l (of_dict d) = (fst (abs_run l s), of_dict d') /\ refines d' (snd (abs_run l s)).
Proof.
  induction l as [|o l IH]; intros d s R; simpl; [eauto|].
  assert (exists d', run_op mkset o (of_dict d) = (fst (abs_op o s), of_dict d')
                     /\ refines d' (snd (abs_op o s))) as [d1 [E1 R1]].
  { destruct o as [a v|a|a bs]; simpl.
    - destruct (refines_set d s a v R) as [d' [-> R']]. eauto.
    - destruct (val s a) eqn:Ea.
      + destruct (refines_del d s a R) as [d' [-> R']]; [congruence|]. simpl. eauto.
      + exists d. unfold delitem.
        assert (resolve_key (of_dict d) a = None) as ->
          by (apply resolve_none; now apply (refines_none d s a R)). auto.
    - apply refines_alias; auto. }
  rewrite E1. destruct (abs_op o s) as [r s1]. simpl in *.
  destruct (IH d1 s1 R1) as [d2 [E2 R2]]. rewrite E2. destruct (abs_run l s1) as [rs s2]. simpl in *. eauto.
Qed.

Lemma good_keys_NoDup {V} (d : @gdict V) : good d -> NoDup (flat_keys (of_dict d)).
Proof.
  unfold flat_keys. simpl. induction d as [|[g v] d IH]; intro G; simpl; [constructor|].
  apply good_cons in G as [[N _] [H G]]. specialize (IH G).
  clear - N IH H. induction g as [|a g IHg]; simpl; auto. inversion N; subst. constructor.
  - intro I. apply in_app_or in I as [I|I]; auto. apply in_concat in I as [h [I J]].
    apply in_map_iff in I as [[k w] [E I]]. simpl in E. subst. eapply (H h w a); eauto. now left.
  - apply IHg; auto. intros h w b I Ib. apply (H h w b I). now right.
Qed.

Lemma refines_agrees {V} (d : @gdict V) s : refines d s -> agrees (of_dict d) s.
Proof.
  intro R. assert (R' := R). destruct R' as [G [Rv Rr]]. split; [|split; [|split; [|split; [|split]]]].
  - intro a. destruct (val s a) as [v|] eqn:E.
    + apply getitem_spec; auto. now apply Rv.
    + apply getitem_none; auto. now apply (refines_none d s a R).
  - intro a. unfold contains. destruct (val s a) as [v|] eqn:E.
    + apply Rv in E as [g [I Ia]]. assert (resolve_key (of_dict d) a = Some g) as -> by (apply resolve_spec; eauto).
      reflexivity.
    + assert (resolve_key (of_dict d) a = None) as -> by (apply resolve_none; now apply (refines_none d s a R)).
      reflexivity.
  - intro a. destruct (resolve_key (of_dict d) a) as [g|] eqn:E.
    + apply resolve_spec in E as [v [I Ia]]; auto. split; [|split].
      * assert (val s a = Some v) as -> by (apply Rv; eauto). discriminate.
      * now destruct (good_nonempty d g v G I).
      * intro b. rewrite (rel_group d s a g v R I Ia b). symmetry. apply gin_In.
    + apply (refines_none d s a R). now apply resolve_none.
  - exists (flat_keys (of_dict d)). split; [now apply good_keys_NoDup|]. split; auto.
    intro a. rewrite in_flat_keys. split.
    + intros [g [v [I Ia]]]. assert (val s a = Some v) as -> by (apply Rv; eauto). discriminate.
    + destruct (val s a) as [v|] eqn:E; [|congruence]. intros _. apply Rv in E as [g [I Ia]]. eauto.
  - apply G.
  - destruct G as [_ F]. simpl. eapply Forall_impl; [|apply F]. now intros g [_ H].
Qed.

End Order.
