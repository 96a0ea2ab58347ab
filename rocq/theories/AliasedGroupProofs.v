(** Proofs about collections of groups, name maps and interior aliases. *)

From Coq Require Import List Bool Arith Lia Permutation Relations.
From Verif Require Import Py PyFacts AliasedModel AliasedSpec AliasedProofs AliasedMapProofs.
Import ListNotations.
Open Scope list_scope.
Open Scope py_scope.

Lemma disjoint_mid gs g hs :
  disjoint (gs ++ g :: hs) <->
  disjoint (gs ++ hs) /\ forall h a, In h (gs ++ hs) -> In a g -> ~ In a h.
Proof.
  unfold disjoint. induction gs as [|k gs IH]; simpl.
  - split.
    + intro D. inversion D as [|? ? F D']; subst. rewrite Forall_forall in F. split; [auto|].
      intros h a I Ia. exact (F h I a Ia).
    + intros [D H]. constructor; auto. apply Forall_forall. intros h I a Ia. now apply (H h a).
  - split.
    + intro D. inversion D as [|? ? F D']; subst. apply IH in D' as [D1 D2]. rewrite Forall_forall in F. split.
      * constructor; auto. apply Forall_forall. intros h I. apply F. apply in_app_or in I as [I|I];
          apply in_or_app; [now left|right; now right].
      * intros h a [->|I] Ia; [|now apply D2]. intro Ja. refine (F g _ a Ja Ia). apply in_or_app. right. now left.
    + intros [D H]. inversion D as [|? ? F D']; subst. rewrite Forall_forall in F. constructor.
      * apply Forall_forall. intros h I a Ka Ja. apply in_app_or in I as [I|[<-|I]].
        -- refine (F h _ a Ka Ja). apply in_or_app. now left.
        -- exact (H k a (or_introl eq_refl) Ja Ka).
        -- refine (F h _ a Ka Ja). apply in_or_app. now right.
      * apply IH. split; auto.
Qed.

Lemma disjoint_unique gs : disjoint gs -> forall g h a, In g gs -> In h gs -> In a g -> In a h -> g = h.
Proof.
  intros D g h a I J Ia Ja. apply in_split in I as [l1 [l2 ->]]. apply disjoint_mid in D as [_ D].
  apply in_app_or in J as [J|[J|J]]; auto; exfalso; apply (D h a); auto; apply in_or_app; auto.
Qed.

Lemma together_trans gs : disjoint gs -> transitive _ (together gs).
Proof.
  intros D a b c [g [I [Ia Ib]]] [h [J [Jb Jc]]]. assert (g = h) as -> by (eapply disjoint_unique; eauto).
  exists h. auto.
Qed.

Section Order.

Variable mkset : list str -> group.
Hypothesis order : set_order mkset.

Lemma find_pred a k : gin a k || geq (group_of mkset (One a)) k = gin a k.
Proof.
  destruct (gin a k) eqn:E; [reflexivity|]. simpl. destruct (geq _ k) eqn:H; auto.
  exfalso. apply gin_false in E. apply E. eapply geq_member; eauto. apply gof_In; auto. now left.
Qed.

Lemma groups_find_some gs a g : groups_find mkset gs a = Some g -> In g gs /\ In a g.
Proof.
  unfold groups_find. intro H. apply find_some in H as [I E]. rewrite find_pred in E. apply gin_In in E. auto.
Qed.

Lemma groups_find_none gs a : groups_find mkset gs a = None -> forall g, In g gs -> ~ In a g.
Proof.
  unfold groups_find. intros H g I. apply (find_none _ _ H) in I. rewrite find_pred in I. now apply gin_false.
Qed.

Lemma search_some gs ms g : groups_search mkset gs ms = Some g -> In g gs /\ exists a, In a ms /\ In a g.
Proof.
  induction ms as [|a ms IH]; simpl; [discriminate|]. destruct (groups_find mkset gs a) as [h|] eqn:E.
  - apply groups_find_some in E as [I Ia]. rewrite (truthy_In h a Ia). intro H. injection H as <-. eauto.
  - simpl. intro H. apply IH in H as [I [b [Ib Jb]]]. eauto.
Qed.

Lemma search_none gs ms : groups_search mkset gs ms = None -> forall g a, In g gs -> In a ms -> ~ In a g.
Proof.
  induction ms as [|b ms IH]; simpl; [contradiction|]. destruct (groups_find mkset gs b) as [h|] eqn:E.
  - apply groups_find_some in E as [I Ia]. rewrite (truthy_In h b Ia). discriminate.
  - simpl. intros H g a I [<-|Ia]; [eapply groups_find_none; eauto|now apply IH].
Qed.

Lemma list_remove_spec gs g a : disjoint gs -> In g gs -> In a g ->
  exists l1 l2, gs = l1 ++ g :: l2 /\ list_remove g gs = Ok (l1 ++ l2).
Proof.
  intros D I Ia. induction gs as [|h gs IH]; [contradiction|]. simpl. destruct (geq h g) eqn:E.
  - assert (h = g) as ->; [|exists [], gs; auto].
    assert (exists b, In b h) as [b Ib].
    { unfold geq in E. apply andb_true_iff in E as [E _]. apply Nat.eqb_eq in E. destruct h as [|b h]; [|exists b; now left].
      destruct g; [contradiction|discriminate]. }
    apply (disjoint_unique (h :: gs) D h g b); auto; [now left|]. eapply geq_member; eauto.
  - destruct I as [->|I]; [now rewrite geq_refl in E|]. inversion D; subst.
    destruct IH as [l1 [l2 [-> ->]]]; auto. simpl. exists (h :: l1), l2. auto.
Qed.

(** ** [add] and [discard] *)

Lemma add_exact gs x :
  (exists gs', groups_add mkset gs x = Ok gs') <-> (forall a g, In a x -> In g gs -> ~ In a g).
Proof.
  unfold groups_add, groups_flat. destruct (existsb _ x) eqn:E.
  - split; [intros [gs' H]; discriminate|]. intro H. exfalso. apply existsb_exists in E as [a [I J]].
    apply gin_In, in_concat in J as [g [J Ja]]. eapply H; eauto.
  - split; [|eauto]. intros _ a g I J Ja. assert (existsb (fun a => gin a (concat gs)) x = true); [|congruence].
    apply existsb_exists. exists a. split; auto. apply gin_In, in_concat. eauto.
Qed.

Lemma add_effect gs x gs' : groups_add mkset gs x = Ok gs' -> disjoint gs ->
  disjoint gs' /\ forall a b, together gs' a b <-> together gs a b \/ (In a x /\ In b x).
Proof.
  intros H D. assert (X := proj1 (add_exact gs x) (ex_intro _ gs' H)).
  unfold groups_add in H. destruct (existsb _ x); [discriminate|]. injection H as <-. split.
  - apply disjoint_snoc. split; auto. intros h a I Ia Ja. apply gof_In in Ja; auto. eapply X; eauto.
  - intros a b. unfold together. split.
    + intros [g [I [Ia Ib]]]. apply in_app_or in I as [I|[<-|[]]]; eauto. rewrite gof_In in Ia, Ib; auto.
    + intros [[g [I J]]|[Ia Ib]]; [exists g; split; auto; apply in_or_app; auto|].
      exists (group_of mkset (Many x)). split; [apply in_or_app; right; now left|]. rewrite !gof_In; auto.
Qed.

Lemma discard_effect gs a : disjoint gs ->
  exists gs', groups_discard mkset gs a = Ok gs' /\ disjoint gs'
  /\ forall x y, together gs' x y <-> together gs x y /\ ~ together gs a x.
Proof.
  intro D. unfold groups_discard. destruct (groups_find mkset gs a) as [g|] eqn:E.
  - apply groups_find_some in E as [I Ia]. rewrite (truthy_In g a Ia).
    destruct (list_remove_spec gs g a D I Ia) as [l1 [l2 [-> ->]]].
    assert (D' := D). apply disjoint_mid in D' as [D1 D2]. eexists. split; [reflexivity|]. split; auto.
    intros x y. unfold together. split.
    + intros [h [J [Jx Jy]]]. split.
      * exists h. split; auto. apply in_app_or in J as [J|J]; apply in_or_app; [auto|right; now right].
      * intros [k [K [Ka Kx]]]. assert (k = g) as ->.
        { apply (disjoint_unique _ D k g a); auto. }
        exact (D2 h x J Kx Jx).
    + intros [[h [J [Jx Jy]]] N]. exists h. split; auto. apply in_app_or in J as [J|[<-|J]];
        [apply in_or_app; auto| |apply in_or_app; auto]. exfalso. apply N. exists g. auto.
  - simpl. exists gs. split; auto. split; auto. intros x y. split; [|tauto]. intro H. split; auto.
    intros [h [J [Ja _]]]. eapply groups_find_none; eauto.
Qed.

(** ** [merge] *)

Lemma together_app gs hs a b : together (gs ++ hs) a b <-> together gs a b \/ together hs a b.
Proof.
  unfold together. split.
  - intros [g [I J]]. apply in_app_or in I as [I|I]; eauto.
  - intros [[g [I J]]|[g [I J]]]; exists g; split; auto; apply in_or_app; auto.
Qed.

Lemma clos_mono (R S : relation str) : (forall a b, R a b -> S a b) ->
  forall a b, clos_trans _ R a b -> clos_trans _ S a b.
Proof. intros H a b C. induction C; [apply t_step; auto|eapply t_trans; eauto]. Qed.

Lemma clos_of_trans (R S : relation str) : (forall a b, R a b -> S a b) -> transitive _ S ->
  forall a b, clos_trans _ R a b -> S a b.
Proof. intros H T a b C. induction C; eauto. Qed.

Lemma merge_loop_spec self (Ds : disjoint self) : forall os done these,
  disjoint (done ++ os) -> matching self (done ++ os) ->
  disjoint these ->
  (forall a b, together these a b <-> clos_trans _ (together (self ++ done)) a b) ->
  (forall g, In g self -> g <> [] -> (forall o, In o done -> ~ meets o g) -> In g these) ->
  exists r, merge_loop mkset self these (map (fun g => (g, g)) os) = Ok r /\ disjoint r
  /\ forall a b, together r a b <-> clos_trans _ (together (self ++ done ++ os)) a b.
Proof.
  induction os as [|o os IH]; intros done these Do M Dt Ht Hk; simpl.
  - rewrite app_nil_r. eauto.
  - assert (Do' := Do). apply disjoint_mid in Do' as [Do1 Do2].
    assert (No : forall p, In p done -> forall a, In a o -> ~ In a p).
    { intros p I a Ia. apply (Do2 p a); auto. apply in_or_app. auto. }
    assert (Io : In o (done ++ o :: os)) by (apply in_or_app; right; now left).
    assert (Ht' : forall h a, In h these -> In a h -> In a (concat self) \/ In a (concat done)).
    { intros h a I Ia. assert (together these a a) as T by (exists h; auto). apply Ht in T.
      assert (forall x y, clos_trans _ (together (self ++ done)) x y -> In x (concat self) \/ In x (concat done)) as X.
      { intros x y C. induction C; auto. destruct H as [g [J [Jx _]]]. apply in_app_or in J as [J|J]; [left|right]; apply in_concat; eauto. }
      eapply X; eauto. }
    replace (self ++ done ++ o :: os) with (self ++ (done ++ [o]) ++ os) by (now rewrite <- !app_assoc).
    destruct (groups_search mkset self o) as [g|] eqn:S.
    + apply search_some in S as [Ig [x [Ix Jx]]].
      assert (Hg : In g these).
      { apply Hk; auto. { destruct g; [contradiction|discriminate]. }
        intros p Ip Mp. assert (p = o) as ->.
        { apply (proj2 M p o g); auto; [apply in_or_app; auto|exists x; auto]. }
        exact (No o Ip x Ix Ix). }
      destruct (list_remove_spec these g x Dt Hg Jx) as [l1 [l2 [-> ->]]]. simpl.
      apply disjoint_mid in Dt as Dt'. destruct Dt' as [Dt1 Dt2].
      assert (Gi : forall a, In a (group_or mkset g (mkset o)) <-> In a g \/ In a o).
      { intro a. rewrite group_or_In, mkset_In by auto. tauto. }
      assert (Dn : disjoint ((l1 ++ l2) ++ [group_or mkset g (mkset o)])).
      { apply disjoint_snoc. split; auto. intros h a Ih Ia Ja. apply Gi in Ja as [Ja|Ja].
        - eapply Dt2; eauto.
        - assert (In h (l1 ++ g :: l2)) as Ih'.
          { apply in_app_or in Ih as [Ih|Ih]; apply in_or_app; [auto|right; now right]. }
          destruct (Ht' h a Ih' Ia) as [C|C]; apply in_concat in C as [k [K Ka]].
          + assert (k = g) as ->.
            { apply (proj1 M o k g); auto; [exists a; auto|exists x; auto]. }
            eapply Dt2; eauto.
          + eapply No; eauto. }
      apply IH; auto.
      * now rewrite <- app_assoc.
      * now rewrite <- app_assoc.
      * intros a b. split.
        -- intro T. apply together_app in T as [T|T].
           ++ apply clos_mono with (R := together (self ++ done)).
              { intros u w U. rewrite app_assoc. apply together_app. auto. }
              apply Ht. destruct T as [h [Ih Jh]]. exists h. split; auto.
              apply in_app_or in Ih as [Ih|Ih]; apply in_or_app; [auto|right; now right].
           ++ destruct T as [h [[<-|[]] [Ia Ib]]].
              assert (forall u, In u g \/ In u o -> clos_trans _ (together (self ++ done ++ [o])) u x) as L.
              { intros u [U|U]; apply t_step; [exists g|exists o]; split; auto; apply in_or_app; auto.
                right. apply in_or_app. right. now left. }
              assert (forall u, In u g \/ In u o -> clos_trans _ (together (self ++ done ++ [o])) x u) as Rr.
              { intros u [U|U]; apply t_step; [exists g|exists o]; split; auto; apply in_or_app; auto.
                right. apply in_or_app. right. now left. }
              apply t_trans with x; [apply L|apply Rr]; now apply Gi.
        -- apply clos_of_trans; [|now apply together_trans].
           intros u w U. rewrite app_assoc in U. apply together_app in U as [U|U].
           ++ apply t_step, Ht in U as [h [Ih [Iu Iw]]]. apply in_app_or in Ih as [Ih|[<-|Ih]].
              ** exists h. split; auto. rewrite !in_app_iff. auto.
              ** exists (group_or mkset g (mkset o)). split; [apply in_or_app; right; now left|]. rewrite !Gi. auto.
              ** exists h. split; auto. rewrite !in_app_iff. auto.
           ++ destruct U as [h [[<-|[]] [Iu Iw]]].
              exists (group_or mkset g (mkset o)). split; [apply in_or_app; right; now left|]. rewrite !Gi. auto.
      * intros h Ih Nh Mh. assert (In h (l1 ++ g :: l2)) as J.
        { apply Hk; auto. intros p Ip. apply Mh. apply in_or_app. auto. }
        apply in_app_or in J as [J|[<-|J]].
        -- rewrite !in_app_iff. auto.
        -- exfalso. apply (Mh o); [apply in_or_app; right; now left|]. exists x. auto.
        -- rewrite !in_app_iff. auto.
    + assert (S' := search_none self o S). apply IH; auto.
      * now rewrite <- app_assoc.
      * now rewrite <- app_assoc.
      * apply disjoint_snoc. split; auto. intros h a Ih Ia Ja.
        destruct (Ht' h a Ih Ia) as [C|C]; apply in_concat in C as [k [K Ka]].
        -- eapply S'; eauto.
        -- eapply No; eauto.
      * assert (disjoint (these ++ [o])) as Dn.
        { apply disjoint_snoc. split; auto. intros h a Ih Ia Ja.
          destruct (Ht' h a Ih Ia) as [C|C]; apply in_concat in C as [k [K Ka]].
          - eapply S'; eauto.
          - eapply No; eauto. }
        intros a b. split.
        -- intro T. apply together_app in T as [T|T].
           ++ apply Ht in T. revert T. apply clos_mono. intros u w U. rewrite app_assoc. apply together_app. auto.
           ++ apply t_step. rewrite app_assoc. apply together_app. auto.
        -- apply clos_of_trans; [|now apply together_trans].
           intros u w U. rewrite app_assoc in U. apply together_app in U as [U|U]; apply together_app; [left|right; auto].
           apply Ht. now apply t_step.
      * intros h Ih Nh Mh. apply in_or_app. left. apply Hk; auto. intros p Ip. apply Mh. apply in_or_app. auto.
Qed.

Lemma listed_groups others : listed others ->
  concat (map addend_groups others) = map (fun g => (g, g)) (new_groups others).
Proof.
  unfold new_groups. induction others as [|x xs IH]; intro L; [reflexivity|]. inversion L; subst. simpl.
  rewrite map_app, IH by auto. f_equal. now destruct x.
Qed.

Lemma disjoint_mkset gs : disjoint gs -> disjoint (map mkset gs).
Proof.
  unfold disjoint. intro D. induction D as [|g gs F D IH]; [constructor|]. simpl. constructor; auto.
  apply Forall_forall. intros h I a Ia Ja. apply in_map_iff in I as [k [<- I]].
  rewrite mkset_In in Ia, Ja by auto. rewrite Forall_forall in F. exact (F k I a Ia Ja).
Qed.

Lemma together_mkset gs a b : together (map mkset gs) a b <-> together gs a b.
Proof.
  unfold together. split.
  - intros [g [I [Ia Ib]]]. apply in_map_iff in I as [k [<- I]]. rewrite mkset_In in Ia, Ib by auto. eauto.
  - intros [g [I [Ia Ib]]]. exists (mkset g). rewrite !mkset_In by auto. split; auto. now apply in_map.
Qed.

Lemma clos_self self : disjoint self -> forall a b, together self a b <-> clos_trans _ (together (self ++ [])) a b.
Proof.
  intros D a b. rewrite app_nil_r. split; [apply t_step|]. apply clos_of_trans; auto. now apply together_trans.
Qed.

Lemma merge_spec self others :
  disjoint self -> listed others -> disjoint (new_groups others) -> matching self (new_groups others) ->
  exists r, groups_merge mkset self others = Ok r /\ disjoint r
  /\ forall a b, together r a b <-> clos_trans _ (together (self ++ new_groups others)) a b.
Proof.
  intros D L Dn M. unfold groups_merge, merge_. rewrite listed_groups by auto.
  destruct (merge_loop_spec self D (new_groups others) [] self) as [r [E [Dr Hr]]]; auto using clos_self.
  rewrite E. simpl. eexists. split; [reflexivity|]. split; [now apply disjoint_mkset|].
  intros a b. rewrite together_mkset. apply Hr.
Qed.

(** ** Name maps *)

(** The values after registering aliases without failure. *)
Lemma abs_alias_ok {V} a bs : forall (s s' : abs V),
  abs_alias s a bs = (Ok tt, s') ->
  forall n v, val s' n = Some v <-> val s n = Some v \/ (In n bs /\ n <> a /\ val s a = Some v).
Proof.
  induction bs as [|b bs IH]; intros s s' H n v; simpl in H.
  - injection H as <-. simpl. tauto.
  - destruct (str_eqb_spec b a) as [->|Nb].
    + rewrite (IH s s' H). simpl. intuition congruence.
    + destruct (val s a) as [u|] eqn:Ea; [|discriminate]. destruct (val s b) eqn:Eb; [discriminate|].
      rewrite (IH _ s' H). simpl. rewrite Ea. rewrite (str_eqb_neq a b) by auto.
      destruct (str_eqb_spec n b) as [->|Nn].
      * rewrite Eb. intuition congruence.
      * intuition congruence.
Qed.

(** Every name that registers aliases is its own value. *)
Definition canon (s : abs str) (l : list (str * list str)) : Prop :=
  forall k bs, In (k, bs) l -> val s k = Some k.

(** Names with the same value are aliases of one another. *)
Definition sep (s : abs str) : Prop :=
  forall a b v, val s a = Some v -> val s b = Some v -> rel s a b = true.

Lemma sep_join s a b w : val s a = Some w -> sep s -> sep (abs_join s a b).
Proof.
  intros Ea S x y v. unfold abs_join. simpl. intros Hx Hy.
  destruct (str_eqb x b) eqn:Ex, (str_eqb y b) eqn:Ey.
  - now rewrite !orb_true_r.
  - rewrite (S a y v Hx Hy). simpl. now rewrite !orb_true_r.
  - rewrite (S a x v Hy Hx). simpl. now rewrite !orb_true_r.
  - now rewrite (S x y v Hx Hy).
Qed.

Lemma sep_alias a bs : forall s s', abs_alias s a bs = (Ok tt, s') -> sep s -> sep s'.
Proof.
  induction bs as [|b bs IH]; intros s s' H S; simpl in H; [now injection H as <-|].
  destruct (str_eqb b a); eauto. destruct (val s a) eqn:Ea; [|discriminate]. destruct (val s b); [discriminate|].
  eapply IH; eauto. eapply sep_join; eauto.
Qed.

Lemma nm_step (d : @gdict str) s k bs m :
  refines d s -> val s k = Some k -> nm_update mkset (of_dict d) k bs = Ok m ->
  exists d' s', m = of_dict d' /\ refines d' s' /\ (sep s -> sep s')
  /\ forall n v, val s' n = Some v <-> val s n = Some v \/ (In n bs /\ n <> k /\ v = k).
Proof.
  intros R Ek H. destruct bs as [|b bs].
  - unfold nm_update in H. destruct (alias_get mkset (of_dict d) k false); [|discriminate]. injection H as <-.
    exists d, s. split; auto. split; auto. split; auto. intros n v. simpl. tauto.
  - unfold nm_update, alias_set in H. destruct (refines_alias mkset order k (b :: bs) d s R) as [d' [E R']].
    rewrite E in H. destruct (abs_alias s k (b :: bs)) as [[[]|e] s'] eqn:A; [|discriminate].
    cbn [fst snd] in *. injection H as <-.
    exists d', s'. split; auto. split; auto. split; [eauto using sep_alias|]. intros n v. rewrite (abs_alias_ok k (b :: bs) s s' A n v), Ek.
    split; (intros [H|[H1 [H2 H3]]]; [auto|right; split; [auto|split; congruence]]).
Qed.

Lemma nm_updates_ok l : forall (d : @gdict str) s m,
  refines d s -> canon s l -> nm_updates mkset (of_dict d) l = Ok m ->
  exists d' s', m = of_dict d' /\ refines d' s' /\ (sep s -> sep s')
  /\ forall n v, val s' n = Some v <->
       val s n = Some v \/ exists bs, In (v, bs) l /\ In n bs /\ n <> v.
Proof.
  induction l as [|[k bs] l IH]; intros d s m R C H; simpl in H.
  - injection H as <-. exists d, s. split; auto. split; auto. split; auto. intros n v. split; auto.
    intros [H|[bs [[] _]]]; auto.
  - destruct (nm_update mkset (of_dict d) k bs) as [m1|] eqn:E; [|discriminate]. simpl in H.
    destruct (nm_step d s k bs m1 R (C k bs (or_introl eq_refl)) E) as [d1 [s1 [-> [R1 [S1 V1]]]]].
    destruct (IH d1 s1 m R1) as [d' [s' [-> [R' [S' V']]]]]; auto.
    { intros k' bs' I. apply V1. left. eapply C. right. eauto. }
    exists d', s'. split; auto. split; auto. split; auto. intros n v. rewrite V', V1. split.
    + intros [[H0|[I [N ->]]]|[bs' [I J]]]; auto; right; [exists bs|exists bs']; simpl; auto.
    + intros [H0|[bs' [[I|I] [J N]]]]; auto; [|right; eauto]. injection I as -> ->. auto.
Qed.

Lemma nm_updates_total l : forall (d : @gdict str) s,
  refines d s -> canon s l -> NoDup (concat (map snd l)) ->
  (forall n, In n (concat (map snd l)) -> val s n = None) ->
  exists m, nm_updates mkset (of_dict d) l = Ok m.
Proof.
  induction l as [|[k bs] l IH]; intros d s R C N F; simpl; [eauto|]. simpl in N, F.
  assert (Ek : val s k = Some k) by (eapply C; now left).
  assert (exists d1 s1, nm_update mkset (of_dict d) k bs = Ok (of_dict d1) /\ refines d1 s1
          /\ forall n, val s1 n = if gin n bs then Some k else val s n) as [d1 [s1 [E [R1 V1]]]].
  { destruct bs as [|b bs].
    - simpl. exists d, s. split; [|auto]. unfold alias_get.
      destruct R as [G [Rv _]]. apply Rv in Ek as [g [I Ia]].
      assert (resolve_key (of_dict d) k = Some g) as -> by (apply resolve_spec; eauto). reflexivity.
    - destruct (abs_alias_fresh k (b :: bs) s k Ek) as [F1 F2].
      + intros c Ic _. apply F. apply in_or_app. auto.
      + apply NoDup_filter. eapply NoDup_app_l; eauto.
      + destruct (refines_alias mkset order k (b :: bs) d s R) as [d' [E R']].
        unfold nm_update, alias_set. rewrite E, F1. eauto. }
  rewrite E. simpl. apply (IH d1 s1); auto.
  - intros k' bs' I. rewrite V1. assert (val s k' = Some k') as E' by (eapply C; right; eauto).
    destruct (gin k' bs) eqn:Eg; auto. exfalso. apply gin_In in Eg.
    rewrite (F k') in E'; [discriminate|apply in_or_app; auto].
  - eapply NoDup_app_r; eauto.
  - intros n I. rewrite V1. destruct (gin n bs) eqn:Eg; [|apply F; apply in_or_app; auto].
    exfalso. apply gin_In in Eg. eapply NoDup_app_disj; eauto.
Qed.

Lemma identity_disjoint names : NoDup names ->
  disjoint (map (fun p : key * str => members (fst p)) (map (fun n => (One n, n)) names)).
Proof.
  unfold disjoint. rewrite map_map. simpl. intro N. induction N as [|n ns H N IH]; [constructor|]. simpl.
  constructor; auto. apply Forall_forall. intros g I a [<-|[]] J. apply in_map_iff in I as [m [<- I]].
  destruct J as [<-|[]]. contradiction.
Qed.

Lemma identity_refines names : NoDup names ->
  exists s, refines (build_from_aliases mkset (map (fun n => (One n, n)) names)) s /\ sep s
  /\ forall n v, val s n = Some v <-> n = v /\ In v names.
Proof.
  intro N. eexists. split.
  - apply refines_init; auto using identity_disjoint. apply Forall_forall. intros p I.
    apply in_map_iff in I as [n [<- I]]. discriminate.
  - assert (forall n v, val (abs_of (map (fun n => (One n, n)) names)) n = Some v <-> n = v /\ In v names) as X.
    2: { split; auto. intros a b v Ha Hb. apply X in Ha as [-> I]. apply X in Hb as [-> _].
         unfold abs_of. simpl. apply existsb_exists. exists (One v, v). split; [apply in_map_iff; eauto|].
         simpl. now rewrite str_eqb_refl. }
    intros n v. unfold abs_of. simpl. split.
    + destruct (find _ _) as [[k w]|] eqn:E; [|discriminate]. apply find_some in E as [I E].
      apply in_map_iff in I as [m [Em I]]. injection Em as <- <-. simpl in *. intro H. injection H as <-.
      rewrite orb_false_r in E. apply str_eqb_iff in E. auto.
    + intros [-> I]. destruct (find _ _) as [[k w]|] eqn:E.
      * apply find_some in E as [J E]. apply in_map_iff in J as [m [Em J]]. injection Em as <- <-. simpl in *.
        rewrite orb_false_r in E. apply str_eqb_iff in E. now subst.
      * assert (In (One v, v) (map (fun n => (One n, n)) names)) as J by (apply in_map_iff; eauto).
        apply (find_none _ _ E) in J. simpl in J. now rewrite str_eqb_refl in J.
Qed.

Lemma nm_get_refines (d : @gdict str) s n : refines d s ->
  nm_get (of_dict d) n = match val s n with Some v => Ok v | None => Err KeyError end.
Proof.
  intro R. unfold nm_get. rewrite (contains_refines d s n R), (get_refines d s n R). now destruct (val s n).
Qed.

Lemma nm_build_ok names updates m :
  NoDup names -> (forall k bs, In (k, bs) updates -> In k names) -> nm_build mkset names updates = Ok m ->
  (exists d s, m = of_dict d /\ refines d s /\ sep s)
  /\ (forall n v, nm_get m n = Ok v <->
       (n = v /\ In v names) \/ exists bs, In (v, bs) updates /\ In n bs /\ n <> v)
  /\ (forall n, nm_get m n = Err KeyError \/ exists v, nm_get m n = Ok v).
Proof.
  intros N K H. destruct (identity_refines names N) as [s [R [S V]]]. unfold nm_build, mapping in H.
  destruct (nm_updates mkset _ updates) as [m1|] eqn:E; [|discriminate]. simpl in H.
  destruct (nm_updates_ok updates _ s m1 R) as [d' [s' [-> [R' [S' V']]]]]; auto.
  { intros k bs I. apply V. eauto. }
  rewrite mapping_of_map_good in H by apply R'. injection H as <-. split; [exists d', s'; auto|]. split.
  - intros n v. rewrite (nm_get_refines d' s' n R'). rewrite <- V, <- V'. destruct (val s' n); split; congruence.
  - intro n. rewrite (nm_get_refines d' s' n R'). destruct (val s' n); eauto.
Qed.

Lemma nm_aliases_In defs k bs : In (k, bs) (nm_aliases defs) <->
  exists l, In (k, l) defs /\ bs = nm_remove k l.
Proof.
  unfold nm_aliases. rewrite in_map_iff. split.
  - intros [[k' l] [E I]]. injection E as <- <-. eauto.
  - intros [l [I ->]]. exists (k, l). auto.
Qed.

Lemma nm_remove_In k l n : In n (nm_remove k l) <-> In n l /\ n <> k.
Proof.
  unfold nm_remove. rewrite filter_In, negb_true_iff. split; intros [H1 H2]; split; auto.
  - intros ->. now rewrite str_eqb_refl in H2.
  - now apply str_eqb_neq.
Qed.

Lemma namemap_spec defs m : NoDup (map fst defs) -> namemap mkset defs = Ok m ->
  forall n v, nm_get m n = Ok v <-> exists l, In (v, l) defs /\ (n = v \/ In n l).
Proof.
  intros N H. destruct (nm_build_ok _ (nm_aliases defs) m N) as [_ [V _]]; auto.
  { intros k bs I. apply nm_aliases_In in I as [l [I _]]. apply in_map_iff. exists (k, l). auto. }
  intros n v. rewrite V. split.
  - intros [[-> I]|[bs [I [J Nn]]]].
    + apply in_map_iff in I as [[k l] [E I]]. simpl in E. subst. eauto.
    + apply nm_aliases_In in I as [l [I ->]]. apply nm_remove_In in J as [J _]. eauto.
  - intros [l [I Hn]]. destruct (str_eq_dec n v) as [->|Nn].
    + left. split; auto. apply in_map_iff. exists (v, l). auto.
    + right. destruct Hn as [Hn|Hn]; [congruence|]. exists (nm_remove v l). split; [apply nm_aliases_In; eauto|].
      rewrite nm_remove_In. auto.
Qed.

Lemma namemap_keyerror defs m n : NoDup (map fst defs) -> namemap mkset defs = Ok m ->
  (forall v l, In (v, l) defs -> n <> v /\ ~ In n l) -> nm_get m n = Err KeyError.
Proof.
  intros N H X. destruct (nm_build_ok _ (nm_aliases defs) m N) as [_ [_ V]]; auto.
  { intros k bs I. apply nm_aliases_In in I as [l [I _]]. apply in_map_iff. exists (k, l). auto. }
  destruct (V n) as [E|[v E]]; auto.
  apply (namemap_spec defs m N H) in E as [l [I J]]. destruct (X v l I). tauto.
Qed.

Lemma namemap_total defs :
  NoDup (concat (map (fun p => fst p :: nm_remove (fst p) (snd p)) defs)) ->
  exists m, namemap mkset defs = Ok m.
Proof.
  intro N.
  assert (NoDup (map fst defs) /\ NoDup (concat (map snd (nm_aliases defs)))
          /\ forall n, In n (concat (map snd (nm_aliases defs))) -> ~ In n (map fst defs)) as [N1 [N2 N3]].
  { unfold nm_aliases. rewrite map_map. simpl. clear - N.
    assert (P : Permutation (concat (map (fun p => fst p :: nm_remove (fst p) (snd p)) defs))
       (map fst defs ++ concat (map (fun p => nm_remove (fst p) (snd p)) defs))).
    { induction defs as [|p defs IH]; [constructor|]. simpl. constructor.
      assert (NoDup (concat (map (fun p => fst p :: nm_remove (fst p) (snd p)) defs))) as N'.
      { simpl in N. inversion N. eapply NoDup_app_r; eauto. }
      specialize (IH N').
      eapply Permutation_trans; [apply Permutation_app_head; exact IH|].
      rewrite !app_assoc. apply Permutation_app_tail. apply Permutation_app_comm. }
    eapply Permutation_NoDup in N; [|exact P]. split; [eapply NoDup_app_l; eauto|]. split; [eapply NoDup_app_r; eauto|].
    intros n I J. eapply NoDup_app_disj; eauto. }
  destruct (identity_refines (map fst defs) N1) as [s [R [_ V]]].
  assert (canon s (nm_aliases defs)) as C.
  { intros k bs I. apply V. split; auto. apply nm_aliases_In in I as [l [I _]]. apply in_map_iff. exists (k, l). auto. }
  destruct (nm_updates_total (nm_aliases defs) _ s R C N2) as [m E].
  { intros n I. destruct (val s n) as [v|] eqn:Ev; auto. apply V in Ev as [-> Iv]. exfalso. eapply N3; eauto. }
  unfold namemap, nm_build, mapping. rewrite E. simpl.
  destruct (nm_updates_ok _ _ s m R C E) as [d' [s' [-> [R' _]]]]. rewrite mapping_of_map_good by apply R'. eauto.
Qed.

(** Iterables of iterables. *)
Lemma sd_set_In d k v : NoDup (map fst d) -> forall h w,
  In (h, w) (sd_set d k v) <-> (h = k /\ w = v) \/ (h <> k /\ In (h, w) d).
Proof.
  induction d as [|[h0 w0] d IH]; intros N h w; simpl.
  - split; [intros [H|[]]; injection H; auto|]. intros [[-> ->]|[_ []]]; auto.
  - inversion N as [|? ? N1 N2]; subst. simpl in N1. destruct (str_eqb_spec k h0) as [->|Nk]; simpl.
    + split.
      * intros [H|H]; [injection H; auto|]. right. split; auto. intros ->. apply N1. apply in_map_iff. exists (h0, w). auto.
      * intros [[-> ->]|[H [H'|H']]]; auto. congruence.
    + rewrite IH by auto. split.
      * intros [H|[H|H]]; [injection H as <- <-|auto|]; intuition.
      * intros [H|[H [H'|H']]]; auto.
Qed.

Lemma sd_set_keys d k v : map fst (sd_set d k v) = if existsb (str_eqb k) (map fst d) then map fst d else map fst d ++ [k].
Proof.
  induction d as [|[h w] d IH]; [reflexivity|]. simpl. destruct (str_eqb k h); [reflexivity|]. simpl. rewrite IH.
  now destruct (existsb (str_eqb k) (map fst d)).
Qed.

Lemma sd_set_NoDup d k v : NoDup (map fst d) -> NoDup (map fst (sd_set d k v)).
Proof.
  intro N. rewrite sd_set_keys. destruct (existsb (str_eqb k) (map fst d)) eqn:E; auto.
  apply NoDup_snoc; auto. intro I. assert (gin k (map fst d) = true) as X by now apply gin_In.
  unfold gin in X. congruence.
Qed.

(** If the pairs determine the value, the dictionary holds exactly them. *)
Lemma sd_fold_In l : (forall k v w, In (k, v) l -> In (k, w) l -> v = w) ->
  NoDup (map fst (fold_left (fun d p => sd_set d (fst p) (snd p)) l []))
  /\ forall k v, In (k, v) (fold_left (fun d p => sd_set d (fst p) (snd p)) l []) <-> In (k, v) l.
Proof.
  induction l as [|[k v] l IH] using rev_ind; intro H; [split; [constructor|tauto]|].
  destruct IH as [N IH].
  { intros a b c I J. apply (H a); apply in_or_app; auto. }
  rewrite fold_left_app. simpl. split; [now apply sd_set_NoDup|].
  intros h w. rewrite sd_set_In by auto. rewrite IH, in_app_iff. simpl. split.
  - intros [[-> ->]|[_ I]]; auto.
  - intros [I|[I|[]]]; [|injection I as <- <-; auto]. destruct (str_eq_dec h k) as [->|Nk]; auto.
    left. split; auto. apply (H k); apply in_or_app; auto. right. now left.
Qed.

Lemma iter_pairs_In names defs k v :
  In (k, v) (concat (map (fun v => map (fun k => (k, v)) (filter (fun k => gin k v) names)) defs))
  <-> In k names /\ In v defs /\ In k v.
Proof.
  rewrite in_concat. split.
  - intros [l [I J]]. apply in_map_iff in I as [w [<- I]]. apply in_map_iff in J as [h [E J]]. injection E as -> ->.
    apply filter_In in J as [J1 J2]. apply gin_In in J2. auto.
  - intros [I [J K]]. eexists. split; [apply in_map_iff; exists v; eauto|]. apply in_map_iff. exists k. split; auto.
    apply filter_In. split; auto. now apply gin_In.
Qed.

Lemma iter_aliases_In names defs : disjoint defs -> forall k v,
  In (k, v) (nm_aliases_iter names defs) <-> In k names /\ In v defs /\ In k v.
Proof.
  intros D k v. unfold nm_aliases_iter. match goal with |- context [fold_left _ ?l []] => destruct (sd_fold_In l) as [_ F] end.
  2: { rewrite F. apply iter_pairs_In. }
  intros h x y I J. apply iter_pairs_In in I as [_ [I Ih]]. apply iter_pairs_In in J as [_ [J Jh]].
  eapply disjoint_unique; eauto.
Qed.

Lemma namemap_iter_spec defs refs m : NoDup refs -> disjoint defs -> namemap_iter mkset defs refs = Ok m ->
  forall n v, nm_get m n = Ok v <-> In v refs /\ (n = v \/ exists g, In g defs /\ In v g /\ In n g).
Proof.
  intros N D H. destruct (nm_build_ok _ (nm_aliases_iter refs defs) m N) as [_ [V _]]; auto.
  { intros k bs I. now apply iter_aliases_In in I. }
  intros n v. rewrite V. split.
  - intros [[-> I]|[bs [I [J Nn]]]]; auto. apply iter_aliases_In in I as [I1 [I2 I3]]; auto. split; auto. right. exists bs. auto.
  - intros [I Hn]. destruct (str_eq_dec n v) as [->|Nn]; auto. destruct Hn as [Hn|[g [J [Jv Jn]]]]; [congruence|].
    right. exists g. rewrite iter_aliases_In by auto. auto.
Qed.

(** ** Inverted name maps *)

Lemma sd_fold_distinct (l : list (list str * str)) : NoDup (map snd l) ->
  fold_left (fun d p => sd_set d (snd p) (fst p)) l [] = map (fun p => (snd p, fst p)) l.
Proof.
  induction l as [|[g n] l IH] using rev_ind; intro N; [reflexivity|].
  rewrite map_app in N. simpl in N. assert (NoDup (map snd l)) as N1 by (eapply NoDup_app_l; eauto).
  rewrite fold_left_app, IH by auto. simpl. rewrite map_app. simpl.
  assert (~ In n (map snd l)) as Nn by (intro I; eapply NoDup_app_disj; eauto; now left).
  clear - Nn. induction l as [|[h m] l IH]; simpl; [auto|]. simpl in Nn. rewrite str_eqb_neq by (intro; subst; tauto). rewrite IH; tauto.
Qed.

Lemma invert_spec (d : @gdict str) s : refines d s -> sep s ->
  exists r, nm_invert mkset (of_dict d) = Ok r
  /\ (forall a n, getitem (of_dict d) a = Ok n ->
       exists g, getitem r n = Ok g /\ NoDup g /\ forall b, In b g <-> getitem (of_dict d) b = Ok n)
  /\ (forall n, (forall a, getitem (of_dict d) a <> Ok n) -> getitem r n = Err KeyError).
Proof.
  intros R S. assert (G : good d) by apply R. unfold nm_invert. rewrite aliased_items_good by auto. simpl.
  assert (U : forall g h n, In (g, n) d -> In (h, n) d -> g = h).
  { intros g h n I J. destruct (good_nonempty d g n G I) as [_ [a Ia]]. destruct (good_nonempty d h n G J) as [_ [b Jb]].
    assert (rel s a b = true) as E.
    { apply S with n; apply R; eauto. }
    apply R in E as [k [v [K [Ka Kb]]]].
    destruct (good_uniq d G g n k v a I K Ia Ka) as [-> _]. now destruct (good_uniq d G h n k v b J K Jb Kb) as [-> _]. }
  assert (N : NoDup (map snd d)).
  { clear R S. induction d as [|[g n] d IH]; [constructor|]. simpl. constructor.
    - intro I. apply in_map_iff in I as [[h m] [E I]]. simpl in E. subst m.
      assert (h = g) as -> by (apply (U h g n); [right; auto|now left]).
      apply good_cons in G as [[_ G1] [G2 _]]. destruct g as [|a g]; [congruence|]. apply (G2 (a :: g) n a I); now left.
    - apply IH; [now apply good_cons in G|]. intros a b m I J. apply (U a b m); now right. }
  rewrite sd_fold_distinct by auto. eexists. split; [reflexivity|]. rewrite map_map. simpl.
  assert (D : disjoint (map (fun p : key * group => members (fst p)) (map (fun p => (One (snd p), fst p)) d))).
  { rewrite map_map. simpl. clear - N. unfold disjoint. induction d as [|[g n] d IH]; [constructor|]. simpl in *.
    inversion N as [|? ? N1 N2]; subst. constructor; auto. apply Forall_forall. intros h I a [<-|[]] J.
    apply in_map_iff in I as [[h' m] [<- I]]. destruct J as [<-|[]]. apply N1. apply in_map_iff. exists (h', m). auto. }
  destruct (mapping_get mkset order _ D) as [M1 M2].
  { apply Forall_forall. intros p I. apply in_map_iff in I as [q [<- _]]. discriminate. }
  split.
  - intros a n E. apply getitem_spec in E as [g [I Ia]]; auto. exists g. split.
    + apply (M1 (One n) g n); [|now left]. apply in_map_iff. exists (g, n). auto.
    + split; [now apply (good_nonempty d g n)|]. intro b. rewrite getitem_spec by auto. split; [eauto|].
      intros [h [J Jb]]. now rewrite (U g h n I J).
  - intros n H. apply M2. intros k g I J. apply in_map_iff in I as [[h m] [E I]]. injection E as <- <-.
    destruct J as [J|[]]. simpl in J. subst m. destruct (good_nonempty d h n G I) as [_ [a Ia]].
    apply (H a). apply getitem_spec; eauto.
Qed.

Lemma namemap_invert defs m : NoDup (map fst defs) -> namemap mkset defs = Ok m ->
  exists r, nm_invert mkset m = Ok r
  /\ (forall n, In n (map fst defs) ->
       exists g, getitem r n = Ok g /\ NoDup g /\ forall b, In b g <-> nm_get m b = Ok n)
  /\ (forall n, ~ In n (map fst defs) -> getitem r n = Err KeyError).
Proof.
  intros N H. destruct (nm_build_ok _ (nm_aliases defs) m N) as [[d [s [-> [R S]]]] _]; auto.
  { intros k bs I. apply nm_aliases_In in I as [l [I _]]. apply in_map_iff. exists (k, l). auto. }
  assert (X : forall b n, getitem (of_dict d) b = Ok n <-> nm_get (of_dict d) b = Ok n).
  { intros b n. rewrite (nm_get_refines d s b R), (get_refines d s b R). tauto. }
  destruct (invert_spec d s R S) as [r [E [P Q]]]. exists r. split; auto. split.
  - intros n I. apply in_map_iff in I as [[n' l] [<- I]]. destruct (P n' n') as [g [G1 [G2 G3]]].
    { apply X. apply (namemap_spec defs _ N H). eauto. }
    exists g. split; auto. split; auto. intro b. now rewrite G3.
  - intros n I. apply Q. intros a Ha. apply X in Ha. apply (namemap_spec defs _ N H) in Ha as [l [J _]].
    apply I. apply in_map_iff. exists (n, l). auto.
Qed.

End Order.

(** * Looking up and leaving out groups *)

Section Lookup.
Variable mkset : list str -> group.
Hypothesis mkset_ok : set_order mkset.

Lemma contains_exact gs a : groups_contains mkset gs a = true <-> exists g, In g gs /\ In a g.
Proof.
  unfold groups_contains. destruct (groups_find mkset gs a) as [g|] eqn:E.
  - split; [|reflexivity]. intros _. exists g. now apply (groups_find_some mkset mkset_ok).
  - split; [discriminate|]. intros [g [I J]]. now elim (groups_find_none mkset mkset_ok gs a E g I).
Qed.

Lemma without_exact gs keys a b : together (groups_without mkset gs keys) a b <->
  exists g, In g gs /\ In a g /\ In b g /\ forall k, In k keys -> ~ In k g.
Proof.
  unfold groups_without. rewrite (together_mkset mkset mkset_ok).
  unfold together. split.
  - intros [g [I [A B]]]. apply filter_In in I as [I F]. apply andb_prop in F as [F _].
    exists g. repeat split; try assumption. intros k K. rewrite forallb_forall in F.
    specialize (F k K). apply Bool.negb_true_iff in F. now apply gin_false.
  - intros [g [I [A [B K]]]]. exists g. split; [|now split]. apply filter_In. split; [exact I|].
    apply andb_true_intro. split.
    + apply forallb_forall. intros k J. apply Bool.negb_true_iff, gin_false, K, J.
    + apply Bool.negb_true_iff. destruct (existsb _ keys) eqn:E; [|reflexivity].
      apply existsb_exists in E as [k [J G]]. elim (K k J). clear - G mkset_ok A.
      unfold geq in G. apply andb_prop in G as [_ G]. rewrite forallb_forall in G.
      specialize (G a A). apply gin_In in G. apply (gof_In mkset mkset_ok) in G.
      cbn in G. destruct G as [<-|[]]. exact A.
Qed.

Lemma add_error gs x : (exists a g, In a x /\ In g gs /\ In a g) -> groups_add mkset gs x = Err ValueError.
Proof.
  intros [a [g [I [J A]]]]. unfold groups_add. destruct (existsb _ x) eqn:E; [reflexivity|].
  exfalso. assert (T : existsb (fun a => gin a (groups_flat gs)) x = true).
  { apply existsb_exists. exists a. split; [exact I|]. apply gin_In. unfold groups_flat.
    apply in_concat. now exists g. }
  congruence.
Qed.

End Lookup.
