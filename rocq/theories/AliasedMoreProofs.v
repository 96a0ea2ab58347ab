(** Interior aliases, aliases from a collection of groups, and squeezing. *)

From Coq Require Import List Bool Arith Lia.
From Verif Require Import Py PyFacts AliasedModel AliasedSpec AliasedProofs AliasedMapProofs AliasedGroupProofs.
Import ListNotations.
Open Scope list_scope.
Open Scope py_scope.

(** A dictionary whose keys are disjoint groups. *)
Lemma dict_of_disjoint {X V} (G : X -> group) (f : X -> V) (l : list X) :
  disjoint (map G l) -> (forall x, In x l -> NoDup (G x) /\ G x <> []) ->
  good (dict_of (map (fun x => (G x, f x)) l))
  /\ dict_of (map (fun x => (G x, f x)) l) = map (fun x => (G x, f x)) l.
Proof.
  intros D F. assert (good (map (fun x => (G x, f x)) l)) as X1.
  { split; rewrite map_map; simpl; auto. apply Forall_forall. intros g I. apply in_map_iff in I as [x [<- I]]. auto. }
  rewrite dict_of_good by auto. auto.
Qed.

Lemma disjoint_map_incl {X} (G H : X -> list str) l :
  (forall x a, In x l -> In a (G x) -> In a (H x)) -> disjoint (map H l) -> disjoint (map G l).
Proof.
  unfold disjoint. induction l as [|x l IH]; intros I D; [constructor|]. simpl in *. inversion D as [|? ? F D']; subst.
  constructor; [|apply IH; auto]. apply Forall_forall. intros g J a Ia Ja. apply in_map_iff in J as [y [<- J]].
  rewrite Forall_forall in F. apply (F (H y) (in_map H _ _ J) a); auto.
Qed.

Lemma flat_of_keys {V W} (d : @gdict V) : forall (e : @gdict W), map fst e = map fst d -> flat_of d = flat_of e.
Proof.
  unfold flat_of. induction d as [|[g v] d IH]; intros [|[h w] e] E; simpl in *; try discriminate; auto.
  injection E as -> E2. f_equal. now apply IH.
Qed.

Lemma getitem_err {V} (d : @gdict V) a e : good d -> getitem (of_dict d) a = Err e -> e = KeyError.
Proof.
  intros G E. unfold getitem in E. destruct (truthy _) as [g|]; [|congruence]. destruct (dget _ g); congruence.
Qed.

Section Order.

Variable mkset : list str -> group.
Hypothesis order : set_order mkset.

Lemma group_or_good g h a : In a g -> NoDup (group_or mkset g h) /\ group_or mkset g h <> [].
Proof.
  intro I. split; [apply order|]. intro E. assert (In a (group_or mkset g h)) as J by (apply group_or_In; auto).
  rewrite E in J. contradiction.
Qed.

Section Interior.

Context {W : Type}.
Variable alias_names : W -> list str.

Notation entry_names := (entry_names alias_names).

Lemma interior_key_In aliases p a :
  In a (interior_key mkset alias_names aliases p) <-> In a (entry_names aliases p).
Proof.
  unfold interior_key, entry_names. rewrite group_or_In by auto. simpl.
  unfold group_of. rewrite mkset_In by auto. simpl.
  destruct (inner_get (snd p) aliases); rewrite mkset_In by auto; simpl; tauto.
Qed.

Lemma interior_spec l aliases : disjoint (map (entry_names aliases) l) ->
  let m := mapping_interior mkset alias_names l aliases in
  consistent m
  /\ (forall p a, In p l -> In a (entry_names aliases p) ->
       getitem m a = Ok (filter (fun q => negb (str_eqb (fst q) aliases)) (snd p)))
  /\ (forall a, (forall p, In p l -> ~ In a (entry_names aliases p)) -> getitem m a = Err KeyError)
  /\ (forall p a b, In p l -> In a (entry_names aliases p) ->
       (aliases_of m a b <-> In b (entry_names aliases p))).
Proof.
  intros D m. unfold m, mapping_interior.
  destruct (dict_of_disjoint (interior_key mkset alias_names aliases) (interior_value aliases) l) as [G E].
  { apply disjoint_map_incl with (H := entry_names aliases); auto. intros x a _. now rewrite interior_key_In. }
  { intros p I. apply group_or_good with (a := fst p). unfold group_of. apply mkset_In; auto. now left. }
  rewrite E in *. split; [apply consistent_dict; eauto|]. split; [|split].
  - intros p a I Ia. apply getitem_spec; auto. exists (interior_key mkset alias_names aliases p).
    rewrite interior_key_In. split; auto. apply in_map_iff. exists p. auto.
  - intros a H. apply getitem_none; auto. intros g v I. apply in_map_iff in I as [p [Ep I]]. injection Ep as <- <-.
    rewrite interior_key_In. auto.
  - intros p a b I Ia. assert (J : In (interior_key mkset alias_names aliases p, interior_value aliases p)
      (map (fun x => (interior_key mkset alias_names aliases x, interior_value aliases x)) l)).
    { apply in_map_iff. exists p. auto. }
    unfold aliases_of. split.
    + intros [g [Eg Ib]]. apply resolve_spec in Eg as [v [K Ka]]; auto.
      rewrite <- interior_key_In in *. now destruct (good_uniq _ G _ _ _ _ a K J Ka Ia) as [-> _].
    + intro Ib. exists (interior_key mkset alias_names aliases p). rewrite interior_key_In. split; auto.
      apply resolve_spec; auto. exists (interior_value aliases p). rewrite interior_key_In. auto.
Qed.

(** ** Squeezing *)

Lemma squeeze_spec (m : amap (list (str * W))) strict : consistent m ->
  (forall m', squeeze m strict = Ok (inr m') ->
     consistent m'
     /\ (forall a w, getitem m' a = Ok w <-> exists k, getitem m a = Ok [(k, w)])
     /\ (forall a b, aliases_of m' a b <-> aliases_of m a b)
     /\ (strict = true -> exists k, forall a v, getitem m a = Ok v -> map fst v = [k]))
  /\ (forall m', squeeze m strict = Ok (inl m') ->
        m' = m /\ exists a v, getitem m a = Ok v /\ length v <> 1%nat)
  /\ (forall e, squeeze m strict = Err e -> strict = true
        /\ ((e = IndexError /\ forall a, contains m a = false)
            \/ (e = TypeError /\ exists a b k l x y,
                  getitem m a = Ok [(k, x)] /\ getitem m b = Ok [(l, y)] /\ k <> l))).
Proof.
  intro C. apply consistent_dict in C as [d [-> G]]. unfold squeeze. cbn [as_dict flat_dict of_dict].
  destruct (forallb (fun v => Nat.eqb (length v) 1) (map snd d)) eqn:One.
  2: { split; [discriminate|]. split; [|discriminate]. intros m' E. injection E as <-. split; auto.
       assert (exists g v, In (g, v) d /\ length v <> 1%nat) as [g [v [I L]]].
       { clear G. induction d as [|[g v] d IH]; simpl in One; [discriminate|].
         apply andb_false_iff in One as [O|O].
         - exists g, v. split; [now left|]. now apply Nat.eqb_neq.
         - destruct (IH O) as [h [w [I L]]]. exists h, w. split; auto. now right. }
       destruct (good_nonempty d g v G I) as [_ [a Ia]]. exists a, v. split; auto. apply getitem_spec; eauto. }
  assert (S : forall g v, In (g, v) d -> exists k w, v = [(k, w)]).
  { intros g v I. rewrite forallb_forall in One. specialize (One v (in_map snd _ _ I)). apply Nat.eqb_eq in One.
    destruct v as [|[k w] [|? ?]]; try discriminate. eauto. }
  assert (exists e, mapM (fun p => match snd p with (_, w) :: _ => Ok (fst p, w) | [] => Err IndexError end) d = Ok e
          /\ map fst e = map fst d
          /\ forall g w, In (g, w) e <-> exists k, In (g, [(k, w)]) d) as [e [Ee [Ek Ei]]].
  { clear G One. induction d as [|[g v] d IH]; [exists []; simpl; split; auto; split; auto; intros; split; [intros []|intros [k []]]|].
    destruct IH as [e [E1 [E2 E3]]]. { intros g' v' I. apply (S g'). now right. }
    destruct (S g v (or_introl eq_refl)) as [k [w ->]]. simpl. rewrite E1. simpl. eexists. split; [reflexivity|].
    simpl. rewrite E2. split; auto. intros h x. rewrite E3. split.
    - intros [E|[k' I]]; [injection E as <- <-; eauto|eauto].
    - intros [k' [E|I]]; [injection E as <- <- <-; auto|eauto]. }
  assert (Ge : good e) by (unfold good; rewrite Ek; exact G).
  assert (Fl : flat_of d = flat_of e).
  { now apply flat_of_keys. }
  set (chk := if strict then _ else Ok tt).
  destruct chk as [[]|x] eqn:Ec; unfold bind at 1; cbn iota beta.
  - rewrite Ee. cbn [bind]. split; [|split; discriminate]. intros m' E. injection E as <-. rewrite Fl.
    change (mkMap e (flat_of e)) with (of_dict e). split; [apply consistent_dict; eauto|]. split; [|split].
    + intros a w. rewrite getitem_spec by auto. split.
      * intros [g [I Ia]]. apply Ei in I as [k I]. exists k. apply getitem_spec; eauto.
      * intros [k I]. apply getitem_spec in I as [g [I Ia]]; auto. exists g. split; auto. apply Ei. eauto.
    + intros a b. unfold aliases_of, resolve_key. simpl. now rewrite Fl.
    + intros ->. unfold chk in Ec. destruct d as [|[g0 v0] d]; [discriminate|]. simpl in Ec.
      destruct (S g0 v0 (or_introl eq_refl)) as [k0 [w0 ->]].
      destruct (forallb _ (map snd d)) eqn:Ef; [|discriminate]. exists k0. intros a v Ea.
      apply getitem_spec in Ea as [g [I Ia]]; auto. destruct I as [I|I]; [now injection I as <- <-|].
      destruct (S g v (or_intror I)) as [k [w ->]]. rewrite forallb_forall in Ef.
      specialize (Ef _ (in_map snd _ _ I)). simpl in Ef. apply str_eqb_iff in Ef. now subst.
  - split; [discriminate|]. split; [discriminate|]. intros y Ey. injection Ey as <-.
    destruct strict; [|discriminate]. split; auto. unfold chk in Ec. destruct d as [|[g0 v0] d].
    + injection Ec as <-. left. split; auto.
    + right. simpl in Ec. destruct (S g0 v0 (or_introl eq_refl)) as [k0 [w0 ->]].
      destruct (forallb _ (map snd d)) eqn:Ef; [discriminate|]. injection Ec as <-. split; auto.
      assert (exists g k w, In (g, [(k, w)]) d /\ k <> k0) as [g [k [w [I N]]]].
      { assert (S' : forall g v, In (g, v) d -> exists k w, v = [(k, w)]) by (intros g v I; apply (S g v); now right).
        clear - Ef S'. induction d as [|[g v] d IH]; [discriminate|].
        destruct (S' g v (or_introl eq_refl)) as [k [w ->]]. simpl in Ef. apply andb_false_iff in Ef as [Ef|Ef].
        - exists g, k, w. split; [now left|]. intros ->. now rewrite str_eqb_refl in Ef.
        - destruct IH as [h [k' [w' [I N]]]]; auto. { intros g' v' I. apply (S' g'). now right. }
          exists h, k', w'. split; auto. now right. }
      destruct (good_nonempty _ g _ G (or_intror I)) as [_ [a Ia]].
      destruct (good_nonempty _ g0 _ G (or_introl eq_refl)) as [_ [b Ib]].
      exists a, b, k, k0, w, w0. split; [apply getitem_spec; auto; exists g; split; [now right|auto]|].
      split; auto. apply getitem_spec; auto. exists g0. split; [now left|auto].
Qed.

End Interior.

(** ** Aliases from a collection of groups *)

Lemma with_groups_spec {V} (l : list (str * V)) (gs : groups) :
  NoDup (map fst l) -> disjoint gs ->
  (forall g a b, In g gs -> In a g -> In b g -> In a (map fst l) -> In b (map fst l) -> a = b) ->
  let m := mapping_with_groups mkset l gs in
  consistent m
  /\ (forall k v a, In (k, v) l -> (a = k \/ together gs k a) -> getitem m a = Ok v)
  /\ (forall a, (forall k, In k (map fst l) -> a <> k /\ ~ together gs k a) -> getitem m a = Err KeyError)
  /\ Forall2 (fun p g => forall a, In a g <-> a = fst p \/ together gs (fst p) a) l (map fst (as_dict m)).
Proof.
  intros N D U m. unfold m, mapping_with_groups.
  set (K := fun p : str * V => group_or mkset (group_of mkset (One (fst p)))
       (match groups_find mkset gs (fst p) with Some g => mkset g | None => mkset [] end)).
  assert (KI : forall p a, In a (K p) <-> a = fst p \/ together gs (fst p) a).
  { intros p a. unfold K. rewrite group_or_In by auto. unfold group_of. rewrite mkset_In by auto. simpl.
    unfold together. destruct (groups_find mkset gs (fst p)) as [g|] eqn:E; rewrite mkset_In by auto.
    - apply groups_find_some in E as [I Ia]; auto. split.
      + intros [[H|[]]|H]; eauto.
      + intros [->|[h [J [Ja Jb]]]]; auto. right. now rewrite (disjoint_unique gs D g h (fst p)).
    - split; [intros [[H|[]]|[]]; auto|]. intros [->|[h [J [Ja Jb]]]]; auto. exfalso.
      apply (groups_find_none mkset order gs (fst p) E h J Ja). }
  destruct (dict_of_disjoint K snd l) as [G E].
  { clear m. unfold disjoint. induction l as [|p l IH]; [constructor|]. simpl in *. inversion N as [|? ? N1 N2]; subst.
    constructor.
    - apply Forall_forall. intros g I a Ia Ja. apply in_map_iff in I as [q [<- I]]. rewrite KI in Ia, Ja.
      assert (In (fst q) (map fst l)) as Iq by now apply in_map.
      assert (fst p <> fst q) as Npq by (intro X; apply N1; now rewrite X).
      destruct Ia as [->|[g [Ig [Ip Ia]]]], Ja as [Ja|[h [Ih [Iq' Ja]]]].
      + congruence.
      + apply Npq. symmetry. apply (U h); auto.
      + subst a. apply Npq. apply (U g); auto.
      + assert (g = h) as <- by (eapply disjoint_unique; eauto). apply Npq. apply (U g); auto.
    - apply IH; auto. intros g a b Ig Ia Ib Ja Jb. apply (U g); auto. }
  { intros p I. apply group_or_good with (a := fst p). unfold group_of. apply mkset_In; auto. now left. }
  change (map (fun p => (group_or mkset (group_of mkset (One (fst p)))
       (match groups_find mkset gs (fst p) with Some g => mkset g | None => mkset [] end), snd p)) l)
    with (map (fun p => (K p, snd p)) l).
  rewrite E in *. split; [apply consistent_dict; eauto|]. split; [|split].
  - intros k v a I Ha. apply getitem_spec; auto. exists (K (k, v)). split; [apply in_map_iff; exists (k, v); auto|].
    now apply KI.
  - intros a H. apply getitem_none; auto. intros g v I Ia. apply in_map_iff in I as [p [Ep I]]. injection Ep as <- <-.
    apply KI in Ia. destruct (H (fst p) (in_map fst _ _ I)). tauto.
  - simpl. rewrite map_map. simpl. clear -KI. induction l as [|p l IH]; simpl; constructor; auto.
Qed.

(** ** Assigning through a tuple *)

Lemma set_many_fresh {V} (m : amap V) (l : list str) (v : V) :
  consistent m -> l <> [] -> (forall a, In a l -> contains m a = false) ->
  let m' := setitem_many mkset m l v in
  consistent m'
  /\ (forall a, In a l -> getitem m' a = Ok v)
  /\ (forall a, ~ In a l -> getitem m' a = getitem m a).
Proof.
  intros C N F m'. apply consistent_dict in C as [d [-> G]]. unfold m', setitem_many. simpl.
  assert (Fr : forall h w a, In (h, w) d -> In a (group_of mkset (Many l)) -> ~ In a h).
  { intros h w a I Ia Ja. rewrite gof_In in Ia by auto. specialize (F a Ia). unfold contains in F.
    assert (resolve_key (of_dict d) a = Some h) as E by (apply resolve_spec; eauto). now rewrite E in F. }
  assert (NN : group_of mkset (Many l) <> []) by now apply mkset_nonempty.
  rewrite dset_new.
  2: { destruct (group_of mkset (Many l)) as [|a g] eqn:Eg; [congruence|].
       apply (fresh_notin _ _ a); [now left|]. intros h w I. eapply Fr; eauto. now left. }
  assert (G' : good (d ++ [(group_of mkset (Many l), v)])).
  { apply good_app; auto. apply mkset_NoDup; auto. }
  split; [apply consistent_dict; eauto|]. split.
  - intros a Ia. apply getitem_spec; auto. exists (group_of mkset (Many l)). rewrite gof_In by auto. split; auto.
    apply in_or_app. right. now left.
  - intros a Ia. destruct (getitem (of_dict d) a) as [w|e] eqn:E.
    + apply getitem_spec in E as [g [I J]]; auto. apply getitem_spec; auto. exists g. split; auto. apply in_or_app. auto.
    + assert (e = KeyError) as -> by (apply (getitem_err d a e G E)).
      apply getitem_none; auto. intros g w I J. apply in_app_or in I as [I|[I|[]]].
      * eapply (proj1 (getitem_none d G a)); eauto.
      * injection I as <- <-. rewrite gof_In in J by auto. contradiction.
Qed.

End Order.

Lemma reachable_consistent : forall mkset V (l : list (key * V)) h, set_order mkset ->
  disjoint (map (fun p => members (fst p)) l) -> Forall (fun p => members (fst p) <> []) l ->
  consistent (snd (run mkset h (mapping mkset l))).
Proof. intros mkset V l h o D F. apply consistent_run; auto. now apply consistent_mapping. Qed.

Lemma refinement : forall mkset V (l : list (key * V)) (h : list (op V)), set_order mkset ->
  disjoint (map (fun p => members (fst p)) l) -> Forall (fun p => members (fst p) <> []) l ->
  fst (run mkset h (mapping mkset l)) = fst (abs_run h (abs_of l))
  /\ agrees (snd (run mkset h (mapping mkset l))) (snd (abs_run h (abs_of l))).
Proof.
  intros mkset V l h o D F. destruct (refines_run mkset o h _ _ (refines_init mkset o l D F)) as [d' [E R]].
  unfold mapping. rewrite E. simpl. split; auto. now apply refines_agrees.
Qed.

Lemma namemap_idempotent : forall mkset defs m n v, set_order mkset ->
  NoDup (map fst defs) -> namemap mkset defs = Ok m -> nm_get m n = Ok v -> nm_get m v = Ok v.
Proof.
  intros mkset defs m n v o N H E. apply (namemap_spec mkset o defs m N H) in E as [l [I _]].
  apply (namemap_spec mkset o defs m N H). eauto.
Qed.

(** * Other names, and look-up by a whole group *)

Lemma other_names mkset {V} (m : amap V) a : set_order mkset -> consistent m ->
  (contains m a = true -> exists g h, alias_get mkset m a true = Ok (Some g) /\ alias_get mkset m a false = Ok (Some h)
     /\ NoDup g /\ NoDup h
     /\ (forall b, In b h <-> In b g /\ b <> a)
     /\ (forall b, In b g <-> aliases_of m a b)
     /\ forall b, In b g -> getitem m b = getitem m a)
  /\ (contains m a = false -> alias_get mkset m a true = Ok None /\ alias_get mkset m a false = Err TypeError).
Proof.
  intros O C. apply consistent_dict in C as [d [-> G]]. unfold alias_get, contains, aliases_of.
  destruct (resolve_key (of_dict d) a) as [g|] eqn:E.
  - split; [intros _|discriminate]. exists g, (group_sub mkset g (mkset [a])).
    split; [reflexivity|]. split; [reflexivity|].
    pose proof (proj1 (resolve_spec d G a g) E) as [v [I A]].
    split; [exact (proj1 (good_nonempty d g v G I))|].
    split; [apply O|]. split; [|split].
    + intro b. unfold group_sub. rewrite !(mkset_In mkset O), filter_In, Bool.negb_true_iff, gin_false, (mkset_In mkset O).
      cbn. split; intros [H N]; split; try exact H; intro; subst; apply N; auto. now destruct H0.
    + intro b. split; [intro B; now exists g|]. intros [h [H B]]. congruence.
    + intros b B. transitivity (Ok v); [|symmetry]; apply (getitem_spec d G); now exists g.
  - split; [discriminate|]. now split.
Qed.

Lemma group_lookup {V} (m : amap V) g : consistent m -> NoDup g ->
  (forall a v, In a g -> getitem m a = Ok v -> (forall b, In b g <-> aliases_of m a b) -> getitem_group m g = Ok v)
  /\ ((forall a, In a g -> exists b, ~ (In b g <-> aliases_of m a b)) -> getitem_group m g = Err KeyError).
Proof.
  intros C N. apply consistent_dict in C as [d [-> G]]. split.
  - intros a v A E H. apply (getitem_spec d G) in E as [h [I J]].
    assert (R : resolve_key (of_dict d) a = Some h) by (apply resolve_spec; eauto).
    assert (S : forall b, In b g <-> In b h).
    { intro b. rewrite (H b). unfold aliases_of. rewrite R. split; [intros [k [K B]]; congruence|intro B; now exists h]. }
    unfold getitem_group, resolve_group. cbn [as_dict of_dict].
    destruct (find (fun k => geq k g) (map fst d)) as [k|] eqn:F.
    + apply find_some in F as [K Q]. apply in_map_iff in K as [[k' w] [<- K]]. cbn in Q.
      destruct (good_nonempty d k' w G K) as [Nk _].
      pose proof (proj1 (geq_same k' g Nk N) Q) as Q'. clear Q. rename Q' into Q. cbn [fst].
      assert (Ak : In a k') by (now apply Q). rewrite (truthy_In k' a Ak).
      rewrite (dget_spec d k' w G K). f_equal. now apply (good_uniq d G k' w h v a).
    + exfalso. pose proof (find_none _ _ F h) as X. cbn in X.
      destruct (good_nonempty d h v G I) as [Nh _].
      assert (Q : geq h g = true) by (apply (geq_same h g Nh N); intro b; symmetry; apply S).
      rewrite X in Q; [discriminate|]. apply in_map_iff. now exists (h, v).
  - intro H. unfold getitem_group, resolve_group. cbn [as_dict of_dict].
    destruct (find (fun k => geq k g) (map fst d)) as [k|] eqn:F; [|reflexivity].
    apply find_some in F as [K Q]. apply in_map_iff in K as [[k' w] [<- K]]. cbn in Q |- *.
    destruct (good_nonempty d k' w G K) as [Nk [a Ak]].
    pose proof (proj1 (geq_same k' g Nk N) Q) as S. exfalso.
    destruct (H a (proj1 (S a) Ak)) as [b B]. apply B. rewrite <- (S b). unfold aliases_of.
    assert (R : resolve_key (of_dict d) a = Some k') by (apply resolve_spec; eauto).
    rewrite R. split; [intro; now exists k'|]. intros [x [X Y]]. congruence.
Qed.
