(** Proofs about views, equality, [fromkeys] and name maps. *)

From Coq Require Import List Bool Arith Lia.
From Verif Require Import Py PyFacts AliasedModel AliasedSpec AliasedProofs AliasedMapProofs AliasedGroupProofs AliasedMoreProofs ViewsModel.
Import ListNotations.
Open Scope list_scope.
Open Scope py_scope.

(** * Names of a consistent mapping *)

Lemma names_of {V} (m : amap V) : consistent m ->
  NoDup (flat_keys m) /\ (forall a, In a (flat_keys m) <-> exists v, getitem m a = Ok v)
  /\ (forall a, ~ In a (flat_keys m) -> getitem m a = Err KeyError).
Proof.
  intro C. apply consistent_dict in C as (d & -> & G). split; [|split].
  - now apply good_keys_NoDup.
  - intro a. rewrite in_flat_keys. split.
    + intros (g & v & I & J). exists v. apply getitem_spec; eauto.
    + intros (v & E). apply getitem_spec in E as (g & I & J); eauto.
  - intros a N. apply getitem_none; auto. intros g v I J. apply N, in_flat_keys. eauto.
Qed.

Lemma items_le_spec {V} (veq : V -> V -> bool) (m n : amap V) : consistent m -> consistent n -> forall names,
  (forall a, In a names -> In a (flat_keys m)) ->
  exists b, items_le veq m n names = Ok b
  /\ (b = true <-> forall a, In a names -> exists v w, getitem m a = Ok v /\ getitem n a = Ok w /\ veq w v = true).
Proof.
  intros C D. destruct (names_of m C) as (_ & Im & _), (names_of n D) as (_ & In' & Nn).
  induction names as [|a l IH]; intro S.
  - exists true. split; [reflexivity|]. split; [|reflexivity]. intros _ a [].
  - destruct IH as (b & E & B); [intros; apply S; now right|]. cbn [items_le].
    destruct (proj1 (Im a) (S a (or_introl eq_refl))) as (v & Ev). rewrite Ev. cbn [bind].
    destruct (in_dec str_eq_dec a (flat_keys n)) as [I|N].
    + destruct (proj1 (In' a) I) as (w & Ew). rewrite Ew. destruct (veq w v) eqn:Q.
      * exists b. split; [exact E|]. rewrite B. split.
        -- intros H x [<-|J]; [exists v, w; auto|auto].
        -- intros H x J. apply H. now right.
      * exists false. split; [reflexivity|]. split; [discriminate|]. intro H.
        destruct (H a (or_introl eq_refl)) as (v' & w' & E1 & E2 & Q'). rewrite Ev in E1. rewrite Ew in E2.
        injection E1 as <-. injection E2 as <-. congruence.
    + rewrite (Nn a N). exists false. split; [reflexivity|]. split; [discriminate|]. intro H.
      destruct (H a (or_introl eq_refl)) as (v' & w' & _ & E2 & _). rewrite (Nn a N) in E2. discriminate.
Qed.

Lemma same_length {A} (l l' : list A) : NoDup l -> NoDup l' -> (forall a, In a l -> In a l') ->
  length l = length l' -> forall a, In a l' -> In a l.
Proof. intros N N' I E a J. exact (NoDup_length_incl N (ltac:(lia) : length l' <= length l) I a J). Qed.
Lemma same_members_length {A} (l l' : list A) : NoDup l -> NoDup l' -> (forall a, In a l <-> In a l') -> length l = length l'.
Proof.
  intros N N' I. apply Nat.le_antisymm; apply NoDup_incl_length; auto; intros a J; now apply I.
Qed.

(** Every name has a value in both, and the values are equal, or in neither. *)
Definition agree {V} (veq : V -> V -> bool) (m n : amap V) : Prop :=
  forall a, match getitem m a, getitem n a with
            | Ok v, Ok w => veq w v = true
            | Err _, Err _ => True
            | _, _ => False
            end.

Lemma map_eq_spec {V} (veq : V -> V -> bool) (m n : amap V) : consistent m -> consistent n ->
  exists b, map_eq veq m n = Ok b /\ (b = true <-> agree veq m n).
Proof.
  intros C D. destruct (names_of m C) as (Nm & Im & Em), (names_of n D) as (Nn & In' & En).
  unfold map_eq, len. destruct (Nat.eqb_spec (length (flat_keys m)) (length (flat_keys n))) as [L|L].
  - destruct (items_le_spec veq m n C D (flat_keys m)) as (b & E & B); auto. exists b. split; [exact E|]. rewrite B. split.
    + intros H a. destruct (in_dec str_eq_dec a (flat_keys m)) as [I|I].
      * destruct (H a I) as (v & w & E1 & E2 & Q). now rewrite E1, E2.
      * rewrite (Em a I). destruct (in_dec str_eq_dec a (flat_keys n)) as [J|J].
        -- exfalso. apply I. apply (same_length (flat_keys m) (flat_keys n)); auto.
           intros x Hx. destruct (H x Hx) as (v & w & _ & E2 & _). apply In'. eauto.
        -- now rewrite (En a J).
    + intros H a I. apply Im in I as (v & Ev). specialize (H a). rewrite Ev in H.
      destruct (getitem n a) as [w|]; [|contradiction]. eauto.
  - exists false. split; [reflexivity|]. split; [discriminate|]. intro H. exfalso. apply L.
    apply same_members_length; auto. intro a. rewrite Im, In'. specialize (H a).
    split; intros (v & E); rewrite E in H; destruct (getitem m a), (getitem n a); try contradiction; try discriminate; eauto.
Qed.

Lemma items_spec {V} (m : amap V) : consistent m ->
  exists l, items m = Ok l /\ map fst l = flat_keys m /\ (forall a v, In (a, v) l <-> getitem m a = Ok v).
Proof.
  intro C. destruct (names_of m C) as (N & I & _). unfold items.
  assert (H : forall names, (forall a, In a names -> In a (flat_keys m)) ->
    exists l, mapM (fun a => do v <- getitem m a; Ok (a, v)) names = Ok l /\ map fst l = names
      /\ (forall a v, In (a, v) l <-> In a names /\ getitem m a = Ok v)).
  { induction names as [|a l IH]; intro S.
    - exists []. split; [reflexivity|]. split; [reflexivity|]. intros a v. split; [intros []|intros [[] _]].
    - destruct IH as (r & E & F & G); [intros; apply S; now right|].
      destruct (proj1 (I a) (S a (or_introl eq_refl))) as (v & Ev). exists ((a, v) :: r).
      cbn [mapM]. rewrite Ev. cbn [bind]. rewrite E. cbn [bind]. split; [reflexivity|]. cbn [map fst]. split; [congruence|].
      intros b w. cbn [In]. rewrite G. split.
      + intros [H|[H1 H2]]; [injection H as <- <-; auto|auto].
      + intros [[<-|H1] H2]; [left; congruence|right; auto]. }
  destruct (H (flat_keys m)) as (l & E & F & G); auto. exists l. split; [exact E|]. split; [exact F|].
  intros a v. rewrite G. split; [tauto|]. intro Q. split; [apply I; eauto|exact Q].
Qed.

Lemma plain_get_In {V} (d : list (str * V)) a v : NoDup (map fst d) -> (plain_get d a = Some v <-> In (a, v) d).
Proof.
  induction d as [|[b w] d IH]; cbn [plain_get map fst In]; intro N; [split; [discriminate|intros []]|].
  inversion N as [|? ? N1 N2]; subst. destruct (str_eqb_spec a b) as [->|Ne].
  - split; [intro E; injection E as <-; now left|]. intros [E|I]; [injection E as <-; reflexivity|].
    exfalso. apply N1, in_map_iff. exists (b, v). auto.
  - rewrite IH; auto. split; [now right|]. intros [E|I]; [injection E as <- <-; congruence|auto].
Qed.

Lemma map_eq_plain_spec {V} (veq : V -> V -> bool) (m : amap V) (e : list (str * V)) : consistent m -> NoDup (map fst e) ->
  exists b, map_eq_plain veq m e = Ok b
  /\ (b = true <-> (forall a v, getitem m a = Ok v -> exists w, In (a, w) e /\ veq v w = true)
                   /\ (forall a w, In (a, w) e -> exists v, getitem m a = Ok v)).
Proof.
  intros C Ne. destruct (names_of m C) as (N & I & _), (items_spec m C) as (l & E & F & G).
  unfold map_eq_plain. rewrite E. cbn [bind]. exists (plain_eq veq l e). split; [reflexivity|].
  unfold plain_eq. rewrite andb_true_iff, Nat.eqb_eq, forallb_forall.
  assert (K : forall a, In a (map fst e) <-> exists w, In (a, w) e).
  { intro a. rewrite in_map_iff. split; [intros ([x w] & <- & J); eauto|intros (w & J); exists (a, w); auto]. }
  split.
  - intros [L H].
    assert (S : forall a v, getitem m a = Ok v -> exists w, In (a, w) e /\ veq v w = true).
    { intros a v Q. apply G in Q. specialize (H _ Q). cbn [fst snd] in H.
      destruct (plain_get e a) as [w|] eqn:P; [|discriminate]. exists w. split; [now apply plain_get_In|exact H]. }
    split; [exact S|]. intros a w J. apply I. apply (same_length (flat_keys m) (map fst e)); auto.
    + intros x Hx. apply I in Hx as (v & Q). destruct (S x v Q) as (u & Iu & _). apply K. eauto.
    + rewrite <- F, !map_length. lia.
    + apply K. eauto.
  - intros [H1 H2]. split.
    + rewrite <- (map_length fst l), <- (map_length fst e), F. apply same_members_length; auto.
      intro a. rewrite I, K. split.
      * intros (v & Q). destruct (H1 a v Q) as (w & J & _). eauto.
      * intros (w & J). eauto.
    + intros [a v] J. cbn [fst snd]. apply G in J. destruct (H1 a v J) as (w & Iw & Q).
      apply plain_get_In in Iw; auto. now rewrite Iw.
Qed.

(** * Histories *)

Lemma same_abs {V} (m n : amap V) : consistent m -> consistent n ->
  (forall a, getitem m a = getitem n a) -> (forall a b, aliases_of m a b <-> aliases_of n a b) ->
  exists d e s, m = of_dict d /\ n = of_dict e /\ refines d s /\ refines e s.
Proof.
  intros C D E A. apply consistent_dict in C as (d & -> & G). apply consistent_dict in D as (e & -> & F).
  exists d, e, (self_abs d). split; [reflexivity|]. split; [reflexivity|].
  pose proof (refines_self d G) as R. pose proof (refines_self e F) as Q. split; [exact R|].
  split; [exact F|]. split.
  - intros a v. destruct R as (_ & R & _). rewrite R, <- (getitem_spec d G), <- (getitem_spec e F), E. tauto.
  - intros a b. rewrite <- (aliases_refines d _ a b R), A, (aliases_refines e _ a b Q). destruct Q as (_ & _ & Q). apply Q.
Qed.

Section Ordered.
Variable mkset : list str -> group.
Hypothesis order : set_order mkset.

Lemma same_future {V} (m n : amap V) (h : list (op V)) : consistent m -> consistent n ->
  (forall a, getitem m a = getitem n a) -> (forall a b, aliases_of m a b <-> aliases_of n a b) ->
  fst (run mkset h m) = fst (run mkset h n)
  /\ (forall a, getitem (snd (run mkset h m)) a = getitem (snd (run mkset h n)) a)
  /\ (forall a b, aliases_of (snd (run mkset h m)) a b <-> aliases_of (snd (run mkset h n)) a b).
Proof.
  intros C D E A. destruct (same_abs m n C D E A) as (d & e & s & -> & -> & R & Q).
  destruct (refines_run mkset order h d s R) as (d' & E1 & R'), (refines_run mkset order h e s Q) as (e' & E2 & Q').
  rewrite E1, E2. cbn [fst snd]. split; [reflexivity|]. split.
  - intro a. now rewrite (get_refines _ _ a R'), (get_refines _ _ a Q').
  - intros a b. now rewrite (aliases_refines _ _ a b R'), (aliases_refines _ _ a b Q').
Qed.

(** * Views *)

Lemma flat_items {V} (m : amap V) names : (forall a, In a names -> exists v, getitem m a = Ok v) ->
  exists l, mapM (fun k => do v <- look_up m k; Ok (k, v)) (map One names) = Ok l /\ map fst l = map One names
    /\ (forall a v, In (One a, v) l <-> In a names /\ getitem m a = Ok v)
    /\ mapM (look_up m) (map One names) = Ok (map snd l).
Proof.
  induction names as [|a l IH]; intro S.
  - exists []. cbn. repeat split; auto; try contradiction; intros [[] _].
  - destruct IH as (r & E & F & G & M); [intros; apply S; now right|].
    destruct (S a (or_introl eq_refl)) as (v & Ev). exists ((One a, v) :: r).
    cbn [map mapM look_up]. rewrite Ev. cbn [bind]. rewrite E, M. cbn [bind]. split; [reflexivity|].
    cbn [map fst snd]. split; [congruence|]. split; [|reflexivity].
    intros b w. cbn [In]. rewrite G. split.
    + intros [H|[H1 H2]]; [injection H as <- <-; auto|auto].
    + intros [[<-|H1] H2]; [left; congruence|right; auto].
Qed.

Lemma live_items {V} (m : amap V) : consistent m ->
  view_items Live m = Ok (map (fun p => (Many (fst p), snd p)) (as_dict m))
  /\ view_values Live m = Ok (map snd (as_dict m)).
Proof.
  intro C. apply consistent_dict in C as (d & -> & G). pose proof (aliased_items_good d G) as A.
  unfold aliased_items in A. unfold view_items, view_values, view_keys. cbn [as_dict of_dict] in *.
  assert (H : forall p, In p d -> getitem_group (of_dict d) (fst p) = Ok (snd p)).
  { assert (K : forall l r, mapM (fun g => do v <- getitem_group (of_dict d) g; Ok (g, v)) (map fst l) = Ok r ->
       r = l -> forall p, In p l -> getitem_group (of_dict d) (fst p) = Ok (snd p)).
    { clear A. induction l as [|[g v] l IH]; intros r E -> p; [intros []|]. cbn [map mapM fst] in E.
      destruct (getitem_group (of_dict d) g) as [w|] eqn:Q; [|discriminate]. cbn [bind] in E.
      destruct (mapM _ (map fst l)) as [r|] eqn:M in E; [|discriminate]. cbn [bind] in E. injection E as -> ->.
      intros [<-|J]; [exact Q|]. now apply (IH l). }
    intros p I. exact (K d d A eq_refl p I). }
  clear A. assert (L : forall l, (forall p, In p l -> In p d) ->
     mapM (fun k => do v <- look_up (of_dict d) k; Ok (k, v)) (map (fun p : group * V => Many (fst p)) l)
       = Ok (map (fun p => (Many (fst p), snd p)) l)
     /\ mapM (look_up (of_dict d)) (map (fun p : group * V => Many (fst p)) l) = Ok (map snd l)).
  { induction l as [|p l IH]; intro S; [now split|]. destruct IH as (E & F); [intros; apply S; now right|].
    cbn [map mapM look_up]. rewrite (H p (S p (or_introl eq_refl))). cbn [bind].
    change (fun p => match p with (k, _) => k end) with (@fst group V). rewrite E, F. now split. }
  apply L. auto.
Qed.

Lemma group_in {V} (m : amap V) g v : consistent m -> In (g, v) (as_dict m) ->
  NoDup g /\ g <> [] /\ (forall a, In a g -> getitem m a = Ok v /\ forall b, aliases_of m a b <-> In b g).
Proof.
  intros C I. apply consistent_dict in C as (d & -> & G). cbn [as_dict of_dict] in I.
  pose proof G as [_ F]. rewrite Forall_forall in F.
  destruct (F g) as (N & NE); [apply in_map_iff; exists (g, v); auto|]. split; [exact N|]. split; [exact NE|].
  intros a J. split; [apply getitem_spec; eauto|]. intro b.
  rewrite (aliases_refines d _ a b (refines_self d G)). destruct (refines_self d G) as (_ & _ & Q). rewrite Q. split.
  - intros (h & w & I' & J' & K). destruct (good_uniq d G h w g v a I' I J' J); subst. exact K.
  - intro K. eauto.
Qed.

Lemma assign_same {V} (h : list (op V)) : forall (m : amap V), consistent m ->
  Forall (fun o => match o with Set_ a _ => contains m a = true | _ => False end) h ->
  let m' := snd (run mkset h m) in
  consistent m' /\ forall a, contains m' a = contains m a.
Proof.
  induction h as [|o h IH]; intros m C F; [split; auto|]. inversion F as [|? ? Fo Fh]; subst.
  destruct o as [a v| |]; try contradiction. cbn [run run_op].
  destruct (set_frame mkset order m a v C) as (C' & _ & _ & _ & R).
  assert (K : forall b, contains (setitem mkset m a v) b = contains m b).
  { intro b. assert (X : forall w : amap V, contains w b = true <-> exists y, aliases_of w b y \/ (resolve_key w b = Some [] /\ y = b)).
    { intro w. unfold contains, aliases_of. destruct (resolve_key w b) as [[|y g]|].
      - split; [intros _; exists b; right; auto|reflexivity].
      - split; [intros _; exists y; left; exists (y :: g); split; [reflexivity|now left]|reflexivity].
      - split; [discriminate|]. intros (y & [(g & E & _)|(E & _)]); discriminate. }
    assert (Y : forall w : amap V, consistent w -> (contains w b = true <-> exists y, aliases_of w b y)).
    { intros w Cw. rewrite X. split; intros (y & H); [|exists y; now left]. destruct H as [H|(E & _)]; [eauto|].
      exfalso. apply consistent_dict in Cw as (d & -> & G). apply (resolve_spec d G) in E.
      destruct E as (v' & I & []). }
    apply eq_true_iff_eq. rewrite (Y _ C'), (Y _ C). split; intros (y & H); exists y.
    - apply R in H as [H|(H & _)]; [exact H|congruence].
    - apply R. now left. }
  destruct (IH (setitem mkset m a v) C') as (C2 & K2).
  { rewrite Forall_forall in *. intros o I. specialize (Fh o I). destruct o; try contradiction. now rewrite K. }
  destruct (run mkset h (setitem mkset m a v)) as [rs m''] eqn:E. cbn [snd] in *. split; [exact C2|]. intro b. now rewrite K2, K.
Qed.

End Ordered.

(** * [fromkeys] *)

Section Keys.
Variable mkset : list str -> group.
Hypothesis order : set_order mkset.

Lemma mapping_aliases {V} (l : list (key * V)) a b :
  disjoint (map (fun p => members (fst p)) l) -> Forall (fun p => members (fst p) <> []) l ->
  (aliases_of (mapping mkset l) a b <-> exists k v, In (k, v) l /\ In a (members k) /\ In b (members k)).
Proof.
  intros D F. pose proof (refines_init mkset order l D F) as R. unfold mapping.
  rewrite (aliases_refines _ _ a b R). unfold abs_of. cbn [rel]. rewrite existsb_exists. split.
  - intros ([k v] & I & H). cbn [fst] in H. apply andb_true_iff in H as [H1 H2]. apply gin_In in H1, H2. eauto.
  - intros (k & v & I & H1 & H2). exists (k, v). split; [exact I|]. cbn [fst]. apply andb_true_iff. split; now apply gin_In.
Qed.

(** The mapping has exactly the given groups of names, all with one value. *)
Definition filled {V} (r : amap V) (groups : list (list str)) (value : V) : Prop :=
  (forall a, (exists g, In g groups /\ In a g) -> getitem r a = Ok value)
  /\ (forall a, (forall g, In g groups -> ~ In a g) -> getitem r a = Err KeyError)
  /\ (forall a b, aliases_of r a b <-> together groups a b).

Lemma fill {V X} (f : X -> key) (l : list X) (value : V) :
  disjoint (map (fun x => members (f x)) l) -> Forall (fun x => members (f x) <> []) l ->
  filled (mapping mkset (map (fun x => (f x, value)) l)) (map (fun x => members (f x)) l) value.
Proof.
  intros D F.
  assert (D' : disjoint (map (fun p : key * V => members (fst p)) (map (fun x => (f x, value)) l))).
  { rewrite map_map. exact D. }
  assert (F' : Forall (fun p : key * V => members (fst p) <> []) (map (fun x => (f x, value)) l)).
  { apply Forall_map. exact F. }
  destruct (mapping_get mkset order _ D' F') as (G & E). split; [|split].
  - intros a (g & I & J). apply in_map_iff in I as (x & <- & I). apply G with (f x); [|exact J].
    apply in_map_iff. eauto.
  - intros a N. apply E. intros k v I J. apply in_map_iff in I as (x & Q & I). injection Q as <- <-.
    apply (N (members (f x))); [apply in_map_iff; eauto|exact J].
  - intros a b. rewrite (mapping_aliases _ a b D' F'). unfold together. split.
    + intros (k & v & I & J & K). apply in_map_iff in I as (x & Q & I). injection Q as <- <-.
      exists (members (f x)). split; [apply in_map_iff; eauto|auto].
    + intros (g & I & J & K). apply in_map_iff in I as (x & <- & I). exists (f x), value.
      split; [apply in_map_iff; eauto|auto].
Qed.

Lemma filled_same {V} (r : amap V) gs hs (value : V) : filled r gs value ->
  (forall a b, together gs a b <-> together hs a b) -> filled r hs value.
Proof.
  intros (A & B & C) T.
  assert (M : forall a, (exists g, In g gs /\ In a g) <-> (exists g, In g hs /\ In a g)).
  { intro a. specialize (T a a). unfold together in T. split.
    - intros (g & I & J). destruct T as (T & _). destruct T as (h & K & L & _); eauto.
    - intros (g & I & J). destruct T as (_ & T). destruct T as (h & K & L & _); eauto. }
  split; [|split].
  - intros a H. apply A, M, H.
  - intros a H. apply B. intros g I J. destruct (proj1 (M a)) as (h & K & L); eauto. now apply (H h).
  - intros a b. now rewrite C.
Qed.

Lemma fromkeys_list {U V} (l : list key) (value : V) :
  disjoint (map members l) -> Forall (fun k => members k <> []) l ->
  exists r, fromkeys mkset (KeyList l : key_source U) value = Ok r /\ filled r (map members l) value.
Proof. intros D F. eexists. split; [reflexivity|]. exact (fill (fun k => k) l value D F). Qed.

Lemma fromkeys_map {U V} (m : amap U) (value : V) : consistent m ->
  exists r, fromkeys mkset (KeyMap m) value = Ok r
  /\ (forall a, contains m a = true -> getitem r a = Ok value)
  /\ (forall a, contains m a = false -> getitem r a = Err KeyError)
  /\ (forall a b, aliases_of r a b <-> aliases_of m a b).
Proof.
  intros C. pose proof C as (_ & D & F). eexists. split; [reflexivity|].
  destruct (fill (fun p : group * U => Many (fst p)) (as_dict m) value) as (A & B & R).
  { exact D. } { apply Forall_forall. intros p I. rewrite Forall_forall in F. exact (proj2 (F (fst p) (in_map fst _ p I))). }
  assert (T : forall a b, together (map (fun p : group * U => members (Many (fst p))) (as_dict m)) a b <-> aliases_of m a b).
  { intros a b. cbn [members]. apply consistent_dict in C as (d & -> & G).
    rewrite (aliases_refines d _ a b (refines_self d G)). destruct (refines_self d G) as (_ & _ & Q). rewrite Q.
    cbn [as_dict of_dict]. unfold together. split.
    - intros (g & I & J & K). apply in_map_iff in I as ([h v] & <- & I). eauto.
    - intros (g & v & I & J & K). exists g. split; [apply in_map_iff; exists (g, v); auto|auto]. }
  assert (H : forall a, contains m a = true <-> exists g, In g (map (fun p : group * U => members (Many (fst p))) (as_dict m)) /\ In a g).
  { intro a. cbn [members]. apply consistent_dict in C as (d & -> & G). unfold contains. cbn [as_dict of_dict].
    destruct (resolve_key (of_dict d) a) as [g|] eqn:E.
    - split; [|reflexivity]. intros _. apply (resolve_spec d G) in E as (v & I & J). exists g. split; [apply in_map_iff; exists (g, v); auto|exact J].
    - split; [discriminate|]. intros (g & I & J). apply in_map_iff in I as ([h v] & <- & I). exfalso.
      assert (X : resolve_key (of_dict d) a = Some h) by (apply (resolve_spec d G); eauto). congruence. }
  split; [|split].
  - intros a I. apply A, H, I.
  - intros a I. apply B. intros g J K. rewrite (proj2 (H a)) in I by eauto. discriminate.
  - intros a b. rewrite R. apply T.
Qed.

Lemma fromkeys_interior {U V} (l : list (str * list str)) (value : V) :
  disjoint (map (fun p => fst p :: snd p) l) ->
  exists r, fromkeys mkset (KeyInterior l : key_source U) value = Ok r
  /\ filled r (map (fun p => fst p :: snd p) l) value.
Proof.
  intro D. eexists. split; [reflexivity|].
  set (f := fun p : str * list str => Many (group_or mkset (group_of mkset (One (fst p))) (mkset (snd p)))).
  assert (M : forall p a, In a (members (f p)) <-> In a (fst p :: snd p)).
  { intros p a. cbn [f members]. rewrite (group_or_In mkset order), (gof_In mkset order), (mkset_In mkset order). cbn. tauto. }
  apply filled_same with (map (fun p => members (f p)) l).
  - apply (fill f).
    + apply (disjoint_map_incl (fun p => members (f p)) (fun p => fst p :: snd p)); [|exact D]. intros p a _. apply M.
    + apply Forall_forall. intros p _ E. assert (X : In (fst p) (members (f p))) by (apply M; now left). now rewrite E in X.
  - intros a b. unfold together. split; intros (g & I & J & K); apply in_map_iff in I as (p & <- & I).
    + exists (fst p :: snd p). split; [apply in_map_iff; eauto|]. split; now apply M.
    + exists (members (f p)). split; [apply in_map_iff; eauto|]. split; now apply M.
Qed.

(** * Name maps *)

Lemma namemap_consistent defs m : NoDup (map fst defs) -> namemap mkset defs = Ok m -> consistent m.
Proof.
  intros N E. destruct (nm_build_ok mkset order (map fst defs) (nm_aliases defs) m N) as [(d & s & -> & R & _) _]; auto.
  { intros k bs I. apply nm_aliases_In in I as [l [I _]]. apply in_map_iff. exists (k, l). auto. }
  apply consistent_dict. exists d. split; [reflexivity|apply R].
Qed.

Lemma nm_get_item (m : amap str) a : consistent m -> nm_get m a = getitem m a.
Proof.
  intro C. apply consistent_dict in C as (d & -> & G). unfold nm_get, contains.
  destruct (resolve_key (of_dict d) a) as [g|] eqn:E; [reflexivity|].
  unfold getitem. rewrite E. reflexivity.
Qed.

Lemma new_map_names defs s : NoDup (map fst defs) -> new_map mkset defs = Ok s ->
  NoDup (nm_names s) /\ (forall n, In n (nm_names s) <-> exists v, nm_item s n = Ok v)
  /\ nm_keys s = nm_names s.
Proof.
  intros N E. unfold new_map in E. destruct (namemap mkset defs) as [m|] eqn:M; [|discriminate]. cbn [bind] in E. injection E as <-.
  pose proof (namemap_consistent defs m N M) as C. destruct (names_of m C) as (D & I & _).
  unfold nm_names, nm_item, nm_keys. cbn [nm_collection nm_mapping]. split; [exact D|]. split; [|reflexivity].
  intro n. rewrite I, (nm_get_item m n C). split.
  - intros (v & E). exists (inl v). now rewrite E.
  - intros (v & E). destruct (getitem m n) as [w|]; [eauto|discriminate].
Qed.

End Keys.
