(** Properties of views, equality, [fromkeys] and name maps of
    /repo/src/goats/core/aliased.py.  Every theorem holds for every iteration
    order [mkset] of Python sets. *)

From Coq Require Import String Ascii List Bool Arith.
From Verif Require Import Py PyFacts AliasedModel AliasedSpec AliasedProofs AliasedMapProofs AliasedGroupProofs AliasedMoreProofs AliasedProps.
From Verif Require Import ViewsModel ViewsProofs.
Import ListNotations.
Open Scope list_scope.
Open Scope py_scope.

(** ** C195 Two aliased mappings are equal exactly when every name has the same value *)

(** [veq] is the equality of values. *)
Theorem C195_mappings : forall V (veq : V -> V -> bool) (m n : amap V), consistent m -> consistent n ->
  exists b, map_eq veq m n = Ok b
  /\ (b = true <->
      forall a, match getitem m a, getitem n a with
                | Ok v, Ok w => veq w v = true
                | Err _, Err _ => True
                | _, _ => False
                end).
Proof. exact (fun V => @map_eq_spec V). Qed.
Print Assumptions C195_mappings.

Theorem C195_dictionary : forall V (veq : V -> V -> bool) (m : amap V) (e : list (str * V)),
  consistent m -> NoDup (map fst e) ->
  exists b, map_eq_plain veq m e = Ok b
  /\ (b = true <-> (forall a v, getitem m a = Ok v -> exists w, In (a, w) e /\ veq v w = true)
                   /\ (forall a w, In (a, w) e -> exists v, getitem m a = Ok v)).
Proof. exact (fun V => @map_eq_plain_spec V). Qed.
Print Assumptions C195_dictionary.

(** The mapping [{'a': 1, 'A': 1, 'b': 2}], without aliases. *)
Definition m3 : amap nat := mapping ord [(One (lit "b"), 2); (One (lit "A"), 1); (One (lit "a"), 1)].
Example C195_example : consistent m2 /\ consistent m3 /\ map_eq Nat.eqb m2 m3 = Ok true
  /\ map_eq Nat.eqb m2 (setitem ord m3 (lit "b") 3) = Ok false
  /\ map_eq_plain Nat.eqb m2 [(lit "A", 1); (lit "a", 1); (lit "b", 2)] = Ok true
  /\ map_eq_plain Nat.eqb m2 [(lit "A", 1); (lit "b", 2)] = Ok false.
Proof.
  split; [exact m2_consistent|]. split.
  - apply consistent_mapping; [exact ord_is_set_order| |repeat (constructor; [discriminate|]); constructor].
    unfold disjoint. simpl. repeat constructor; intros a [<-|[]] [E|[]]; discriminate.
  - repeat split.
Qed.

(** ** C196 Equal aliased mappings stay equal under the same calls *)

Theorem C196_same_aliases_partial : forall mkset V (m n : amap V) (h : list (op V)), set_order mkset ->
  consistent m -> consistent n ->
  (forall a, getitem m a = getitem n a) -> (forall a b, aliases_of m a b <-> aliases_of n a b) ->
  fst (run mkset h m) = fst (run mkset h n)
  /\ (forall a, getitem (snd (run mkset h m)) a = getitem (snd (run mkset h n)) a)
  /\ (forall a b, aliases_of (snd (run mkset h m)) a b <-> aliases_of (snd (run mkset h n)) a b).
Proof. exact (fun mkset V m n h o => @same_future mkset o V m n h). Qed.
Print Assumptions C196_same_aliases_partial.

(** Equality does not compare the aliases. *)
Theorem C196_refuted : exists (m n : amap nat) (h : list (op nat)), consistent m /\ consistent n
  /\ map_eq Nat.eqb m n = Ok true
  /\ map_eq Nat.eqb (snd (run ord h m)) (snd (run ord h n)) = Ok false.
Proof.
  exists m2, m3, [Set_ (lit "a") 5]. split; [apply C195_example|]. split; [apply C195_example|].
  split; reflexivity.
Qed.
Print Assumptions C196_refuted.

Example C196_example : (forall a, getitem m2 a = getitem (copy ord m2) a)
  /\ getitem (snd (run ord [Set_ (lit "a") 5; Alias_ (lit "b") [lit "B"]] (copy ord m2))) (lit "A") = Ok 5.
Proof.
  split; [|reflexivity]. intro a. symmetry. apply (C62_copy ord nat m2 ord_is_set_order m2_consistent).
Qed.

(** ** C197 Views show the current content *)

(** A view lists each name of the mapping once, with its value. *)
Theorem C256_now : forall V (m : amap V), consistent m ->
  let w := view_of m false in
  exists l, view_items w m = Ok l /\ view_keys w m = map fst l /\ view_values w m = Ok (map snd l)
  /\ view_len w m = length l /\ NoDup (map fst l)
  /\ forall k v, In (k, v) l <-> exists a, k = One a /\ getitem m a = Ok v.
Proof.
  intros V m C w. destruct (names_of m C) as (N & I & _).
  destruct (flat_items m (flat_keys m)) as (l & E & F & G & M); [intros a J; now apply I|].
  exists l. unfold w, view_of, view_items, view_keys, view_values, view_len. cbn [view_keys].
  split; [exact E|]. split; [congruence|]. split; [exact M|]. split.
  { rewrite <- (map_length fst l), F. now rewrite map_length. }
  split. { rewrite F. apply FinFun.Injective_map_NoDup; [intros x y Q; now injection Q|exact N]. }
  intros k v. split.
  - intro J. assert (K : In k (map One (flat_keys m))) by (rewrite <- F; apply in_map_iff; exists (k, v); auto).
    apply in_map_iff in K as (a & <- & _). exists a. split; [reflexivity|]. now apply G in J.
  - intros (a & -> & Q). apply G. split; [apply I; eauto|exact Q].
Qed.
Print Assumptions C256_now.

(** A view of the groups, taken before any calls, shows each group of names
    that are aliases of one another after the calls, once, with its value. *)
Theorem C256_groups : forall mkset V (m : amap V) (h : list (op V)), set_order mkset -> consistent m ->
  let w := view_of m true in
  let m' := snd (run mkset h m) in
  exists l, view_items w m' = Ok l /\ view_keys w m' = map fst l /\ view_values w m' = Ok (map snd l)
  /\ view_len w m' = length l
  /\ (forall k v, In (k, v) l -> exists g a, k = Many g /\ NoDup g /\ In a g /\ getitem m' a = Ok v
        /\ forall b, In b g <-> aliases_of m' a b)
  /\ disjoint (map (fun p => members (fst p)) l)
  /\ (forall a v, getitem m' a = Ok v -> exists k, In (k, v) l /\ In a (members k)).
Proof.
  intros mkset V m h o C w m'. assert (C' : consistent m') by now apply consistent_run.
  destruct (live_items m' C') as (E & F). exists (map (fun p => (Many (fst p), snd p)) (as_dict m')).
  unfold w, view_of. split; [exact E|]. split; [unfold view_keys; now rewrite map_map|].
  split; [rewrite F, map_map; reflexivity|]. split; [unfold view_len; now rewrite map_length|]. split; [|split].
  - intros k v I. apply in_map_iff in I as ([g x] & Q & I). cbn [fst snd] in Q. injection Q as <- <-.
    destruct (group_in m' g x C' I) as (N & NE & H). destruct g as [|a g]; [congruence|].
    exists (a :: g), a. destruct (H a (or_introl eq_refl)) as (H1 & H2).
    split; [reflexivity|]. split; [exact N|]. split; [now left|]. split; [exact H1|]. intro b. now rewrite H2.
  - rewrite map_map. apply C'.
  - intros a v Q. apply consistent_dict in C' as (d & Ed & G). rewrite Ed in *. apply getitem_spec in Q as (g & I & J); auto.
    exists (Many g). split; [|exact J]. apply in_map_iff. exists (g, v). auto.
Qed.
Print Assumptions C256_groups.

(** A view of the names shows later values as long as calls only assign to
    names that exist. *)
Theorem C197_assignments_partial : forall mkset V (m : amap V) (h : list (op V)), set_order mkset -> consistent m ->
  Forall (fun o => match o with Set_ a _ => contains m a = true | _ => False end) h ->
  let w := view_of m false in
  let m' := snd (run mkset h m) in
  exists l, view_items w m' = Ok l /\ view_values w m' = Ok (map snd l) /\ NoDup (map fst l)
  /\ forall k v, In (k, v) l <-> exists a, k = One a /\ getitem m' a = Ok v.
Proof.
  intros mkset V m h o C F w m'. destruct (assign_same mkset o h m C F) as (C' & K). fold m' in C', K.
  destruct (names_of m C) as (N & I & _), (names_of m' C') as (_ & I' & E').
  assert (X : forall (z : amap V) a, consistent z -> (contains z a = true <-> exists v, getitem z a = Ok v)).
  { intros z a Cz. apply consistent_dict in Cz as (d & -> & G). unfold contains.
    destruct (resolve_key (of_dict d) a) as [g|] eqn:Q.
    - split; [|reflexivity]. intros _. apply (resolve_spec d G) in Q as (v & I1 & J1). exists v. apply getitem_spec; eauto.
    - split; [discriminate|]. intros (v & Hv). apply getitem_spec in Hv as (g & I1 & J1); auto.
      assert (Y : resolve_key (of_dict d) a = Some g) by (apply (resolve_spec d G); eauto). congruence. }
  destruct (flat_items m' (flat_keys m)) as (l & E & Fl & G & M).
  { intros a J. apply X; auto. rewrite K. apply X; auto. now apply I. }
  exists l. unfold w, view_of, view_items, view_keys, view_values. split; [exact E|]. split; [exact M|].
  split. { rewrite Fl. apply FinFun.Injective_map_NoDup; [intros x y Q; now injection Q|exact N]. }
  intros k v. split.
  - intro J. assert (Z : In k (map One (flat_keys m))) by (rewrite <- Fl; apply in_map_iff; exists (k, v); auto).
    apply in_map_iff in Z as (a & <- & _). exists a. split; [reflexivity|]. now apply G in J.
  - intros (a & -> & Q). apply G. split; [|exact Q]. apply I. apply X; auto. rewrite <- K. apply X; eauto.
Qed.
Print Assumptions C197_assignments_partial.

(** Otherwise it keeps the old names: new ones are missing, and after a
    deletion reading the values fails. *)
Theorem C197_refuted :
  (exists (m : amap nat) h a v, consistent m /\ getitem (snd (run ord h m)) a = Ok v
     /\ ~ In (One a) (view_keys (view_of m false) (snd (run ord h m))))
  /\ (exists (m : amap nat) h, consistent m /\ fst (run ord h m) = [Ok tt]
     /\ view_values (view_of m false) (snd (run ord h m)) = Err KeyError).
Proof.
  split.
  - exists m2, [Set_ (lit "c") 3], (lit "c"), 3. split; [exact m2_consistent|]. split; [reflexivity|].
    intros [H|[H|[H|[]]]]; discriminate H.
  - exists m2, [Del_ (lit "b")]. split; [exact m2_consistent|]. split; reflexivity.
Qed.
Print Assumptions C197_refuted.

Example C197_example :
  view_items (view_of m2 true) (snd (run ord [Alias_ (lit "b") [lit "B"]; Del_ (lit "A")] m2))
    = Ok [(Many [lit "b"; lit "B"], 2)]
  /\ view_items (view_of m2 false) (snd (run ord [Set_ (lit "A") 9] m2))
    = Ok [(One (lit "a"), 9); (One (lit "A"), 9); (One (lit "b"), 2)].
Proof. split; reflexivity. Qed.

(** ** C198 A mapping made from keys has their names and groups *)

Theorem C257_groups : forall mkset U V (l : list key) (value : V), set_order mkset ->
  disjoint (map members l) -> Forall (fun k => members k <> []) l ->
  exists r, fromkeys mkset (KeyList l : key_source U) value = Ok r
  /\ (forall a, (exists g, In g (map members l) /\ In a g) -> getitem r a = Ok value)
  /\ (forall a, (forall g, In g (map members l) -> ~ In a g) -> getitem r a = Err KeyError)
  /\ (forall a b, aliases_of r a b <-> together (map members l) a b).
Proof. exact (fun mkset U V l value o => @fromkeys_list mkset o U V l value). Qed.
Print Assumptions C257_groups.

Theorem C257_mapping : forall mkset U V (m : amap U) (value : V), set_order mkset -> consistent m ->
  exists r, fromkeys mkset (KeyMap m) value = Ok r
  /\ (forall a, contains m a = true -> getitem r a = Ok value)
  /\ (forall a, contains m a = false -> getitem r a = Err KeyError)
  /\ (forall a b, aliases_of r a b <-> aliases_of m a b).
Proof. exact (fun mkset U V m value o => @fromkeys_map mkset o U V m value). Qed.
Print Assumptions C257_mapping.

(** Each key with the aliases in its interior mapping. *)
Theorem C198_interior_partial : forall mkset U V (l : list (str * list str)) (value : V), set_order mkset ->
  disjoint (map (fun p => fst p :: snd p) l) ->
  exists r, fromkeys mkset (KeyInterior l : key_source U) value = Ok r
  /\ (forall a, (exists g, In g (map (fun p => fst p :: snd p) l) /\ In a g) -> getitem r a = Ok value)
  /\ (forall a, (forall g, In g (map (fun p => fst p :: snd p) l) -> ~ In a g) -> getitem r a = Err KeyError)
  /\ (forall a b, aliases_of r a b <-> together (map (fun p => fst p :: snd p) l) a b).
Proof. exact (fun mkset U V l value o => @fromkeys_interior mkset o U V l value). Qed.
Print Assumptions C198_interior_partial.

(** A dictionary with plain values, which the constructor accepts. *)
Theorem C198_refuted : forall mkset U V (l : list (str * U)) (value : V), l <> [] ->
  fromkeys mkset (KeyPlain l) value = Err AttributeError.
Proof. intros mkset U V [|p l] value N; [congruence|reflexivity]. Qed.
Print Assumptions C198_refuted.

Example C198_example :
  fromkeys ord (KeyMap m2) 7 = Ok (mapping ord [(ks ["a"; "A"]%string, 7); (One (lit "b"), 7)])
  /\ (exists r, fromkeys ord (KeyInterior [(lit "a", [lit "A"; lit "a0"]); (lit "c", [])] : key_source nat) 7 = Ok r
        /\ getitem r (lit "a0") = Ok 7 /\ getitem r (lit "c") = Ok 7).
Proof. split; [reflexivity|]. eexists. split; [reflexivity|]. split; reflexivity. Qed.

(** ** C199 A name map is a mapping whatever has been done to it *)

(** Iteration gives each known name once, and a copy is the same. *)
Theorem C199_new_partial : forall mkset defs s, set_order mkset -> NoDup (map fst defs) ->
  new_map mkset defs = Ok s ->
  NoDup (nm_names s) /\ (forall n, In n (nm_names s) <-> exists v, nm_item s n = Ok v)
  /\ (forall n v, nm_item s n = Ok (inl v) <-> exists l, In (v, l) defs /\ (n = v \/ In n l))
  /\ exists t, nm_copy mkset s = Ok t /\ nm_names t = nm_names s /\ forall n, nm_item t n = nm_item s n.
Proof.
  intros mkset defs s o N E. destruct (new_map_names mkset o defs s N E) as (A & B & _).
  split; [exact A|]. split; [exact B|]. split.
  - intros n v. unfold new_map in E. destruct (namemap mkset defs) as [m|] eqn:M; [|discriminate]. cbn [bind] in E.
    injection E as <-. unfold nm_item. cbn [nm_mapping]. rewrite <- (namemap_spec mkset o defs m N M n v).
    destruct (nm_get m n) as [w|]; cbn [bind]; split; intro H; try discriminate; injection H as ->; reflexivity.
  - exists s. split; [|auto]. unfold nm_copy. replace (nm_init s) with defs; [exact E|].
    unfold new_map in E. destruct (namemap mkset defs) as [m|]; [|discriminate]. cbn [bind] in E. now injection E as <-.
Qed.
Print Assumptions C199_new_partial.

(** After inversion each name gives its aliases, and nothing else is a key;
    iteration and copies are as before the inversion, and there is no second
    inversion. *)
Theorem C199_inverted : forall mkset defs s, set_order mkset -> NoDup (map fst defs) -> new_map mkset defs = Ok s ->
  exists t, nm_inverted mkset s = Ok t
  /\ (forall n, In n (map fst defs) -> exists g, nm_item t n = Ok (inr g) /\ NoDup g /\ forall b, In b g <-> nm_item s b = Ok (inl n))
  /\ (forall n, ~ In n (map fst defs) -> nm_item t n = Err KeyError)
  /\ nm_names t = nm_names s /\ nm_copy mkset t = Ok s /\ nm_inverted mkset t = Err TypeError.
Proof.
  intros mkset defs s o N E. pose proof E as E0. unfold new_map in E. destruct (namemap mkset defs) as [m|] eqn:M; [|discriminate].
  cbn [bind] in E. injection E as <-. destruct (C66_invert mkset defs m o N M) as (r & I & K & A).
  exists (mkNM (inr r) (flat_keys m) defs). unfold nm_inverted at 1. cbn [nm_mapping nm_collection nm_init]. rewrite I. cbn [bind].
  split; [reflexivity|]. unfold nm_item. cbn [nm_mapping]. split; [|split; [|split; [reflexivity|split; [exact E0|reflexivity]]]].
  - intros n J. destruct (K n J) as (g & G & D & B). exists g. unfold contains.
    destruct (resolve_key r n) as [k|] eqn:R; [|unfold getitem in G; rewrite R in G; discriminate]. rewrite G. split; [reflexivity|].
    split; [exact D|]. intro b. rewrite B. destruct (nm_get m b) as [w|]; cbn [bind]; split; intro H; try discriminate; injection H as ->; reflexivity.
  - intros n J. rewrite (A n J). now destruct (contains r n).
Qed.
Print Assumptions C199_inverted.

(** After inversion: iteration still gives the aliases, which are no longer
    keys; a copy is not inverted; a second inversion fails. *)
Theorem C199_refuted : exists defs s t, NoDup (map fst defs) /\ new_map ord defs = Ok s /\ nm_inverted ord s = Ok t
  /\ (exists n, In n (nm_names t) /\ ~ In n (map fst defs) /\ nm_item t n = Err KeyError)
  /\ (exists u n, nm_copy ord t = Ok u /\ nm_item u n <> nm_item t n)
  /\ nm_inverted ord t = Err TypeError.
Proof.
  exists [(lit "mass", [lit "m"; lit "M"]); (lit "time", [lit "t"])]. eexists. eexists.
  split. { constructor; [intros [H|[]]; discriminate H|]. constructor; [intros []|constructor]. }
  split; [reflexivity|]. split; [reflexivity|]. split.
  - exists (lit "m"). split; [right; left; reflexivity|]. split; [intros [H|[H|[]]]; discriminate H|reflexivity].
  - split; [|reflexivity]. eexists. exists (lit "mass"). split; [reflexivity|]. discriminate.
Qed.
Print Assumptions C199_refuted.

Example C199_example : exists s, new_map ord [(lit "mass", [lit "m"; lit "M"]); (lit "time", [lit "t"])] = Ok s
  /\ nm_item s (lit "M") = Ok (inl (lit "mass")) /\ nm_names s = map lit ["mass"; "m"; "M"; "time"; "t"]%string.
Proof. eexists. split; [reflexivity|]. split; reflexivity. Qed.
