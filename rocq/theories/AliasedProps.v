(** The property theorems about /repo/src/goats/core/aliased.py.

    Every theorem holds for every iteration order [mkset] of Python sets. *)

From Coq Require Import String Ascii List Bool ZArith Relations.
From Verif Require Import Py PyFacts AliasedModel AliasedSpec AliasedProofs AliasedMapProofs.
From Verif Require Import AliasedGroupProofs AliasedMoreProofs.
Import ListNotations.
Open Scope list_scope.
Open Scope py_scope.

(** A set order for the examples: last occurrences. *)
Definition ord : list str -> list str := nodup str_eq_dec.
Example ord_is_set_order : set_order ord.
Proof. intro l. split; [apply NoDup_nodup|]. intro a. apply nodup_In. Qed.

Definition ks (l : list string) : key := Many (map lit l).
(** [{('a', 'A'): 1, 'b': 2}]. *)
Definition two : list (key * nat) := [(ks ["a"; "A"]%string, 1); (One (lit "b"), 2)].
Definition m2 : amap nat := mapping ord two.

(** ** C11: aliases read the same value *)

Theorem C11_aliases_read_same : forall mkset V (l : list (key * V)),
  set_order mkset ->
  disjoint (map (fun p => members (fst p)) l) -> Forall (fun p => members (fst p) <> []) l ->
  (forall k v a, In (k, v) l -> In a (members k) -> getitem (mapping mkset l) a = Ok v)
  /\ (forall a, (forall k v, In (k, v) l -> ~ In a (members k)) ->
      getitem (mapping mkset l) a = Err KeyError).
Proof. exact (fun mkset V l o => @mapping_get mkset o V l). Qed.
Print Assumptions C11_aliases_read_same.

Example C11_example :
  disjoint (map (fun p => members (fst p)) two) /\ Forall (fun p => members (fst p) <> []) two
  /\ getitem m2 (lit "A") = Ok 1 /\ getitem m2 (lit "a") = Ok 1
  /\ getitem m2 (lit "b") = Ok 2 /\ getitem m2 (lit "c") = Err KeyError.
Proof.
  split; [|split].
  - unfold disjoint. simpl. apply FOP_cons; [|apply FOP_cons; [apply Forall_nil|apply FOP_nil]].
    apply Forall_cons; [|apply Forall_nil]. intros a [<-|[<-|[]]] [H|[]]; discriminate.
  - apply Forall_cons; [discriminate|]. apply Forall_cons; [discriminate|apply Forall_nil].
  - repeat split.
Qed.

Lemma m2_consistent : consistent m2.
Proof. apply consistent_mapping; [apply ord_is_set_order|apply C11_example|apply C11_example]. Qed.

(** ** C12: writing and deleting through an alias *)

Theorem C12_set_frame : forall mkset V (m : amap V) a v, set_order mkset -> consistent m ->
  let m' := setitem mkset m a v in
  consistent m'
  /\ getitem m' a = Ok v
  /\ (forall b, aliases_of m a b -> getitem m' b = Ok v)
  /\ (forall b, ~ aliases_of m a b -> b <> a -> getitem m' b = getitem m b)
  /\ (forall x y, aliases_of m' x y <-> aliases_of m x y \/ (contains m a = false /\ x = a /\ y = a)).
Proof. exact (fun mkset V m a v o => @set_frame mkset o V m a v). Qed.
Print Assumptions C12_set_frame.

Theorem C12_del_frame : forall V (m : amap V) a, consistent m -> contains m a = true ->
  exists m', delitem m a = Ok m' /\ consistent m'
  /\ (forall b, aliases_of m a b -> getitem m' b = Err KeyError)
  /\ (forall b, ~ aliases_of m a b -> getitem m' b = getitem m b)
  /\ (forall x y, aliases_of m' x y <-> aliases_of m x y /\ ~ aliases_of m a x).
Proof. exact (fun V => @del_frame V). Qed.
Print Assumptions C12_del_frame.

Theorem C12_del_absent : forall V (m : amap V) a, contains m a = false -> delitem m a = Err KeyError.
Proof. exact (fun V => @del_absent V). Qed.
Print Assumptions C12_del_absent.

(** Every mapping built from disjoint keys is consistent, and stays so under
    every history. *)
Theorem C12_reachable : forall mkset V (l : list (key * V)) h, set_order mkset ->
  disjoint (map (fun p => members (fst p)) l) -> Forall (fun p => members (fst p) <> []) l ->
  consistent (snd (run mkset h (mapping mkset l))).
Proof. exact reachable_consistent. Qed.
Print Assumptions C12_reachable.

Example C12_example :
  consistent m2 /\ aliases_of m2 (lit "a") (lit "A") /\ ~ aliases_of m2 (lit "a") (lit "b")
  /\ contains m2 (lit "a") = true.
Proof.
  split; [apply m2_consistent|]. split; [|split; [|reflexivity]].
  - eexists. split; [reflexivity|]. right. now left.
  - intros [g [E I]]. injection E as <-. destruct I as [I|[I|[]]]; discriminate.
Qed.

(** ** C13: refinement of the abstract map under every history *)

Theorem C13_refinement : forall mkset V (l : list (key * V)) (h : list (op V)), set_order mkset ->
  disjoint (map (fun p => members (fst p)) l) -> Forall (fun p => members (fst p) <> []) l ->
  fst (run mkset h (mapping mkset l)) = fst (abs_run h (abs_of l))
  /\ agrees (snd (run mkset h (mapping mkset l))) (snd (abs_run h (abs_of l))).
Proof. exact refinement. Qed.
Print Assumptions C13_refinement.

Example C13_example :
  let h := [Alias_ (lit "b") [lit "c"; lit "d"]; Set_ (lit "d") 7; Alias_ (lit "c") [lit "a"];
            Del_ (lit "A"); Set_ (lit "A") 9; Del_ (lit "z")] in
  fst (run ord h m2) = [Ok tt; Ok tt; Err KeyError; Ok tt; Ok tt; Err KeyError]
  /\ map (fun a => getitem (snd (run ord h m2)) (lit a)) ["a"; "A"; "b"; "c"; "d"]%string
     = [Err KeyError; Ok 9; Ok 7; Ok 7; Ok 7]
  /\ len (snd (run ord h m2)) = 4.
Proof. vm_compute. repeat split. Qed.

(** ** C14: registering aliases *)

(** Missing: a failing call may leave a prefix of the aliases registered.
    What a failing call leaves is exactly the effect of the aliases before the
    first one that is taken (or of an absent key). *)
Theorem C14_failure_leaves_prefix_partial : forall mkset V a bs (m m' : amap V) e, set_order mkset ->
  alias_set mkset m a bs = (Err e, m') -> consistent m ->
  exists pre b post, bs = pre ++ b :: post /\ b <> a /\ alias_set mkset m a pre = (Ok tt, m')
                     /\ (contains m' b = true \/ contains m' a = false).
Proof. exact (fun mkset V a bs m m' e o => @alias_prefix mkset o V a bs m m' e). Qed.
Print Assumptions C14_failure_leaves_prefix_partial.

Theorem C14_one_alias_atomic_partial : forall mkset V (m m' : amap V) a b e, set_order mkset ->
  consistent m -> alias_set mkset m a [b] = (Err e, m') -> m' = m.
Proof. exact (fun mkset V m m' a b e o => @alias_one_atomic mkset o V m m' a b e). Qed.
Print Assumptions C14_one_alias_atomic_partial.

Theorem C14_fresh_aliases_succeed : forall mkset V (m : amap V) a bs v, set_order mkset ->
  consistent m -> getitem m a = Ok v -> (forall b, In b bs -> b <> a -> contains m b = false) ->
  NoDup (filter (fun b => negb (str_eqb b a)) bs) ->
  exists m', alias_set mkset m a bs = (Ok tt, m') /\ consistent m'
  /\ (forall b, In b bs -> getitem m' b = Ok v)
  /\ (forall b, ~ In b bs -> getitem m' b = getitem m b).
Proof. exact (fun mkset V m a bs v o => @alias_fresh mkset o V m a bs v). Qed.
Print Assumptions C14_fresh_aliases_succeed.

(** [m.alias('a', 'x', 'b')] fails because ['b'] is taken, yet ['x'] stays. *)
Theorem C14_all_or_nothing_refuted : exists (m m' : amap nat) a bs e x,
  consistent m /\ alias_set ord m a bs = (Err e, m')
  /\ contains m x = false /\ contains m' x = true.
Proof.
  exists m2. eexists. exists (lit "a"), [lit "x"; lit "b"], KeyError, (lit "x").
  split; [exact m2_consistent|]. split; [reflexivity|]. split; reflexivity.
Qed.
Print Assumptions C14_all_or_nothing_refuted.

Example C14_example :
  (forall b, In b [lit "x"; lit "a"; lit "y"] -> b <> lit "a" -> contains m2 b = false)
  /\ fst (alias_set ord m2 (lit "a") [lit "x"; lit "a"; lit "y"]) = Ok tt.
Proof. split; [|reflexivity]. intros b [<-|[<-|[<-|[]]]] N; try reflexivity. now elim N. Qed.

(** ** C15: disjoint groups *)

Theorem C230_add_exact : forall mkset gs x, set_order mkset ->
  (exists gs', groups_add mkset gs x = Ok gs') <-> (forall a g, In a x -> In g gs -> ~ In a g).
Proof. exact (fun mkset gs x o => add_exact mkset gs x). Qed.
Print Assumptions C230_add_exact.

Theorem C230_add_disjoint : forall mkset gs x gs', set_order mkset ->
  groups_add mkset gs x = Ok gs' -> disjoint gs ->
  disjoint gs' /\ forall a b, together gs' a b <-> together gs a b \/ (In a x /\ In b x).
Proof. exact (fun mkset gs x gs' o => @add_effect mkset o gs x gs'). Qed.
Print Assumptions C230_add_disjoint.

Theorem C230_discard : forall mkset gs a, set_order mkset -> disjoint gs ->
  exists gs', groups_discard mkset gs a = Ok gs' /\ disjoint gs'
  /\ forall x y, together gs' x y <-> together gs x y /\ ~ together gs a x.
Proof. exact (fun mkset gs a o => @discard_effect mkset o gs a). Qed.
Print Assumptions C230_discard.

(** Missing: new groups that meet several existing groups, or several new
    groups that meet the same one, or that overlap, and bare strings. *)
Theorem C15_merge_partial : forall mkset self others, set_order mkset ->
  disjoint self -> listed others -> disjoint (new_groups others) -> matching self (new_groups others) ->
  exists r, groups_merge mkset self others = Ok r /\ disjoint r
  /\ forall a b, together r a b <-> clos_trans _ (together (self ++ new_groups others)) a b.
Proof. exact (fun mkset self others o => @merge_spec mkset o self others). Qed.
Print Assumptions C15_merge_partial.

(** [Groups(['a'], ['b']).merge(['a', 'b'])] holds ['b'] twice. *)
Theorem C15_merge_overlap_refuted : exists self others r,
  disjoint self /\ groups_merge ord self others = Ok r /\ ~ disjoint r.
Proof.
  exists [[lit "a"]; [lit "b"]], [AIter [lit "a"; lit "b"]]. eexists.
  split; [|split; [reflexivity|]].
  - apply FOP_cons; [|apply FOP_cons; [apply Forall_nil|apply FOP_nil]].
    apply Forall_cons; [|apply Forall_nil]. intros a [<-|[]] [H|[]]; discriminate.
  - intro D. inversion D as [|? ? F _]; subst. inversion F as [|? ? H _]; subst.
    apply (H (lit "b")); [now left|right; now left].
Qed.
Print Assumptions C15_merge_overlap_refuted.

(** [Groups(['a']).merge(['a', 'b'], ['a', 'c'])] raises. *)
Theorem C15_merge_fails_refuted : exists self others,
  disjoint self /\ groups_merge ord self others = Err ValueError.
Proof.
  exists [[lit "a"]], [AIter [lit "a"; lit "b"]; AIter [lit "a"; lit "c"]]. split; [|reflexivity].
  apply FOP_cons; [apply Forall_nil|apply FOP_nil].
Qed.
Print Assumptions C15_merge_fails_refuted.

Example C15_example :
  let self := [[lit "a"; lit "A"]; [lit "b"]; [lit "c"]] in
  let others := [AIter [lit "A"; lit "x"]; AGroups [[lit "y"; lit "z"]; [lit "b"; lit "B"]]] in
  groups_merge ord self others
  = Ok [[lit "c"]; [lit "a"; lit "A"; lit "x"]; [lit "y"; lit "z"]; [lit "b"; lit "B"]].
Proof. reflexivity. Qed.

(** ** C16: name maps *)

Theorem C16_lookup : forall mkset defs m, set_order mkset ->
  NoDup (map fst defs) -> namemap mkset defs = Ok m ->
  forall n v, nm_get m n = Ok v <-> exists l, In (v, l) defs /\ (n = v \/ In n l).
Proof. exact (fun mkset defs m o => @namemap_spec mkset o defs m). Qed.
Print Assumptions C16_lookup.

Theorem C16_unknown : forall mkset defs m n, set_order mkset ->
  NoDup (map fst defs) -> namemap mkset defs = Ok m ->
  (forall v l, In (v, l) defs -> n <> v /\ ~ In n l) -> nm_get m n = Err KeyError.
Proof. exact (fun mkset defs m n o => @namemap_keyerror mkset o defs m n). Qed.
Print Assumptions C16_unknown.

Theorem C16_idempotent : forall mkset defs m n v, set_order mkset ->
  NoDup (map fst defs) -> namemap mkset defs = Ok m -> nm_get m n = Ok v -> nm_get m v = Ok v.
Proof. exact namemap_idempotent. Qed.
Print Assumptions C16_idempotent.

(** Definitions without repeated names always yield a map. *)
Theorem C16_total : forall mkset defs, set_order mkset ->
  NoDup (concat (map (fun p => fst p :: filter (fun i => negb (str_eqb i (fst p))) (snd p)) defs)) ->
  exists m, namemap mkset defs = Ok m.
Proof. exact (fun mkset defs o => @namemap_total mkset o defs). Qed.
Print Assumptions C16_total.

(** With reference names and groups of aliases. *)
Theorem C16_lookup_groups : forall mkset defs refs m, set_order mkset ->
  NoDup refs -> disjoint defs -> namemap_iter mkset defs refs = Ok m ->
  forall n v, nm_get m n = Ok v <-> In v refs /\ (n = v \/ exists g, In g defs /\ In v g /\ In n g).
Proof. exact (fun mkset defs refs m o => @namemap_iter_spec mkset o defs refs m). Qed.
Print Assumptions C16_lookup_groups.

Example C16_example :
  let defs := [(lit "mass", [lit "m"; lit "mass"; lit "M"]); (lit "time", [lit "t"]); (lit "x", [])] in
  NoDup (concat (map (fun p => fst p :: filter (fun i => negb (str_eqb i (fst p))) (snd p)) defs))
  /\ exists m, namemap ord defs = Ok m /\ nm_get m (lit "M") = Ok (lit "mass")
     /\ nm_get m (lit "time") = Ok (lit "time") /\ nm_get m (lit "q") = Err KeyError.
Proof.
  split.
  - simpl. repeat (apply NoDup_cons; [simpl; intuition discriminate|]). apply NoDup_nil.
  - eexists. split; [reflexivity|]. repeat split.
Qed.
Example C16_example_groups :
  exists m, namemap_iter ord [[lit "m"; lit "mass"]; [lit "t"; lit "time"]; [lit "u"]] [lit "time"; lit "mass"; lit "w"] = Ok m
  /\ nm_get m (lit "t") = Ok (lit "time") /\ nm_get m (lit "w") = Ok (lit "w") /\ nm_get m (lit "u") = Err KeyError.
Proof. eexists. split; [reflexivity|]. repeat split. Qed.

(** ** C62: copies *)

Theorem C62_copy : forall mkset V (m : amap V), set_order mkset -> consistent m ->
  consistent (copy mkset m)
  /\ (forall a, getitem (copy mkset m) a = getitem m a)
  /\ (forall a b, aliases_of (copy mkset m) a b <-> aliases_of m a b).
Proof. exact (fun mkset V m o => @copy_same mkset o V m). Qed.
Print Assumptions C62_copy.

Theorem C62_rebuild : forall V (m : amap V), consistent m -> mapping_of_map m = Ok m.
Proof. exact (fun V => @map_of_map_same V). Qed.
Print Assumptions C62_rebuild.

Example C62_example : consistent m2 /\ getitem (copy ord m2) (lit "A") = Ok 1.
Proof. split; [exact m2_consistent|reflexivity]. Qed.

(** ** C63: merging mappings *)

Theorem C63_or_lookup : forall mkset V (m n : amap V), set_order mkset -> consistent m -> consistent n ->
  exists r, map_or mkset m n = Ok r
  /\ forall a, getitem r a = match getitem n a with Ok v => Ok v | Err _ => getitem m a end.
Proof. exact (fun mkset V m n o => @or_lookup mkset o V m n). Qed.
Print Assumptions C63_or_lookup.

Example C63_example :
  let n := setitem ord (mapping ord []) (lit "A") 5 in
  exists r, map_or ord m2 n = Ok r /\ getitem r (lit "A") = Ok 5 /\ getitem r (lit "a") = Ok 1.
Proof. eexists. split; [reflexivity|]. split; reflexivity. Qed.

(** ** C64: interior aliases *)

Theorem C64_interior_aliases : forall mkset W (alias_names : W -> list str) l aliases,
  set_order mkset -> disjoint (map (entry_names alias_names aliases) l) ->
  let m := mapping_interior mkset alias_names l aliases in
  consistent m
  /\ (forall p a, In p l -> In a (entry_names alias_names aliases p) ->
       getitem m a = Ok (filter (fun q => negb (str_eqb (fst q) aliases)) (snd p)))
  /\ (forall a, (forall p, In p l -> ~ In a (entry_names alias_names aliases p)) -> getitem m a = Err KeyError)
  /\ (forall p a b, In p l -> In a (entry_names alias_names aliases p) ->
       (aliases_of m a b <-> In b (entry_names alias_names aliases p))).
Proof. exact (fun mkset W names l aliases o => @interior_spec mkset o W names l aliases). Qed.
Print Assumptions C64_interior_aliases.

Definition interior_example : list (str * list (str * list str)) :=
  [(lit "a", [(lit "n", [lit "1"]); (lit "aliases", [lit "A"; lit "a0"])]); (lit "b", [(lit "n", [lit "2"])])].
Example C64_example :
  disjoint (map (entry_names (fun w => w) (lit "aliases")) interior_example)
  /\ getitem (mapping_interior ord (fun w => w) interior_example (lit "aliases")) (lit "a0")
     = Ok [(lit "n", [lit "1"])].
Proof.
  split; [|reflexivity]. apply FOP_cons; [|apply FOP_cons; [apply Forall_nil|apply FOP_nil]].
  apply Forall_cons; [|apply Forall_nil]. intros a I [<-|[]]. simpl in I. intuition discriminate.
Qed.

(** ** C65: squeezing *)

Theorem C65_squeeze : forall W (m : amap (list (str * W))) strict, consistent m ->
  (forall m', squeeze m strict = Ok (inr m') ->
     consistent m'
     /\ (forall a w, getitem m' a = Ok w <-> exists k, getitem m a = Ok [(k, w)])
     /\ (forall a b, aliases_of m' a b <-> aliases_of m a b)
     /\ (strict = true -> exists k, forall a v, getitem m a = Ok v -> map fst v = [k]))
  /\ (forall m', squeeze m strict = Ok (inl m') ->
        m' = m /\ exists a v, getitem m a = Ok v /\ length v <> 1%nat)
  /\ (forall e, squeeze m strict = Err e -> strict = true
        /\ ((e = IndexError /\ forall a, contains m a = false)
            \/ (e = TypeError /\ exists a b k l x y,
                  getitem m a = Ok [(k, x)] /\ getitem m b = Ok [(l, y)] /\ k <> l))).
Proof. exact (fun W => @squeeze_spec W). Qed.
Print Assumptions C65_squeeze.

Example C65_example :
  let m := mapping ord [(ks ["a"; "A"]%string, [(lit "n", 1)]); (One (lit "b"), [(lit "n", 2)])] in
  exists m', squeeze m true = Ok (inr m') /\ getitem m' (lit "A") = Ok 1.
Proof. eexists. split; reflexivity. Qed.

(** ** C66: inverted name maps *)

Theorem C66_invert : forall mkset defs m, set_order mkset ->
  NoDup (map fst defs) -> namemap mkset defs = Ok m ->
  exists r, nm_invert mkset m = Ok r
  /\ (forall n, In n (map fst defs) ->
       exists g, getitem r n = Ok g /\ NoDup g /\ forall b, In b g <-> nm_get m b = Ok n)
  /\ (forall n, ~ In n (map fst defs) -> getitem r n = Err KeyError).
Proof. exact (fun mkset defs m o => @namemap_invert mkset o defs m). Qed.
Print Assumptions C66_invert.

Example C66_example :
  exists m r, namemap ord [(lit "mass", [lit "m"; lit "M"]); (lit "time", [lit "t"])] = Ok m
  /\ nm_invert ord m = Ok r /\ getitem r (lit "mass") = Ok [lit "mass"; lit "m"; lit "M"].
Proof. eexists. eexists. split; [reflexivity|]. split; reflexivity. Qed.

(** ** C67: aliases from a collection of groups *)

Theorem C67_with_groups : forall mkset V (l : list (str * V)) gs, set_order mkset ->
  NoDup (map fst l) -> disjoint gs ->
  (forall g a b, In g gs -> In a g -> In b g -> In a (map fst l) -> In b (map fst l) -> a = b) ->
  let m := mapping_with_groups mkset l gs in
  consistent m
  /\ (forall k v a, In (k, v) l -> (a = k \/ together gs k a) -> getitem m a = Ok v)
  /\ (forall a, (forall k, In k (map fst l) -> a <> k /\ ~ together gs k a) -> getitem m a = Err KeyError)
  /\ Forall2 (fun p g => forall a, In a g <-> a = fst p \/ together gs (fst p) a) l (map fst (as_dict m)).
Proof. exact (fun mkset V l gs o => @with_groups_spec mkset o V l gs). Qed.
Print Assumptions C67_with_groups.

Example C67_example :
  let m := mapping_with_groups ord [(lit "a", 1); (lit "b", 2)] [[lit "A"; lit "a"]; [lit "c"; lit "C"]] in
  getitem m (lit "A") = Ok 1 /\ getitem m (lit "b") = Ok 2 /\ getitem m (lit "c") = Err KeyError.
Proof. repeat split. Qed.

(** ** C68: assigning through a tuple of names *)

(** Missing: tuples that contain a name already present. *)
Theorem C68_tuple_assignment_partial : forall mkset V (m : amap V) l v, set_order mkset ->
  consistent m -> l <> [] -> (forall a, In a l -> contains m a = false) ->
  let m' := setitem_many mkset m l v in
  consistent m'
  /\ (forall a, In a l -> getitem m' a = Ok v)
  /\ (forall a, ~ In a l -> getitem m' a = getitem m a).
Proof. exact (fun mkset V m l v o => @set_many_fresh mkset o V m l v). Qed.
Print Assumptions C68_tuple_assignment_partial.

(** [m = MutableMapping({('a', 'A'): 1, 'b': 2}); m[('a', 'b')] = 3] leaves
    ['a'] in two groups, so ['A'] still reads 1 and deleting ['a'] does not
    remove it. *)
Theorem C68_tuple_assignment_refuted : exists (m m' m'' : amap nat) l a,
  consistent m /\ setitem_many ord m l 3 = m' /\ In a l /\ ~ consistent m'
  /\ delitem m' a = Ok m'' /\ contains m'' a = true.
Proof.
  exists m2. eexists. eexists. exists [lit "a"; lit "b"], (lit "a"). split; [exact m2_consistent|].
  split; [reflexivity|]. split; [now left|]. split; [|split; reflexivity].
  intros [_ [D _]]. inversion D as [|? ? F _]; subst. rewrite Forall_forall in F.
  apply (F [lit "a"; lit "b"]) with (a := lit "a"); [right; now left|now left|now left].
Qed.
Print Assumptions C68_tuple_assignment_refuted.

Example C68_example : forall a, In a [lit "x"; lit "y"] -> contains m2 a = false.
Proof. intros a [<-|[<-|[]]]; reflexivity. Qed.

(** ** C310: finding and leaving out groups *)

Theorem C310_contains : forall mkset gs a, set_order mkset ->
  groups_contains mkset gs a = true <-> exists g, In g gs /\ In a g.
Proof. exact (fun mkset gs a o => contains_exact mkset o gs a). Qed.
Print Assumptions C310_contains.

Theorem C310_find : forall mkset gs a, set_order mkset ->
  match groups_find mkset gs a with
  | Some g => In g gs /\ In a g
  | None => forall g, In g gs -> ~ In a g
  end.
Proof.
  intros mkset gs a o. destruct (groups_find mkset gs a) as [g|] eqn:E.
  - exact (groups_find_some mkset o gs a g E).
  - exact (groups_find_none mkset o gs a E).
Qed.
Print Assumptions C310_find.

Theorem C310_without : forall mkset gs keys a b, set_order mkset ->
  together (groups_without mkset gs keys) a b <->
  exists g, In g gs /\ In a g /\ In b g /\ forall k, In k keys -> ~ In k g.
Proof. exact (fun mkset gs keys a b o => without_exact mkset o gs keys a b). Qed.
Print Assumptions C310_without.

Theorem C310_taken : forall mkset gs x, set_order mkset ->
  (exists a g, In a x /\ In g gs /\ In a g) -> groups_add mkset gs x = Err ValueError.
Proof. exact (fun mkset gs x o => add_error mkset gs x). Qed.
Print Assumptions C310_taken.

Example C310_example :
  groups_without ord [[lit "a"; lit "A"]; [lit "b"]; [lit "c"; lit "C"]] [lit "A"; lit "b"; lit "x"]
  = [[lit "c"; lit "C"]]
  /\ groups_contains ord [[lit "a"; lit "A"]] (lit "A") = true
  /\ groups_add ord [[lit "a"; lit "A"]] [lit "x"; lit "A"] = Err ValueError.
Proof. split; [reflexivity|]. split; reflexivity. Qed.

(** ** C311: the other names of a name *)

Theorem C311_names : forall mkset V (m : amap V) a, set_order mkset -> consistent m ->
  (contains m a = true -> exists g h, alias_get mkset m a true = Ok (Some g) /\ alias_get mkset m a false = Ok (Some h)
     /\ NoDup g /\ NoDup h
     /\ (forall b, In b h <-> In b g /\ b <> a)
     /\ (forall b, In b g <-> aliases_of m a b)
     /\ forall b, In b g -> getitem m b = getitem m a)
  /\ (contains m a = false -> alias_get mkset m a true = Ok None /\ alias_get mkset m a false = Err TypeError).
Proof. exact (fun mkset V m a => @other_names mkset V m a). Qed.
Print Assumptions C311_names.

Example C311_example :
  consistent m2 /\ alias_get ord m2 (lit "a") false = Ok (Some [lit "A"])
  /\ alias_get ord m2 (lit "b") false = Ok (Some []) /\ alias_get ord m2 (lit "c") false = Err TypeError.
Proof. split; [exact m2_consistent|]. split; [reflexivity|]. split; reflexivity. Qed.

(** ** C312: look-up by a whole group of names *)

Theorem C312_group_lookup : forall V (m : amap V) g, consistent m -> NoDup g ->
  (forall a v, In a g -> getitem m a = Ok v -> (forall b, In b g <-> aliases_of m a b) -> getitem_group m g = Ok v)
  /\ ((forall a, In a g -> exists b, ~ (In b g <-> aliases_of m a b)) -> getitem_group m g = Err KeyError).
Proof. exact (fun V => @group_lookup V). Qed.
Print Assumptions C312_group_lookup.

Example C312_example :
  getitem_group m2 [lit "A"; lit "a"] = Ok 1 /\ getitem_group m2 [lit "A"] = Err KeyError
  /\ getitem_group m2 [lit "a"; lit "A"; lit "b"] = Err KeyError.
Proof. split; [reflexivity|]. split; reflexivity. Qed.
