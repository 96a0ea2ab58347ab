(** Model of /repo/src/goats/core/aliased.py.

    Names are strings.  A Python [set] of names is the list of its members in
    iteration order; [mkset] is the order in which a set built from a sequence
    is iterated.  Python leaves that order unspecified, so every theorem
    quantifies over all [mkset] that keep exactly the members, once each
    ([AliasedSpec.set_order]).  The hash of a group is the hash of the tuple
    of its members in iteration order (aliased.py 51-53), so two group objects
    match as keys of a [dict] exactly when these sequences are equal
    (collisions between hashes of different tuples are not modelled).  *)

From Coq Require Import List Bool ZArith Ascii.
From Verif Require Import Py.
Import ListNotations.
Open Scope list_scope.
Open Scope py_scope.

Definition group : Type := list str.

(** aliased.py 48-49, [Group.__contains__]. *)
Definition gin (a : str) (g : group) : bool := existsb (str_eqb a) g.

(** aliased.py 72, [Group.__eq__], i.e. [collections.abc.Set.__eq__]. *)
Definition geq (g h : group) : bool :=
  Nat.eqb (length g) (length h) && forallb (fun a => gin a h) g.

(** Equality as keys of a [dict]; see the header.
    Used for aliased.py 611-618. *)
Definition gmatch (g h : group) : bool :=
  if list_eq_dec str_eq_dec g h then true else false.

(** A key given by the user: a string, or a tuple (or list, set, group) of
    strings.  Used for aliased.py 30-40. *)
Inductive key : Type :=
| One (a : str)
| Many (l : list str).
Definition members (k : key) : list str :=
  match k with One a => [a] | Many l => l end.

Section Aliased.

Variable mkset : list str -> group.

(** aliased.py 30-40, [Group.__init__] on one key. *)
Definition group_of (k : key) : group := mkset (members k).

(** aliased.py 62-70 and 75, [Group.__or__]; [other] is the group built from
    the right operand.  [Set.__or__] builds a set from the chained members,
    which the wrapper copies. *)
Definition group_or (g other : group) : group := mkset (mkset (g ++ other)).

(** aliased.py 62-70 and 76, [Group.__sub__]. *)
Definition group_sub (g other : group) : group :=
  mkset (mkset (filter (fun a => negb (gin a other)) g)).

(** * Collections of groups *)
(** Used for aliased.py 103-113. *)

Definition groups : Type := list group.

(** aliased.py 103-113, [Groups.__init__]. *)
Definition groups_init (keys : list key) : groups := map group_of keys.

(** aliased.py 115-118, [Groups.flat]. *)
Definition groups_flat (gs : groups) : list str := concat gs.

(** aliased.py 183-195, [Groups.find] of a string. *)
Definition groups_find (gs : groups) (a : str) : option group :=
  find (fun k => gin a k || geq (group_of (One a)) k) gs.

(** aliased.py 128-130, [Groups.__contains__]. *)
Definition groups_contains (gs : groups) (a : str) : bool :=
  match groups_find gs a with Some _ => true | None => false end.

(** The truth value of an optional group: [None] and empty groups are false
    (aliased.py 55-60). *)
Definition truthy (g : option group) : option group :=
  match g with Some [] => None | _ => g end.

(** aliased.py 161-165, [Groups._search]; [ms] are the members in iteration
    order. *)
Fixpoint groups_search (gs : groups) (ms : list str) : option group :=
  match ms with
  | [] => None
  | a :: ms' =>
      match truthy (groups_find gs a) with
      | Some g => Some g
      | None => groups_search gs ms'
      end
  end.

(** [list.remove]: drops the first equal element or raises [ValueError].
    Used for aliased.py 148-159. *)
Fixpoint list_remove (g : group) (gs : groups) : res groups :=
  match gs with
  | [] => Err ValueError
  | h :: gs' => if geq h g then Ok gs' else do r <- list_remove g gs'; Ok (h :: r)
  end.

(** What may be merged: another collection or one iterable of names.  For a
    bare string [s] the loop in [_search] runs over its characters
    (aliased.py 161-165), while [Group] takes it whole. *)
Inductive addend : Type :=
| AGroups (gs : groups)
| AIter (l : list str)
| AStr (s : str).
(** (the members that [_search] iterates over, the names in the group).
    Used for aliased.py 148-159. *)
Definition addend_groups (x : addend) : list (list str * list str) :=
  match x with
  | AGroups gs => map (fun g => (g, g)) gs
  | AIter l => [(l, l)]
  | AStr s => [(map (fun c => [c]) s, [s])]
  end.

(** aliased.py 148-159, [Groups._merge]: the loop over the flattened groups.
    An appended raw iterable is kept as the list of its members. *)
Fixpoint merge_loop (self these : groups) (l : list (list str * list str)) : res groups :=
  match l with
  | [] => Ok these
  | (it, g) :: l' =>
      match groups_search self it with
      | Some found =>
          do these' <- list_remove found these;
          merge_loop self (these' ++ [group_or found (mkset g)]) l'
      | None => merge_loop self (these ++ [g]) l'
      end
  end.
Definition merge_ (self : groups) (others : list addend) : res groups :=
  merge_loop self self (concat (map addend_groups others)).

(** aliased.py 141-146, [Groups.merge]. *)
Definition groups_merge (self : groups) (others : list addend) : res groups :=
  do gs <- merge_ self others; Ok (map mkset gs).

(** aliased.py 132-139, [Groups.update] (for [AGroups] and [AIter]). *)
Definition groups_update (self : groups) (others : list addend) : res groups :=
  match others with [] => Ok self | _ => merge_ self others end.

(** aliased.py 167-174, [Groups.add]. *)
Definition groups_add (self : groups) (x : list str) : res groups :=
  if existsb (fun a => gin a (groups_flat self)) x then Err ValueError
  else Ok (self ++ [group_of (Many x)]).

(** aliased.py 176-179, [Groups.discard]. *)
Definition groups_discard (self : groups) (a : str) : res groups :=
  match truthy (groups_find self a) with
  | Some found => list_remove found self
  | None => Ok self
  end.

(** aliased.py 197-210, [Groups.without], for keys that are strings. *)
Definition groups_without (self : groups) (keys : list str) : groups :=
  map mkset (filter (fun g => forallb (fun k => negb (gin k g)) keys
                              && negb (existsb (fun k => geq g (group_of (One k))) keys)) self).

(** * Mappings *)
(** Used for aliased.py 611-618. *)

Section Mapping.

Context {V : Type}.

Definition gdict : Type := list (group * V).

(** [dict] look-up, assignment and deletion with group keys.
    Used for aliased.py 611-618. *)
Fixpoint dget (d : gdict) (g : group) : option V :=
  match d with
  | [] => None
  | (h, v) :: d' => if gmatch g h then Some v else dget d' g
  end.
Fixpoint dset (d : gdict) (g : group) (v : V) : gdict :=
  match d with
  | [] => [(g, v)]
  | (h, w) :: d' => if gmatch g h then (h, v) :: d' else (h, w) :: dset d' g v
  end.
Fixpoint ddel (d : gdict) (g : group) : gdict :=
  match d with
  | [] => []
  | (h, w) :: d' => if gmatch g h then d' else (h, w) :: ddel d' g
  end.

Record amap : Type := mkMap { as_dict : gdict; flat_dict : list (str * group) }.

(** aliased.py 575 and 855-857: the comprehension; on look-up the last pair
    with the name wins. *)
Definition flat_of (d : gdict) : list (str * group) :=
  concat (map (fun p => map (fun a => (a, fst p)) (fst p)) d).
Fixpoint flat_get (l : list (str * group)) (a : str) : option group :=
  match l with
  | [] => None
  | (b, g) :: l' =>
      match flat_get l' a with
      | Some h => Some h
      | None => if str_eqb a b then Some g else None
      end
  end.

Definition of_dict (d : gdict) : amap := mkMap d (flat_of d).

(** aliased.py 620-624, [Mapping._resolve] of a string. *)
Definition resolve_key (m : amap) (a : str) : option group := flat_get (flat_dict m) a.

(** aliased.py 620-644, [Mapping._resolve] of a group. *)
Definition resolve_group (m : amap) (g : group) : option group :=
  find (fun k => geq k g) (map fst (as_dict m)).

(** aliased.py 611-618, [Mapping.__getitem__] of a string. *)
Definition getitem (m : amap) (a : str) : res V :=
  match truthy (resolve_key m a) with
  | Some g => match dget (as_dict m) g with Some v => Ok v | None => Err KeyError end
  | None => Err KeyError
  end.

(** The same, of a group.  Used for aliased.py 784-786. *)
Definition getitem_group (m : amap) (g : group) : res V :=
  match truthy (resolve_group m g) with
  | Some h => match dget (as_dict m) h with Some v => Ok v | None => Err KeyError end
  | None => Err KeyError
  end.

(** aliased.py 598-603, [Mapping.__contains__] of a string. *)
Definition contains (m : amap) (a : str) : bool :=
  match resolve_key m a with Some _ => true | None => false end.

(** aliased.py 588-591, [Mapping._flat_keys]. *)
Definition flat_keys (m : amap) : list str := concat (map fst (as_dict m)).

(** aliased.py 608-609, [Mapping.__len__]. *)
Definition len (m : amap) : nat := length (flat_keys m).

(** aliased.py 784-786 and 422-425: [items()] and [items(aliased=True)]. *)
Definition items (m : amap) : res (list (str * V)) :=
  mapM (fun a => do v <- getitem m a; Ok (a, v)) (flat_keys m).
Definition aliased_items (m : amap) : res (list (group * V)) :=
  mapM (fun g => do v <- getitem_group m g; Ok (g, v)) (map fst (as_dict m)).

(** aliased.py 283-294, [_build_from_aliases].  A tuple or group key is never
    a member of a group of strings. *)
Definition build_step (out : gdict) (p : key * V) : gdict :=
  let '(k, v) := p in
  match k with
  | One a =>
      match find (gin a) (map fst out) with
      | Some g => dset out g v
      | None => dset out (group_of k) v
      end
  | Many _ => dset out (group_of k) v
  end.
Definition build_from_aliases (l : list (key * V)) : gdict := fold_left build_step l [].

(** aliased.py 555-586 and 259-280: [Mapping(mapping)] for a mapping with
    aliased keys whose values have no interior aliases. *)
Definition mapping (l : list (key * V)) : amap := of_dict (build_from_aliases l).

(** [dict(pairs)] with group keys.  Used for aliased.py 579-580. *)
Definition dict_of (l : list (group * V)) : gdict :=
  fold_left (fun d p => dset d (fst p) (snd p)) l [].

(** aliased.py 579-580: [Mapping(amap)]. *)
Definition mapping_of_map (m : amap) : res amap :=
  do l <- aliased_items m; Ok (of_dict (dict_of l)).

(** aliased.py 248-252 and 344-349: [Mapping(mapping, aliases=groups)]. *)
Definition mapping_with_groups (l : list (str * V)) (gs : groups) : amap :=
  of_dict (dict_of (map (fun p =>
    (group_or (group_of (One (fst p)))
       (match groups_find gs (fst p) with Some g => mkset g | None => mkset [] end), snd p)) l)).

(** aliased.py 788-790, [Mapping.copy]. *)
Definition copy (m : amap) : amap :=
  mapping (map (fun p => (Many (fst p), snd p)) (as_dict m)).

(** aliased.py 759-762, [Mapping.__or__]. *)
Definition map_or (m n : amap) : res amap :=
  do l <- aliased_items m; do r <- aliased_items n;
  Ok (mapping (map (fun p => (Many (fst p), snd p)) (dict_of (l ++ r)))).

(** aliased.py 736-749, [Mapping.alias]: [None - [key]] is a [TypeError]. *)
Definition alias_get (m : amap) (a : str) (include : bool) : res (option group) :=
  if include then Ok (resolve_key m a)
  else match resolve_key m a with
       | Some g => Ok (Some (group_sub g (mkset [a])))
       | None => Err TypeError
       end.

(** * Mutable mappings *)

(** aliased.py 839-843 and 853-857, [MutableMapping.__setitem__] by string. *)
Definition setitem (m : amap) (a : str) (v : V) : amap :=
  let g := match truthy (resolve_key m a) with Some g => g | None => group_of (One a) end in
  of_dict (dset (as_dict m) g v).

(** The same by tuple, which is never a key of the flat dictionary.
    For histories and uses of aliased.py 839-843. *)
Definition setitem_many (m : amap) (l : list str) (v : V) : amap :=
  of_dict (dset (as_dict m) (group_of (Many l)) v).

(** aliased.py 845-851, [MutableMapping.__delitem__]. *)
Definition delitem (m : amap) (a : str) : res amap :=
  match truthy (resolve_key m a) with
  | Some g => Ok (of_dict (ddel (as_dict m) g))
  | None => Err KeyError
  end.

(** aliased.py 876-887: the body of the loop in [MutableMapping.alias].  The
    state is returned with the outcome because assignments stay visible. *)
Definition alias_step (m : amap) (a alias : str) : res unit * amap :=
  if gin alias (flat_keys m) then
    (match resolve_key m a with Some _ => Err KeyError | None => Err TypeError end, m)
  else
    match resolve_key m a with
    | None => (Err TypeError, m)
    | Some g =>
        match getitem m a with
        | Err e => (Err e, m)
        | Ok v =>
            let m' := mkMap (dset (as_dict m) (group_or g (mkset [alias])) v) (flat_dict m) in
            match delitem m' a with
            | Ok m'' => (Ok tt, m'')
            | Err e => (Err e, m')
            end
        end
    end.
Fixpoint alias_loop (m : amap) (a : str) (aliases : list str) : res unit * amap :=
  match aliases with
  | [] => (Ok tt, m)
  | b :: bs =>
      if str_eqb b a then alias_loop m a bs
      else match alias_step m a b with
           | (Ok _, m') => alias_loop m' a bs
           | (Err e, m') => (Err e, m')
           end
  end.

(** aliased.py 859-887, [MutableMapping.alias] with a non-empty [aliases]
    (without, it is [alias_get]). *)
Definition alias_set (m : amap) (a : str) (aliases : list str) : res unit * amap :=
  alias_loop m a aliases.

(** One call of the mutable interface.  Used for aliased.py 994-1001. *)
Inductive op : Type :=
| Set_ (a : str) (v : V)
| Del_ (a : str)
| Alias_ (a : str) (aliases : list str).
Definition run_op (o : op) (m : amap) : res unit * amap :=
  match o with
  | Set_ a v => (Ok tt, setitem m a v)
  | Del_ a => match delitem m a with Ok m' => (Ok tt, m') | Err e => (Err e, m) end
  | Alias_ a l => alias_set m a l
  end.
(** A history of calls in which the caller survives exceptions.
    For histories and uses of aliased.py 859-887. *)
Fixpoint run (l : list op) (m : amap) : list (res unit) * amap :=
  match l with
  | [] => ([], m)
  | o :: l' =>
      let '(r, m') := run_op o m in
      let '(rs, m'') := run l' m' in (r :: rs, m'')
  end.

End Mapping.

(** * Interior aliases *)

(** Interior mappings: association lists from attribute names to values;
    [alias_names] extracts the names from a value under the alias key.
    Used for aliased.py 253-256. *)
Section Interior.

Context {W : Type}.
Variable alias_names : W -> list str.

Fixpoint inner_get (d : list (str * W)) (a : str) : option W :=
  match d with
  | [] => None
  | (b, w) :: d' => if str_eqb a b then Some w else inner_get d' a
  end.

(** aliased.py 253-256 and 344-349: [_build_from_key] with a string. *)
Definition interior_key (aliases : str) (p : str * list (str * W)) : group :=
  group_or (group_of (One (fst p)))
    (match inner_get (snd p) aliases with
     | Some w => mkset (alias_names w)
     | None => mkset []
     end).
Definition interior_value (aliases : str) (p : str * list (str * W)) : list (str * W) :=
  filter (fun q => negb (str_eqb (fst q) aliases)) (snd p).
Definition mapping_interior (l : list (str * list (str * W))) (aliases : str)
  : @amap (list (str * W)) :=
  of_dict (dict_of (map (fun p => (interior_key aliases p, interior_value aliases p)) l)).

(** aliased.py 646-675, [Mapping.squeeze]: [inl] is an unchanged mapping and
    [inr] one whose interior mappings were replaced by their only values.  The
    flat dictionary is not touched. *)
Definition squeeze (m : @amap (list (str * W))) (strict : bool)
  : res (@amap (list (str * W)) + @amap W) :=
  let interior := map snd (as_dict m) in
  if forallb (fun v => Nat.eqb (length v) 1) interior then
    do _ <- (if strict then
               match interior with
               | [] => Err IndexError
               | v0 :: vs =>
                   if forallb (fun v => match v, v0 with
                                        | (k, _) :: _, (k0, _) :: _ => str_eqb k k0
                                        | _, _ => false
                                        end) vs
                   then Ok tt else Err TypeError
               end
             else Ok tt);
    do d <- mapM (fun p => match snd p with
                           | (_, w) :: _ => Ok (fst p, w)
                           | [] => Err IndexError
                           end) (as_dict m);
    Ok (inr (mkMap d (flat_dict m)))
  else Ok (inl m).

End Interior.

(** * Name maps *)

(** aliased.py 989-992, [NameMap._remove]. *)
Definition nm_remove (name : str) (aliases : list str) : list str :=
  filter (fun i => negb (str_eqb i name)) aliases.

(** aliased.py 975-980: [defs] is a mapping from names to aliases. *)
Definition nm_aliases (defs : list (str * list str)) : list (str * list str) :=
  map (fun p => (fst p, nm_remove (fst p) (snd p))) defs.

(** aliased.py 986: [defs] is an iterable of iterables.  The comprehension
    builds a dictionary, in which the last assignment to a name wins and the
    first determines its position. *)
Fixpoint sd_set (d : list (str * list str)) (k : str) (v : list str) : list (str * list str) :=
  match d with
  | [] => [(k, v)]
  | (h, w) :: d' => if str_eqb k h then (h, v) :: d' else (h, w) :: sd_set d' k v
  end.
Definition nm_aliases_iter (names : list str) (defs : list (list str)) : list (str * list str) :=
  fold_left (fun d p => sd_set d (fst p) (snd p))
    (concat (map (fun v => map (fun k => (k, v)) (filter (fun k => gin k v) names)) defs)) [].

(** aliased.py 957-958: the loop over the updates.  With no aliases [alias]
    only reads: it raises [TypeError] for an unknown name. *)
Definition nm_update (m : @amap str) (current : str) (new : list str) : res (@amap str) :=
  match new with
  | [] => do _ <- alias_get m current false; Ok m
  | _ => match alias_set m current new with
         | (Ok _, m') => Ok m'
         | (Err e, _) => Err e
         end
  end.
Fixpoint nm_updates (m : @amap str) (l : list (str * list str)) : res (@amap str) :=
  match l with
  | [] => Ok m
  | (current, new) :: l' => do m' <- nm_update m current new; nm_updates m' l'
  end.

(** aliased.py 943-959, [NameMap._build_mapping]. *)
Definition nm_build (names : list str) (updates : list (str * list str)) : res (@amap str) :=
  do m <- nm_updates (mapping (map (fun n => (One n, n)) names)) updates;
  mapping_of_map m.

(** aliased.py 911-941: [NameMap(defs)] for a mapping [defs] and no [refs]. *)
Definition namemap (defs : list (str * list str)) : res (@amap str) :=
  nm_build (map fst defs) (nm_aliases defs).

(** aliased.py 911-941: [NameMap(defs, refs)] for a mapping [defs]. *)
Definition namemap_refs (defs : list (str * list str)) (refs : list str) : res (@amap str) :=
  nm_build refs (nm_aliases defs).

(** aliased.py 911-941: [NameMap(defs, refs)] for an iterable of iterables. *)
Definition namemap_iter (defs : list (list str)) (refs : list str) : res (@amap str) :=
  nm_build refs (nm_aliases_iter refs defs).

(** aliased.py 1003-1007, [NameMap.__getitem__]. *)
Definition nm_get (m : @amap str) (a : str) : res str :=
  if contains m a then getitem m a else Err KeyError.

(** aliased.py 994-1001, [NameMap.invert]. *)
Definition nm_invert (m : @amap str) : res (@amap (list str)) :=
  do l <- aliased_items m;
  Ok (mapping (map (fun p => (One (fst p), snd p))
                (fold_left (fun d p => sd_set d (snd p) (fst p)) l []))).

End Aliased.

Arguments amap : clear implicits.
Arguments op : clear implicits.
