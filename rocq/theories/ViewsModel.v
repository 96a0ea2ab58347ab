(** More of /repo/src/goats/core/aliased.py: views, equality, [fromkeys] and
    name maps as objects.  Names, groups and mappings are as in [AliasedModel]. *)

From Coq Require Import List Bool Arith.
From Verif Require Import Py AliasedModel.
Import ListNotations.
Open Scope list_scope.
Open Scope py_scope.

Section Views.

Variable mkset : list str -> group.

(** * Views *)

(** aliased.py 370-386, [MappingView.__init__].  [mapping._flat_keys()]
    (588-591) is a view of a new list, so the names are fixed when the view is
    created; with [aliased] the keys are those of the dictionary that later
    calls change in place (842, 850, 886-887), so only the fact is recorded. *)
Inductive view : Type :=
| Flat (names : list str)
| Live.
Definition view_of {V} (m : amap V) (aliased : bool) : view :=
  if aliased then Live else Flat (flat_keys m).

(** aliased.py 388-390, [MappingView.__len__], while the mapping is [m]. *)
Definition view_len {V} (w : view) (m : amap V) : nat :=
  match w with Flat names => length names | Live => length (as_dict m) end.

(** aliased.py 404-409, [KeysView.__iter__]. *)
Definition view_keys {V} (w : view) (m : amap V) : list key :=
  match w with
  | Flat names => map One names
  | Live => map (fun p => Many (fst p)) (as_dict m)
  end.

(** aliased.py 611-618: look-up by a name or by a group of the dictionary. *)
Definition look_up {V} (m : amap V) (k : key) : res V :=
  match k with One a => getitem m a | Many g => getitem_group m g end.

(** aliased.py 412-418, [ValuesView.__iter__], and 420-425,
    [ItemsView.__iter__]. *)
Definition view_values {V} (w : view) (m : amap V) : res (list V) :=
  mapM (look_up m) (view_keys w m).
Definition view_items {V} (w : view) (m : amap V) : res (list (key * V)) :=
  mapM (fun k => do v <- look_up m k; Ok (k, v)) (view_keys w m).

(** * Equality *)

(** [collections.abc.Set.__le__] on the views of items: each pair of the first
    mapping is a member of the second ([collections.abc.ItemsView]: the value
    found is compared with that of the pair).  Used for aliased.py 751-756. *)
Fixpoint items_le {V} (veq : V -> V -> bool) (m n : amap V) (names : list str) : res bool :=
  match names with
  | [] => Ok true
  | a :: names' =>
      do v <- getitem m a;
      match getitem n a with
      | Err KeyError => Ok false
      | Err e => Err e
      | Ok w => if veq w v then items_le veq m n names' else Ok false
      end
  end.

(** aliased.py 751-756, [Mapping.__eq__] with another aliased mapping;
    [collections.abc.Set.__eq__]. *)
Definition map_eq {V} (veq : V -> V -> bool) (m n : amap V) : res bool :=
  if Nat.eqb (len m) (len n) then items_le veq m n (flat_keys m) else Ok false.

(** [dict] look-up and [dict.__eq__].  Used for aliased.py 757. *)
Fixpoint plain_get {V} (d : list (str * V)) (a : str) : option V :=
  match d with
  | [] => None
  | (b, v) :: d' => if str_eqb a b then Some v else plain_get d' a
  end.
Definition plain_eq {V} (veq : V -> V -> bool) (d e : list (str * V)) : bool :=
  Nat.eqb (length d) (length e)
  && forallb (fun p => match plain_get e (fst p) with Some w => veq (snd p) w | None => false end) d.

(** aliased.py 757: with another mapping; [dict(self.items())] keeps the
    items as they are because no name is repeated. *)
Definition map_eq_plain {V} (veq : V -> V -> bool) (m : amap V) (e : list (str * V)) : res bool :=
  do d <- items m; Ok (plain_eq veq d e).

(** * [fromkeys] *)

(** What the keys may be taken from: groups or tuples of names, another aliased
    mapping, a mapping with interior mappings (each given by the names under
    the alias key), or a mapping with other values.
    Used for aliased.py 678-734. *)
Inductive key_source {U : Type} : Type :=
| KeyList (l : list key)
| KeyMap (m : amap U)
| KeyInterior (l : list (str * list str))
| KeyPlain (l : list (str * U)).
Arguments key_source : clear implicits.

(** aliased.py 678-734, [Mapping.fromkeys], and 220-256, [keysfrom] with a
    string.  An interior mapping is asked for its aliases by [get] (255); other
    values have no [get].  The fill value is not a mapping. *)
Definition fromkeys {U V} (source : key_source U) (value : V) : res (amap V) :=
  match source with
  | KeyList l => Ok (mapping mkset (map (fun k => (k, value)) l))
  | KeyMap m => Ok (mapping mkset (map (fun p => (Many (fst p), value)) (as_dict m)))
  | KeyInterior l =>
      Ok (mapping mkset (map (fun p =>
            (Many (group_or mkset (group_of mkset (One (fst p))) (mkset (snd p))), value)) l))
  | KeyPlain [] => Ok (mapping mkset [])
  | KeyPlain _ => Err AttributeError
  end.

(** * Name maps as objects *)

(** aliased.py 911-920: the internal mapping, the collection given to
    [MappingBase] (the names at that time), and the arguments.  The mapping is
    from names to names, or after [invert] from names to lists of names. *)
Record name_map : Type := mkNM {
  nm_mapping : amap str + amap (list str);
  nm_collection : list str;
  nm_init : list (str * list str)
}.
Definition new_map (defs : list (str * list str)) : res name_map :=
  do m <- namemap mkset defs; Ok (mkNM (inl m) (flat_keys m) defs).

(** aliased.py 1003-1007, [NameMap.__getitem__]. *)
Definition nm_item (s : name_map) (a : str) : res (str + list str) :=
  match nm_mapping s with
  | inl m => do n <- nm_get m a; Ok (inl n)
  | inr m => if contains m a then do l <- getitem m a; Ok (inr l) else Err KeyError
  end.

(** iterables.py 568-570, [MappingBase.__iter__]. *)
Definition nm_names (s : name_map) : list str := nm_collection s.

(** aliased.py 994-1001, [NameMap.invert]; the object itself is changed and
    returned.  The values of an inverted map are lists, which cannot be keys. *)
Definition nm_inverted (s : name_map) : res name_map :=
  match nm_mapping s with
  | inl m => do r <- nm_invert mkset m; Ok (mkNM (inr r) (nm_collection s) (nm_init s))
  | inr _ => Err TypeError
  end.

(** aliased.py 1026-1028, [NameMap.keys]: the names in the current mapping. *)
Definition nm_keys (s : name_map) : list str :=
  match nm_mapping s with inl m => flat_keys m | inr m => flat_keys m end.

(** aliased.py 1038-1040, [NameMap.copy]. *)
Definition nm_copy (s : name_map) : res name_map := new_map (nm_init s).

End Views.
Arguments key_source : clear implicits.
