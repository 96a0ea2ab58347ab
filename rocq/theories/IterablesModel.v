(** Model of /repo/src/goats/core/iterables.py.

    Python values that the code only compares are of an arbitrary type with a
    Boolean [==]; dictionaries are association lists (PyDict.v). *)

From Coq Require Import String Ascii List Bool ZArith NArith QArith Qcanon.
From Verif Require Import Py PyDict.
Import ListNotations.
Open Scope list_scope.
Open Scope py_scope.

(** * unique *)

(** iterables.py 16-22, [unique]. *)
Definition unique {A} (eqb : A -> A -> bool) (items : list A) : list A :=
  fold_left (fun collection item =>
    if existsb (eqb item) collection then collection else collection ++ [item]) items [].

(** * Nested objects *)
(** Used for iterables.py 122-125. *)

Inductive kind : Type := KList | KTuple.
(** The objects that [unwrap], [whole] and [hastype] distinguish: [None],
    strings, other scalars (numbers), and lists or tuples.
    Used for iterables.py 122-125. *)
Inductive obj : Type :=
| ONone
| OStr (s : str)
| ONum (z : Z)
| OSeq (k : kind) (l : list obj).

(** iterables.py 122-125: the loop of [unwrap]. *)
Fixpoint strip_seq (o : obj) : obj :=
  match o with
  | OSeq _ [x] => strip_seq x
  | _ => o
  end.
(** iterables.py 39-128, [unwrap] without [wrap]. *)
Definition unwrap (o : obj) : obj := strip_seq (OSeq KList [o]).

(** iterables.py 1336-1358, [whole.parse]. *)
Definition whole_parse (o : obj) : list obj :=
  match o with
  | ONone => []
  | OStr _ => [o]
  | ONum _ => [o]
  | OSeq _ l => l
  end.

(** iterables.py 126-127, [unwrap] with [wrap=list] or [wrap=tuple]. *)
Definition unwrap_as (k : kind) (o : obj) : obj := OSeq k (whole_parse (unwrap o)).

(** iterables.py 1302-1310, [isinstance(x, whole)]. *)
Definition is_whole (o : obj) : bool := match o with OSeq _ _ => true | _ => false end.

(** iterables.py 1380-1397, [distribute]. *)
Definition distribute (a b : obj) : res (list (obj * obj)) :=
  match a, b with
  | OSeq _ la, OSeq _ lb => Ok (list_prod la lb)
  | _, OSeq _ lb => Ok (map (fun i => (a, i)) lb)
  | OSeq _ la, _ => Ok (map (fun i => (i, b)) la)
  | _, _ => Err TypeError
  end.

(** [iter(o)]: the members of an object, if it has any.
    Used for iterables.py 1506-1593. *)
Definition iterate (o : obj) : option (list obj) :=
  match o with
  | OStr s => Some (map (fun c => OStr [c]) s)
  | OSeq _ l => Some l
  | _ => None
  end.

(** iterables.py 1506-1593, [hastype]: a type is the predicate of its
    instances. *)
Fixpoint hastype (o : obj) (ty : obj -> bool) (wrappers : list (obj -> bool)) (strict : bool) : res bool :=
  if ty o then Ok true
  else match wrappers with
       | [] => Ok false
       | w :: ws =>
           if w o then
             match iterate o with
             | Some l => Ok (if strict then forallb ty l else existsb ty l)
             | None => Err TypeError
             end
           else hastype o ty ws strict
       end.

(** iterables.py 1430-1438, [apply]: the first true result, or [None]. *)
Fixpoint apply_methods {A R} (methods : list (A -> res (option R))) (a : A) : res (option R) :=
  match methods with
  | [] => Ok None
  | m :: ms => do r <- m a; match r with Some x => Ok (Some x) | None => apply_methods ms a end
  end.

(** * Lists *)

(** iterables.py 158-185, [transpose_list]. *)
Definition transpose_list {A} (l : list (list A)) : res (list (list A)) :=
  match l with
  | [] => Err IndexError
  | first :: _ =>
      mapM (fun i => mapM (fun element => match nth_error element i with
                                          | Some a => Ok a
                                          | None => Err IndexError
                                          end) l)
        (seq 0 (length first))
  end.

(** [seq[:stop]] and [seq[-1]] for an integer [stop].
    Used for iterables.py 224-234. *)
Definition slice_upto {A} (l : list A) (stop : Z) : list A :=
  let n := Z.of_nat (length l) in
  let s := if (stop <? 0)%Z then Z.max 0 (stop + n) else stop in
  firstn (Z.to_nat s) l.

(** iterables.py 224-234, [show_at_most], before joining; [None] is the text
    of the ellipsis. *)
Definition show_at_most {A} (n : Z) (values : list A) : list (option A) :=
  if (Z.of_nat (length values) <=? n)%Z then map Some values
  else map Some (slice_upto values (n - 1)) ++ [None]
       ++ match rev values with last :: _ => [Some last] | [] => [] end.

(** * Slices *)
(** Used for iterables.py 188-195. *)

Record slice : Type := mkSlice { s_start : option Z; s_stop : option Z; s_step : option Z }.
Record range : Type := mkRange { r_start : Z; r_stop : Z; r_step : Z }.

(** [x or y] for an optional integer.  Used for iterables.py 188-195. *)
Definition or_int (x : option Z) (y : Z) : Z :=
  match x with Some z => if (z =? 0)%Z then y else z | None => y end.

(** iterables.py 188-195, [slice_to_range]. *)
Definition slice_to_range (s : slice) (stop : option Z) : res range :=
  match stop with
  | None => Err TypeError
  | Some stop => Ok (mkRange (or_int (s_start s) 0) (or_int (s_stop s) stop) (or_int (s_step s) 1))
  end.

(** * Bijections *)

Section Bijection.
Context {K V : Type}.
Variable veq : V -> V -> bool.

(** iterables.py 673-687, [Bijection.__new__] and [__init__], of a
    dictionary; [len(set(values))] is the number of distinct values. *)
Definition bijection (m : list (K * V)) : res (list (K * V)) :=
  let n_keys := length m in
  let n_values := length (unique veq (map snd m)) in
  if Nat.ltb n_values n_keys then Err InjectiveTypeError
  else if negb (Nat.eqb n_keys n_values) then Err NonInvertibleError
  else Ok m.
End Bijection.

(** iterables.py 697-699, [Bijection.invert]. *)
Definition invert {K V} (veq : V -> V -> bool) (keq : K -> K -> bool) (m : list (K * V)) : res (list (V * K)) :=
  bijection keq (d_of veq (map (fun p => (snd p, fst p)) m)).

(** * Object registries *)

Section Registry.
Context {O : Type}.
(** The defined name of an object (its [__qualname__], else [__name__]). *)
Variable qualname : O -> option str.

(** Keys: [None] is the key of objects without a name (iterables.py 848-858
    then returns [None]). *)
Definition rkey : Type := option str.
Definition rkey_eqb (a b : rkey) : bool :=
  match a, b with
  | Some x, Some y => str_eqb x y
  | None, None => true
  | _, _ => false
  end.
Record registry : Type := mkReg { items : list (rkey * O); count : N }.

(** iterables.py 846-856, [_get_default_key]. *)
Definition default_key (r : registry) (o : O) : rkey * N :=
  match qualname o with
  | None => (None, count r)
  | Some p =>
      if d_has rkey_eqb (items r) (Some p)
      then (Some (p ++ lit "_" ++ dec_of_N (count r)), (count r + 1)%N)
      else (Some p, count r)
  end.

(** iterables.py 834-844, [_get_mapping_key]; an empty name is false. *)
Definition mapping_key (r : registry) (o : O) (user : option str) (overwrite : bool) : rkey * N :=
  match user with
  | Some (c :: s) =>
      if negb (d_has rkey_eqb (items r) (Some (c :: s))) || overwrite
      then (Some (c :: s), count r) else default_key r o
  | _ => default_key r o
  end.

(** iterables.py 729-834, [register] (metadata not modelled). *)
Definition register (r : registry) (o : O) (user : option str) (overwrite : bool) : registry :=
  let '(k, n) := mapping_key r o user overwrite in
  mkReg (d_set rkey_eqb (items r) k o) n.

(** A history of registrations, from [ObjectRegistry(base)] (702-718). *)
Definition reg_init (base : list (rkey * O)) : registry := mkReg base 1.
Definition reg_run (r : registry) (h : list (O * option str * bool)) : registry :=
  fold_left (fun r x => let '(o, u, w) := x in register r o u w) h r.

(** iterables.py 858-860, [reset]: the counter is not reset. *)
Definition reg_reset (base : list (rkey * O)) (r : registry) : registry := mkReg base (count r).
End Registry.
Arguments registry : clear implicits.

(** * Tables *)
(** Used for iterables.py 1012-1018. *)

Section Table.
Context {V : Type}.
Variable veq : V -> V -> bool.

Definition entry : Type := list (str * V).

(** iterables.py 1012-1018, [Table.keys], as a membership test:
    the intersection of the key sets. *)
Definition common (entries : list entry) (k : str) : res bool :=
  match entries with
  | [] => Err IndexError
  | _ => Ok (forallb (fun e => sd_has e k) entries)
  end.

(** [entry[key] == value] where the key is known to be present.
    Used for iterables.py 1097-1115. *)
Definition entry_is (k : str) (v : V) (e : entry) : bool :=
  match sd_get e k with Some w => veq w v | None => false end.

(** iterables.py 1020-1025, [Table.__getitem__]. *)
Definition table_getitem (entries : list entry) (k : str) : res (list V) :=
  do c <- common entries k;
  if c then mapM (fun e => match sd_get e k with Some w => Ok w | None => Err KeyError end) entries
  else Err TableKeyError.

(** iterables.py 1027-1033, [Table.get]. *)
Definition table_get (entries : list entry) (k : str) (default : V) : res (list V) :=
  match table_getitem entries k with
  | Err TableKeyError =>
      Ok (map (fun e => match sd_get e k with Some w => w | None => default end) entries)
  | r => r
  end.

(** iterables.py 1035-1048, [Table.find]; [inl] is the list, [inr] the entry
    found with [unique=True]. *)
Definition table_find (entries : list entry) (v : V) (uniq : bool) : res (list entry + entry) :=
  match filter (fun e => existsb (fun p => veq (snd p) v) e) entries with
  | [] => Err MissingValueError
  | e :: es =>
      if negb uniq then Ok (inl (e :: es))
      else match es with [] => Ok (inr e) | _ => Err AmbiguousValueError end
  end.

(** [values.count(value)].  Used for iterables.py 1097-1115. *)
Definition count_of (v : V) (l : list V) : nat := length (filter (fun w => veq w v) l).

(** iterables.py 1097-1115, [Table.__call__]: the loop over the pairs; [n] is
    the number of pairs already checked and [total] the number of pairs. *)
Fixpoint call_loop (entries : list entry) (strict : bool) (total n : nat)
  (subset : list entry) (request : list (str * V)) : res entry :=
  match request with
  | [] =>
      match subset with
      | [e] => if strict then Ok e else Err TableLookupError
      | _ => Err TableLookupError
      end
  | (k, v) :: request' =>
      do c <- common entries k;
      if negb c then Err TableKeyError
      else
        let subset := filter (entry_is k v) subset in
        if strict then call_loop entries strict total (S n) subset request'
        else
          do values <- table_getitem entries k;
          if Nat.ltb (S n) (count_of v values) && Nat.eqb total (S n)
          then Err AmbiguousRequestError
          else match subset with
               | [e] => Ok e
               | _ => call_loop entries strict total (S n) subset request'
               end
  end.
Definition table_call (entries : list entry) (strict : bool) (request : list (str * V)) : res entry :=
  call_loop entries strict (length request) 0 entries request.
End Table.

(** * Connections *)

(** A weight is a number or [None].  Simplification: exact rationals instead
    of floats.  Used for iterables.py 1185-1187. *)
Definition weight : Type := option Qc.
Definition edge : Type := str * str.
Definition edge_eqb (a b : edge) : bool := str_eqb (fst a) (fst b) && str_eqb (snd a) (snd b).
Definition connections : Type := list (edge * weight).

(** iterables.py 1182: [1 / weight if weight else weight]. *)
Definition inverse (w : weight) : weight :=
  match w with
  | Some q => if Qc_eqb q 0 then Some q else Some (/ q)%Qc
  | None => None
  end.

(** iterables.py 1185-1187: the body of the loop. *)
Definition add_edge (g : connections) (e : edge) (w : weight) : connections :=
  if d_has edge_eqb g e then g else d_set edge_eqb g e w.

(** iterables.py 1181-1193, [add_connection]. *)
Definition add_connection (g : connections) (x : edge * weight) : connections :=
  let '((start, stop), w) := x in
  add_edge (add_edge g (start, stop) w) (stop, start) (inverse w).

(** iterables.py 1121-1135, [Connections.__init__], and later additions. *)
Definition connect (l : list (edge * weight)) : connections := fold_left add_connection l [].

(** iterables.py 1173-1179, [get_weight]. *)
Definition get_weight (g : connections) (start stop : str) : res weight :=
  match d_get edge_eqb g (start, stop) with Some w => Ok w | None => Err KeyError end.

(** iterables.py 1149-1152, [nodes], as a membership test. *)
Definition is_node (g : connections) (a : str) : bool :=
  existsb (fun p => str_eqb a (fst (fst p)) || str_eqb a (snd (fst p))) g.

(** iterables.py 1154-1164, [get_adjacencies]. *)
Definition get_adjacencies (g : connections) (node : str) : list (str * weight) :=
  if is_node g node then
    d_of str_eqb (map (fun p => (snd (fst p), snd p)) (filter (fun p => str_eqb (fst (fst p)) node) g))
  else [].

(** * Guards *)

Section Guard.
Context {C A R : Type}.
(** Exception classes and the subclass relation ([issubclass]). *)
Variable ceq : C -> C -> bool.
Variable sub : C -> C -> bool.

(** A substitute: a value, or [...].  Used for iterables.py 1615-1629. *)
Inductive subst : Type := Value (r : R) | Echo.
(** What a guarded call returns: the result or substitute, or the arguments
    in one of the four forms of iterables.py 1677-1683. *)
Inductive guarded : Type :=
| GValue (r : R)
| GArg (a : A)
| GArgs (l : list A)
| GKwargs (l : list (str * A))
| GBoth (l : list A) (k : list (str * A)).
(** The outcome of the wrapped call, or of the guarded one: [KeyErr] is the
    [KeyError] of iterables.py 1674. *)
Inductive outcome (T : Type) : Type :=
| Returns (t : T)
| Raises (c : C)
| KeyErr.
Arguments Returns {T}. Arguments Raises {T}. Arguments KeyErr {T}.

(** iterables.py 1615-1629, [Guard.catch], in order. *)
Definition catch (subs : list (C * subst)) (c : C) (s : subst) : list (C * subst) := d_set ceq subs c s.

(** iterables.py 1631-1683, [Guard.call]. *)
Definition guard_call (subs : list (C * subst)) (run : outcome R)
  (args : list A) (kwargs : list (str * A)) : outcome guarded :=
  match run with
  | Returns r => Returns (GValue r)
  | KeyErr => KeyErr
  | Raises c =>
      if existsb (fun p => sub c (fst p)) subs then
        match d_get ceq subs c with
        | None => KeyErr
        | Some (Value r) => Returns (GValue r)
        | Some Echo =>
            match kwargs, args with
            | [], [a] => Returns (GArg a)
            | [], _ => Returns (GArgs args)
            | _, [] => Returns (GKwargs kwargs)
            | _, _ => Returns (GBoth args kwargs)
            end
        end
      else Raises c
  end.
End Guard.
Arguments subst : clear implicits.
Arguments guarded : clear implicits.
Arguments outcome : clear implicits.
Arguments Returns {C T}. Arguments Raises {C T}. Arguments KeyErr {C T}.

(** * Instance caches *)

(** iterables.py 1219-1240, [InstanceSet.__call__]: one instance per key.  A
    new object gets the identity [fresh]. *)
Definition instance {K} (keq : K -> K -> bool) (cache : list (K * nat)) (fresh : nat) (k : K)
  : nat * list (K * nat) * nat :=
  match d_get keq cache k with
  | Some i => (i, cache, fresh)
  | None => (fresh, cache ++ [(k, fresh)], S fresh)
  end.
Fixpoint instances {K} (keq : K -> K -> bool) (cache : list (K * nat)) (fresh : nat) (ks : list K) : list nat :=
  match ks with
  | [] => []
  | k :: ks' =>
      let '(i, cache', fresh') := instance keq cache fresh k in
      i :: instances keq cache' fresh' ks'
  end.
