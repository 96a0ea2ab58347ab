(** Model of further containers of core/iterables.py: singletons, uniform
    mappings, registries with metadata and copies, mixins for collections,
    tables whose entries change, nested lookups and queues. *)

From Coq Require Import String Ascii List Bool ZArith NArith.
From Verif Require Import Py PyDict IterablesModel.
Import ListNotations.
Open Scope list_scope.
Open Scope nat_scope.
Open Scope py_scope.

(** * Singletons *)

Section Singleton.
Context {C : Type}.
Variable ceq : C -> C -> bool.
(** The method resolution order of a class, which starts with the class. *)
Variable mro : C -> list C.
(** The classes that have attributes [_exists] and [_instance] of their own,
    with the object (a number), and the class of each object, in order of
    creation.  Used for iterables.py 1209-1215. *)
Record singles : Type := mkSingles { s_own : list (C * nat); s_made : list C }.
(** [cls._exists] and [cls._instance]: the first class in the resolution order
    that has them.  (iterables.py 1206-1207: [Singleton] itself starts with
    [False].) *)
Fixpoint inherited (own : list (C * nat)) (l : list C) : option nat :=
  match l with
  | [] => None
  | c :: l' => match d_get ceq own c with Some o => Some o | None => inherited own l' end
  end.
(** iterables.py 1209-1215, [cls(...)]. *)
Definition instantiate (s : singles) (c : C) : nat * singles :=
  match inherited (s_own s) (mro c) with
  | Some o => (o, s)
  | None => let o := length (s_made s) in (o, mkSingles (d_set ceq (s_own s) c o) (s_made s ++ [c]))
  end.
(** A history of calls of classes.
    For histories and uses of iterables.py 1209-1215. *)
Fixpoint instantiations (s : singles) (h : list C) : list nat * singles :=
  match h with
  | [] => ([], s)
  | c :: h' => let (o, s1) := instantiate s c in let (l, s2) := instantiations s1 h' in (o :: l, s2)
  end.
Definition no_singles : singles := mkSingles [] [].
End Singleton.
Arguments singles : clear implicits.

(** * Uniform mappings *)

Section Uniform.
Context {V O : Type}.
(** Python's [None] among the values. *)
Variable none : V.
(** Parameters with their defaults. Simplification: ordinary parameters only.
    Used for iterables.py 654-659. *)
Definition parameters : Type := list (str * option V).
(** A class: with an [__init__] or, for a direct [NamedTuple], with fields; or
    with neither, as a class without [__init__] or a subclass of a [NamedTuple].
    The last has what it makes of the values of its parameters.
    Used for iterables.py 654-659. *)
Record ctype : Type := mkType { t_params : option parameters; t_new : list V -> res O }.
(** A call with keywords of a function with these parameters.
    Used for iterables.py 654-659. *)
Definition bind_keywords (ps : parameters) (kw : list (str * V)) : res (list V) :=
  if forallb (fun kv => existsb (fun p => str_eqb (fst p) (fst kv)) ps) kw
  then mapM (fun p => match d_get str_eqb kw (fst p) with
                      | Some v => Ok v
                      | None => match snd p with Some d => Ok d | None => Err TypeError end
                      end) ps
  else Err TypeError.
(** A call with keywords of a class; a class with neither takes no arguments.
    Used for iterables.py 654-659. *)
Definition construct (t : ctype) (kw : list (str * V)) : res O :=
  match t_params t with
  | Some ps => do l <- bind_keywords ps kw; t_new t l
  | None => match kw with [] => t_new t [] | _ => Err TypeError end
  end.
(** iterables.py 639-652: the names of the parameters; [inspect.signature] of
    [object.__init__] has 'args' and 'kwargs'. *)
Definition init_names (t : ctype) : list str :=
  match t_params t with Some ps => map fst ps | None => [lit "args"; lit "kwargs"] end.
(** iterables.py 654-659, [UniformMapping.__getitem__]. *)
Definition uniform_getitem (m : list (str * list (str * V))) (t : ctype) (key : str) : res O :=
  match d_get str_eqb m key with
  | None => Err KeyError
  | Some row => construct t (map (fun p => (p, match d_get str_eqb row p with Some v => v | None => none end)) (init_names t))
  end.
End Uniform.
Arguments ctype : clear implicits.

(** * Registries *)

Section Registries.
Context {X : Type}.
Variable qualname : X -> option str.
(** Entries are dictionaries, which may be shared: numbers that refer to a heap.
    [_items], [_init], [_object_key] and [_default_key_count] (iterables.py
    709-715). *)
Record reg : Type := mkRegistry { g_items : list (rkey * nat); g_init : list (rkey * nat); g_okey : str; g_count : N }.
Record world : Type := mkWorld { w_heap : list (list (str * X)); w_regs : list reg }.

Fixpoint update_nth {A} (n : nat) (x : A) (l : list A) : list A :=
  match l, n with
  | [], _ => []
  | _ :: l', O => x :: l'
  | y :: l', S n' => y :: update_nth n' x l'
  end.

(** iterables.py 709-714: values that are not dictionaries are wrapped. *)
Fixpoint wrap_all (okey : str) (heap : list (list (str * X))) (base : list (rkey * (X + nat))) : list (rkey * nat) * list (list (str * X)) :=
  match base with
  | [] => ([], heap)
  | (k, inl x) :: b => let (l, h) := wrap_all okey (heap ++ [[(okey, x)]]) b in ((k, length heap) :: l, h)
  | (k, inr r) :: b => let (l, h) := wrap_all okey heap b in ((k, r) :: l, h)
  end.
(** iterables.py 702-716, [ObjectRegistry(base, object_key)]. *)
Definition new_registry (w : world) (base : list (rkey * (X + nat))) (okey : str) : world :=
  let (l, h) := wrap_all okey (w_heap w) base in
  mkWorld h (w_regs w ++ [mkRegistry l l okey 1]).

(** iterables.py 836-858: the key of a new entry. *)
Definition entry_key (r : reg) (o : X) (user : option str) (overwrite : bool) : rkey * N :=
  mapping_key qualname (mkReg (map (fun kv => (fst kv, o)) (g_items r)) (g_count r)) o user overwrite.
(** iterables.py 821-834, [register(obj, name, overwrite, **metadata)]. *)
Definition register_entry (w : world) (i : nat) (o : X) (user : option str) (overwrite : bool) (metadata : list (str * X)) : world :=
  match nth_error (w_regs w) i with
  | None => w
  | Some r =>
      let (k, n) := entry_key r o user overwrite in
      mkWorld (w_heap w ++ [d_update str_eqb [(g_okey r, o)] metadata])
        (update_nth i (mkRegistry (d_set rkey_eqb (g_items r) k (length (w_heap w))) (g_init r) (g_okey r) n) (w_regs w))
  end.
(** iterables.py 858-860, [reset]. *)
Definition reset (w : world) (i : nat) : world :=
  match nth_error (w_regs w) i with
  | None => w
  | Some r => mkWorld (w_heap w) (update_nth i (mkRegistry (g_init r) (g_init r) (g_okey r) (g_count r)) (w_regs w))
  end.
(** iterables.py 864-866 and [registry[key][name] = x]. *)
Definition lookup (w : world) (i : nat) (k : rkey) : option (list (str * X)) :=
  match nth_error (w_regs w) i with
  | None => None
  | Some r => match d_get rkey_eqb (g_items r) k with Some a => nth_error (w_heap w) a | None => None end
  end.
Definition annotate (w : world) (i : nat) (k : rkey) (name : str) (x : X) : world :=
  match nth_error (w_regs w) i with
  | None => w
  | Some r =>
      match d_get rkey_eqb (g_items r) k with
      | None => w
      | Some a => match nth_error (w_heap w) a with
                  | None => w
                  | Some d => mkWorld (update_nth a (d_set str_eqb d name x) (w_heap w)) (w_regs w)
                  end
      end
  end.
(** iterables.py 878-880, [copy]. *)
Definition copy_registry (w : world) (i : nat) : world :=
  match nth_error (w_regs w) i with
  | None => w
  | Some r => new_registry w (map (fun kv => (fst kv, inr (snd kv))) (g_items r)) (g_okey r)
  end.
Inductive gaction : Type :=
| GNew (base : list (rkey * X)) (okey : str)
| GRegister (i : nat) (o : X) (user : option str) (overwrite : bool) (metadata : list (str * X))
| GReset (i : nat) | GCopy (i : nat)
| GAnnotate (i : nat) (k : rkey) (name : str) (x : X).
Definition gact (w : world) (a : gaction) : world :=
  match a with
  | GNew b k => new_registry w (map (fun kv => (fst kv, inl (snd kv))) b) k
  | GRegister i o u ow m => register_entry w i o u ow m
  | GReset i => reset w i
  | GCopy i => copy_registry w i
  | GAnnotate i k n x => annotate w i k n x
  end.
Definition gafter (w : world) (h : list gaction) : world := fold_left gact h w.
Definition no_registry : world := mkWorld [] [].
End Registries.
Arguments world : clear implicits. Arguments gaction : clear implicits.

(** * Mixin for collections *)

Section Collection.
Context {A : Type}.
Variable aeq : A -> A -> bool.
(** The attributes of an object that are collections, and
    [_collection_name].  Used for iterables.py 481-494. *)
Record object : Type := mkObject { a_attrs : list (str * list A); a_name : option str }.
Inductive caction : Type := Collect (name : str) | SetAttr (name : str) (l : list A) | DelAttr (name : str).
Definition cact (o : object) (a : caction) : object :=
  match a with
  | Collect n => mkObject (a_attrs o) (Some n)
  | SetAttr n l => mkObject (d_set str_eqb (a_attrs o) n l) (a_name o)
  | DelAttr n => mkObject (d_del str_eqb (a_attrs o) n) (a_name o)
  end.
Definition cafter (h : list caction) : object := fold_left cact h (mkObject [] None).
(** iterables.py 481-494. *)
Definition collection (o : object) : res (list A) :=
  match a_name o with
  | None => Err AttributeError
  | Some n => Ok (match d_get str_eqb (a_attrs o) n with Some l => l | None => [] end)
  end.
(** iterables.py 496-506. *)
Definition c_contains (o : object) (x : A) : res bool := rmap (existsb (aeq x)) (collection o).
Definition c_len (o : object) : res nat := rmap (@length A) (collection o).
Definition c_iter (o : object) : res (list A) := collection o.
End Collection.
Arguments object : clear implicits. Arguments caction : clear implicits.

(** * Tables whose entries change *)

Section Tables.
Context {V : Type}.
(** [_entries], which the user may change, and [_keys].
    Used for iterables.py 1012-1018. *)
Record table : Type := mkTable { b_entries : list (@entry V); b_keys : option (str -> bool) }.
(** iterables.py 1012-1018, [Table.keys] with its cache. *)
Definition keys_of (t : table) : res (str -> bool) * table :=
  match b_keys t with
  | Some ks => (Ok ks, t)
  | None => match b_entries t with
            | [] => (Err IndexError, t)
            | es => let ks := fun k => forallb (fun e => sd_has e k) es in (Ok ks, mkTable es (Some ks))
            end
  end.
(** iterables.py 1017-1022. *)
Definition cached_getitem (t : table) (k : str) : res (list V) * table :=
  match keys_of t with
  | (Err e, t') => (Err e, t')
  | (Ok ks, t') =>
      (if ks k then mapM (fun e => match sd_get e k with Some w => Ok w | None => Err KeyError end) (b_entries t') else Err TableKeyError, t')
  end.
(** iterables.py 1024-1030. *)
Definition cached_get (t : table) (k : str) (default : V) : res (list V) * table :=
  match cached_getitem t k with
  | (Err TableKeyError, t') => (Ok (map (fun e => match sd_get e k with Some w => w | None => default end) (b_entries t')), t')
  | r => r
  end.
Inductive taction : Type := TGetitem (k : str) | TGet (k : str) (d : V) | TChange (es : list (@entry V)).
Definition tact (t : table) (a : taction) : table :=
  match a with
  | TGetitem k => snd (cached_getitem t k)
  | TGet k d => snd (cached_get t k d)
  | TChange es => mkTable es (b_keys t)
  end.
Definition tafter (es : list (@entry V)) (h : list taction) : table := fold_left tact h (mkTable es None).
End Tables.
Arguments table : clear implicits. Arguments taction : clear implicits.

(** * Nested lookups and queues *)

(** Nested dictionaries.  Used for iterables.py 131-137. *)
Inductive nested (V : Type) : Type := Leaf (v : V) | Node (l : list (str * nested V)).
Arguments Leaf {V}. Arguments Node {V}.
Definition child {V} (m : nested V) (k : str) : res (nested V) :=
  match m with
  | Leaf _ => Err TypeError
  | Node l => match d_get str_eqb l k with Some n => Ok n | None => Err KeyError end
  end.
(** iterables.py 131-137, [get_nested_element]. *)
Definition get_nested_element {V} (m : nested V) (levels : list str) : res (nested V) :=
  match levels with
  | [] => Err IndexError
  | k :: l => fold_left (fun r j => do this <- r; child this j) l (child m k)
  end.
(** iterables.py 1481-1486, [pop]. *)
Definition pop {A} (l : list A) (default : A) : A * list A :=
  match l with [] => (default, []) | x :: l' => (x, l') end.
Fixpoint pops {A} (n : nat) (l : list A) (default : A) : list A * list A :=
  match n with
  | O => ([], l)
  | S m => let (x, l1) := pop l default in let (xs, l2) := pops m l1 default in (x :: xs, l2)
  end.
(** iterables.py 369-378, [RequiredAttrMeta.__call__]: [made] are the
    attributes of the instance. *)
Definition required_call (required made : list str) : res (list str) :=
  if forallb (fun a => existsb (str_eqb a) made) required then Ok made else Err NotImplementedError.
(** iterables.py 1489-1503, [oftype(type)]: one argument is returned as
    it is, more as an iterator. *)
Definition oftype {A} (isinstance : A -> bool) (args : list A) : res (A + list A) :=
  if forallb isinstance args then Ok (match args with [x] => inl x | l => inr l end) else Err TypeError.
