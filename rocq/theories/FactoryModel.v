(** More of /repo/src/goats/core/metadata.py: sequences of operands, the
    operations of a quantity and their rules ([OperatorFactory]), and the
    aliases of a name.

    Classes and attribute values are abstract.  Simplification: attributes and
    operands are not callable, so [getattrval] never calls anything. *)

From Coq Require Import String Ascii List Bool.
From Verif Require Import Py PyDict IterablesModel AliasedModel MetadataModel ViewsModel.
Import ListNotations.
Open Scope list_scope.
Open Scope nat_scope.
Open Scope py_scope.

(** * Operands *)

Section Operands.
(** Classes; values of attributes (and the operands themselves, seen as
    values), and [bool] of a value.  Used for utilities.py 6-52. *)
Context {cls val : Type}.
Variable vtrue : val -> bool.

Record operand : Type := mkOperand { o_class : cls; o_attr : str -> option val; o_self : val }.

(** [hasattr], and utilities.py 6-52, [getattrval]. *)
Definition hasattr (name : str) (o : operand) : bool :=
  match o_attr o name with Some _ => true | None => false end.
Definition getattrval (o : operand) (name : str) : val :=
  match o_attr o name with Some v => v | None => o_self o end.

(** metadata.py 44-47, [Operands]. *)
Record operands : Type := mkOperands { o_args : list operand; o_reference : option operand }.

(** metadata.py 49-62, [reference]: the result is stored, which no caller can
    tell. *)
Definition reference (os : operands) : res operand :=
  match o_reference os with
  | Some r => Ok r
  | None => match o_args os with o :: _ => Ok o | [] => Err IndexError end
  end.

(** metadata.py 91-96, [find], and 98-100, [allhave]. *)
Definition find_ (names : list str) (os : operands) : list operand :=
  filter (fun o => forallb (fun n => hasattr n o) names) (o_args os).
Definition allhave (names : list str) (os : operands) : bool :=
  forallb (fun o => forallb (fun n => hasattr n o) names) (o_args os).

(** The modes of metadata.py 107-121; any other string is like [MDefault]. *)
Inductive mode : Type := MDefault | MNext | MStrict | MForce.
(** metadata.py 111-121, [_get]; [None] is Python's [None]. *)
Definition get_ (os : operands) (name : str) (m : mode) (o : operand) : res (option val) :=
  let available := hasattr name o in
  match m with
  | MNext => Ok (o_attr o name)
  | _ =>
      if negb available && match m with MStrict => true | _ => false end then Err AttributeError
      else if available || match m with MForce => true | _ => false end then Ok (Some (getattrval o name))
      else do r <- reference os; Ok (Some (getattrval r name))
  end.
(** metadata.py 107-109, [getall]. *)
Definition getall (os : operands) (name : str) (m : mode) : res (list (option val)) :=
  mapM (get_ os name m) (o_args os).

(** metadata.py 102-105, [getany]. *)
Definition getany (os : operands) (name : str) : res (option val) :=
  do vs <- getall os name MNext;
  Ok (match find (fun v => match v with Some v => vtrue v | None => false end) vs with
      | Some v => v
      | None => None
      end).

(** metadata.py 135-139: [operands[a:b]] with 0 <= a <= b. *)
Definition slice_ (os : operands) (a b : nat) : operands :=
  mkOperands (firstn (b - a) (skipn a (o_args os))) None.

End Operands.
Arguments operand : clear implicits. Arguments operands : clear implicits.

(** * The operations of a quantity *)

Section Factory.
Variable cls : Type.
Variable ceqb : cls -> cls -> bool.
Variable issub : cls -> cls -> bool.
Variable val : Type.
(** The iteration order of sets (see AliasedModel.v). *)
Variable mkset : list str -> list str.

(** A callable that operates on values of attributes.
    Used for metadata.py 1128. *)
Definition method : Type := list val -> res val.

(** metadata.py 1059-1127, [_reference]: the names of operations, each with
    its callable ([None]: it has none) and its aliases ([None]: there is no
    such entry). *)
Variable table : list (str * (option method * option (list str))).

(** The values in the interior mappings.  Used for metadata.py 1128. *)
Inductive entry : Type := Callable (m : option method) | Aliases (l : list str).
Definition interior (p : str * (option method * option (list str))) : str * list (str * entry) :=
  (fst p, (lit "callable", Callable (fst (snd p)))
          :: match snd (snd p) with Some l => [(lit "aliases", Aliases l)] | None => [] end).
Definition entry_aliases (e : entry) : list str := match e with Aliases l => l | Callable _ => [] end.

(** metadata.py 1128, [REFERENCE]; aliased.py 271-274: a mapping without
    interior aliases anywhere would be built in another way, and is left
    out. *)
Definition reference_map : res (amap entry) :=
  do r <- squeeze (mapping_interior mkset entry_aliases (map interior table) (lit "aliases")) true;
  match r with inr m => Ok m | inl _ => Err TypeError end.

(** metadata.py 184-199: an operation as an object with a name. *)
Record object_ : Type := mkObject { ob_name : option str; ob_rules : operation cls }.

(** metadata.py 379-394, [OperatorFactory].  The objects live in [f_heap] and
    [f_table] maps names to their positions. *)
Record factory : Type := mkFactory {
  f_type : cls;
  f_params : list str;
  f_table : option (amap (option nat));
  f_heap : list object_
}.
Definition new_factory (t : cls) (params : list str) : factory :=
  mkFactory t (unique str_eqb params) None [].

(** metadata.py 441-464, [operations]: created at the first access. *)
Definition place (t : cls) (params : list str) (s : amap (option nat) * list object_) (k : str)
  : amap (option nat) * list object_ :=
  (setitem mkset (fst s) k (Some (length (snd s))),
   snd s ++ [mkObject (Some k) (new_operation cls t params)]).
Definition operations (s : factory) : res (factory * amap (option nat)) :=
  match f_table s with
  | Some m => Ok (s, m)
  | None =>
      do ref <- reference_map;
      do m0 <- fromkeys mkset (KeyMap ref) None;
      let '(m, heap) := fold_left (place (f_type s) (f_params s)) (flat_keys ref) (m0, f_heap s) in
      Ok (mkFactory (f_type s) (f_params s) (Some m) heap, m)
  end.

(** metadata.py 427-431, [__getitem__]: the position of the object. *)
Definition lookup (s : factory) (k : str) : res (factory * nat) :=
  do r <- operations s;
  if contains (snd r) k then
    do i <- getitem (snd r) k;
    match i with Some i => Ok (fst r, i) | None => Err TypeError end
  else Err KeyError.

(** Change the object at a position.  Used for metadata.py 404-405. *)
Fixpoint put (heap : list object_) (i : nat) (o : object_) : list object_ :=
  match heap, i with
  | [], _ => []
  | _ :: h, 0 => o :: h
  | x :: h, S j => x :: put h j o
  end.
Definition with_rules (s : factory) (i : nat) (f : operation cls -> operation cls * option exn) : factory * option exn :=
  match nth_error (f_heap s) i with
  | None => (s, None)
  | Some o =>
      let '(r, e) := f (ob_rules o) in
      (mkFactory (f_type s) (f_params s) (f_table s) (put (f_heap s) i (mkObject (ob_name o) r)), e)
  end.

(** metadata.py 219-226, [Operation.update]. *)
Definition update (names : list str) (o : operation cls) : operation cls * option exn :=
  match names with
  | [] => (o, Some ValueError)
  | _ => (mkOperation _ (op_type _ o) (op_parameters _ o ++ names) (op_supported _ o) (op_suppressed _ o)
            (op_nargs _ o), None)
  end.

(** metadata.py 404-405: the loop of [register]; [values()] goes through all
    names, so an operation with aliases is updated more than once. *)
Fixpoint update_all (s : factory) (names : list str) (ids : list (option nat)) : factory * option exn :=
  match ids with
  | [] => (s, None)
  | None :: _ => (s, Some AttributeError)
  | Some i :: ids' =>
      match with_rules s i (update names) with
      | (s', None) => update_all s' names ids'
      | r => r
      end
  end.
(** metadata.py 401-406, [register]. *)
Definition register (s : factory) (names : list str) : factory * option exn :=
  let s1 := mkFactory (f_type s) (f_params s ++ unique str_eqb names) (f_table s) (f_heap s) in
  match operations s1 with
  | Err e => (s1, Some e)
  | Ok (s2, m) =>
      match mapM (getitem m) (flat_keys m) with
      | Err e => (s2, Some e)
      | Ok ids => update_all s2 names ids
      end
  end.

(** What a user can do with the operations of a quantity; [Look] stands for
    any use that only reads.  For histories and uses of metadata.py 401-406. *)
Inductive act : Type :=
| ASuppress (k : str) (types : list (tyspec cls)) (symmetric : bool)
| ASupport (k : str) (types : list (tyspec cls)) (symmetric : bool)
| AUpdate (k : str) (names : list str)
| ARegister (names : list str)
| ALook (k : str).
Definition on (s : factory) (k : str) (f : operation cls -> operation cls * option exn) : factory * option exn :=
  match lookup s k with
  | Ok (s', i) => with_rules s' i f
  | Err e => (match operations s with Ok (s', _) => s' | Err _ => s end, Some e)
  end.
Definition run_act (s : factory) (a : act) : factory * option exn :=
  match a with
  | ASuppress k types sym => on s k (fun o => (suppress cls o types sym, None))
  | ASupport k types sym => on s k (fun o => support cls o types sym)
  | AUpdate k names => on s k (update names)
  | ARegister names => register s names
  | ALook k => on s k (fun o => (o, None))
  end.
(** A history; the caller survives exceptions.
    For histories and uses of metadata.py 401-406. *)
Fixpoint run_acts (s : factory) (l : list act) : factory :=
  match l with [] => s | a :: l' => run_acts (fst (run_act s a)) l' end.

(** metadata.py 298-312 through a name: [meta[k].supports(types...)]. *)
Definition asks (s : factory) (k : str) (types : list cls) : res bool :=
  do r <- lookup s k;
  match nth_error (f_heap (fst r)) (snd r) with
  | Some o => Ok (supports cls ceqb issub (ob_rules o) types)
  | None => Err IndexError
  end.

(** metadata.py 165-175, [Operator.__call__] of one attribute. *)
Definition compute (m : method) (args : list (operand cls val)) (p : str) : res val :=
  operator_call m (fun v => v) (map (fun o => getattrval o p) args)
    (allhave [p] (mkOperands args None)).

(** metadata.py 323-356, [Operation.apply] and the operator that it creates:
    [None] if there is nothing to compute. *)
Definition apply (rules : operation cls) (m : option method) (args : list (operand cls val))
  : res (option (list (str * val))) :=
  match m with
  | None => Ok None
  | Some f =>
      if supports cls ceqb issub rules (map o_class args) then
        do l <- mapM (fun p => do v <- compute f args p; Ok (p, v)) (op_parameters _ rules);
        Ok (Some (d_of str_eqb l))
      else Err OperandTypeError
  end.

(** metadata.py 314-321, [evaluate] through a name. *)
Definition evaluate (s : factory) (k : str) (args : list (operand cls val)) : res (option (list (str * val))) :=
  do r <- lookup s k;
  match nth_error (f_heap (fst r)) (snd r) with
  | None => Err IndexError
  | Some o =>
      match ob_name o with
      | None => Err KeyError
      | Some n =>
          do ref <- reference_map;
          do e <- getitem ref n;
          match e with
          | Callable m => apply (ob_rules o) m args
          | Aliases _ => Ok None
          end
      end
  end.

(** metadata.py 408-410, [implement]. *)
Definition implement (s : factory) (m : method) (args : list (operand cls val)) : res (option (list (str * val))) :=
  apply (new_operation cls (f_type s) (f_params s)) (Some m) args.

(** metadata.py 433-439: the length and the names. *)
Definition names_ (s : factory) : res (list str) := do r <- operations s; Ok (flat_keys (snd r)).

End Factory.

(** metadata.py 1059-1128: the names in the reference; [sem] gives the
    callables. *)
Definition reference_rows {val} (sem : str -> method val) : list (str * (option (method val) * option (list str))) :=
  map (fun r : string * bool * list string =>
         let '(n, callable, aliases) := r in
         (lit n, (if callable then Some (sem (lit n)) else None,
                  match aliases with [] => None | _ => Some (map lit aliases) end)))
    [ ("int", false, []); ("float", false, []); ("abs", true, ["absolute"]); ("pos", true, ["positive"]);
      ("neg", true, ["negative"]); ("ceil", true, ["ceiling"]); ("floor", true, []); ("trunc", true, ["truncate"]);
      ("round", true, []); ("lt", false, ["less"]); ("le", false, ["less_equal"; "less equal"]);
      ("gt", false, ["greater"]); ("ge", false, ["greater_equal"; "greater equal"]); ("add", true, []);
      ("sub", true, ["subtract"]); ("mul", true, ["multiply"]); ("truediv", true, ["true_divide"; "true divide"]);
      ("pow", true, ["power"]) ]%string.

(** * Aliases of a name *)

(** metadata.py 886-901, [NameMixin.name] and [alias], with 615-621,
    [Name.add]: the names of a quantity after the call.  The attribute is not
    assigned if the call raises. *)
Definition alias (mkset : list str -> list str) (name updates : list str) (reset : bool) : res (list str) :=
  if reset then match updates with [] => Err TypeError | _ => Ok (name_of mkset updates) end
  else Ok (name_of mkset (group_or mkset (name_of mkset name) (mkset updates))).
Definition alias_run (mkset : list str -> list str) (name : list str) (h : list (list str * bool)) : list str :=
  fold_left (fun n c => match alias mkset n (fst c) (snd c) with Ok n' => n' | Err _ => n end) h name.
