(** Model of /repo/src/goats/core/metadata.py, without the unit attribute
    (see QuantityModel.v).

    Names and attribute values that only get compared are abstract. *)

From Coq Require Import String Ascii List Bool ZArith QArith Qcanon.
From Verif Require Import Py SymbolicModel IterablesModel AliasedModel.
Import ListNotations.
Open Scope list_scope.
Open Scope nat_scope.
Open Scope py_scope.

(** * Operations and the types they support *)

Section Operations.

(** Classes, [==] on classes and [issubclass]. *)
Variable cls : Type.
Variable ceqb : cls -> cls -> bool.
Variable issub : cls -> cls -> bool.

(** What a user may pass in place of a type: a type or a tuple of types
    ([issubclass] accepts both).  Simplification: lists are left out, because
    a list cannot be a member of a set; nested tuples are left out.
    Used for metadata.py 298-312. *)
Inductive tyspec : Type := Ty (c : cls) | Tup (l : list cls).
Definition tyspec_eqb (a b : tyspec) : bool :=
  match a, b with
  | Ty c, Ty d => ceqb c d
  | Tup l, Tup m => Nat.eqb (length l) (length m) && forallb (fun p => ceqb (fst p) (snd p)) (combine l m)
  | _, _ => false
  end.
Definition rule : Type := list tyspec.
Definition rule_eqb (r s : rule) : bool :=
  Nat.eqb (length r) (length s) && forallb (fun p => tyspec_eqb (fst p) (snd p)) (combine r s).

(** [issubclass(c, t)].  Used for metadata.py 298-312. *)
Definition issubclass (c : cls) (t : tyspec) : bool :=
  match t with Ty d => issub c d | Tup l => existsb (issub c) l end.

(** metadata.py 184-199, [Operation]; a [set] of rules is a list. *)
Record operation : Type := mkOperation {
  op_type : cls;
  op_parameters : list str;
  op_supported : list rule;
  op_suppressed : list rule;
  op_nargs : option nat
}.
Definition new_operation (t : cls) (params : list str) : operation := mkOperation t params [] [] None.

(** metadata.py 211-217, [copy]. *)
Definition copy (o : operation) : operation := new_operation (op_type o) (op_parameters o).

(** metadata.py 234-255, [suppress]. *)
Definition suppress (o : operation) (types : rule) (symmetric : bool) : operation :=
  mkOperation (op_type o) (op_parameters o) (op_supported o)
    (op_suppressed o ++ types :: (if symmetric then [rev types] else [])) (op_nargs o).

(** metadata.py 282-295: the loop of [support].  The state survives an
    exception. *)
Fixpoint support_loop (o : operation) (these : list tyspec) (symmetric : bool) : operation * option exn :=
  match these with
  | [] => (o, None)
  | Ty _ :: _ => (o, Some TypeError)
  | Tup this :: these' =>
      let n := match op_nargs o with None => length this | Some n => n end in
      let o1 := mkOperation (op_type o) (op_parameters o) (op_supported o) (op_suppressed o) (Some n) in
      if negb (Nat.eqb (length this) n) then (o1, Some NTypesError)
      else support_loop
             (mkOperation (op_type o) (op_parameters o)
                (op_supported o ++ map Ty this :: (if symmetric then [rev (map Ty this)] else []))
                (op_suppressed o) (Some n))
             these' symmetric
  end.
(** metadata.py 257-296, [support]. *)
Definition is_type (t : tyspec) : bool := match t with Ty _ => true | Tup _ => false end.
Definition types_of (l : list tyspec) : list cls :=
  flat_map (fun t => match t with Ty c => [c] | Tup _ => [] end) l.
Definition support (o : operation) (types : list tyspec) (symmetric : bool) : operation * option exn :=
  match types with
  | [] => (o, Some ValueError)
  | _ => if forallb is_type types then support_loop o [Tup (types_of types)] symmetric
         else support_loop o types symmetric
  end.

(** [all(issubclass(i, j) for i, j in zip(types, t))].
    Used for metadata.py 298-312. *)
Definition all_sub (types : list cls) (t : rule) : bool :=
  forallb (fun p => issubclass (fst p) (snd p)) (combine types t).

(** metadata.py 298-312, [supports]. *)
Definition supports (o : operation) (types : list cls) : bool :=
  if match op_nargs o with
     | Some n => negb (Nat.eqb n 0) && negb (Nat.eqb (length types) n)
     | None => false
     end then false
  else if existsb (rule_eqb (map Ty types)) (op_suppressed o) then false
  else if existsb (all_sub types) (op_suppressed o) then false
  else if existsb (rule_eqb (map Ty types)) (op_supported o) then true
  else if existsb (all_sub types) (op_supported o) then true
  else existsb (ceqb (op_type o)) types.

(** A history of calls; a raised exception does not end it.
    For histories and uses of metadata.py 298-312. *)
Inductive call : Type :=
| Suppress (types : list tyspec) (symmetric : bool)
| Support (types : list tyspec) (symmetric : bool).
Definition run_call (o : operation) (c : call) : operation * option exn :=
  match c with
  | Suppress types s => (suppress o types s, None)
  | Support types s => support o types s
  end.
Fixpoint run_calls (o : operation) (l : list call) : operation :=
  match l with [] => o | c :: l' => run_calls (fst (run_call o c)) l' end.
(** Do all calls return?.  For histories and uses of metadata.py 298-312. *)
Fixpoint all_return (o : operation) (l : list call) : bool :=
  match l with
  | [] => true
  | c :: l' => match snd (run_call o c) with
               | None => all_return (fst (run_call o c)) l'
               | Some _ => false
               end
  end.

End Operations.
Arguments Ty {cls}. Arguments Tup {cls}. Arguments Suppress {cls}. Arguments Support {cls}.

(** * Operands *)

Section Operands.
(** Attribute values and their [==]. *)
Variable V : Type.
Variable veq : V -> V -> bool.
(** An operand: the values of the attributes it has.  Simplification:
    attributes are not callable.  Used for metadata.py 25-34. *)
Definition operand_ : Type := str -> option V.

(** metadata.py 25-34, [consistent]. *)
Definition consistent (name : str) (args : list operand_) : bool :=
  match flat_map (fun a => match a name with Some v => [v] | None => [] end) args with
  | [] => true
  | v0 :: vs => forallb (fun v => veq v v0) (v0 :: vs)
  end.

(** metadata.py 412-416 and 418-425, [check] and [consistent] of a factory
    with the given parameters. *)
Fixpoint check (params : list str) (args : list operand_) : res unit :=
  match params with
  | [] => Ok tt
  | p :: ps => if consistent p args then check ps args else Err ValueError
  end.

(** metadata.py 64-89, [Operands.agree]. *)
Definition getall_strict (name : str) (args : list operand_) : res (list V) :=
  mapM (fun a => match a name with Some v => Ok v | None => Err AttributeError end) args.
Definition head_equal (values : list V) : res bool :=
  match values with
  | [] => Err IndexError
  | v0 :: _ => Ok (forallb (fun v => veq v v0) values)
  end.
Fixpoint agree_loop (get : str -> res (list V)) (names : list str) : res bool :=
  match names with
  | [] => Ok true
  | n :: ns => do vs <- get n; do b <- head_equal vs; if b then agree_loop get ns else Ok false
  end.
Definition has_all (names : list str) (a : operand_) : bool :=
  forallb (fun n => match a n with Some _ => true | None => false end) names.
Definition agree (names : list str) (strict : bool) (args : list operand_) : res bool :=
  if Nat.eqb (length args) 1 then Ok true
  else agree_loop (fun n => getall_strict n (if strict then args else filter (has_all names) args)) names.

(** metadata.py 149-153, [Operands.__eq__]; the operands are compared by
    [==]. *)
Definition operands_eq {A} (eqb : A -> A -> bool) (self other : list A) : bool :=
  Nat.eqb (length self) (length other) && forallb (fun i => existsb (fun j => eqb i j) other) self.
End Operands.

(** metadata.py 165-175, [Operator.__call__]: [allhave] says whether every
    operand has the attribute. *)
Definition operator_call {V W} (method : list V -> res W) (first : V -> W) (values : list V) (allhave : bool) : res W :=
  match method values with
  | Err TypeError =>
      match values with
      | [v] => Ok (first v)
      | _ => if allhave then Err MetadataError else Err TypeError
      end
  | r => r
  end.

(** * Names *)

Section Names.
(** The iteration order of sets (see AliasedModel.v). *)
Variable mkset : list str -> list str.
(** [str(fractions.Fraction(s))] for a string that [Fraction] accepts, else
    the string itself.  Simplification: strings like '1/0', for which
    [Fraction] raises ZeroDivisionError, are left out. *)
Variable fixed : str -> str.

(** The operand of an operator on names: a name, a string, a number (with a
    flag for floats, whose [str] is never '1') or a list of strings.
    Used for metadata.py 744-753. *)
Inductive other : Type :=
| OName (l : list str)
| OText (s : str)
| ONumber (v : Qc) (float : bool)
| OList (l : list str).

(** metadata.py 615-616, [Name]: the members of its group. *)
Definition name_of (l : list str) : list str := mkset l.

(** metadata.py 744-753, [__bool__], and the truth of the other operands. *)
Definition name_truth (l : list str) : bool :=
  match l with [a] => negb (str_eqb a []) | _ => true end.
Definition truth (o : other) : bool :=
  match o with
  | OName l => name_truth l
  | OText s => negb (str_eqb s [])
  | ONumber v _ => negb (Qc_eqb v 0)
  | OList l => negb (Nat.eqb (length l) 0)
  end.

(** metadata.py 767-773, [__eq__]. *)
Definition name_eq (self : list str) (o : other) : bool :=
  match o with
  | OName l => geq self l
  | OText s => geq self (mkset [s])
  | ONumber _ _ => false
  | OList l => geq self (mkset l)
  end.

(** [str(that) == '1'] (metadata.py 685); a name prints with quotes. *)
Definition is_one (o : other) : bool :=
  match o with
  | OText s => str_eqb s (lit "1")
  | ONumber v f => Qc_eqb v 1 && negb f
  | _ => false
  end.

(** metadata.py 660-670, [compute]; [self] is [x] in both cases. *)
Definition compute (symbol : str) (reverse : bool) (self : list str) (that : other) : list str :=
  let one y := map (fun i => if reverse then y ++ symbol ++ i else i ++ symbol ++ y) self in
  name_of
    (match that with
     | OName l | OList l => flat_map (fun i => map (fun j => i ++ symbol ++ j) l) self
     | OText s => one (fixed s)
     | ONumber v _ => one (dec_of_Qc v)
     end).

(** metadata.py 671-687, the operators. *)
Definition name_op (symbol : str) (reverse strict : bool) (self : list str) (that : other) : res (list str) :=
  if negb (name_truth self) || negb (truth that) then Ok (name_of [[]])
  else if strict && negb (match that with OName _ => true | _ => false end) then Err TypeError
  else if strict && name_eq self that then Ok self
  else if name_eq self that then Ok (name_of (map (fun i => i ++ symbol ++ i) self))
  else if is_one that then Ok (name_of self)
  else Ok (compute symbol reverse self that).

(** metadata.py 691-700. *)
Definition name_add := name_op (lit " + ") false true.
Definition name_radd := name_op (lit " + ") true true.
Definition name_sub := name_op (lit " - ") false true.
Definition name_rsub := name_op (lit " - ") true true.
Definition name_mul := name_op (lit " * ") false false.
Definition name_rmul := name_op (lit " * ") true false.
Definition name_truediv := name_op (lit " / ") false false.
Definition name_rtruediv := name_op (lit " / ") true false.
Definition name_pow := name_op (lit "^") false false.
Definition name_rpow := name_op (lit "^") true false.

(** metadata.py 702-742, the unary operators; [Name()] raises TypeError
    (aliased.py 31-32). *)
Definition name_unary (before after : str) (self : list str) : res (list str) :=
  if negb (name_truth self) then Err TypeError
  else Ok (name_of (map (fun i => before ++ i ++ after) self)).
End Names.

(** * Dimensions *)

(** metadata.py 782-793, [Dimensions(names...)]. *)
Definition dimensions_of_args (args : list obj) : res (list str) :=
  mapM (fun o => match o with OStr s => Ok s | _ => Err TypeError end)
    (whole_parse (unwrap (OSeq KTuple args))).

(** metadata.py 806-812, [merge]; operands that are not dimensions ([None])
    are skipped. *)
Definition merge (a : list str) (others : list (option (list str))) : list str :=
  unique str_eqb (a ++ concat (map (fun o => match o with Some l => l | None => [] end) others)).

(** metadata.py 827-841, [__eq__]: with dimensions, a string, another
    iterable of strings, or anything else. *)
Inductive dims_other : Type :=
| DDims (l : list str)
| DStr (s : str)
| DSeq (l : list str)
| DOther.
Definition seq_eq (self other : list str) : bool :=
  Nat.eqb (length other) (length self) && forallb (fun i => existsb (str_eqb i) self) other.
Definition dims_eq (self : list str) (o : dims_other) : bool :=
  match o with
  | DDims l => (if list_eq_dec str_eq_dec l self then true else false) || seq_eq self l
  | DStr s => match self with [a] => str_eqb s a | _ => false end || seq_eq self (map (fun c => [c]) s)
  | DSeq l => seq_eq self l
  | DOther => false
  end.

(** metadata.py 467-477, [identity] of two dimensions: [None] is
    [NotImplemented]. *)
Definition dims_add (self other : list str) : option (list str) :=
  if negb (dims_eq other (DDims self)) then None else Some self.
(** [identity] with an operand of another type.
    For histories and uses of metadata.py 467-477. *)
Definition dims_add_other (self : list str) : option (list str) := Some self.
