(** Model of numpy's universal functions on array-like quantities
    (/repo/src/goats/core/variable.py), of comparing such quantities, and of
    looking for a value in them.

    Numbers are rationals: nothing is rounded, and there is no infinity or
    nan.  Truth values in an array are the numbers 1 and 0. *)

From Coq Require Import String Ascii List Bool ZArith QArith Qcanon.
From Verif Require Import Py PyDict MetadataModel ArrayModel.
Import ListNotations.
Open Scope list_scope.
Open Scope nat_scope.
Open Scope py_scope.

(** * The operations of metadata *)

(** metadata.py 1059-1132, [REFERENCE]: the kind of callable that a name (or
    one of its aliases) stands for.  [KNone]: there is no callable, hence no
    metadata.  [standard.sub] differs from [standard.add] neither on units
    nor on dimensions. *)
Inductive kind : Type := KNone | KUnary | KAdd | KMul | KDiv | KPow.
Definition reference : list (kind * list str) :=
  [ (KNone, map lit ["int"; "float"; "lt"; "less"; "le"; "less_equal"; "less equal"; "gt"; "greater";
                     "ge"; "greater_equal"; "greater equal"]%string);
    (KUnary, map lit ["abs"; "absolute"; "pos"; "positive"; "neg"; "negative"; "ceil"; "ceiling";
                      "floor"; "trunc"; "truncate"; "round"]%string);
    (KAdd, map lit ["add"; "sub"; "subtract"]%string);
    (KMul, map lit ["mul"; "multiply"]%string);
    (KDiv, map lit ["truediv"; "true_divide"; "true divide"]%string);
    (KPow, map lit ["pow"; "power"]%string) ].
Definition kind_of (name : str) : option kind :=
  option_map fst (find (fun p => existsb (str_eqb name) (snd p)) reference).

(** The classes of operands and the abstract classes that rules about them
    mention.  Used for algebraic.py 240-241. *)
Inductive cls : Type := CVar | CNumber | CNumpy | CArray | CList | CReal | CQuantity | CIterable.
Definition cls_eqb (a b : cls) : bool :=
  match a, b with
  | CVar, CVar | CNumber, CNumber | CNumpy, CNumpy | CArray, CArray | CList, CList
  | CReal, CReal | CQuantity, CQuantity | CIterable, CIterable => true
  | _, _ => false
  end.
(** [issubclass], with algebraic.py 240-241: numbers (also those of numpy)
    and numpy arrays are registered as real.  Arrays and lists are iterable;
    array-like quantities have no [__iter__]. *)
Definition cls_sub (a b : cls) : bool :=
  cls_eqb a b ||
  match a, b with
  | CVar, CQuantity | CNumber, CReal | CNumpy, CReal | CArray, CReal | CArray, CIterable | CList, CIterable => true
  | _, _ => false
  end.

(** variable.py 48-57: the rules that every instance sets up. *)
Definition unit_and_dims : list str := map lit ["unit"; "dimensions"]%string.
Definition operation_of (k : option kind) : operation cls :=
  run_calls cls (new_operation cls CVar unit_and_dims)
    (match k with
     | Some KDiv => [Suppress [Ty CReal; Ty CQuantity] false]
     | Some KPow => [Suppress [Ty CQuantity; Ty CQuantity] false; Suppress [Ty CReal; Ty CQuantity] false;
                     Suppress [Ty CQuantity; Ty CIterable] true]
     | _ => []
     end).

Section Ufuncs.
Context {D U : Type} (asarray : D -> arr) (get : D -> nindex -> res arr) (has_shape : D -> bool)
        (ueq : U -> U -> res bool) (usum umul udiv : U -> U -> res U) (upow : U -> Qc -> res U).

(** An argument of a universal function: a quantity, a Python number, a
    numpy number, a numpy array, a list of numbers, or anything else.
    Used for metadata.py 317-357. *)
Inductive operand : Type :=
| AVar (o : object D U)
| ANum (q : Qc)
| ANp (q : Qc)
| AArr (a : arr)
| AList (a : arr)
| AOther.
Definition class_of (x : operand) : cls :=
  match x with
  | AVar _ => CVar | ANum _ => CNumber | ANp _ => CNumpy | AArr _ => CArray | AList _ | AOther => CList
  end.
Definition is_var (x : operand) : bool := match x with AVar _ => true | _ => false end.
Definition is_other (x : operand) : bool := match x with AOther => true | _ => false end.

(** A universal function on numbers.  Used for variable.py 174-229. *)
Inductive ufunc : Type := One (f : Qc -> Qc) | Two (f : Qc -> Qc -> Qc).

(** variable.py 230-240, [Array._ufunc_hook]: the array of an operand. *)
Definition raw (x : operand) : res arr :=
  match x with
  | AVar o => fst (get_array asarray get o NAll)
  | ANum q | ANp q => Ok (mkArr [] [q])
  | AArr a | AList a => Ok a
  | AOther => Err TypeError
  end.
(** variable.py 602-618, [Quantity._ufunc_hook]. *)
Definition multiplicative (name : str) : bool :=
  existsb (str_eqb name) (map lit ["multiply"; "divide"; "true_divide"]%string).
Definition arrays (name : str) (args : list operand) : res (list arr) :=
  match args with
  | [AVar a; AVar b] =>
      if multiplicative name
      then do p <- aligned asarray get has_shape a b; Ok [fst (fst p); snd (fst p)]
      else mapM raw args
  | _ => mapM raw args
  end.
(** The call of the function.  Simplification: a wrong number of arguments is a
    ValueError, as in numpy, but is noticed after reading the arrays.
    Used for variable.py 174-229. *)
Definition compute_data (f : ufunc) (xs : list arr) : res arr :=
  match f, xs with
  | One f, [x] => Ok (mkArr (shape x) (map f (cells x)))
  | Two f, [x; y] => ufunc2 f x y
  | _, _ => Err ValueError
  end.

(** What [Operands.getall(name, mode='force')] (metadata.py 103-118) gives for
    an argument: its attribute if it has it, else the argument itself. *)
Inductive value_of (A : Type) : Type := Has (a : A) | Lacks (c : cls) (q : Qc).
Arguments Has {A}. Arguments Lacks {A}.
Definition attr {A} (get : object D U -> A) (x : operand) : value_of A :=
  match x with
  | AVar o => Has (get o)
  | ANum q => Lacks CNumber q
  | ANp q => Lacks CNumpy q
  | AArr _ => Lacks CArray 0
  | AList _ | AOther => Lacks CList 0
  end.

(** metadata.py 541-609 with 518-530: the operations on units.  A unit does
    not define the unary operators, and numpy's functions on it return
    NotImplemented, except the square root (533-535).  A numpy array or number
    on the left calls numpy's function instead of the reflected operator.
    [None]: the operation is not in [REFERENCE]. *)
Definition unit_method (name : str) (k : option kind) (values : list (value_of U)) : res U :=
  match k, values with
  | Some KAdd, [Has a; Has b] => usum a b
  | Some KMul, [Has a; Has b] => umul a b
  | Some KDiv, [Has a; Has b] => udiv a b
  | Some KMul, [Has a; Lacks _ _] | Some KDiv, [Has a; Lacks _ _] => Ok a
  | Some KMul, [Lacks CNumber _; Has b] | Some KMul, [Lacks CList _; Has b]
  | Some KDiv, [Lacks CNumber _; Has b] | Some KDiv, [Lacks CList _; Has b] => Ok b
  | Some KPow, [Has a; Lacks CNumber q] | Some KPow, [Has a; Lacks CNumpy q] => upow a q
  | None, [Has a] => if str_eqb name (lit "sqrt") then upow a (Q2Qc (1 # 2)) else Err TypeError
  | _, _ => Err TypeError
  end.
(** metadata.py 795-825: the operations on dimensions; [identity] (467-477)
    for the sum. *)
Definition dims_method (name : str) (k : option kind) (values : list (value_of (list str))) : res (list str) :=
  match k, values with
  | Some KAdd, [Has a; Has b] => match dims_add a b with Some d => Ok d | None => Err TypeError end
  | Some KAdd, [Has a; Lacks _ _] => match dims_add_other a with Some d => Ok d | None => Err TypeError end
  | Some KMul, [Has a; Has b] | Some KDiv, [Has a; Has b] => Ok (merge a [Some b])
  | Some KMul, [Has a; Lacks _ _] | Some KDiv, [Has a; Lacks _ _] => Ok (merge a [None])
  | Some KMul, [Lacks CNumber _; Has b] | Some KMul, [Lacks CList _; Has b] => Ok (merge b [None])
  | Some KPow, [Has a; Lacks CNumber _] | Some KPow, [Has a; Lacks CNumpy _] => Ok a
  | _, _ => Err TypeError
  end.
(** The value that metadata.py 170 returns. *)
Definition forced {A} (default : A) (v : value_of A) : A := match v with Has a => a | Lacks _ _ => default end.

(** metadata.py 317-357, [Operation.apply] and the operator it creates, for
    the two registered attributes. *)
Definition evaluate (name : str) (args : list operand) (self : object D U) : res (option (U * list str)) :=
  let k := kind_of name in
  match k with
  | Some KNone => Ok None
  | _ =>
      if negb (supports cls cls_eqb cls_sub (operation_of k) (map class_of args)) then Err OperandTypeError
      else
        let all := forallb is_var args in
        do u <- operator_call (unit_method name k) (forced (o_unit self)) (map (attr (@o_unit D U)) args) all;
        do d <- operator_call (dims_method name k) (forced (o_dims self)) (map (attr (@o_dims D U)) args) all;
        Ok (Some (u, d))
  end.

(** A quantity, or a numpy array or number.  Used for variable.py 307-316. *)
Inductive outcome : Type := Result (o : object D U) | Plain (a : arr).
(** variable.py 307-316, [_new_from_func]; numpy's functions return a number
    and not an array if there are no axes. *)
Definition new_from_func (r : arr) (meta : option (U * list str)) : res outcome :=
  match shape r, meta with
  | [], _ | _, None => Ok (Plain r)
  | _, Some (u, d) => rmap Result (new_from_data asarray get has_shape (Memory r) d u)
  end.

(** variable.py 174-229, [__array_ufunc__] for a call (not 'reduce', 'at' and
    so on) without [out]; numpy raises TypeError if it gives NotImplemented.
    Without any quantity among the arguments, numpy would not get here. *)
Definition self_of (args : list operand) : res (object D U) :=
  match find is_var args with Some (AVar o) => Ok o | _ => Err TypeError end.
Definition array_ufunc (name : str) (f : ufunc) (args : list operand) : res outcome :=
  do self <- self_of args;
  if existsb is_other args then Err TypeError
  else
    do xs <- arrays name args;
    do r <- compute_data f xs;
    do meta <- evaluate name args self;
    new_from_func r meta.

(** * Comparison *)

(** [numpy.array_equal].  Used for variable.py 70-74. *)
Definition array_equal (a b : arr) : bool :=
  (if list_eq_dec Nat.eq_dec (shape a) (shape b) then true else false)
  && forallb (fun p => Qc_eqb (fst p) (snd p)) (combine (cells a) (cells b)).
(** variable.py 70-74 and 538-545, [__eq__] of two quantities, with
    utilities.py 117-131. *)
Definition quantity_eq (a b : object D U) : res bool :=
  do e <- ueq (o_unit b) (o_unit a);
  if negb e then Ok false
  else if negb (dims_eq (o_dims b) (DDims (o_dims a))) then Ok false
  else do x <- fst (get_array asarray get a NAll);
       do y <- fst (get_array asarray get b NAll);
       Ok (array_equal y x).
(** [a != b] is numpy's function (from [NDArrayOperatorsMixin]).
    For histories and uses of variable.py 70-74. *)
Definition not_equal (x y : Qc) : Qc := if Qc_eqb x y then 0%Qc else 1%Qc.
Definition quantity_ne (a b : object D U) : res outcome :=
  array_ufunc (lit "not_equal") (Two not_equal) [AVar a; AVar b].

(** * Looking for a value *)

(** [numpy.isclose(value, x, atol=0.0)]: the default relative tolerance.
    Used for variable.py 242-262. *)
Definition rtol : Qc := Q2Qc (1 # 100000).
Definition isclose (v x : Qc) : bool := Qc_leb (Qc_abs (v - x)) (rtol * Qc_abs x).
(** variable.py 264-273, [__contains__]. *)
Definition contains (o : object D U) (v : Qc) : res bool :=
  do a <- fst (get_array asarray get o NAll);
  Ok (existsb (Qc_eqb v) (cells a)).
(** [numpy.min] and [numpy.max].  Used for variable.py 242-262. *)
Definition lowest (x : Qc) (l : list Qc) : Qc := fold_left (fun m y => if Qc_leb m y then m else y) l x.
Definition highest (x : Qc) (l : list Qc) : Qc := fold_left (fun m y => if Qc_leb y m then m else y) l x.
(** variable.py 242-262, [array_contains]. *)
Definition array_contains (o : object D U) (v : Qc) : res bool :=
  do c <- contains o v;
  if c then Ok true
  else
    do a <- fst (get_array asarray get o NAll);
    match cells a with
    | [] => Err ValueError
    | x :: l =>
        if negb (Qc_leb (lowest x l) v) || negb (Qc_leb v (highest x l)) then Ok false
        else Ok (existsb (isclose v) (x :: l))
    end.
End Ufuncs.
Arguments operand D U : clear implicits.
Arguments outcome D U : clear implicits.
Arguments Has {A}. Arguments Lacks {A}.
