(** Model of the named quantities of /repo/src/goats/core/physical.py: scalars
    and vectors (20-45, 49-76, 119-218) with the arithmetic that they inherit
    from measurable.py 103-145, the function [scalar], and arrays (229-601).

    Numbers are rationals (no rounding).  Units are abstract, with the
    operations that the code applies to them.  Simplification: the names of the
    results of arithmetic (C40) are left out, and so are division by zero,
    which gives infinities in numpy, and lists as operands. *)

From Coq Require Import String Ascii List Bool ZArith QArith Qcanon.
From Verif Require Import Py PyDict MetadataModel ArrayModel.
Import ListNotations.
Open Scope list_scope.
Open Scope nat_scope.
Open Scope py_scope.

(** * Scalars and vectors *)

Section Vectors.
(** [U]: units; [one]: the unit '1'.  Used for physical.py 160-168. *)
Context {U : Type} (one : U).

Inductive quantity : Type :=
| Scalar (v : Qc) (u : U) (name : list str)
| Vector (l : list Qc) (u : U) (name : list str).
Definition no_name : list str := [[]].

(** What a vector can be made from: numbers, a measurement, or a quantity.
    Used for physical.py 160-168. *)
Inductive origin : Type :=
| FromData (l : list Qc)
| FromMeasurement (l : list Qc) (u : U)
| FromQuantity (q : quantity).
(** physical.py 160-168, [Vector.__init__], with the keyword arguments
    [unit] and [name], and measurable.py 154-194: a list has no attributes of
    its own. *)
Definition new_vector (from : origin) (unit : option U) (name : option (list str)) : quantity :=
  let given := fun l => Vector l (match unit with Some u => u | None => one end)
                                 (match name with Some n => n | None => no_name end) in
  match from with
  | FromData l => given l
  | FromMeasurement l u => Vector l u no_name
  | FromQuantity (Scalar v u n) => Vector [v] u n
  | FromQuantity (Vector l _ _) => given l
  end.

Definition values (q : quantity) : list Qc := match q with Scalar v _ _ => [v] | Vector l _ _ => l end.
Definition unit_of (q : quantity) : U := match q with Scalar _ u _ | Vector _ u _ => u end.
Definition name_of (q : quantity) : list str := match q with Scalar _ _ n | Vector _ _ n => n end.

(** [l[i]] for a numpy array.  Used for physical.py 176-190. *)
Definition np_item {A} (l : list A) (i : Z) : res A :=
  let n := Z.of_nat (length l) in
  let j := if Z.ltb i 0 then (i + n)%Z else i in
  if Z.leb 0 j && Z.ltb j n then
    match nth_error l (Z.to_nat j) with Some x => Ok x | None => Err IndexError end
  else Err IndexError.
(** physical.py 176-190, [Vector.__getitem__] with an integer. *)
Definition element (l : list Qc) (u : U) (i : Z) : res quantity :=
  let j := if Z.ltb i 0 then (i + Z.of_nat (length l))%Z else i in
  do v <- np_item l j; Ok (Scalar v u no_name).
(** The same with a slice: a list of scalars.
    For histories and uses of physical.py 176-190. *)
Definition elements (l : list Qc) (u : U) (start stop step : option Z) : res (list quantity) :=
  do ps <- slice_positions (length l) start stop step;
  Ok (map (fun k => Scalar (nth k l 0%Qc) u no_name) ps).

(** measurable.py 194-235: a new unit.  [ueq], [uor] and [ufactor] are [==],
    [|] and [new // old] on units.  Simplification: names of metric systems are
    left out. *)
Definition convert (ueq uor : U -> U -> res bool) (ufactor : U -> U -> res Qc) (q : quantity) (u : U) : res quantity :=
  do e <- ueq u (unit_of q);
  if e then Ok q
  else
    do c <- uor (unit_of q) u;
    if negb c then Err ValueError
    else
      do f <- ufactor (unit_of q) u;
      Ok match q with
         | Scalar v _ _ => Scalar (v * f)%Qc u no_name
         | Vector l _ _ => Vector (map (fun v => v * f)%Qc l) u no_name
         end.

(** physical.py 192-198, [Vector.__eq__], for two vectors. *)
Fixpoint same_values (l m : list Qc) : bool :=
  match l, m with
  | [], [] => true
  | x :: l', y :: m' => Qc_eqb x y && same_values l' m'
  | _, _ => false
  end.
Definition vector_eq (ueq : U -> U -> res bool) (l : list Qc) (u : U) (m : list Qc) (w : U) : res bool :=
  do e <- ueq u w;
  if negb e then Ok false else Ok (same_values m l).

(** * The function [scalar] *)

(** What it is given: a quantity, a measurement, an empty list, or one or more
    values with or without a unit.  Simplification: other objects that can be
    measured (MeasurableModel.v) are left out.
    Used for measurable.py 335-345. *)
Inductive thing : Type :=
| AQuantity (q : quantity)
| AMeasurement (l : list Qc) (u : U)
| ANothing
| AValues (v : Qc) (l : list Qc) (u : option U).
(** measurable.py 335-345, [measure], on these: a quantity measures itself
    (measurable.py 237-240), and nothing can be measured without a value. *)
Definition measure_thing (t : thing) : res (list Qc * U) :=
  match t with
  | AQuantity q => Ok (values q, unit_of q)
  | AMeasurement [] _ | ANothing => Err UnmeasurableError
  | AMeasurement l u => Ok (l, u)
  | AValues v l u => Ok (v :: l, match u with Some u => u | None => one end)
  end.
(** physical.py 201-213; the recursion is at most three deep. *)
Fixpoint scalar (fuel : nat) (t : thing) : res quantity :=
  match fuel with
  | 0 => Err OutOfFuel
  | S fuel' =>
      match t with
      | AQuantity (Scalar v u n) => Ok (Scalar v u n)
      | AQuantity (Vector [v] u n) => element [v] u 0
      | AMeasurement [v] u => Ok (Scalar v u no_name)
      | _ =>
          do m <- measure_thing t;
          if Nat.ltb 1 (length (fst m)) then Err ValueError
          else scalar fuel' (AMeasurement (fst m) (snd m))
      end
  end.

(** * Arithmetic *)
(** Used for metadata.py 336-355. *)

Inductive binary : Type := Add | Sub | Mul | Div | Pow.
(** The unit of an operand, or the number that it is.
    Used for metadata.py 336-355. *)
Inductive uvalue : Type := VUnit (u : U) | VNumber (n : Qc).
(** [ubin]: the operation on units, metadata.py 551-589; [data_pow]: powers of
    numbers. *)
Context (ubin : binary -> uvalue -> uvalue -> res U) (data_pow : Qc -> Qc -> res Qc).

Inductive operand : Type := OpQ (q : quantity) | OpN (n : Qc).

(** The classes of operands and those that rules about them mention.  Scalars
    have a method [__iter__] (which raises), so that they count as
    iterable.  Used for metadata.py 336-355. *)
Inductive class : Type := CScalar | CVector | CNumber | CReal | CQuantity | CIterable.
Definition class_eqb (a b : class) : bool :=
  match a, b with
  | CScalar, CScalar | CVector, CVector | CNumber, CNumber | CReal, CReal | CQuantity, CQuantity
  | CIterable, CIterable => true
  | _, _ => false
  end.
Definition subclass (a b : class) : bool :=
  match a, b with
  | (CScalar | CVector), (CQuantity | CIterable) => true
  | CNumber, CReal => true
  | _, _ => class_eqb a b
  end.
Definition class_of (o : operand) : class :=
  match o with OpQ (Scalar _ _ _) => CScalar | OpQ (Vector _ _ _) => CVector | OpN _ => CNumber end.
(** measurable.py 172-180: the rules of each operation. *)
Definition rules (op : binary) : list (call class) :=
  match op with
  | Div => [Suppress [Ty CReal; Ty CQuantity] false]
  | Pow => [Suppress [Ty CQuantity; Ty CQuantity] false; Suppress [Ty CReal; Ty CQuantity] false;
            Suppress [Ty CQuantity; Ty CIterable] true]
  | _ => []
  end.
Definition operation_of (owner : class) (op : binary) : operation class :=
  run_calls class (new_operation class owner [lit "unit"]) (rules op).

(** The data of an operand: a number, or a numpy array of one axis.
    Used for measurable.py 113-136. *)
Inductive ndata : Type := NOne (x : Qc) | NMany (l : list Qc).
Definition data_of (o : operand) : ndata :=
  match o with OpQ (Scalar v _ _) => NOne v | OpQ (Vector l _ _) => NMany l | OpN n => NOne n end.
Definition number_binary (op : binary) (x y : Qc) : res Qc :=
  match op with
  | Add => Ok (x + y)%Qc
  | Sub => Ok (x - y)%Qc
  | Mul => Ok (x * y)%Qc
  | Div => if Qc_eqb y 0 then Err ZeroDivisionError else Ok (x / y)%Qc
  | Pow => data_pow x y
  end.
(** numpy's arithmetic on them: arrays of different lengths must have one of
    length 1.  Used for measurable.py 113-136. *)
Definition data_binary (op : binary) (d e : ndata) : res ndata :=
  let f := number_binary op in
  match d, e with
  | NOne x, NOne y => do z <- f x y; Ok (NOne z)
  | NMany l, NOne y => do r <- mapM (fun x => f x y) l; Ok (NMany r)
  | NOne x, NMany m => do r <- mapM (fun y => f x y) m; Ok (NMany r)
  | NMany l, NMany m =>
      if Nat.eqb (length l) (length m) then do r <- mapM (fun p => f (fst p) (snd p)) (combine l m); Ok (NMany r)
      else match l, m with
           | [x], _ => do r <- mapM (fun y => f x y) m; Ok (NMany r)
           | _, [y] => do r <- mapM (fun x => f x y) l; Ok (NMany r)
           | _, _ => Err ValueError
           end
  end.

(** metadata.py 336-355 with 165-175, for the attribute 'unit'. *)
Definition uvalue_of (o : operand) : uvalue := match o with OpQ q => VUnit (unit_of q) | OpN n => VNumber n end.
Definition is_quantity (o : operand) : bool := match o with OpQ _ => true | OpN _ => false end.
Definition evaluate_unit (owner : class) (op : binary) (a b : operand) : res U :=
  if negb (supports class class_eqb subclass (operation_of owner op) [class_of a; class_of b]) then Err OperandTypeError
  else match ubin op (uvalue_of a) (uvalue_of b) with
       | Err TypeError => if is_quantity a && is_quantity b then Err MetadataError else Err TypeError
       | r => r
       end.

(** measurable.py 128-136: [type(self)(data, **meta)], with physical.py 65-66
    and 157-166. *)
Definition construct (owner : class) (d : ndata) (u : U) : res quantity :=
  match owner, d with
  | CVector, NOne x => Ok (Vector [x] u no_name)
  | CVector, NMany l => Ok (Vector l u no_name)
  | _, NOne x | _, NMany [x] => Ok (Scalar x u no_name)
  | _, NMany _ => Err TypeError
  end.

(** measurable.py 113-136, [implement]: the modes 'forward' ([a] is [self]) and
    'reverse' ([b] is [self]). *)
Definition arithmetic (op : binary) (a b : operand) : res quantity :=
  let owner := match a with OpQ _ => class_of a | OpN _ => class_of b end in
  do d <- data_binary op (data_of a) (data_of b);
  do u <- evaluate_unit owner op a b;
  construct owner d u.

End Vectors.
Arguments quantity : clear implicits. Arguments origin : clear implicits. Arguments thing : clear implicits.
Arguments uvalue : clear implicits. Arguments operand : clear implicits.

(** * Arrays *)

Section Arrays.
(** As in ArrayModel.v; the names of an array are kept where that model keeps
    the names of the axes. *)
Context {D U : Type} (asarray : D -> arr) (get : D -> nindex -> res arr) (has_shape : D -> bool)
        (ueq uor : U -> U -> res bool) (ufactor : U -> U -> res Qc).

(** physical.py 240-247, [Array.__init__], from data that is not a number. *)
Definition new_array (d : data D) (u : U) (name : list str) : object D U := mkObject d None 1%Qc u name.
(** The same from an array, which loads its data first.
    For histories and uses of physical.py 240-247. *)
Definition copy_array (o : object D U) : res (object D U) * object D U :=
  match get_array asarray get o NAll with
  | (Ok a, o') => (Ok (mkObject (o_data o) (Some a) 1%Qc (o_unit o) (o_dims o)), o')
  | (Err e, o') => (Err e, o')
  end.

(** What a subscript gives.  Used for physical.py 330-373. *)
Inductive part : Type := PNumber (v : Qc) (u : U) (name : list str) | PArray (o : object D U).
(** physical.py 330-373, [Array.__getitem__] with an index, and this array
    afterwards.  The product of an array without axes and the scale is a
    number, from which both branches make a scalar (physical.py 232-238). *)
Definition subscripted (o : object D U) (s : subscript) : res part * object D U :=
  let (sh, o1) := get_shape asarray get has_shape o in
  match normalize sh (unwrap_subscript s) with
  | Err e => (Err e, o1)
  | Ok x =>
      let (r, o2) := get_array asarray get o1 x in
      (do a <- r;
       match shape a, cells a with
       | [], v :: _ => Ok (PNumber v (o_unit o) (o_dims o))
       | _, _ => Ok (PArray (new_array (Memory a) (o_unit o) (o_dims o)))
       end, o2)
  end.

(** physical.py 332-333 and 339-345 with measurable.py 200-226: a new unit.  The
    boolean is true if the result is the array itself.  Simplification: names
    of metric systems are left out. *)
Definition with_unit (o : object D U) (u : U) : res (bool * object D U) :=
  do e <- ueq u (o_unit o);
  if e then Ok (true, o)
  else
    do c <- uor (o_unit o) u;
    if negb c then Err ValueError
    else
      do f <- ufactor (o_unit o) u;
      Ok (false, mkObject (o_data o) None (o_scale o * f)%Qc u (o_dims o)).

(** physical.py 269-275, [__eq__], for two arrays: [numpy.array_equal]. *)
Definition array_equal (a b : arr) : bool :=
  Nat.eqb (length (shape a)) (length (shape b)) && forallb (fun p => Nat.eqb (fst p) (snd p)) (combine (shape a) (shape b))
  && same_values (cells a) (cells b).
Definition arrays_eq (a b : object D U) : res bool :=
  do e <- ueq (o_unit a) (o_unit b);
  if negb e then Ok false
  else
    do x <- fst (get_array asarray get b NAll);
    do y <- fst (get_array asarray get a NAll);
    Ok (array_equal x y).

(** physical.py 458-497 and variable.py 277-316, [__array_function__]: a
    function [f] of numpy without an implementation of its own, called with
    arrays, numpy arrays and other arguments.  [None] as the type of an
    argument is one that is not accepted. *)
Inductive argument (X : Type) : Type :=
| AnArray (o : object D U)
| ANumpy (a : arr)
| AnOther (x : X)
| AForeign.
Inductive plain (X : Type) : Type := PlainArray (a : arr) | PlainOther (x : X).
Arguments AnArray {X}. Arguments ANumpy {X}. Arguments AnOther {X}. Arguments AForeign {X}.
Arguments PlainArray {X}. Arguments PlainOther {X}.
Definition plain_of {X} (a : argument X) : res (plain X) :=
  match a with
  | AnArray o => rmap PlainArray (fst (get_array asarray get o NAll))
  | ANumpy a => Ok (PlainArray a)
  | AnOther x => Ok (PlainOther x)
  | AForeign => Err TypeError
  end.
(** The result is never made an instance again: [_new_from_func] is called
    without updates.  For histories and uses of physical.py 458-497. *)
Inductive made (R : Type) : Type := Instance (o : object D U) | Plain (r : R).
Arguments Instance {R}. Arguments Plain {R}.
Definition array_function {X R} (f : list (plain X) -> res R) (args : list (argument X)) : res (made R) :=
  if existsb (fun a => match a with AForeign => true | _ => false end) args then Err TypeError
  else do ps <- mapM plain_of args; do r <- f ps; Ok (Plain r).

End Arrays.
