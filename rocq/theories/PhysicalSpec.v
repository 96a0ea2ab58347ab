(** Specification side of the properties of named quantities. *)

From Coq Require Import String Ascii List Bool ZArith QArith Qcanon.
From Verif Require Import Py ArrayModel ArraySpec PhysicalModel.
Import ListNotations.
Open Scope list_scope.
Open Scope nat_scope.
Open Scope py_scope.

(** * Arithmetic *)

Section Arithmetic.
Context {U : Type} (data_pow : Qc -> Qc -> res Qc).

(** [z] is the result of the operation on two numbers. *)
Definition exact (op : binary) (x y z : Qc) : Prop :=
  match op with
  | Add => z = (x + y)%Qc
  | Sub => (z + y)%Qc = x
  | Mul => z = (x * y)%Qc
  | Div => y <> 0%Qc /\ (z * y)%Qc = x
  | Pow => data_pow x y = Ok z
  end.

(** How many values an operand has, if it is a vector; the value that takes
    part at a position: the only one of scalars, numbers and vectors with one
    value. *)
Definition extent (o : operand U) : option nat :=
  match o with OpQ (Vector l _ _) => Some (length l) | _ => None end.
Definition value_at (o : operand U) (k : nat) : Qc :=
  match o with
  | OpN n => n
  | OpQ (Scalar v _ _) => v
  | OpQ (Vector [v] _ _) => v
  | OpQ (Vector l _ _) => nth k l 0%Qc
  end.
(** The number of values of the result. *)
Definition fits (a b : operand U) (n : nat) : Prop :=
  match extent a, extent b with
  | Some i, Some j => i = j /\ n = i \/ i = 1 /\ n = j \/ j = 1 /\ n = i
  | Some i, None => n = i
  | None, Some j => n = j
  | None, None => n = 1
  end.
(** Quotients of a number by a quantity are not defined; only powers of a
    quantity by a number are. *)
Definition allowed (op : binary) (a b : operand U) : Prop :=
  match op, a, b with
  | Div, OpN _, OpQ _ => False
  | Pow, OpQ _, OpN _ => True
  | Pow, _, _ => False
  | _, _, _ => True
  end.
(** The metadata of the operands: the unit of a quantity, or the number. *)
Definition unit_or_number (o : operand U) : uvalue U :=
  match o with OpQ (Scalar _ u _) | OpQ (Vector _ u _) => VUnit u | OpN n => VNumber n end.

Definition is_vector (o : operand U) : Prop := match o with OpQ (Vector _ _ _) => True | _ => False end.
Definition is_scalar (o : operand U) : Prop := match o with OpQ (Scalar _ _ _) => True | _ => False end.
(** What can be seen of a result apart from its class. *)
Definition seen (q : quantity U) : list Qc * U :=
  match q with Scalar v u _ => ([v], u) | Vector l u _ => (l, u) end.
End Arithmetic.

(** The physical amounts of a quantity, for units of given sizes. *)
Definition amounts {U} (size : U -> Qc) (q : quantity U) : list Qc :=
  match q with
  | Scalar v u _ => [(v * size u)%Qc]
  | Vector l u _ => map (fun v => v * size u)%Qc l
  end.

(** * Arrays *)

(** The cached values of an array, if any, have the shape of its data. *)
Definition coherent {D U} (asarray : D -> arr) (o : object D U) : Prop :=
  shape (unscaled asarray o) = shape (data_array asarray (o_data o)).

(** ** Histories *)

(** What a program can do with arrays: create one from data, read (part of) its
    values, change its unit, subscript it, copy it.  Arrays are numbered in the
    order of their creation. *)
Inductive paction (D U : Type) : Type :=
| PMake (d : D) (name : list str) (u : U)
| PRead (k : nat) (x : nindex)
| PConvert (k : nat) (u : U)
| PSubset (k : nat) (s : subscript)
| PCopy (k : nat).
Arguments PMake {D U}. Arguments PRead {D U}. Arguments PConvert {D U}.
Arguments PSubset {D U}. Arguments PCopy {D U}.
(** What it sees: values, an array, a scalar, or an exception. *)
Inductive pview (U : Type) : Type :=
| SeenValues (r : res arr)
| SeenArray (k : nat)
| SeenScalar (v : Qc) (u : U) (name : list str)
| SeenError (e : exn).
Arguments SeenValues {U}. Arguments SeenArray {U}. Arguments SeenScalar {U}. Arguments SeenError {U}.

Section Machines.
Context {D U : Type} (asarray : D -> arr) (get : D -> nindex -> res arr) (has_shape : D -> bool)
        (ueq uor : U -> U -> res bool) (ufactor : U -> U -> res Qc).

Definition pstep (h : list (object D U)) (c : paction D U) : list (object D U) * pview U :=
  match c with
  | PMake d name u => (h ++ [new_array (Source d) u name], SeenArray (length h))
  | PRead k x =>
      match nth_error h k with
      | None => (h, SeenError KeyError)
      | Some o => let (r, o') := get_array asarray get o x in (replace_nth h k o', SeenValues r)
      end
  | PConvert k u =>
      match nth_error h k with
      | None => (h, SeenError KeyError)
      | Some o => match with_unit ueq uor ufactor o u with
                  | Ok (true, _) => (h, SeenArray k)
                  | Ok (false, n) => (h ++ [n], SeenArray (length h))
                  | Err e => (h, SeenError e)
                  end
      end
  | PSubset k s =>
      match nth_error h k with
      | None => (h, SeenError KeyError)
      | Some o =>
          let (r, o') := subscripted asarray get has_shape o s in
          let h' := replace_nth h k o' in
          match r with
          | Ok (PArray n) => (h' ++ [n], SeenArray (length h'))
          | Ok (PNumber v u m) => (h', SeenScalar v u m)
          | Err e => (h', SeenError e)
          end
      end
  | PCopy k =>
      match nth_error h k with
      | None => (h, SeenError KeyError)
      | Some o =>
          let (r, o') := copy_array asarray get o in
          let h' := replace_nth h k o' in
          match r with
          | Ok n => (h' ++ [n], SeenArray (length h'))
          | Err e => (h', SeenError e)
          end
      end
  end.
Fixpoint prun (h : list (object D U)) (l : list (paction D U)) : list (pview U) :=
  match l with
  | [] => []
  | c :: l' => let (h', r) := pstep h c in r :: prun h' l'
  end.

(** The same on values, units and names that never change.  An index that is
    [None] or empty gives everything; the result of a subscript without axes
    is a scalar. *)
Definition pvalue_read (v : value U) (x : nindex) : res arr :=
  match x with
  | NAll | NStd (Bare INone) | NStd (Many []) | NFancy [] => Ok (v_array v)
  | _ => np_get (v_array v) x
  end.
Definition pvalue_step (h : list (value U)) (c : paction D U) : list (value U) * pview U :=
  match c with
  | PMake d name u => (h ++ [mkValue (asarray d) u name], SeenArray (length h))
  | PRead k x =>
      match nth_error h k with
      | None => (h, SeenError KeyError)
      | Some v => (h, SeenValues (pvalue_read v x))
      end
  | PConvert k u =>
      match nth_error h k with
      | None => (h, SeenError KeyError)
      | Some v =>
          match (do e <- ueq u (v_unit v);
                 if e then Ok None
                 else do c <- uor (v_unit v) u;
                      if c then rmap Some (ufactor (v_unit v) u) else Err ValueError) with
          | Ok None => (h, SeenArray k)
          | Ok (Some f) => (h ++ [mkValue (scale_arr f (v_array v)) u (v_dims v)], SeenArray (length h))
          | Err e => (h, SeenError e)
          end
      end
  | PSubset k s =>
      match nth_error h k with
      | None => (h, SeenError KeyError)
      | Some v =>
          match (do x <- normalize (shape (v_array v)) (unwrap_subscript s); pvalue_read v x) with
          | Ok (mkArr [] (y :: _)) => (h, SeenScalar y (v_unit v) (v_dims v))
          | Ok a => (h ++ [mkValue a (v_unit v) (v_dims v)], SeenArray (length h))
          | Err e => (h, SeenError e)
          end
      end
  | PCopy k =>
      match nth_error h k with
      | None => (h, SeenError KeyError)
      | Some v => (h ++ [v], SeenArray (length h))
      end
  end.
Fixpoint pvalue_run (h : list (value U)) (l : list (paction D U)) : list (pview U) :=
  match l with
  | [] => []
  | c :: l' => let (h', r) := pvalue_step h c in r :: pvalue_run h' l'
  end.

Definition without_copies (l : list (paction D U)) : Prop := forall k, ~ In (PCopy k) l.
(** Histories in which the copies come after all conversions of units. *)
Definition copies_last (l : list (paction D U)) : Prop :=
  exists l1 l2, l = l1 ++ l2 /\ without_copies l1 /\ forall k u, ~ In (PConvert k u) l2.
End Machines.
