(** What a subscript selects, after numpy's documentation of basic indexing and
    the Python language reference on slices; independent of the model. *)

From Coq Require Import List Bool ZArith Lia.
From Verif Require Import Py ArrayModel.
Import ListNotations.
Open Scope list_scope.
Open Scope nat_scope.

(** The integer [z] names position [k] of an axis of size [n], counted from
    either end. *)
Definition names_position (n : nat) (z : Z) (k : nat) : Prop :=
  k < n /\ (Z.of_nat k = z \/ Z.of_nat k = z + Z.of_nat n)%Z.

(** A bound of a slice with step [st], clipped to the axis. *)
Definition clipped (n st x : Z) : Z :=
  let y := if Z.ltb x 0 then (x + n)%Z else x in
  if Z.ltb st 0 then Z.max (-1) (Z.min (n - 1) y) else Z.max 0 (Z.min n y).
(** The first bound, the second bound and the step of [start:stop:step]. *)
Definition slice_of (n : Z) (start stop step : option Z) (first last st : Z) : Prop :=
  st <> 0%Z
  /\ match step with Some s => s = st | None => st = 1%Z end
  /\ first = match start with
             | Some x => clipped n st x
             | None => if Z.ltb st 0 then (n - 1)%Z else 0%Z
             end
  /\ last = match stop with
            | Some x => clipped n st x
            | None => if Z.ltb st 0 then (-1)%Z else n
            end.
(** Position [p] is the [m]-th that the slice selects. *)
Definition slice_at (n : nat) (start stop step : option Z) (m p : nat) : Prop :=
  exists first last st, slice_of (Z.of_nat n) start stop step first last st
  /\ Z.of_nat p = (first + Z.of_nat m * st)%Z
  /\ (if Z.ltb st 0 then last < Z.of_nat p else Z.of_nat p < last)%Z.

(** Integers and slices use up an axis; [...] and [None] do not. *)
Definition for_axis (i : item) : bool :=
  match i with IInt _ | ISlice _ _ _ => true | _ => false end.
Definition basic_item (i : item) : bool := match i with ISeq _ => false | _ => true end.
(** How many axes a list of subscripts uses up. *)
Definition axes_used (l : list item) : nat := length (filter for_axis l).
Definition ellipses (l : list item) : nat := length (filter (fun i => match i with IEll => true | _ => false end) l).

(** The sizes of the result of subscripting an array of sizes [s] with [l]: an
    integer removes its axis, [None] makes one of size 1, [...] stands for as
    many whole axes as are left over, and so does the end of the list. *)
Inductive result_shape : list nat -> list item -> list nat -> Prop :=
| RS_rest : forall s, result_shape s [] s
| RS_new : forall s l r, result_shape s l r -> result_shape s (INone :: l) (1 :: r)
| RS_int : forall n s z k l r, names_position n z k -> result_shape s l r ->
    result_shape (n :: s) (IInt z :: l) r
| RS_slice : forall n s a b c m l r, c <> Some 0%Z -> (forall k, k < m <-> exists p, slice_at n a b c k p) ->
    result_shape s l r -> result_shape (n :: s) (ISlice a b c :: l) (m :: r)
| RS_axis : forall n s l r, axes_used l <= length s -> result_shape s (IEll :: l) r ->
    result_shape (n :: s) (IEll :: l) (n :: r)
| RS_done : forall s l r, axes_used l = length s -> result_shape s l r -> result_shape s (IEll :: l) r.

(** The element [j] of the result is the element [i] of the array. *)
Inductive comes_from : list nat -> list item -> list nat -> list nat -> Prop :=
| CF_rest : forall s i, comes_from s [] i i
| CF_new : forall s l j i, comes_from s l j i -> comes_from s (INone :: l) (0 :: j) i
| CF_int : forall n s z k l j i, names_position n z k -> comes_from s l j i ->
    comes_from (n :: s) (IInt z :: l) j (k :: i)
| CF_slice : forall n s a b c k p l j i, slice_at n a b c k p -> comes_from s l j i ->
    comes_from (n :: s) (ISlice a b c :: l) (k :: j) (p :: i)
| CF_axis : forall n s k l j i, axes_used l <= length s -> comes_from s (IEll :: l) j i ->
    comes_from (n :: s) (IEll :: l) (k :: j) (k :: i)
| CF_done : forall s l j i, axes_used l = length s -> comes_from s l j i -> comes_from s (IEll :: l) j i.
