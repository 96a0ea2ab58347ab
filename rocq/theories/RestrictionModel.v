(** Model of restrictions of arrays along an axis (core/interpolation.py
    33-81) and of the numpy functions they call, from numpy's documentation.

    Simplifications: the rule has already been called, and its result is a
    list of integers (a [range] in every use in the package).  numpy's
    [AxisError] is both a ValueError and an IndexError; it is written
    IndexError here. *)

From Coq Require Import String Ascii List Bool ZArith QArith Qcanon Lia.
From Verif Require Import Py ArrayModel.
Import ListNotations.
Open Scope list_scope.
Open Scope nat_scope.

(** [numpy.moveaxis], the order of the axes: the source is taken out of the
    sequence of axes and put back at the destination.
    Used for interpolation.py 59-81. *)
Definition move_order (n source destination : nat) : list nat :=
  let rest := filter (fun k => negb (Nat.eqb k source)) (seq 0 n) in
  firstn destination rest ++ source :: skipn destination rest.
(** Where an axis is in a list of axes.  Used for interpolation.py 59-81. *)
Fixpoint where_is (k : nat) (order : list nat) : nat :=
  match order with
  | [] => 0
  | j :: order' => if Nat.eqb j k then 0 else S (where_is k order')
  end.
(** [numpy.transpose(a, order)]: axis [k] of the result is axis [order[k]] of
    the array.  Used for interpolation.py 59-81. *)
Definition transpose (order : list nat) (a : arr) : arr :=
  build (map (fun k => nth k (shape a) 0) order)
    (fun i => at_ a (map (fun k => nth (where_is k order) i 0) (seq 0 (length order)))).
(** [numpy.moveaxis(a, source, destination)].
    Used for interpolation.py 59-81. *)
Definition moveaxis (a : arr) (source destination : Z) : res arr :=
  (do s <- position (length (shape a)) source;
   do d <- position (length (shape a)) destination;
   Ok (transpose (move_order (length (shape a)) s d) a))%py.

(** [a[indices, ...]] for a sequence of integers.
    Used for interpolation.py 59-81. *)
Definition take_first (a : arr) (indices : list Z) : res arr :=
  match shape a with
  | [] => Err IndexError
  | n :: s =>
      (do ks <- mapM (position n) indices;
       Ok (build (length ks :: s)
             (fun i => match i with
                       | [] => at_ a i
                       | j :: i' => at_ a (nth j ks 0 :: i')
                       end)))%py
  end.

(** interpolation.py 59-81, [Restriction.apply]. *)
Definition restriction_apply (indices : list Z) (a : arr) (axis : option Z) : res arr :=
  let axis := match axis with None => (-1)%Z | Some k => k end in
  (do permuted <- moveaxis a axis 0;
   do result <- take_first permuted indices;
   moveaxis result 0 axis)%py.
