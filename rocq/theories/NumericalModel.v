(** Model of /repo/src/goats/core/numerical.py and
    /repo/src/goats/core/interpolation.py.

    Simplification: array elements are exact rationals; rounding, infinities
    and nan are not modelled. *)

From Coq Require Import List Bool ZArith QArith Qcanon Arith.
From Verif Require Import Py.
Import ListNotations.
Open Scope nat_scope.
Open Scope list_scope.
Open Scope py_scope.

(** * numpy *)

(** [array.argmin()] of a non-empty flat array: the first least element.
    Used for numerical.py 66-125. *)
Fixpoint argmin_go (best : nat) (least : Qc) (i : nat) (l : list Qc) : nat :=
  match l with
  | [] => best
  | x :: l' => if Qc_ltb x least then argmin_go i x (S i) l' else argmin_go best least (S i) l'
  end.
Definition argmin (l : list Qc) : res nat :=
  match l with
  | [] => Err ValueError
  | x :: l' => Ok (argmin_go 0 x 1 l')
  end.

(** [numpy.where(condition)[0]] for a condition on the elements.
    Used for numerical.py 44-53. *)
Definition where_ (p : Qc -> bool) (a : list Qc) : list nat :=
  map fst (filter (fun ix => p (snd ix)) (combine (seq 0 (length a)) a)).

(** [numpy.unravel_index(index, shape)] (C order).
    Used for numerical.py 107-125. *)
Fixpoint unravel (i : nat) (shape : list nat) : list nat :=
  match shape with
  | [] => []
  | _ :: rest => let size := fold_right Nat.mul 1 rest in
      (i / size) :: unravel (i mod size) rest
  end.

(** * numerical.py *)

(** numerical.py 44-53, [find_1d_indices]. *)
Definition find_1d_indices (array : list Qc) (target : Qc) : Z * Z :=
  let lower := match where_ (fun x => Qc_leb x target) array with
               | [] => 0%Z
               | i :: r => Z.of_nat (fold_left Nat.max r i)
               end in
  let upper := match where_ (fun x => Qc_leb target x) array with
               | [] => (Z.of_nat (length array) - 1)%Z
               | i :: r => Z.of_nat (fold_left Nat.min r i)
               end in
  (lower, upper).

Inductive bound : Type := BNone | BLower | BUpper.

(** numerical.py 111-113: [while array[index] < target: index += 1]; [None]
    is the [IndexError]. *)
Fixpoint seek_up (fuel : nat) (array : list Qc) (target : Qc) (i : Z) : res (option Z) :=
  match fuel with
  | O => Err OutOfFuel
  | S f =>
      match py_index array i with
      | Err _ => Ok None
      | Ok x => if Qc_ltb x target then seek_up f array target (i + 1) else Ok (Some i)
      end
  end.
(** numerical.py 117-119: [while array[index] > target: index -= 1]. *)
Fixpoint seek_down (fuel : nat) (array : list Qc) (target : Qc) (i : Z) : res (option Z) :=
  match fuel with
  | O => Err OutOfFuel
  | S f =>
      match py_index array i with
      | Err _ => Ok None
      | Ok x => if Qc_ltb target x then seek_down f array target (i - 1) else Ok (Some i)
      end
  end.

(** numerical.py 66-125, [find_nearest] of a one-dimensional array: the index
    and the value. *)
Definition find_nearest (array : list Qc) (target : Qc) (b : bound) : res (Z * Qc) :=
  do i <- argmin (map (fun x => Qc_abs (x - target)) array);
  let n := Z.of_nat (length array) in
  do index <- match b with
    | BNone => Ok (Z.of_nat i)
    | BLower =>
        do r <- seek_up (2 * length array + 2) array target (Z.of_nat i);
        Ok (match r with Some j => j | None => (-1)%Z end)
    | BUpper =>
        do r <- seek_down (2 * length array + 2) array target (Z.of_nat i);
        Ok (match r with Some j => j | None => 0%Z end)
    end;
  do v <- py_index array index;
  Ok (index, v).

(** numerical.py 107-125 for more than one dimension, without a bound; [flat]
    is the array in C order. *)
Definition find_nearest_nd (flat : list Qc) (shape : list nat) (target : Qc) : res (list nat * Qc) :=
  do i <- argmin (map (fun x => Qc_abs (x - target)) flat);
  match nth_error flat i with
  | Some v => Ok (unravel i shape, v)
  | None => Err IndexError
  end.

(** * interpolation.py *)

(** The values at one reference coordinate: the trailing dimensions,
    flattened.  Used for interpolation.py 100-141. *)
Definition cell : Type := list Qc.

(** [range(lower, upper)] as positions.  Used for numerical.py 9-41. *)
Definition positions (lower upper : Z) : list nat :=
  map (fun k => (Z.to_nat lower + k)%nat) (seq 0 (Z.to_nat (upper - lower))).

(** [array[indices, ...]].  Used for interpolation.py 100-141. *)
Definition take {A} (indices : list nat) (a : list A) : res (list A) :=
  mapM (fun i => match nth_error a i with Some x => Ok x | None => Err IndexError end) indices.

(** numerical.py 9-41 and interpolation.py 14-30: [get_bounding_indices] and
    [restrict_coordinate] of a one-dimensional array.  Any other axis raises
    numpy's [AxisError], a [ValueError]. *)
Definition restrict_1d (array : list Qc) (target : Qc) (axis : Z) : res (list nat) :=
  if ((axis =? 0) || (axis =? -1))%Z then
    let '(lower, upper) := find_1d_indices array target in
    Ok (positions lower (upper + 1))
  else Err ValueError.

(** The same for a two-dimensional array along its last axis.
    Used for interpolation.py 100-141. *)
Definition restrict_2d (array : list (list Qc)) (target : Qc) : res (list nat) :=
  match map (fun row => find_1d_indices row target) array with
  | [] => Err ValueError
  | b :: bs =>
      let lower := fold_left Z.min (map fst bs) (fst b) in
      let upper := fold_left Z.max (map snd bs) (snd b) in
      Ok (positions lower (upper + 1))
  end.

(** [scipy.interpolate.interp1d(x, y, axis=0)(target)], from scipy's
    documentation and source: the coordinates are sorted, a target outside
    them raises [ValueError], and the value between two neighbours is that of
    the chord.  Used for interpolation.py 100-141. *)
Definition chord (xl xh : Qc) (yl yh : cell) (t : Qc) : cell :=
  map (fun p => ((snd p - fst p) / (xh - xl) * (t - xl) + fst p)%Qc) (combine yl yh).
Definition interp1d (x : list Qc) (y : list cell) (target : Qc) : res cell :=
  if negb (length x =? length y) then Err ValueError
  else
    let s := sort_by (fun a b => Qc_leb (fst a) (fst b)) (combine x y) in
    match s, rev s with
    | (x0, y0) :: _, (xn, _) :: _ =>
        if Qc_ltb target x0 || Qc_ltb xn target then Err ValueError
        else
          let n := length s in
          let hi := Nat.min (Nat.max (length (filter (fun p => Qc_ltb (fst p) target) s)) 1) (n - 1) in
          match nth_error s (hi - 1), nth_error s hi with
          | Some (xl, yl), Some (xh, yh) => if (n =? 1)%nat then Ok y0 else Ok (chord xl xh yl yh target)
          | _, _ => Err ValueError
          end
    | _, _ => Err ValueError
    end.

(** interpolation.py 100-141, [_apply_interp1d] for a one-dimensional
    reference. *)
Definition interp_1d (array : list cell) (reference : list Qc) (target : Qc) (axis : option Z) : res cell :=
  if existsb (Qc_eqb target) reference then
    do r <- find_nearest reference target BNone;
    py_index array (fst r)
  else
    do ra <- match axis with
      | Some ax =>
          do idx <- restrict_1d reference target ax;
          do ref <- take idx reference;
          do arr <- take idx array;
          Ok (ref, arr)
      | None => Ok (reference, array)
      end;
    let '(ref, arr) := ra in
    if (length ref =? 1)%nat then py_index arr 0
    else interp1d ref arr target.

(** What [_apply_interp1d] returns for a two-dimensional reference: one cell
    per row, or the single cell [array[idx]] of line 109. *)
Inductive interp_2d_result : Type :=
| Rows (l : list cell)
| OneCell (c : cell).

(** interpolation.py 100-141, [_apply_interp1d] for a two-dimensional reference
    and [axis=1]. *)
Definition interp_2d (array : list (list cell)) (reference : list (list Qc)) (target : Qc) : res interp_2d_result :=
  if existsb (fun row => existsb (Qc_eqb target) row) reference then
    do r <- find_nearest_nd (concat reference)
              [length reference; match reference with row :: _ => length row | [] => 0 end] target;
    match fst r with
    | [i; j] => do row <- py_index array (Z.of_nat i); do c <- py_index row (Z.of_nat j); Ok (OneCell c)
    | _ => Err IndexError
    end
  else
    do idx <- restrict_2d reference target;
    do ref <- mapM (take idx) reference;
    do arr <- mapM (take idx) array;
    if (length (concat ref) =? 1)%nat then
      do cells <- mapM (fun row => py_index row 0) arr; Ok (Rows cells)
    else
      do cells <- mapM (fun xy => interp1d (fst xy) (snd xy) target) (combine ref arr); Ok (Rows cells).

(** interpolation.py 84-97, [apply] for a one-dimensional reference. *)
Definition interpolate_1d (array : list cell) (reference : list Qc) (targets : list Qc) (axis : option Z)
  : res (list cell) :=
  mapM (fun t => interp_1d array reference t axis) targets.
