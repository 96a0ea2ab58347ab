(** Vocabulary of the properties of computed quantities. *)

From Coq Require Import String List Bool ZArith QArith Qcanon Qreals Reals SpecFloat Arith.
From Verif Require Import Py PyDict NumericalModel NumericalSpec ComputedModel.
Import ListNotations.
Open Scope list_scope.
Open Scope R_scope.

(** * Arguments *)

(** The values that one dependency provides. *)
Definition values_of {A F} (d : dep A F) : list (arg A F) :=
  match d with Arr a => [AArr a] | Num f => [ANum f] | Nums l => map ANum l | Missing => [] end.
Definition is_array {A F} (d : dep A F) : Prop := exists a, d = Arr a.
Definition is_number {A F} (d : dep A F) : Prop := exists f, d = Num f \/ d = Nums [f].
Definition are_numbers {A F} (d : dep A F) : Prop := (exists f, d = Num f) \/ (exists l, d = Nums l).
(** Every parameter gets the values of the dependency of its name. *)
Definition own_arguments {A F} (params : list str) (ds : list (dep A F)) : list (str * list (arg A F)) :=
  combine params (map values_of ds).
(** The dependencies hold the given value for each parameter. *)
Definition provide {A F} (deps : list (str * dep A F)) (params : list str) (ds : list (dep A F)) : Prop :=
  Forall2 (fun p d => d_get str_eqb deps p = Some d) params ds.

(** * Vectors *)

Definition vec : Type := (R * R * R)%type.
Definition dot (u v : vec) : R :=
  let '(a, b, c) := u in let '(x, y, z) := v in a * x + b * y + c * z.
Definition norm (v : vec) : R := sqrt (dot v v).
Definition zero : vec := (0, 0, 0).
Definition scale (k : R) (v : vec) : vec := let '(x, y, z) := v in (k * x, k * y, k * z).

Definition para (v b : vec) : option R :=
  let '(vr, vt, vp) := v in let '(br, bt, bp) := b in
  v_para reals (Some vr) (Some vt) (Some vp) (Some br) (Some bt) (Some bp).
Definition perp (v b : vec) : option R :=
  let '(vr, vt, vp) := v in let '(br, bt, bp) := b in
  v_perp reals (Some vr) (Some vt) (Some vp) (Some br) (Some bt) (Some bp).
Definition mag (v : vec) : option R :=
  let '(vr, vt, vp) := v in v_mag reals (Some vr) (Some vt) (Some vp).
Definition angle_of (b v : vec) : option R :=
  let '(vr, vt, vp) := v in let '(br, bt, bp) := b in flow_angle br bt bp vr vt vp.

(** The binary64 number of an integer. *)
Definition float_of (z : Z) : spec_float := binary_normalize 53 1024 z 0 false.

(** * Coordinates *)

(** A number smaller than the spacing of binary64 numbers near one is too small
    for the conversions. *)
Definition spacing : R := / 2 ^ 52.
Definition representable (a : R) : Prop := a = 0 \/ spacing <= Rabs a.
(** The least positive normal binary64 number. *)
Definition least_normal : Qc := Q2Qc (1 # (2 ^ 1022)).

(** * Histories and spectra: pairs of a coordinate and a value *)

Definition rising (l : list R) : Prop := Sorted.StronglySorted Rlt l.
Definition first (l : list (R * R)) : R := fst (hd (0, 0) l).
Definition final (l : list (R * R)) : R := fst (last l (0, 0)).
(** Values of a polynomial of degree two, and its primitive. *)
Definition quadratic (a b c x : R) : R := a + b * x + c * (x * x).
Definition primitive (a b c x : R) : R := a * x + b * (x * x) / 2 + c * (x * x * x) / 3.
Definition follows (f : R -> R) (l : list (R * R)) : Prop := Forall (fun p => snd p = f (fst p)) l.
(** Neighbouring steps differ by a factor of at most two. *)
Fixpoint gentle (l : list R) : Prop :=
  match l with
  | x :: ((y :: z :: _) as l') => z - y <= 2 * (y - x) /\ y - x <= 2 * (z - y) /\ gentle l'
  | _ => True
  end.

(** * Acceleration *)

(** The shells ahead of and behind a shell; the outermost is ahead of itself
    and the innermost behind itself. *)
Definition shell_ahead (n i : nat) : nat := if (S i =? n)%nat then i else S i.
Definition shell_behind (i : nat) : nat := match i with O => O | S j => j end.
(** The diffusion coefficient along the flow. *)
Definition diffusion (k speed angle mfp : R) : R := mfp * ((cos angle * cos angle + k * (sin angle * sin angle)) * speed / 3).
(** The rate for velocities [va], [vb] and coefficients [ka], [kb] ahead and
    behind. *)
Definition rate (va vb : vec) (ka kb : R) : R :=
  norm va * Rabs (1 - dot va vb / (norm va * norm va)) / (3 * (ka / norm va + kb / norm vb)).
