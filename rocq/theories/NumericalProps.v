(** The properties of the numerical and interpolation tools. *)

From Coq Require Import List Bool ZArith QArith Qcanon Arith Sorted.
From Verif Require Import Py PyFacts QcOrder NumericalModel NumericalSpec NumericalProofs InterpolationProofs.
Import ListNotations.
Open Scope nat_scope.
Open Scope list_scope.

(** Sample values. *)
Definition q (n : Z) : Qc := Qc_of_Z n.
Definition sample_x : list Qc := [q 1; q 2; q 4].
Definition sample_y : list cell := [[q 10; q 0]; [q 20; q 1]; [q 0; q 5]].
Lemma sample_increasing : increasing sample_x.
Proof. repeat constructor. Qed.

(** ** C26: nearest element *)

Theorem C26_nearest : forall a t i x, find_nearest a t BNone = Ok (Z.of_nat i, x) <-> nearest a t i x.
Proof. exact find_nearest_none. Qed.
Print Assumptions C26_nearest.
Theorem C26_total : forall a t, a <> [] -> exists i x, find_nearest a t BNone = Ok (Z.of_nat i, x).
Proof. exact find_nearest_ex. Qed.
Print Assumptions C26_total.
Theorem C26_empty : forall t b, find_nearest [] t b = Err ValueError.
Proof. exact find_nearest_empty. Qed.
Print Assumptions C26_empty.
Example C26_case : find_nearest [q 9; q 1; q 5; q 1] (q 3) BNone = Ok (1%Z, q 1)
  /\ find_nearest [q 9; q 1; q 5; q 1] (q 100) BNone = Ok (0%Z, q 9).
Proof. split; reflexivity. Qed.

(** ** C27: bounded search *)

Theorem C27_lower : forall a t, sorted a -> a <> [] ->
  ((exists y, In y a /\ (t <= y)%Qc) ->
     exists i r, find_nearest a t BLower = Ok (Z.of_nat i, r) /\ at_ a i r /\ least_above a t r)
  /\ ((forall y, In y a -> (y < t)%Qc) -> exists r, find_nearest a t BLower = Ok ((-1)%Z, r) /\ r = last a 0%Qc).
Proof. exact find_lower. Qed.
Print Assumptions C27_lower.
Theorem C27_upper : forall a t, sorted a -> a <> [] ->
  ((exists y, In y a /\ (y <= t)%Qc) ->
     exists i r, find_nearest a t BUpper = Ok (Z.of_nat i, r) /\ at_ a i r /\ greatest_below a t r)
  /\ ((forall y, In y a -> (t < y)%Qc) -> exists r, find_nearest a t BUpper = Ok (0%Z, r) /\ r = hd 0%Qc a).
Proof. exact find_upper. Qed.
Print Assumptions C27_upper.
Example C27_case : find_nearest [q 0; q 4; q 9] (q 5) BLower = Ok (2%Z, q 9)
  /\ find_nearest [q 0; q 4; q 9] (q 8) BUpper = Ok (1%Z, q 4)
  /\ find_nearest [q 0; q 4; q 9] (q 10) BLower = Ok ((-1)%Z, q 9)
  /\ find_nearest [q 0; q 4; q 9] (q (-3)) BUpper = Ok (0%Z, q 0).
Proof. repeat split; reflexivity. Qed.

(** ** C28: bounding indices *)

Theorem C28_bounding : forall a t, sorted a -> a <> [] -> exists l u lx ux,
  find_1d_indices a t = (Z.of_nat l, Z.of_nat u) /\ at_ a l lx /\ at_ a u ux
  /\ ((exists y, In y a /\ (y <= t)%Qc) -> greatest_below a t lx)
  /\ ((forall y, In y a -> (t < y)%Qc) -> l = 0)
  /\ ((exists y, In y a /\ (t <= y)%Qc) -> least_above a t ux)
  /\ ((forall y, In y a -> (y < t)%Qc) -> u = length a - 1).
Proof. exact bounding_sorted. Qed.
Print Assumptions C28_bounding.
Example C28_case : find_1d_indices sample_x (q 3) = (1%Z, 2%Z) /\ find_1d_indices sample_x (q 2) = (1%Z, 1%Z)
  /\ find_1d_indices sample_x (q 7) = (2%Z, 2%Z) /\ find_1d_indices sample_x (q 0) = (0%Z, 0%Z).
Proof. repeat split; reflexivity. Qed.

(** ** C29: interpolation over a one-dimensional reference *)

Theorem C29_exact : forall array reference i t c axis, increasing reference -> at_ reference i t -> at_ array i c ->
  interp_1d array reference t axis = Ok c.
Proof. exact interp_hit. Qed.
Print Assumptions C29_exact.

(** Between two coordinates the result has every trailing component of the
    values, and each is on the chord and between its ends. *)
Theorem C29_between : forall array reference t i xl xh yl yh axis, increasing reference ->
  length array = length reference -> at_ reference i xl -> at_ reference (S i) xh ->
  at_ array i yl -> at_ array (S i) yh -> length yl = length yh -> (xl < t)%Qc -> (t < xh)%Qc -> ok_axis axis ->
  exists c, interp_1d array reference t axis = Ok c /\ length c = length yl
  /\ forall k r, at_ c k r -> exists a b, at_ yl k a /\ at_ yh k b /\ on_chord xl xh a b t r /\ between a b r.
Proof.
  exact (fun array reference t i xl xh yl yh axis S L Hl Hh Yl Yh Ly L1 L2 A =>
    ex_intro _ (chord xl xh yl yh t)
      (conj (interp_between array reference t i xl xh yl yh axis S L Hl Hh Yl Yh L1 L2 A)
        (conj (chord_length xl xh yl yh t Ly) (fun k r => chord_spec xl xh yl yh t k r L1 L2)))).
Qed.
Print Assumptions C29_between.

(** Several targets are interpolated one by one. *)
Theorem C29_targets : forall array reference targets axis cells,
  interpolate_1d array reference targets axis = Ok cells ->
  length cells = length targets
  /\ forall k t c, at_ targets k t -> at_ cells k c -> interp_1d array reference t axis = Ok c.
Proof.
  intros array reference targets axis. unfold interpolate_1d.
  induction targets as [|t ts IH]; intros cells H; cbn [mapM] in H.
  - injection H as <-. split; [reflexivity|]. intros [|k] ? ? E; discriminate.
  - destruct (interp_1d array reference t axis) as [c|] eqn:E; [|discriminate]. cbn [bind] in H.
    destruct (mapM _ ts) as [cs|]; [|discriminate]. injection H as <-. destruct (IH cs eq_refl) as [L Hk].
    split; [simpl; auto|]. intros [|k] t' c' H1 H2.
    + injection H1 as <-. injection H2 as <-. exact E.
    + now apply (Hk k).
Qed.
Print Assumptions C29_targets.
Example C29_case : increasing sample_x /\ length sample_y = length sample_x
  /\ interp_1d sample_y sample_x (q 3) (Some 0%Z) = Ok [q 10; q 3]
  /\ interp_1d sample_y sample_x (q 3) None = Ok [q 10; q 3]
  /\ interp_1d sample_y sample_x (q 2) (Some 0%Z) = Ok [q 20; q 1].
Proof. split; [exact sample_increasing|]. repeat split; vm_compute; repeat f_equal; now apply Qc_is_canon. Qed.

(** ** C75: restriction to the bounding coordinates *)

Theorem C75_between : forall x i xl xh t, increasing x -> at_ x i xl -> at_ x (S i) xh -> (xl < t)%Qc -> (t < xh)%Qc ->
  restrict_1d x t 0 = Ok [i; S i].
Proof. exact restrict_two. Qed.
Print Assumptions C75_between.
Theorem C75_hit : forall x i t, increasing x -> at_ x i t -> restrict_1d x t 0 = Ok [i].
Proof. exact restrict_hit. Qed.
Print Assumptions C75_hit.
Example C75_case : restrict_1d sample_x (q 3) 0 = Ok [1; 2] /\ restrict_1d sample_x (q 4) 0 = Ok [2].
Proof. split; reflexivity. Qed.

(** The restriction of a sorted reference is never empty is false: a repeated
    coordinate equal to the target leaves nothing. *)
Theorem C75_repeated_refuted : exists x t, sorted x /\ In t x /\ restrict_1d x t 0 = Ok [].
Proof.
  exists [q 1; q 2; q 2; q 3], (q 2). split; [|split; [simpl; auto|reflexivity]].
  repeat constructor; discriminate.
Qed.
Print Assumptions C75_repeated_refuted.

(** ** C76: targets outside the reference *)

Theorem C76_axis : forall array reference t axis, length array = length reference -> reference <> [] ->
  axis = Some 0%Z \/ axis = Some (-1)%Z ->
  ((forall y, In y reference -> (t < y)%Qc) -> exists c, at_ array 0 c /\ interp_1d array reference t axis = Ok c)
  /\ ((forall y, In y reference -> (y < t)%Qc) ->
      exists c, at_ array (length array - 1) c /\ interp_1d array reference t axis = Ok c).
Proof. exact interp_outside. Qed.
Print Assumptions C76_axis.
Theorem C76_no_axis : forall array reference t, length array = length reference -> 2 <= length reference ->
  increasing reference ->
  (forall y, In y reference -> (t < y)%Qc) \/ (forall y, In y reference -> (y < t)%Qc) ->
  interp_1d array reference t None = Err ValueError.
Proof. exact interp_outside_none. Qed.
Print Assumptions C76_no_axis.
Example C76_case : interp_1d sample_y sample_x (q 9) (Some 0%Z) = Ok [q 0; q 5]
  /\ interp_1d sample_y sample_x (q 0) (Some 0%Z) = Ok [q 10; q 0]
  /\ interp_1d sample_y sample_x (q 9) None = Err ValueError.
Proof. repeat split; reflexivity. Qed.

(** ** C77: interpolation over a two-dimensional reference *)

(** When the target is strictly between coordinates of every row, the result
    has for every row what that row alone gives. *)
Theorem C77_rows_partial : forall array reference t m, reference <> [] -> length array = length reference ->
  (forall row, In row array -> length row = m) ->
  (forall row, In row reference -> length row = m /\ increasing row /\ exists i, brackets row t i) ->
  exists cells, interp_2d array reference t = Ok (Rows cells) /\ length cells = length reference
    /\ forall r ref arr, at_ reference r ref -> at_ array r arr ->
         exists c, at_ cells r c /\ interp_1d arr ref t None = Ok c.
Proof. exact interp_2d_rows. Qed.
Print Assumptions C77_rows_partial.
Definition sample_x2 : list (list Qc) := [[q 1; q 2; q 4]; [q 0; q 5; q 6]].
Definition sample_y2 : list (list cell) := [[[q 10]; [q 20]; [q 40]]; [[q 0]; [q 5]; [q 7]]].
Example C77_case : interp_2d sample_y2 sample_x2 (q 3) = Ok (Rows [[q 30]; [q 3]]).
Proof. vm_compute; repeat f_equal; now apply Qc_is_canon. Qed.

(** A target that is a coordinate of any row never gives one cell per row. *)
Theorem C77_hit : forall array reference t cells, (exists row, In row reference /\ In t row) ->
  interp_2d array reference t <> Ok (Rows cells).
Proof. exact interp_2d_hit. Qed.
Print Assumptions C77_hit.
Theorem C77_rows_refuted : exists array reference t c0 c1,
  interp_1d (hd [] array) (hd [] reference) t None = Ok c0
  /\ interp_1d (nth 1 array []) (nth 1 reference []) t None = Ok c1
  /\ length array = 2 /\ length reference = 2
  /\ interp_2d array reference t <> Ok (Rows [c0; c1]).
Proof.
  exists sample_y2, sample_x2, (q 2), [q 20], [q 2].
  split; [reflexivity|]. split; [vm_compute; repeat f_equal; now apply Qc_is_canon|].
  split; [reflexivity|]. split; [reflexivity|]. apply interp_2d_hit. exists [q 1; q 2; q 4]. simpl. auto.
Qed.
Print Assumptions C77_rows_refuted.

(** ** C78: nearest element of a multi-dimensional array *)

Theorem C78_nearest : forall flat shape t, flat <> [] -> length flat = fold_right Nat.mul 1 shape ->
  exists idx x, find_nearest_nd flat shape t = Ok (idx, x)
    /\ Forall2 lt idx shape /\ nearest flat t (ravel idx shape) x.
Proof. exact find_nd. Qed.
Print Assumptions C78_nearest.
Example C78_case : find_nearest_nd [q 0; q 1; q 2; q 3; q 4; q 5] [2; 3] (q 4) = Ok ([1; 1], q 4)
  /\ ravel [1; 1] [2; 3] = 4.
Proof. split; reflexivity. Qed.

(** ** C79: interpolation along a second axis *)

(** A one-dimensional reference given with [axis=1], as for pitch-angle
    cosines (eprem/__init__.py 400-411), fails for every target that is not
    one of its coordinates. *)
Theorem C79_second_axis_refuted : forall array reference t, ~ In t reference ->
  interp_1d array reference t (Some 1%Z) = Err ValueError.
Proof.
  intros array reference t N. unfold interp_1d. destruct (existsb (Qc_eqb t) reference) eqn:E; [|reflexivity].
  apply existsb_Qc in E. contradiction.
Qed.
Print Assumptions C79_second_axis_refuted.
Example C79_case : interp_1d sample_y sample_x (q 3) (Some 1%Z) = Err ValueError.
Proof. reflexivity. Qed.
