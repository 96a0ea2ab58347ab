(** Vocabulary of the properties of the numerical tools. *)

From Coq Require Import List Bool ZArith QArith Qcanon Arith Sorted.
From Verif Require Import Py NumericalModel.
Import ListNotations.
Open Scope nat_scope.
Open Scope list_scope.

(** [x] is at position [i] of the array. *)
Definition at_ {A} (a : list A) (i : nat) (x : A) : Prop := nth_error a i = Some x.

(** Distance. *)
Definition dist (x t : Qc) : Qc := Qc_abs (x - t).

(** Non-decreasing and strictly increasing arrays. *)
Definition sorted (a : list Qc) : Prop := StronglySorted Qcle a.
Definition increasing (a : list Qc) : Prop := StronglySorted Qclt a.

(** [r] is the least member of the array not below [t], or the greatest not
    above it. *)
Definition least_above (a : list Qc) (t r : Qc) : Prop :=
  In r a /\ (t <= r)%Qc /\ forall y, In y a -> (t <= y)%Qc -> (r <= y)%Qc.
Definition greatest_below (a : list Qc) (t r : Qc) : Prop :=
  In r a /\ (r <= t)%Qc /\ forall y, In y a -> (y <= t)%Qc -> (y <= r)%Qc.

(** A value on the chord from [(xl, yl)] to [(xh, yh)] at [t], and between the
    two ends. *)
Definition on_chord (xl xh yl yh t r : Qc) : Prop :=
  exists w, (0 <= w <= 1)%Qc /\ t = (xl + w * (xh - xl))%Qc /\ r = (yl + w * (yh - yl))%Qc.
Definition between (yl yh r : Qc) : Prop := (yl <= r <= yh)%Qc \/ (yh <= r <= yl)%Qc.

(** The flat position of a multi-dimensional index in C order. *)
Fixpoint ravel (idx shape : list nat) : nat :=
  match idx, shape with
  | i :: idx', _ :: rest => i * fold_right Nat.mul 1 rest + ravel idx' rest
  | _, _ => 0
  end.

(** The element [x] at position [i] is nearest to [t], and the first such. *)
Definition nearest (a : list Qc) (t : Qc) (i : nat) (x : Qc) : Prop :=
  at_ a i x /\ (forall j y, at_ a j y -> (dist x t <= dist y t)%Qc)
  /\ (forall j y, at_ a j y -> j < i -> (dist x t < dist y t)%Qc).

(** Strictly between the coordinates at positions [i] and [S i]. *)
Definition brackets (row : list Qc) (t : Qc) (i : nat) : Prop :=
  exists xl xh, at_ row i xl /\ at_ row (S i) xh /\ (xl < t)%Qc /\ (t < xh)%Qc.

(** The axis arguments under which a one-dimensional reference is used as
    intended: none given, or the only axis. *)
Definition ok_axis (axis : option Z) : Prop := axis = None \/ axis = Some 0%Z \/ axis = Some (-1)%Z.
