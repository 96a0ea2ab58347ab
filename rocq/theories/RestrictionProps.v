(** The properties of restrictions of arrays. *)

From Coq Require Import List Bool ZArith QArith Qcanon Lia.
From Verif Require Import Py PyFacts QcOrder NumericalModel NumericalSpec NumericalProofs InterpolationProofs NumericalProps.
From Verif Require Import ArrayModel ArraySpec ArrayProofs RestrictionModel RestrictionSpec RestrictionProofs.
Import ListNotations.
Open Scope list_scope.
Open Scope nat_scope.

(** ** C326: a restriction selects the slices at its indices *)

(** The result has one slice along the axis for each index, in the order of
    the indices; the other axes stay in their places. *)
Theorem C326_slices (a : arr) (l : list nat) (n : nat) (r : list nat) (axis : option Z) (indices : list Z) (ps : list nat) :
  shape a = l ++ n :: r -> names_axis (length (shape a)) axis (length l) ->
  Forall2 (stands_for n) indices ps ->
  exists b, restriction_apply indices a axis = Ok b /\ filled b /\
    shape b = l ++ length indices :: r /\
    forall before j p after, inside l before -> inside r after -> nth_error ps j = Some p ->
      ArrayModel.at_ b (before ++ j :: after) = ArrayModel.at_ a (before ++ p :: after).
Proof. exact (apply_ok a l n r axis indices ps). Qed.
Print Assumptions C326_slices.

(** An index that is not one of the axis's, or an axis that is not one of the
    array's, is an IndexError. *)
Theorem C326_index (a : arr) (l : list nat) (n : nat) (r : list nat) (axis : option Z) (indices : list Z) :
  shape a = l ++ n :: r -> names_axis (length (shape a)) axis (length l) ->
  (exists z, In z indices /\ forall p, ~ stands_for n z p) ->
  restriction_apply indices a axis = Err IndexError.
Proof. exact (apply_index_error a l n r axis indices). Qed.
Print Assumptions C326_index.
Theorem C326_axis (a : arr) (axis : option Z) (indices : list Z) :
  (forall k, ~ names_axis (length (shape a)) axis k) -> restriction_apply indices a axis = Err IndexError.
Proof. exact (apply_axis_error a axis indices). Qed.
Print Assumptions C326_axis.

(** The first axis of a 2 by 3 array, in reverse; its last axis. *)
Definition two_by_three : arr := mkArr [2; 3] [q 0; q 1; q 2; q 10; q 11; q 12].
Example C326_case :
  restriction_apply [1; 0]%Z two_by_three (Some 0%Z) = Ok (mkArr [2; 3] [q 10; q 11; q 12; q 0; q 1; q 2]) /\
  restriction_apply [-1; 1; 1; 0]%Z two_by_three None
    = Ok (mkArr [2; 4] [q 2; q 1; q 1; q 0; q 12; q 11; q 11; q 10]) /\
  names_axis (length (shape two_by_three)) None 1 /\ Forall2 (stands_for 3) [-1; 1; 1; 0]%Z [2; 1; 1; 0] /\
  (forall p, ~ stands_for 3 3 p) /\ (forall k, ~ names_axis 2 (Some (-3)%Z) k).
Proof.
  split; [reflexivity|]. split; [reflexivity|]. split; [now constructor|].
  split; [|split].
  - constructor; [apply (from_end 3 2); lia|]. constructor; [apply (from_start 3 1); lia|].
    constructor; [apply (from_start 3 1); lia|]. constructor; [apply (from_start 3 0); lia|]. constructor.
  - intros p H. inversion H; lia.
  - intros k H. inversion H as [z j H1|]; subst. inversion H1; lia.
Qed.

(** ** C327: restriction to a target *)

(** A target between two neighbouring coordinates leaves the two slices at
    these coordinates, and a coordinate leaves its own slice. *)
Theorem C327_between x i xl xh t : increasing x -> NumericalSpec.at_ x i xl -> NumericalSpec.at_ x (S i) xh ->
  (xl < t)%Qc -> (t < xh)%Qc ->
  exists ks, restrict_1d x t 0 = Ok ks /\
  forall (a : arr) l r axis, shape a = l ++ length x :: r -> names_axis (length (shape a)) axis (length l) ->
  exists b, restriction_apply (map Z.of_nat ks) a axis = Ok b /\ shape b = l ++ 2 :: r /\
    forall before after, inside l before -> inside r after ->
      ArrayModel.at_ b (before ++ 0 :: after) = ArrayModel.at_ a (before ++ i :: after) /\
      ArrayModel.at_ b (before ++ 1 :: after) = ArrayModel.at_ a (before ++ S i :: after).
Proof.
  intros Hx Hl Hh H1 H2. exists [i; S i]. split; [exact (C75_between x i xl xh t Hx Hl Hh H1 H2)|].
  intros a l r axis Hs Ha.
  assert (S i < length x) by (apply nth_error_Some; unfold NumericalSpec.at_ in Hh; congruence).
  destruct (apply_ok a l (length x) r axis (map Z.of_nat [i; S i]) [i; S i] Hs Ha) as (b & E & _ & Sb & A).
  { repeat (constructor; [apply from_start; lia|]). constructor. }
  exists b. split; [exact E|]. split; [exact Sb|]. intros before after Hb Hf.
  split; apply A; auto.
Qed.
Print Assumptions C327_between.
Theorem C327_hit x i t : increasing x -> NumericalSpec.at_ x i t ->
  exists ks, restrict_1d x t 0 = Ok ks /\
  forall (a : arr) l r axis, shape a = l ++ length x :: r -> names_axis (length (shape a)) axis (length l) ->
  exists b, restriction_apply (map Z.of_nat ks) a axis = Ok b /\ shape b = l ++ 1 :: r /\
    forall before after, inside l before -> inside r after ->
      ArrayModel.at_ b (before ++ 0 :: after) = ArrayModel.at_ a (before ++ i :: after).
Proof.
  intros Hx Hl. exists [i]. split; [exact (C75_hit x i t Hx Hl)|].
  intros a l r axis Hs Ha.
  assert (i < length x) by (apply nth_error_Some; unfold NumericalSpec.at_ in Hl; congruence).
  destruct (apply_ok a l (length x) r axis (map Z.of_nat [i]) [i] Hs Ha) as (b & E & _ & Sb & A).
  { repeat (constructor; [apply from_start; lia|]). constructor. }
  exists b. split; [exact E|]. split; [exact Sb|]. intros before after Hb Hf.
  apply A; auto.
Qed.
Print Assumptions C327_hit.
Example C327_case : restrict_1d sample_x (q 3) 0 = Ok [1; 2] /\
  restriction_apply (map Z.of_nat [1; 2]) two_by_three (Some 1%Z) = Ok (mkArr [2; 2] [q 1; q 2; q 11; q 12]) /\
  increasing sample_x /\ NumericalSpec.at_ sample_x 1 (q 2) /\ NumericalSpec.at_ sample_x 2 (q 4) /\
  (q 2 < q 3)%Qc /\ (q 3 < q 4)%Qc.
Proof. repeat split; try reflexivity. exact sample_increasing. Qed.
