(** Lemmas about vectors, angles and coordinates. *)

From Coq Require Import List Bool ZArith Reals Lra Psatz.
From Verif Require Import Py NumericalModel ComputedModel ComputedSpec.
Import ListNotations.
Open Scope R_scope.

Lemma dot_comm u v : dot u v = dot v u.
Proof. destruct u as [[? ?] ?], v as [[? ?] ?]. cbn. ring. Qed.
Lemma dot_self_nonneg v : 0 <= dot v v.
Proof. destruct v as [[x y] z]. cbn. nra. Qed.
Lemma dot_self_pos v : v <> zero -> 0 < dot v v.
Proof.
  destruct v as [[x y] z]. intros N. cbn.
  destruct (Req_dec x 0) as [->|Hx]; [|nra].
  destruct (Req_dec y 0) as [->|Hy]; [|nra].
  destruct (Req_dec z 0) as [->|Hz]; [|nra].
  now contradict N.
Qed.
Lemma norm_sq v : norm v * norm v = dot v v.
Proof. apply sqrt_sqrt, dot_self_nonneg. Qed.
Lemma norm_nonneg v : 0 <= norm v.
Proof. apply sqrt_pos. Qed.
Lemma norm_pos v : v <> zero -> 0 < norm v.
Proof. intros N. apply sqrt_lt_R0. now apply dot_self_pos. Qed.
Lemma cauchy_schwarz u v : dot u v * dot u v <= dot u u * dot v v.
Proof.
  destruct u as [[a b] c], v as [[x y] z]. cbn.
  assert (H : (a * a + b * b + c * c) * (x * x + y * y + z * z) - (a * x + b * y + c * z) * (a * x + b * y + c * z)
    = (a * y - b * x) * (a * y - b * x) + (a * z - c * x) * (a * z - c * x) + (b * z - c * y) * (b * z - c * y)) by ring.
  pose proof (Rle_0_sqr (a * y - b * x)). pose proof (Rle_0_sqr (a * z - c * x)). pose proof (Rle_0_sqr (b * z - c * y)).
  unfold Rsqr in *. lra.
Qed.
Lemma dot_bound u v : Rabs (dot u v) <= norm u * norm v.
Proof.
  apply Rsqr_incr_0_var; [|apply Rmult_le_pos; apply norm_nonneg].
  rewrite <- Rsqr_abs. unfold Rsqr.
  replace (norm u * norm v * (norm u * norm v)) with ((norm u * norm u) * (norm v * norm v)) by ring.
  rewrite !norm_sq. apply cauchy_schwarz.
Qed.

Lemma real_sqrt_nonneg a : 0 <= a -> real_sqrt (Some a) = Some (sqrt a).
Proof. intros H. cbn. destruct (Rlt_dec a 0); [lra|reflexivity]. Qed.
Lemma real_sqrt_neg a : a < 0 -> real_sqrt (Some a) = None.
Proof. intros H. cbn. destruct (Rlt_dec a 0); [reflexivity|lra]. Qed.
Lemma real_div_ok x y : y <> 0 -> real_div x y = Some (x / y).
Proof. intros H. unfold real_div. now destruct (Req_EM_T y 0). Qed.
Lemma real_div_zero x : real_div x 0 = None.
Proof. unfold real_div. now destruct (Req_EM_T 0 0). Qed.

Lemma mag_eq v : mag v = Some (norm v).
Proof.
  destruct v as [[x y] z]. unfold mag, v_mag. cbn [mul add root reals lift2].
  rewrite real_sqrt_nonneg by nra. reflexivity.
Qed.
Lemma b_mag_eq x y z : b_mag reals (Some x) (Some y) (Some z) = Some (norm (x, y, z)).
Proof. exact (mag_eq (x, y, z)). Qed.
Lemma v_mag_eq x y z : v_mag reals (Some x) (Some y) (Some z) = Some (norm (x, y, z)).
Proof. exact (mag_eq (x, y, z)). Qed.
Lemma para_eq v b : b <> zero -> para v b = Some (dot b v / norm b).
Proof.
  intros N. pose proof (norm_pos b N). destruct v as [[x y] z], b as [[a c] d].
  unfold para, v_para. rewrite b_mag_eq. cbn [mul add div reals lift2].
  rewrite real_div_ok by lra. reflexivity.
Qed.
Lemma para_zero v : para v zero = None.
Proof.
  destruct v as [[x y] z]. unfold para, zero, v_para. rewrite b_mag_eq. cbn [mul add div reals lift2].
  replace (norm (0, 0, 0)) with 0; [apply real_div_zero|].
  unfold norm. cbn. replace (0 * 0 + 0 * 0 + 0 * 0) with 0 by ring. now rewrite sqrt_0.
Qed.
Lemma perp_arg v b : b <> zero -> 0 <= norm v * norm v - dot b v / norm b * (dot b v / norm b).
Proof.
  intros N. pose proof (norm_pos b N) as P. rewrite norm_sq.
  replace (dot b v / norm b * (dot b v / norm b)) with (dot b v * dot b v / (norm b * norm b)) by (field; lra).
  rewrite norm_sq. pose proof (dot_self_pos b N). pose proof (cauchy_schwarz b v) as C.
  apply Rmult_le_reg_l with (dot b b); [assumption|].
  replace (dot b b * (dot v v - dot b v * dot b v / dot b b)) with (dot b b * dot v v - dot b v * dot b v) by (field; lra).
  rewrite Rmult_0_r. lra.
Qed.
Lemma perp_eq v b : b <> zero -> perp v b = Some (sqrt (norm v * norm v - dot b v / norm b * (dot b v / norm b))).
Proof.
  intros N. pose proof (para_eq v b N) as E. pose proof (perp_arg v b N) as A.
  destruct v as [[x y] z], b as [[a c] d]. unfold perp, v_perp. cbn zeta.
  unfold para in E. rewrite E, v_mag_eq. cbn [mul sub root reals lift2].
  now rewrite real_sqrt_nonneg.
Qed.

(** * Angles *)

Lemma clamp_id a : -1 <= a <= 1 -> clamp a = a.
Proof. intros H. unfold clamp. destruct (Rlt_dec a (-1)); [lra|]. destruct (Rlt_dec 1 a); [lra|reflexivity]. Qed.
Lemma clamp_range a : -1 <= clamp a <= 1.
Proof. unfold clamp. destruct (Rlt_dec a (-1)); destruct (Rlt_dec 1 _); lra. Qed.
Lemma clamp_high a : 1 <= a -> clamp a = 1.
Proof. intros H. unfold clamp. destruct (Rlt_dec a (-1)); destruct (Rlt_dec 1 _); lra. Qed.

Lemma angle_eq b v : b <> zero -> v <> zero ->
  angle_of b v = Some (acos (clamp (dot b v / (norm b * (norm v * norm v))))).
Proof.
  intros Nb Nv. pose proof (norm_pos _ Nb). pose proof (norm_pos _ Nv).
  pose proof (para_eq b v Nv) as E.
  destruct v as [[x y] z], b as [[a c] d]. unfold angle_of, flow_angle. cbn zeta. unfold para in E. rewrite E.
  unfold bv_mag. rewrite b_mag_eq, v_mag_eq. cbn [mul div reals lift2].
  rewrite real_div_ok by nra. do 3 f_equal. rewrite (dot_comm (x, y, z)). field. split; lra.
Qed.
Lemma angle_none b v : b = zero \/ v = zero -> angle_of b v = None.
Proof.
  intros H. destruct (Req_dec (norm v) 0) as [Z|Z].
  - destruct v as [[x y] z], b as [[a c] d]. unfold angle_of, flow_angle. cbn zeta. unfold v_para at 1.
    rewrite b_mag_eq, Z. cbn [mul add div reals lift2]. now rewrite real_div_zero.
  - destruct H as [->| ->].
    + destruct v as [[x y] z]. unfold angle_of, zero, flow_angle. cbn zeta.
      unfold bv_mag. rewrite b_mag_eq, v_mag_eq. cbn [mul div reals lift2].
      replace (norm (0, 0, 0)) with 0; [rewrite Rmult_0_l|].
      * destruct (v_para _ _ _ _ _ _ _); [|reflexivity]. cbn. now rewrite real_div_zero.
      * unfold norm. cbn. replace (0 * 0 + 0 * 0 + 0 * 0) with 0 by ring. now rewrite sqrt_0.
    + contradict Z. unfold norm. cbn. replace (0 * 0 + 0 * 0 + 0 * 0) with 0 by ring. apply sqrt_0.
Qed.
Lemma abs_le a b : Rabs a <= b -> - b <= a <= b.
Proof. unfold Rabs. destruct (Rcase_abs a); lra. Qed.
