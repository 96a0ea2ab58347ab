(** Lemmas about the conversion of coordinates. *)

From Coq Require Import List Bool ZArith Reals Lra Psatz.
From Verif Require Import Py NumericalModel ComputedModel ComputedSpec VectorProofs.
Import ListNotations.
Open Scope R_scope.

Lemma sphere r t p : dot (x_ r t p, y_ r t p, z_ r t) (x_ r t p, y_ r t p, z_ r t) = r * r.
Proof.
  cbn. unfold x_, y_, z_. pose proof (sin2_cos2 t) as T. pose proof (sin2_cos2 p) as P. unfold Rsqr in *.
  replace (r * sin t * cos p * (r * sin t * cos p) + r * sin t * sin p * (r * sin t * sin p) + r * cos t * (r * cos t))
    with (r * r * (sin t * sin t * (sin p * sin p + cos p * cos p) + cos t * cos t)) by ring.
  rewrite P, Rmult_1_r, T. ring.
Qed.

Lemma eps_pos : 0 < eps.
Proof. unfold eps. apply Rinv_0_lt_compat, pow_lt. lra. Qed.
Lemma eps_small : eps < 1.
Proof. unfold eps. rewrite <- Rinv_1. apply Rinv_lt_contravar; [rewrite Rmult_1_l; apply pow_lt; lra|]. apply Rlt_pow_R1; [lra|]. repeat constructor. Qed.
Lemma spacing_eps : spacing = eps.
Proof. reflexivity. Qed.
Lemma floor_id a : representable a -> zero_floor a = a.
Proof.
  unfold representable. rewrite spacing_eps. intros [->|H]; unfold zero_floor; destruct (Rlt_dec (Rabs _) eps) as [L|L]; try reflexivity. lra.
Qed.

Lemma hypot x y : x <> 0 -> sqrt (1 + (y / x)²) * Rabs x = sqrt (x * x + y * y).
Proof.
  intros N. rewrite <- sqrt_Rsqr_abs, <- sqrt_mult_alt by (pose proof (Rle_0_sqr (y / x)); lra).
  f_equal. unfold Rsqr. field. assumption.
Qed.
Lemma hypot_pos x y : x <> 0 -> 0 < sqrt (x * x + y * y).
Proof. intros N. apply sqrt_lt_R0. nra. Qed.

Lemma atan2_spec y x : x <> 0 ->
  cos (atan2 y x) * sqrt (x * x + y * y) = x /\ sin (atan2 y x) * sqrt (x * x + y * y) = y
  /\ - PI < atan2 y x <= PI.
Proof.
  intros N. pose proof (hypot x y N) as H. set (h := sqrt (1 + (y / x)²)) in *.
  assert (Hh : 0 < h). { apply sqrt_lt_R0. pose proof (Rle_0_sqr (y / x)). lra. }
  pose proof (atan_bound (y / x)) as B. pose proof PI_RGT_0.
  assert (C : cos (atan (y / x)) = 1 / h) by apply cos_atan.
  assert (S : sin (atan (y / x)) = y / x / h) by apply sin_atan.
  unfold atan2. destruct (Rlt_dec 0 x) as [P|P].
  - rewrite C, S, <- H, Rabs_right by lra. split; [field; lra|split; [field; lra|lra]].
  - destruct (Rlt_dec x 0) as [Q|Q]; [|lra]. rewrite <- H, Rabs_left by lra.
    destruct (Rlt_dec y 0) as [Y|Y].
    + replace (atan (y / x) - PI) with (- (PI - atan (y / x))) by ring.
      rewrite cos_neg, sin_antisym, Rtrigo_facts.cos_pi_minus, Rtrigo_facts.sin_pi_minus, C, S.
      split; [field; lra|split; [field; lra|]].
      assert (0 < atan (y / x)). { rewrite <- atan_0. apply atan_increasing. replace (y / x) with (- y * - / x) by (field; lra). apply Rmult_lt_0_compat; [lra|]. pose proof (Rinv_lt_0_compat x Q). lra. }
      lra.
    + replace (atan (y / x) + PI) with (PI + atan (y / x)) by ring.
      rewrite Rplus_comm, neg_cos, neg_sin, C, S.
      split; [field; lra|split; [field; lra|]].
      assert (atan (y / x) <= 0). { destruct (Req_dec y 0) as [->|Ny]; [replace (0 / x) with 0 by (field; lra); rewrite atan_0; lra|].
        left. rewrite <- atan_0. apply atan_increasing. unfold Rdiv. pose proof (Rinv_lt_0_compat x Q). nra. }
      lra.
Qed.

(** The azimuth that [xyz2rtp] computes. *)
Definition azimuth (x y : R) : R := snd (xyz2rtp (x, y, 0)).
Lemma xyz2rtp_azimuth x y z : snd (xyz2rtp (x, y, z)) = azimuth x y.
Proof. reflexivity. Qed.

Lemma azimuth_spec x y :
  cos (azimuth x y) * sqrt (x * x + y * y) = x /\ sin (azimuth x y) * sqrt (x * x + y * y) = y
  /\ (x <> 0 \/ 0 <= y -> 0 <= azimuth x y < 2 * PI).
Proof.
  unfold azimuth. cbn [xyz2rtp snd]. pose proof PI_RGT_0. destruct (Req_EM_T x 0) as [->|N].
  - replace (0 * 0 + y * y) with (y²) by (unfold Rsqr; ring). rewrite sqrt_Rsqr_abs.
    destruct (Rlt_dec y 0) as [L|L].
    + replace (- (1 / 2) * PI) with (- (PI / 2)) by field. rewrite cos_neg, sin_neg, cos_PI2, sin_PI2, Rabs_left by lra.
      split; [ring|split; [ring|]]. intros [?|?]; [easy|lra].
    + replace (1 / 2 * PI) with (PI / 2) by field. rewrite cos_PI2, sin_PI2, Rabs_right by lra.
      split; [ring|split; [ring|]]. intros _. lra.
  - destruct (atan2_spec y x N) as (C & S & B). destruct (Rlt_dec (atan2 y x) 0) as [L|L].
    + replace (atan2 y x + 2 * PI) with (atan2 y x + 2 * INR 1 * PI) by (cbn; ring).
      rewrite cos_period, sin_period. split; [assumption|split; [assumption|]]. intros _. cbn. lra.
    + split; [assumption|split; [assumption|]]. intros _. lra.
Qed.

Lemma norm_unfold x y z : norm (x, y, z) = sqrt (x * x + y * y + z * z).
Proof. reflexivity. Qed.
Lemma big_norm x y z : representable x -> representable y -> representable z -> (x, y, z) <> zero -> eps <= norm (x, y, z).
Proof.
  unfold representable. rewrite spacing_eps. intros X Y Z N. pose proof eps_pos as E.
  assert (G : forall a s, eps <= Rabs a -> a * a <= s -> eps <= sqrt s).
  { intros a s G L. apply Rle_trans with (1 := G). rewrite <- sqrt_Rsqr_abs. apply sqrt_le_1_alt. exact L. }
  rewrite norm_unfold.
  destruct X as [->|X]; [|apply (G x); [assumption|nra]].
  destruct Y as [->|Y]; [|apply (G y); [assumption|nra]].
  destruct Z as [->|Z]; [now contradict N|]. apply (G z); [assumption|nra].
Qed.

Lemma radius_spec x y z : fst (fst (xyz2rtp (x, y, z))) = if Rlt_dec (norm (x, y, z)) eps then 0 else norm (x, y, z).
Proof.
  cbn [xyz2rtp fst]. fold (dot (x, y, z) (x, y, z)). change (sqrt (x * x + y * y + z * z)) with (norm (x, y, z)).
  rewrite Rabs_right by (apply Rle_ge, norm_nonneg). reflexivity.
Qed.
Lemma polar_spec x y z : eps <= norm (x, y, z) -> snd (fst (xyz2rtp (x, y, z))) = acos (z / norm (x, y, z)).
Proof.
  intros H. pose proof eps_pos. cbn [xyz2rtp fst snd]. change (sqrt (x * x + y * y + z * z)) with (norm (x, y, z)).
  rewrite Rabs_right by (apply Rle_ge, norm_nonneg). destruct (Rlt_dec _ _); [lra|].
  destruct (Req_EM_T _ _); [lra|reflexivity].
Qed.
Lemma cosine_range x y z : 0 < norm (x, y, z) -> -1 <= z / norm (x, y, z) <= 1.
Proof.
  intros P. pose proof (norm_sq (x, y, z)) as Q. cbn [dot] in Q. set (n := norm (x, y, z)) in *.
  assert (- n <= z <= n) by nra.
  split; apply Rmult_le_reg_r with n; try assumption; unfold Rdiv; rewrite Rmult_assoc, Rinv_l by lra; lra.
Qed.
Lemma polar_sine x y z : 0 < norm (x, y, z) -> norm (x, y, z) * sin (acos (z / norm (x, y, z))) = sqrt (x * x + y * y).
Proof.
  intros P. pose proof (cosine_range x y z P) as C. rewrite sin_acos by assumption.
  pose proof (norm_sq (x, y, z)) as Q. cbn [dot] in Q. set (n := norm (x, y, z)) in *.
  replace n with (sqrt (n * n)) at 1 by (apply sqrt_square; lra).
  rewrite <- sqrt_mult_alt by nra. f_equal. unfold Rsqr.
  replace (n * n * (1 - z / n * (z / n))) with (n * n - z * z) by (field; lra). lra.
Qed.

Lemma round_trip x y z : representable x -> representable y -> representable z ->
  rtp2xyz (xyz2rtp (x, y, z)) = (x, y, z).
Proof.
  intros X Y Z. pose proof eps_pos as E.
  destruct (xyz2rtp (x, y, z)) as [[r t] p] eqn:V.
  assert (Er : r = fst (fst (xyz2rtp (x, y, z)))) by now rewrite V.
  assert (Et : t = snd (fst (xyz2rtp (x, y, z)))) by now rewrite V.
  assert (Ep : p = azimuth x y) by (rewrite <- (xyz2rtp_azimuth x y z); now rewrite V).
  cbn [rtp2xyz]. rewrite radius_spec in Er.
  destruct (azimuth_spec x y) as (C & S & _). rewrite <- Ep in C, S.
  destruct (Rlt_dec (norm (x, y, z)) eps) as [L|L].
  - assert (Q : (x, y, z) = zero).
    { destruct (Req_dec x 0) as [->|Nx]; [destruct (Req_dec y 0) as [->|Ny]; [destruct (Req_dec z 0) as [->|Nz]; [reflexivity|]|]|];
      (assert (eps <= norm _) by (eapply (big_norm _ _ _ X Y Z); unfold zero; intros [=]; easy); lra). }
    injection Q as -> -> ->. rewrite Er, !Rmult_0_l, !floor_id by now left. reflexivity.
  - assert (G : eps <= norm (x, y, z)) by lra. rewrite (polar_spec x y z G) in Et.
    assert (P : 0 < norm (x, y, z)) by lra. pose proof (polar_sine x y z P) as T. rewrite <- Et, <- Er in T.
    rewrite T. replace (sqrt (x * x + y * y) * cos p) with x by lra. replace (sqrt (x * x + y * y) * sin p) with y by lra.
    replace (r * cos t) with z.
    + now rewrite !floor_id.
    + rewrite Et, cos_acos by now apply cosine_range. rewrite Er. field. lra.
Qed.

Lemma same_angle a b : 0 <= a < 2 * PI -> 0 <= b < 2 * PI -> cos a = cos b -> sin a = sin b -> a = b.
Proof.
  intros A B C S. pose proof PI_RGT_0.
  assert (D : cos (a - b) = 1). { rewrite cos_minus, C, S. pose proof (sin2_cos2 b). unfold Rsqr in *. lra. }
  replace (a - b) with (2 * ((a - b) / 2)) in D by field. rewrite cos_2a_sin in D.
  assert (Z : sin ((a - b) / 2) = 0) by nra.
  destruct (Rtotal_order a b) as [L|[L|L]]; [|assumption|].
  - assert (sin ((a - b) / 2) < 0) by (apply sin_lt_0_var; lra). lra.
  - assert (0 < sin ((a - b) / 2)) by (apply sin_gt_0; lra). lra.
Qed.

Lemma back_trip r t p : eps <= r -> 0 < t < PI -> 0 <= p < 2 * PI -> p <> 3 * (PI / 2) ->
  xyz2rtp (x_ r t p, y_ r t p, z_ r t) = (r, t, p).
Proof.
  intros E T P N. pose proof eps_pos. pose proof PI_RGT_0.
  set (x := x_ r t p). set (y := y_ r t p). set (z := z_ r t).
  assert (Nr : norm (x, y, z) = r). { unfold norm, x, y, z. rewrite sphere. apply sqrt_square. lra. }
  assert (St : 0 < sin t) by (apply sin_gt_0; lra).
  assert (Rho : sqrt (x * x + y * y) = r * sin t).
  { rewrite <- (sqrt_square (r * sin t)) by nra. f_equal. unfold x, y, x_, y_.
    pose proof (sin2_cos2 p) as Q. unfold Rsqr in Q.
    replace (r * sin t * cos p * (r * sin t * cos p) + r * sin t * sin p * (r * sin t * sin p))
      with (r * sin t * (r * sin t) * (sin p * sin p + cos p * cos p)) by ring. rewrite Q. ring. }
  destruct (xyz2rtp (x, y, z)) as [[r' t'] p'] eqn:V.
  assert (Er : r' = fst (fst (xyz2rtp (x, y, z)))) by now rewrite V.
  assert (Et : t' = snd (fst (xyz2rtp (x, y, z)))) by now rewrite V.
  assert (Ep : p' = azimuth x y) by (rewrite <- (xyz2rtp_azimuth x y z); now rewrite V).
  rewrite radius_spec, Nr in Er. destruct (Rlt_dec r eps); [lra|]. subst r'.
  rewrite polar_spec, Nr in Et by lra.
  assert (t' = t) as ->.
  { rewrite Et. unfold z, z_. replace (r * cos t / r) with (cos t) by (field; lra). apply acos_cos. lra. }
  destruct (azimuth_spec x y) as (C & S & B). rewrite <- Ep, Rho in *.
  assert (p' = p) as ->; [|reflexivity].
  apply same_angle.
  - apply B. destruct (Req_dec x 0) as [X|X]; [right|now left].
    assert (K : cos p = 0). { unfold x, x_ in X. apply Rmult_integral in X as [X|X]; [|assumption]. exfalso. nra. }
    assert (p = PI / 2) as ->.
    { destruct (Rle_dec p PI) as [L|L].
      - destruct (Rtotal_order p (PI / 2)) as [Q|[Q|Q]]; [|assumption|].
        + assert (0 < cos p) by (apply cos_gt_0; lra). lra.
        + assert (cos p < 0) by (apply cos_lt_0; lra). lra.
      - exfalso. destruct (Rtotal_order p (3 * (PI / 2))) as [Q|[Q|Q]]; [|easy|].
        + assert (cos p < 0) by (apply cos_lt_0; lra). lra.
        + assert (0 < cos p); [|lra]. replace p with ((p - 2 * PI) + 2 * INR 1 * PI) by (cbn; ring). rewrite cos_period. apply cos_gt_0; lra. }
    unfold y, y_. rewrite sin_PI2. nra.
  - assumption.
  - apply Rmult_eq_reg_r with (r * sin t); [|nra]. rewrite C. unfold x, x_. ring.
  - apply Rmult_eq_reg_r with (r * sin t); [|nra]. rewrite S. unfold y, y_. ring.
Qed.
