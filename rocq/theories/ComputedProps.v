(** Properties of computed quantities. *)

From Coq Require Import String List Bool ZArith QArith Qcanon Qreals Reals SpecFloat Arith Lra Lia Psatz Sorted.
From Verif Require Import Py PyFacts PyDict QcOrder NumericalModel NumericalSpec NumericalProofs ComputedModel ComputedSpec ComputedProofs VectorProofs CoordinateProofs IntegralProofs FluxProofs SpectrumProofs.
Import ListNotations.
Open Scope list_scope.
Open Scope nat_scope.
Open Scope R_scope.

(** Conditions on explicit lists of numbers. *)
Ltac listing := unfold rising, follows; cbn [map fst snd];
  repeat first [apply SSorted_nil | apply SSorted_cons | apply Forall_nil | apply Forall_cons]; cbn [map fst snd]; unfold quadratic; try lra.

(** * Arguments *)

(** C54.  When the arrays come before the numbers, each parameter gets the
    value of its own dependency. *)
Theorem C54_arguments_partial : forall (A F : Type) params variadic (deps : list (str * dep A F)) ds1 ds2,
  provide deps params (ds1 ++ ds2) -> Forall is_array ds1 -> Forall is_number ds2 ->
  compute_arguments params variadic deps = Ok (own_arguments params (ds1 ++ ds2)).
Proof.
  intros A F params variadic deps ds1 ds2 P H1 H2. unfold compute_arguments.
  rewrite (parse_ordered deps params ds1 ds2 P H1).
  - cbn [bind]. apply bind_single.
    + eapply provide_length. exact P.
    + apply Forall_app. split.
      * apply Forall_impl with (2 := H1). now intros d [a ->].
      * apply Forall_impl with (2 := H2). now intros d [f [->| ->]].
  - apply Forall_impl with (2 := H2). intros d [f [->| ->]]; [left|right]; eauto.
Qed.
Print Assumptions C54_arguments_partial.
(** So does a last parameter that takes any number of numbers. *)
Theorem C54_variadic_partial : forall (A F : Type) params p (deps : list (str * dep A F)) ds1 ds2 d,
  provide deps (params ++ [p]) (ds1 ++ ds2 ++ [d]) -> Forall is_array ds1 -> Forall is_number ds2 -> are_numbers d ->
  compute_arguments (params ++ [p]) true deps = Ok (own_arguments (params ++ [p]) (ds1 ++ ds2 ++ [d])).
Proof.
  intros A F params p deps ds1 ds2 d P H1 H2 Hd. unfold compute_arguments.
  rewrite (parse_ordered deps (params ++ [p]) ds1 (ds2 ++ [d]) P H1).
  - cbn [bind]. rewrite app_assoc. apply bind_variadic.
    + apply provide_length in P. rewrite !app_length in *. cbn in P. lia.
    + apply Forall_app. split.
      * apply Forall_impl with (2 := H1). now intros e [a ->].
      * apply Forall_impl with (2 := H2). now intros e [f [->| ->]].
  - apply Forall_app. split; [|constructor; [exact Hd|constructor]].
    apply Forall_impl with (2 := H2). intros e [f [->| ->]]; [left|right]; eauto.
Qed.
Print Assumptions C54_variadic_partial.
(** A number of values other than the number of parameters raises TypeError,
    and a missing name KeyError. *)
Theorem C240_count : forall (A F : Type) params (deps : list (str * dep A F)) ds,
  provide deps params ds -> length (concat (map values_of ds)) <> length params ->
  compute_arguments params false deps = Err TypeError.
Proof.
  intros A F params deps ds P N. unfold compute_arguments.
  destruct (parse params deps) as [l|e] eqn:E.
  - cbn [bind]. pose proof (parse_count deps params ds l P E) as L.
    destruct (bind_arguments params false l) as [b|e] eqn:B.
    + apply bind_count in B. congruence.
    + f_equal. eapply bind_errors, B.
  - unfold parse in E. now rewrite (lookup_all deps params ds P) in E.
Qed.
Print Assumptions C240_count.
Theorem C240_unknown : forall (A F : Type) params variadic (deps : list (str * dep A F)) p,
  In p params -> d_get str_eqb deps p = None -> compute_arguments params variadic deps = Err KeyError.
Proof.
  intros A F params variadic deps p I N. unfold compute_arguments, parse. now rewrite (lookup_missing deps params p I N).
Qed.
Print Assumptions C240_unknown.
(** A function with a number before an array gets them swapped, and one with a
    missing value gets the next values in its place. *)
Theorem C54_refuted :
  ~ (forall params (deps : list (str * dep str Z)) ds bound, NoDup params -> provide deps params ds ->
       compute_arguments params false deps = Ok bound -> bound = own_arguments params ds).
Proof.
  intros H.
  specialize (H [lit "k"; lit "r"] [(lit "k", Num 3%Z); (lit "r", Arr (lit "data"))] [Num 3%Z; Arr (lit "data")]
    [(lit "k", [AArr (lit "data")]); (lit "r", [ANum 3%Z])]).
  assert (E : [(lit "k", [AArr (lit "data")]); (lit "r", [ANum 3%Z])] = own_arguments [lit "k"; lit "r"] [Num 3%Z; Arr (lit "data")]).
  { apply H; [repeat constructor; cbn; intuition discriminate|repeat constructor|reflexivity]. }
  discriminate E.
Qed.
Print Assumptions C54_refuted.
Theorem C54_missing_refuted :
  ~ (forall params (deps : list (str * dep str Z)) ds bound, NoDup params -> provide deps params ds ->
       compute_arguments params true deps = Ok bound -> bound = own_arguments params ds).
Proof.
  intros H.
  specialize (H [lit "energies"; lit "flux"; lit "minimum"] [(lit "energies", Missing); (lit "flux", Arr (lit "data")); (lit "minimum", Nums [1%Z; 2%Z])]
    [Missing; Arr (lit "data"); Nums [1%Z; 2%Z]]
    [(lit "energies", [AArr (lit "data")]); (lit "flux", [ANum 1%Z]); (lit "minimum", [ANum 2%Z])]).
  assert (E : [(lit "energies", [AArr (lit "data")]); (lit "flux", [ANum 1%Z]); (lit "minimum", [ANum 2%Z])]
    = own_arguments [lit "energies"; lit "flux"; lit "minimum"] [Missing; Arr (lit "data"); Nums [1%Z; 2%Z]]).
  { apply H; [repeat constructor; cbn; intuition discriminate|repeat constructor|reflexivity]. }
  discriminate E.
Qed.
Print Assumptions C54_missing_refuted.
Example C54_case : compute_arguments [lit "energies"; lit "flux"; lit "minimum"] true
    [(lit "minimum", Nums [1%Z; 2%Z]); (lit "flux", Arr (lit "F")); (lit "energies", Arr (lit "E"))]
  = Ok [(lit "energies", [AArr (lit "E")]); (lit "flux", [AArr (lit "F")]); (lit "minimum", [ANum 1%Z; ANum 2%Z])].
Proof.
  apply (C54_variadic_partial str Z [lit "energies"; lit "flux"] (lit "minimum") _ [Arr (lit "E"); Arr (lit "F")] [] (Nums [1%Z; 2%Z])).
  - repeat constructor.
  - repeat constructor; eexists; reflexivity.
  - constructor.
  - right. eexists. reflexivity.
Qed.

(** * Velocities *)

(** C55.  In exact arithmetic, the components decompose the speed wherever
    there is a field. *)
Theorem C55_decomposition_partial : forall v b, b <> zero ->
  exists p q, para v b = Some p /\ perp v b = Some q
  /\ p * norm b = dot v b /\ 0 <= q /\ p * p + q * q = dot v v.
Proof.
  intros v b N. pose proof (norm_pos b N). exists (dot b v / norm b). eexists. split; [now apply para_eq|].
  split; [now apply perp_eq|]. split; [rewrite (dot_comm v); field; lra|]. split; [apply sqrt_pos|].
  rewrite sqrt_sqrt by now apply perp_arg. rewrite norm_sq. ring.
Qed.
Print Assumptions C55_decomposition_partial.
(** Without a field there are none. *)
Theorem C55_no_field : forall v, para v zero = None /\ perp v zero = None.
Proof.
  intros v. split; [apply para_zero|]. pose proof (para_zero v) as E. destruct v as [[x y] z].
  unfold perp, zero, v_perp. cbn zeta. unfold para, zero in E. rewrite E. rewrite v_mag_eq. reflexivity.
Qed.
Print Assumptions C55_no_field.
(** In binary64 a flow along the field may have no perpendicular component at
    all: its square is negative. *)
Theorem C55_refuted :
  ~ (forall vr vt vp br bt bp : Z, (Z.abs vr <= 5)%Z -> (Z.abs vt <= 5)%Z -> (Z.abs vp <= 5)%Z ->
       (br, bt, bp) <> (0%Z, 0%Z, 0%Z) -> (Z.abs br <= 5)%Z -> (Z.abs bt <= 5)%Z -> (Z.abs bp <= 5)%Z ->
       v_perp binary64 (float_of vr) (float_of vt) (float_of vp) (float_of br) (float_of bt) (float_of bp) <> S754_nan).
Proof.
  intros H.
  assert (E : v_perp binary64 (float_of 0) (float_of 1) (float_of 5) (float_of 0) (float_of 1) (float_of 5) = S754_nan) by (vm_compute; reflexivity).
  revert E. apply H; [lia|lia|lia|discriminate|lia|lia|lia].
Qed.
Print Assumptions C55_refuted.
Example C55_case : exists p q, para (3, 4, 0) (0, 2, 0) = Some p /\ perp (3, 4, 0) (0, 2, 0) = Some q /\ p * p + q * q = 25.
Proof.
  destruct (C55_decomposition_partial (3, 4, 0) (0, 2, 0)) as (p & q & P & Q & _ & _ & E).
  - unfold zero. intros [= ?]. lra.
  - exists p, q. split; [assumption|split; [assumption|]]. rewrite E. cbn. ring.
Qed.

(** C56.  For unit velocities, and for velocities across the field, the angle
    has the right cosine. *)
Theorem C56_angle_partial : forall b v, b <> zero -> v <> zero -> norm v = 1 \/ dot b v = 0 ->
  exists a, angle_of b v = Some a /\ 0 <= a <= PI /\ cos a * (norm b * norm v) = dot b v.
Proof.
  intros b v Nb Nv H. pose proof (norm_pos _ Nb). pose proof (norm_pos _ Nv). rewrite (angle_eq b v Nb Nv).
  eexists. split; [reflexivity|]. split; [apply acos_bound|]. rewrite cos_acos by apply clamp_range.
  rewrite clamp_id.
  - destruct H as [E|E]; [rewrite E; field; lra|]. rewrite E. unfold Rdiv. ring.
  - destruct H as [E|E].
    + pose proof (dot_bound b v) as D. rewrite E in *. apply abs_le in D.
      split; apply Rmult_le_reg_r with (norm b * (1 * 1)); try lra; unfold Rdiv; rewrite Rmult_assoc, Rinv_l by lra; lra.
    + rewrite E. unfold Rdiv. rewrite Rmult_0_l. lra.
Qed.
Print Assumptions C56_angle_partial.
(** In general the cosine is smaller by the speed. *)
Theorem C241_angle_actual : forall b v, b <> zero -> 1 <= norm v ->
  exists a, angle_of b v = Some a /\ 0 <= a <= PI /\ cos a * (norm b * norm v) * norm v = dot b v.
Proof.
  intros b v Nb G. assert (Nv : v <> zero).
  { intros ->. unfold norm in G. cbn in G. replace (0 * 0 + 0 * 0 + 0 * 0) with 0 in G by ring. rewrite sqrt_0 in G. lra. }
  pose proof (norm_pos _ Nb). rewrite (angle_eq b v Nb Nv).
  eexists. split; [reflexivity|]. split; [apply acos_bound|]. rewrite cos_acos by apply clamp_range.
  assert (P : 0 < norm b * (norm v * norm v)) by (apply Rmult_lt_0_compat; [assumption|nra]).
  rewrite clamp_id; [field; split; lra|].
  pose proof (dot_bound b v) as D. assert (D' : Rabs (dot b v) <= norm b * (norm v * norm v)) by nra. apply abs_le in D'.
  split; apply Rmult_le_reg_r with (norm b * (norm v * norm v)); try assumption; unfold Rdiv; rewrite Rmult_assoc, Rinv_l by lra; lra.
Qed.
Print Assumptions C241_angle_actual.
(** The angle is on the right side of the plane across the field. *)
Theorem C241_side : forall b v, b <> zero -> v <> zero ->
  exists a, angle_of b v = Some a /\ 0 <= a <= PI /\ (0 < cos a <-> 0 < dot b v) /\ (cos a < 0 <-> dot b v < 0).
Proof.
  intros b v Nb Nv. pose proof (norm_pos _ Nb). pose proof (norm_pos _ Nv). rewrite (angle_eq b v Nb Nv).
  eexists. split; [reflexivity|]. split; [apply acos_bound|]. rewrite cos_acos by apply clamp_range.
  assert (P : 0 < norm b * (norm v * norm v)) by (apply Rmult_lt_0_compat; [assumption|nra]).
  set (q := dot b v / (norm b * (norm v * norm v))). assert (E : dot b v = q * (norm b * (norm v * norm v))) by (subst q; field; lra).
  clearbody q. rewrite E. generalize dependent (norm b * (norm v * norm v)). intros d P _.
  assert (S : (0 < clamp q <-> 0 < q) /\ (clamp q < 0 <-> q < 0)).
  { unfold clamp. destruct (Rlt_dec q (-1)); destruct (Rlt_dec 1 _); lra. }
  destruct S as [S1 S2]. rewrite S1, S2. split; split; intros; nra.
Qed.
Print Assumptions C241_side.
Theorem C56_refuted :
  ~ (forall b v, b <> zero -> v <> zero -> exists a, angle_of b v = Some a /\ cos a * (norm b * norm v) = dot b v).
Proof.
  intros H. assert (E2 : norm (2, 0, 0) = 2). { unfold norm. cbn. replace (2 * 2 + 0 * 0 + 0 * 0) with (2 * 2) by ring. apply sqrt_square. lra. }
  assert (E1 : norm (1, 0, 0) = 1). { unfold norm. cbn. replace (1 * 1 + 0 * 0 + 0 * 0) with 1 by ring. apply sqrt_1. }
  assert (N1 : (1, 0, 0) <> zero) by (unfold zero; intros [= ?]; lra).
  assert (N2 : (2, 0, 0) <> zero) by (unfold zero; intros [= ?]; lra).
  destruct (H (1, 0, 0) (2, 0, 0) N1 N2) as (a & E & C).
  destruct (C241_angle_actual (1, 0, 0) (2, 0, 0) N1) as (a' & E' & _ & C'); [lra|].
  assert (a' = a) by congruence. subst a'. rewrite C in C'. rewrite E2 in C'. cbn in C'. lra.
Qed.
Print Assumptions C56_refuted.
Theorem C241_undefined : forall b v, b = zero \/ v = zero -> angle_of b v = None.
Proof. exact angle_none. Qed.
Print Assumptions C241_undefined.
Example C56_case : exists a, angle_of (0, 2, 0) (3, 0, 0) = Some a /\ cos a * (norm (0, 2, 0) * norm (3, 0, 0)) = 0.
Proof.
  destruct (C56_angle_partial (0, 2, 0) (3, 0, 0)) as (a & E & _ & C); try (unfold zero; intros [= ?]; lra).
  - right. cbn. ring.
  - exists a. split; [assumption|]. rewrite C. cbn. ring.
Qed.

(** * Coordinates *)

(** C124.  The Cartesian components of a position lie at its radius, and away
    from the poles and from one meridian convert back to the same radius and
    angles. *)
Theorem C124_radius : forall r t p, 0 <= r -> norm (x_ r t p, y_ r t p, z_ r t) = r.
Proof. intros r t p H. unfold norm. rewrite sphere. now apply sqrt_square. Qed.
Print Assumptions C124_radius.
Theorem C124_back_partial : forall r t p, spacing <= r -> 0 < t < PI -> 0 <= p < 2 * PI -> p <> 3 * (PI / 2) ->
  xyz2rtp (x_ r t p, y_ r t p, z_ r t) = (r, t, p).
Proof. exact back_trip. Qed.
Print Assumptions C124_back_partial.
Theorem C124_refuted :
  ~ (forall r t p, spacing <= r -> 0 < t < PI -> 0 <= p < 2 * PI -> xyz2rtp (x_ r t p, y_ r t p, z_ r t) = (r, t, p)).
Proof.
  intros H. pose proof PI_RGT_0. pose proof eps_small. rewrite spacing_eps in H.
  specialize (H 1 (PI / 2) (3 * (PI / 2)) ltac:(lra) ltac:(lra) ltac:(lra)).
  apply (f_equal snd) in H. rewrite xyz2rtp_azimuth in H. cbn [snd] in H.
  assert (X : x_ 1 (PI / 2) (3 * (PI / 2)) = 0) by (unfold x_; rewrite cos_3PI2; ring).
  assert (Y : y_ 1 (PI / 2) (3 * (PI / 2)) = -1) by (unfold y_; rewrite sin_PI2, sin_3PI2; ring).
  rewrite X, Y in H. unfold azimuth in H. cbn [xyz2rtp snd] in H.
  destruct (Req_EM_T 0 0); [|lra]. destruct (Rlt_dec (-1) 0); lra.
Qed.
Print Assumptions C124_refuted.
Example C124_case : xyz2rtp (x_ 3 1 1, y_ 3 1 1, z_ 3 1) = (3, 1, 1).
Proof. pose proof PI2_1. pose proof PI_RGT_0. pose proof eps_small. apply C124_back_partial; rewrite ?spacing_eps; lra. Qed.

(** C125.  Converting a vector to radius and angles and back restores it, when
    its components are not smaller than the spacing of numbers near one. *)
Theorem C125_round_trip_partial : forall x y z, representable x -> representable y -> representable z ->
  rtp2xyz (xyz2rtp (x, y, z)) = (x, y, z).
Proof. exact round_trip. Qed.
Print Assumptions C125_round_trip_partial.
Theorem C125_refuted : ~ (forall v, rtp2xyz (xyz2rtp v) = v).
Proof.
  intros H. pose proof eps_pos as E. specialize (H (0, 0, eps / 2)).
  apply (f_equal snd) in H. cbn [xyz2rtp rtp2xyz snd] in H.
  replace (0 * 0 + 0 * 0 + eps / 2 * (eps / 2)) with ((eps / 2) * (eps / 2)) in H by ring.
  rewrite sqrt_square in H by lra. rewrite Rabs_right in H by lra. destruct (Rlt_dec (eps / 2) eps); [|lra].
  rewrite Rmult_0_l in H. rewrite floor_id in H by now left. lra.
Qed.
Print Assumptions C125_refuted.
(** Vectors shorter than that become zero. *)
Theorem C125_short : forall v, norm v < spacing -> rtp2xyz (xyz2rtp v) = (0, 0, 0).
Proof.
  intros [[x y] z] H. rewrite spacing_eps in H. pose proof (radius_spec x y z) as R.
  destruct (xyz2rtp (x, y, z)) as [[r t] p]. cbn [fst] in R. destruct (Rlt_dec (norm (x, y, z)) eps); [|lra]. subst r.
  unfold rtp2xyz. rewrite !Rmult_0_l. assert (F : zero_floor 0 = 0) by (apply floor_id; now left). now rewrite F.
Qed.
Print Assumptions C125_short.
Example C125_case : rtp2xyz (xyz2rtp (1, -2, 0)) = (1, -2, 0).
Proof.
  pose proof eps_small. apply C125_round_trip_partial; [right; rewrite spacing_eps|right; rewrite spacing_eps|now left].
  - rewrite Rabs_right by lra. lra.
  - rewrite Rabs_left by lra. lra.
Qed.

(** C126.  The radius is that of the vector, the polar angle is between 0 and
    pi, and the azimuth between 0 and two pi unless the vector lies in the
    half-plane x = 0, y < 0. *)
Theorem C126_ranges_partial : forall x y z r t p, xyz2rtp (x, y, z) = (r, t, p) ->
  (r = norm (x, y, z) \/ r = 0 /\ norm (x, y, z) < spacing) /\ 0 <= t <= PI /\ (x <> 0 \/ 0 <= y -> 0 <= p < 2 * PI).
Proof.
  intros x y z r t p H. pose proof PI_RGT_0.
  assert (Er : r = fst (fst (xyz2rtp (x, y, z)))) by now rewrite H.
  assert (Et : t = snd (fst (xyz2rtp (x, y, z)))) by now rewrite H.
  assert (Ep : p = azimuth x y) by (rewrite <- (xyz2rtp_azimuth x y z); now rewrite H).
  rewrite radius_spec in Er. split; [|split].
  - destruct (Rlt_dec _ _); [right|left]; now split || assumption.
  - rewrite Et. cbn [xyz2rtp fst snd]. destruct (Req_EM_T _ 0); [lra|]. apply acos_bound.
  - rewrite Ep. apply azimuth_spec.
Qed.
Print Assumptions C126_ranges_partial.
Theorem C126_refuted : ~ (forall x y z r t p, xyz2rtp (x, y, z) = (r, t, p) -> 0 <= p < 2 * PI).
Proof.
  intros H. pose proof PI_RGT_0. destruct (xyz2rtp (0, -1, 0)) as [[r t] p] eqn:E. pose proof (H _ _ _ _ _ _ E) as P.
  apply (f_equal snd) in E. cbn [xyz2rtp snd] in E. destruct (Req_EM_T 0 0); [|lra]. destruct (Rlt_dec (-1) 0); lra.
Qed.
Print Assumptions C126_refuted.
Example C126_case : forall r t p, xyz2rtp (-1, -1, 0) = (r, t, p) -> 0 <= p < 2 * PI.
Proof. intros r t p H. apply (C126_ranges_partial _ _ _ _ _ _ H). left. lra. Qed.

(** * Particles *)

(** C127.  Rigidity is momentum per charge: the momentum satisfies the
    relativistic relation between total and rest energy; rigidity increases
    with energy and vanishes at rest. *)
Theorem C127_rigidity : forall c e m q, 0 < c -> 0 < m -> 0 < q -> 0 <= e ->
  exists g, rigidity c e m q = Some g /\ 0 <= g
  /\ (g * q * c) ^ 2 + (m * c ^ 2) ^ 2 = (e + m * c ^ 2) ^ 2.
Proof.
  intros c e m q C M Q E. rewrite (rigidity_eq c e m q) by lra. eexists. split; [reflexivity|].
  assert (A : 0 < m * (c * c)) by (apply Rmult_lt_0_compat; nra).
  set (s := (e + m * (c * c)) * (e + m * (c * c)) - m * (c * c) * (m * (c * c))).
  assert (S : 0 <= s). { unfold s. revert A. generalize (m * (c * c)). intros. nra. }
  split.
  - unfold Rdiv. repeat apply Rmult_le_pos; [apply sqrt_pos|left; now apply Rinv_0_lt_compat..].
  - replace (sqrt s / c / q * q * c) with (sqrt s) by (field; lra). cbn [pow]. rewrite Rmult_1_r, sqrt_sqrt by assumption. unfold s. ring.
Qed.
Print Assumptions C127_rigidity.
Theorem C127_monotone : forall c e1 e2 m q g1 g2, 0 < c -> 0 < m -> 0 < q -> 0 <= e1 -> e1 < e2 ->
  rigidity c e1 m q = Some g1 -> rigidity c e2 m q = Some g2 -> g1 < g2.
Proof.
  intros c e1 e2 m q g1 g2 C M Q E1 L H1 H2.
  destruct (C127_rigidity c e1 m q C M Q E1) as (a & A1 & A2 & A3).
  destruct (C127_rigidity c e2 m q C M Q ltac:(lra)) as (b & B1 & B2 & B3).
  assert (a = g1) by congruence. assert (b = g2) by congruence. subst a b.
  assert (K : 0 < m * c ^ 2) by (apply Rmult_lt_0_compat; [assumption|cbn; nra]).
  assert (D : (g1 * q * c) ^ 2 < (g2 * q * c) ^ 2). { revert A3 B3 K. generalize (m * c ^ 2). intros. nra. }
  assert (P : 0 < q * c) by nra.
  assert (G : g1 * (q * c) < g2 * (q * c)).
  { apply Rsqr_incrst_0; [unfold Rsqr; cbn [pow] in D; nra|nra..]. }
  now apply Rmult_lt_reg_r in G.
Qed.
Print Assumptions C127_monotone.
Theorem C127_rest : forall c m q, 0 < c -> 0 < m -> 0 < q -> rigidity c 0 m q = Some 0.
Proof.
  intros c m q C M Q. rewrite rigidity_eq by lra. f_equal.
  replace ((0 + m * (c * c)) * (0 + m * (c * c)) - m * (c * c) * (m * (c * c))) with 0 by ring. rewrite sqrt_0. unfold Rdiv. ring.
Qed.
Print Assumptions C127_rest.
Example C127_case : exists g, rigidity 1 1 1 2 = Some g /\ (g * 2 * 1) ^ 2 + (1 * 1 ^ 2) ^ 2 = 4.
Proof. destruct (C127_rigidity 1 1 1 2) as (g & E & _ & H); try lra. exists g. split; [assumption|]. rewrite H. ring. Qed.

(** C128.  The mean free path is the reference one at the reference radius and
    energy, varies as a power of the radius and of the momentum, and does not
    depend on the charge. *)
Theorem C128_reference : forall c au e0 m q a b l0, 0 < c -> 0 < au -> 0 < e0 -> 0 < m -> 0 < q ->
  mean_free_path c au e0 au e0 m q a b l0 = Some l0.
Proof.
  intros c au e0 m q a b l0 C U E M Q.
  destruct (C127_rigidity c e0 m q C M Q ltac:(lra)) as (g & G & P & _).
  pose proof (C127_monotone c 0 e0 m q 0 g C M Q ltac:(lra) E (C127_rest c m q C M Q) G) as P'.
  unfold mean_free_path. rewrite G. cbn [lift2]. rewrite real_div_ok by lra.
  replace (g / g) with 1 by (field; lra). replace (au / au) with 1 by (field; lra).
  unfold Rpower. rewrite ln_1, !Rmult_0_r, exp_0. f_equal. ring.
Qed.
Print Assumptions C128_reference.
Theorem C128_radius : forall c au e0 r k e m q a b l0, 0 < c -> 0 < au -> 0 < e0 -> 0 < m -> 0 < q -> 0 <= e -> 0 < r -> 0 < k ->
  exists l, mean_free_path c au e0 r e m q a b l0 = Some l
  /\ mean_free_path c au e0 (k * r) e m q a b l0 = Some (Rpower k a * l).
Proof.
  intros c au e0 r k e m q a b l0 C U E M Q Ee Rr K.
  destruct (C127_rigidity c e0 m q C M Q ltac:(lra)) as (g & G & P & _).
  pose proof (C127_monotone c 0 e0 m q 0 g C M Q ltac:(lra) E (C127_rest c m q C M Q) G) as P'.
  destruct (C127_rigidity c e m q C M Q Ee) as (h & H & _).
  unfold mean_free_path. rewrite G, H. cbn [lift2]. rewrite real_div_ok by lra. eexists. split; [reflexivity|]. f_equal.
  replace (k * r / au) with (k * (r / au)) by (field; lra).
  rewrite <- Rpower_mult_distr; [ring|assumption|]. now apply Rdiv_lt_0_compat.
Qed.
Print Assumptions C128_radius.
Theorem C128_charge : forall c au e0 r e m q q' a b l0, 0 < c -> 0 < au -> 0 < e0 -> 0 < m -> 0 < q -> 0 < q' -> 0 <= e ->
  mean_free_path c au e0 r e m q a b l0 = mean_free_path c au e0 r e m q' a b l0.
Proof.
  intros c au e0 r e m q q' a b l0 C U E M Q Q' Ee.
  pose proof (C127_rigidity c e0 m q C M Q ltac:(lra)) as (g & G & P & _).
  pose proof (C127_monotone c 0 e0 m q 0 g C M Q ltac:(lra) E (C127_rest c m q C M Q) G) as P'.
  pose proof (C127_rigidity c e0 m q' C M Q' ltac:(lra)) as (g' & G' & T & _).
  pose proof (C127_monotone c 0 e0 m q' 0 g' C M Q' ltac:(lra) E (C127_rest c m q' C M Q') G') as T'.
  unfold mean_free_path. rewrite !(rigidity_eq c e) by lra. rewrite G, G'. cbn [lift2]. rewrite !real_div_ok by lra.
  do 4 f_equal. rewrite (rigidity_eq c e0) in G, G' by lra.
  set (s0 := sqrt _) in *. injection G as <-. injection G' as <-.
  assert (s0 <> 0). { intros Z. rewrite Z in P'. unfold Rdiv in P'. lra. }
  field. repeat split; lra.
Qed.
Print Assumptions C128_charge.
Example C128_case : mean_free_path 3 2 1 2 1 1 1 (2 / 1) (1 / 3) 7 = Some 7.
Proof. apply C128_reference; lra. Qed.

(** * Densities *)

(** C129.  The density ratio is one at the first time, gives the density
    relative to it at every time, and does not depend on the unit of
    density. *)
Theorem C129_ratio : forall r0 rho i r, r0 <> 0 -> nth_error (r0 :: rho) i = Some r ->
  exists q, nth_error (density_ratio (r0 :: rho)) i = Some (Some q) /\ q * r0 = r /\ (i = 0%nat -> q = 1).
Proof.
  intros r0 rho i r N E. exists (r / r0). split; [now apply density_ratio_nth|]. split; [field; assumption|].
  intros ->. injection E as <-. field. assumption.
Qed.
Print Assumptions C129_ratio.
Theorem C129_scale : forall k r0 rho, k <> 0 -> r0 <> 0 -> density_ratio (map (Rmult k) (r0 :: rho)) = density_ratio (r0 :: rho).
Proof. intros k r0 rho K N. apply density_ratio_scale; [assumption|]. now intros ? ? [= <- <-]. Qed.
Print Assumptions C129_scale.
Example C129_case : nth_error (density_ratio [2; 4]) 1 = Some (Some (4 / 2)).
Proof. apply density_ratio_nth; [lra|reflexivity]. Qed.

(** C130.  The divergence of a flow whose density decays exponentially is its
    rate of decay at every time, whatever the times; it does not depend on the
    unit of density; and fewer than two times raise ValueError. *)
Theorem C130_exponential : forall rho0 k l, 0 < rho0 -> (2 <= length l)%nat -> rising (map fst l) ->
  follows (fun t => rho0 * exp (- (k * t))) l -> div_v l = Ok (repeat k (length l)).
Proof. exact div_v_exponential. Qed.
Print Assumptions C130_exponential.
Theorem C130_scale : forall c l, 0 < c -> rising (map fst l) -> Forall (fun p => 0 < snd p) l ->
  div_v (map (fun p => (fst p, c * snd p)) l) = div_v l.
Proof. exact div_v_scale. Qed.
Print Assumptions C130_scale.
Theorem C130_short : forall l, (length l < 2)%nat -> div_v l = Err ValueError.
Proof. intros [|p [|q l]] L; [reflexivity..|cbn in L; lia]. Qed.
Print Assumptions C130_short.
Example C130_case : div_v [(0, 5); (1, 5); (3, 5)] = Ok [0; 0; 0].
Proof.
  apply (C130_exponential 5 0); [lra|cbn; lia| |].
  - listing.
  - listing; rewrite ?Rmult_0_l, ?Ropp_0, exp_0; lra.
Qed.

(** C131.  The isotropic distribution lies between the least and greatest
    values over the pitch angles; an isotropic one is unchanged. *)
Theorem C131_mean : forall lo hi l, l <> [] -> Forall (fun x => lo <= x <= hi) l ->
  exists a, isotropic_distribution l = Some a /\ lo <= a <= hi.
Proof. exact isotropic_bounds. Qed.
Print Assumptions C131_mean.
Theorem C131_isotropic : forall n x, isotropic_distribution (repeat x (S n)) = Some x.
Proof.
  intros n x. destruct (isotropic_bounds x x (repeat x (S n))) as (a & E & B); [discriminate| |].
  - rewrite Forall_forall. intros y I. apply repeat_spec in I. lra.
  - rewrite E. f_equal. lra.
Qed.
Print Assumptions C131_isotropic.
Theorem C131_additive : forall k l m, length l = length m ->
  isotropic_distribution (map2 (fun x y => k * x + y) l m)
  = lift2 (fun a b => Some (k * a + b)) (isotropic_distribution l) (isotropic_distribution m).
Proof.
  intros k l m L. unfold isotropic_distribution. rewrite map2_length, <- L by assumption.
  assert (E : sum (map2 (fun x y => k * x + y) l m) = k * sum l + sum m).
  { revert m L. induction l as [|x l IH]; intros [|y m] L; try easy; cbn; [ring|].
    fold (sum (map2 (fun x y => k * x + y) l m)) (sum l) (sum m). rewrite IH; [ring|]. now injection L. }
  unfold real_div. destruct (Req_EM_T (INR (length l)) 0); [reflexivity|]. cbn. f_equal. rewrite E. field. assumption.
Qed.
Print Assumptions C131_additive.
Example C131_case : exists a, isotropic_distribution [1; 3; 2] = Some a /\ 1 <= a <= 3.
Proof. apply C131_mean; [discriminate|]. listing. Qed.

(** C132.  The average energy of protons lies between the least and greatest
    kinetic energies, and does not depend on the unit of the distribution. *)
Theorem C132_average_partial : forall mp l, 0 < mp -> (2 <= length l)%nat -> rising (map fst l) -> 0 <= first l ->
  Forall (fun p => 0 <= snd p) l -> Exists (fun p => 0 < fst p /\ 0 < snd p) l ->
  exists a, average_energy mp l = Ok (Some a) /\ 1 / 2 * mp * first l ^ 2 <= a <= 1 / 2 * mp * final l ^ 2.
Proof. exact average_bounds. Qed.
Print Assumptions C132_average_partial.
Theorem C132_scale : forall mp k l, k <> 0 -> average_energy mp (map (fun p => (fst p, k * snd p)) l) = average_energy mp l.
Proof. exact average_scale. Qed.
Print Assumptions C132_scale.
(** For heavier particles it does not: their mass is not taken into account. *)
Theorem C132_refuted :
  ~ (forall mp m l, 0 < mp -> mp <= m -> (2 <= length l)%nat -> rising (map fst l) -> 0 <= first l ->
       Forall (fun p => 0 <= snd p) l -> Exists (fun p => 0 < fst p /\ 0 < snd p) l ->
       exists a, average_energy mp l = Ok (Some a) /\ 1 / 2 * m * first l ^ 2 <= a <= 1 / 2 * m * final l ^ 2).
Proof.
  intros H.
  assert (S : rising (map fst [(2, 1); (3, 1)])) by listing.
  assert (P : Forall (fun p => 0 <= snd p) [(2, 1); (3, 1)]) by listing.
  assert (X : Exists (fun p => 0 < fst p /\ 0 < snd p) [(2, 1); (3, 1)]) by (left; cbn; lra).
  destruct (H 1 4 [(2, 1); (3, 1)]) as (a & E & B); try assumption; try (cbn; lra || lia).
  destruct (average_bounds 1 [(2, 1); (3, 1)]) as (a' & E' & B'); try assumption; try (cbn; lra || lia).
  assert (a' = a) by congruence. subst a'. unfold first, final in *. cbn in *. lra.
Qed.
Print Assumptions C132_refuted.
Theorem C132_single : forall mp p, average_energy mp [p] = Err ValueError.
Proof. reflexivity. Qed.
Print Assumptions C132_single.
Example C132_case : exists a, average_energy 2 [(1, 5); (2, 0); (3, 1)] = Ok (Some a) /\ 1 <= a <= 9.
Proof.
  destruct (C132_average_partial 2 [(1, 5); (2, 0); (3, 1)]) as (a & E & B).
  - lra.
  - cbn; lia.
  - listing.
  - unfold first; cbn; lra.
  - listing.
  - left; cbn; lra.
  - exists a. split; [assumption|]. unfold first, final in B. cbn in B. lra.
Qed.

(** C133.  The flux of particles of the given speed and distribution is
    v^2 f / m for protons, and not for other particles. *)
Theorem C133_flux_partial : forall mp v f, 0 < mp -> flux mp (1 / 2 * mp * v ^ 2) f = v ^ 2 * f / mp.
Proof. intros mp v f P. unfold flux. field. lra. Qed.
Print Assumptions C133_flux_partial.
Theorem C133_refuted : ~ (forall mp m v f, 0 < mp -> 0 < m -> flux mp (1 / 2 * m * v ^ 2) f = v ^ 2 * f / m).
Proof. intros H. specialize (H 1 4 1 1 ltac:(lra) ltac:(lra)). unfold flux in H. lra. Qed.
Print Assumptions C133_refuted.
Example C133_case : flux 2 4 3 = 6.
Proof. unfold flux. field. Qed.

(** * Integrals *)

(** C134.  The fluence of a flux that changes linearly in time is exact for
    every choice of times, and of one that changes quadratically for every odd
    number of times; it is linear in the flux. *)
Theorem C245_linear : forall a b l, l <> [] -> rising (map fst l) -> follows (quadratic a b 0) l ->
  fluence l = primitive a b 0 (final l) - primitive a b 0 (first l).
Proof. exact simpson_linear. Qed.
Print Assumptions C245_linear.
Theorem C134_quadratic_partial : forall a b c l, rising (map fst l) -> follows (quadratic a b c) l -> Nat.odd (length l) = true ->
  fluence l = primitive a b c (final l) - primitive a b c (first l).
Proof. intros a b c l S F O. unfold fluence. rewrite simpson_odd by assumption. eapply panels_exact; eauto. Qed.
Print Assumptions C134_quadratic_partial.
Theorem C245_additive : forall (A : Type) (t f g : A -> R) k (l : list A),
  fluence (map (fun i => (t i, k * f i + g i)) l) = k * fluence (map (fun i => (t i, f i)) l) + fluence (map (fun i => (t i, g i)) l).
Proof. intros. apply simpson_additive. Qed.
Print Assumptions C245_additive.
Theorem C134_refuted :
  ~ (forall a b c l, l <> [] -> rising (map fst l) -> follows (quadratic a b c) l ->
       fluence l = primitive a b c (final l) - primitive a b c (first l)).
Proof.
  intros H. specialize (H 0 0 1 [(0, 0); (1, 1)]). unfold fluence, simpson, first, final, primitive, trapezoid in H. cbn in H.
  assert (E : ((1 - 0) * (0 + 1) / 2 + 0 + ((1 - 0) * (0 + 1) / 2 + 0)) / 2 = 0 * 1 + 0 * (1 * 1) / 2 + 1 * (1 * 1 * 1) / 3 - (0 * 0 + 0 * (0 * 0) / 2 + 1 * (0 * 0 * 0) / 3)).
  { apply H; [discriminate| |]; listing. }
  lra.
Qed.
Print Assumptions C134_refuted.
Example C134_case : fluence [(0, 1); (1, 3); (3, 7); (7, 15)] = 56.
Proof.
  rewrite (C245_linear 1 2); [unfold primitive, final, first; cbn; lra|discriminate| |]; listing.
Qed.

(** C135.  The fluence of a non-negative flux is non-negative when neighbouring
    time steps differ by at most a factor of two. *)
Theorem C135_nonnegative_partial : forall l, rising (map fst l) -> gentle (map fst l) -> Forall (fun p => 0 <= snd p) l -> 0 <= fluence l.
Proof. exact simpson_nonneg. Qed.
Print Assumptions C135_nonnegative_partial.
Theorem C135_refuted : ~ (forall l, rising (map fst l) -> Forall (fun p => 0 < snd p) l -> 0 <= fluence l).
Proof.
  intros H. specialize (H [(0, 6); (1, 1 / 2); (4, 1 / 2)]).
  assert (E : fluence [(0, 6); (1, 1 / 2); (4, 1 / 2)] = - (5 / 3)).
  { unfold fluence, simpson, panels, panel. cbn. field. }
  rewrite E in H. assert (0 <= - (5 / 3)) by (apply H; listing). lra.
Qed.
Print Assumptions C135_refuted.
Example C135_case : 0 <= fluence [(0, 0); (1, 5); (3, 2); (4, 0)].
Proof. apply C135_nonnegative_partial; [listing|cbn; lra|listing]. Qed.

(** * Spectra *)

(** C136.  The interpolated lower end of a spectrum lies on the straight line
    between its neighbours in the logarithms of energy and flux, the higher
    energies are unchanged, and power laws are continued exactly. *)
Theorem C136_interpolation : forall f e i x0 x1 f0 f1 m, increasing e -> at_ e i x0 -> at_ e (S i) x1 -> at_ f i f0 -> at_ f (S i) f1 ->
  (0 < x0)%Qc -> (x0 <= m)%Qc -> (m < x1)%Qc -> 0 < f0 -> 0 < f1 ->
  exists y, interpolate f e m = Ok ((m, y) :: skipn (S i) (combine e f)) /\ 0 < y
  /\ exists w, 0 <= w < 1 /\ ln (inj m) = ln (inj x0) + w * (ln (inj x1) - ln (inj x0)) /\ ln y = ln f0 + w * (ln f1 - ln f0).
Proof.
  intros f e i x0 x1 f0 f1 m I X0 X1 F0 F1 P L0 L1 P0 P1. eexists. split; [eapply interpolate_segment; eassumption|].
  apply log_chord; try assumption; [now apply inj_pos|now apply inj_le|now apply inj_lt].
Qed.
Print Assumptions C136_interpolation.
Theorem C136_power_law : forall a g f e i x0 x1 m, 0 < a -> increasing e -> at_ e i x0 -> at_ e (S i) x1 ->
  f = map (fun x => a * Rpower (inj x) g) e -> (0 < x0)%Qc -> (x0 <= m)%Qc -> (m < x1)%Qc ->
  interpolate f e m = Ok ((m, a * Rpower (inj m) g) :: skipn (S i) (combine e f)).
Proof.
  intros a g f e i x0 x1 m A I X0 X1 -> P L0 L1.
  rewrite (interpolate_segment _ e i x0 x1 (a * Rpower (inj x0) g) (a * Rpower (inj x1) g) m); try assumption.
  - pose proof (inj_pos _ P). pose proof (inj_le _ _ L0). pose proof (inj_lt _ _ L1).
    do 3 f_equal. apply (power_law a g (inj x0) (inj x1) (inj m)); lra.
  - unfold at_ in *. now rewrite nth_error_map, X0.
  - unfold at_ in *. now rewrite nth_error_map, X1.
Qed.
Print Assumptions C136_power_law.
(** At an energy of the spectrum nothing changes. *)
Theorem C136_unchanged : forall f e i x0 f0, increasing e -> (S i < length e)%nat -> length f = length e -> at_ e i x0 -> at_ f i f0 -> (0 < x0)%Qc ->
  interpolate f e x0 = Ok (skipn i (combine e f)).
Proof.
  intros f e i x0 f0 I L Lf X0 F0 P. destruct (at_ex e (S i)) as [x1 X1]; [assumption|].
  destruct (at_ex f (S i)) as [f1 F1]; [lia|].
  rewrite (interpolate_segment f e i x0 x1 f0 f1 x0); try assumption; [|apply Qcle_refl|eapply increasing_at; [exact I| |exact X0|exact X1]; lia].
  pose proof (inj_pos _ P). replace (inj x0 / inj x0) with 1 by (field; lra). unfold Rpower. rewrite ln_1, Rmult_0_r, exp_0, Rmult_1_r.
  f_equal. clear - X0 F0. revert f e X0 F0. induction i as [|i IH]; intros [|y f] [|x e] X0 F0; try easy.
  - cbn in *. injection X0 as ->. injection F0 as ->. reflexivity.
  - cbn [combine skipn]. now apply IH.
Qed.
Print Assumptions C136_unchanged.
(** Above the spectrum the computation fails. *)
Theorem C136_beyond : forall f e x m, increasing e -> length f = length e -> at_ e (length e - 1) x -> (x <= m)%Qc ->
  interpolate f e m = Err IndexError.
Proof. exact interpolate_beyond. Qed.
Print Assumptions C136_beyond.
Example C136_case : exists y, interpolate [8; 2] [Qc_of_Z 1; Qc_of_Z 4] (Qc_of_Z 2) = Ok [(Qc_of_Z 2, y); (Qc_of_Z 4, 2)] /\ 0 < y.
Proof.
  destruct (C136_interpolation [8; 2] [Qc_of_Z 1; Qc_of_Z 4] 0 (Qc_of_Z 1) (Qc_of_Z 4) 8 2 (Qc_of_Z 2)) as (y & E & P & _);
    try reflexivity; try lra; try (vm_compute; (reflexivity || discriminate)).
  - repeat constructor.
  - exists y. split; [exact E|exact P].
Qed.

(** C137.  The integral of a uniform spectrum above a bound is the flux times
    the width of the spectrum above the bound, for one species and bounds below
    the greatest energy. *)
Theorem C137_uniform_partial : forall x e F b, 0 < F -> (0 < x)%Qc -> increasing (x :: e) -> (least_normal <= b)%Qc -> (b < last (x :: e) 0)%Qc ->
  integral_flux [(x :: e, repeat F (length (x :: e)))] b = Ok [F * (inj (last (x :: e) 0%Qc) - Rmax (inj b) (inj x))].
Proof.
  intros x e F b PF PX I T L. destruct (uniform_flux x e F b PF PX I T) as (H1 & H2 & _).
  destruct (Qclt_le_dec b x) as [C|C].
  - rewrite (H1 C), Rmax_right; [reflexivity|]. apply inj_le. now apply Qclt_le_weak.
  - rewrite (H2 C L), Rmax_left; [reflexivity|]. now apply inj_le.
Qed.
Print Assumptions C137_uniform_partial.
(** From the greatest energy on, it fails instead of being zero. *)
Theorem C137_refuted : forall x e F b, 0 < F -> (0 < x)%Qc -> increasing (x :: e) -> (least_normal <= b)%Qc -> (last (x :: e) 0 <= b)%Qc ->
  integral_flux [(x :: e, repeat F (length (x :: e)))] b = Err IndexError.
Proof. intros x e F b PF PX I T L. now apply (uniform_flux x e F b PF PX I T). Qed.
Print Assumptions C137_refuted.
(** With several species, a bound below the energies of one of them but not of
    all extends its spectrum down to the bound. *)
Theorem C137_species_refuted :
  ~ (forall e1 e2 F b ys, increasing e1 -> increasing e2 -> 0 < F -> (forall x, In x (e1 ++ e2) -> (least_normal <= x)%Qc) ->
       (forall x, hd_error e2 = Some x -> (least_normal <= b)%Qc /\ (b < x)%Qc) ->
       integral_flux [(e1, repeat F (length e1)); (e2, repeat F (length e2))] b = Ok ys ->
       nth_error ys 1 = Some (F * (inj (last e2 0%Qc) - inj (hd 0%Qc e2)))).
Proof.
  intros H.
  set (e1 := [Qc_of_Z 1; Qc_of_Z 3]). set (e2 := [Qc_of_Z 4; Qc_of_Z 8]).
  assert (T : forall z, (0 < z)%Z -> (tiny <= Qc_of_Z z)%Qc).
  { intros z Hz. unfold tiny. unfold Qcle. rewrite this_q, this_of_Z. unfold Qle. cbn [Qnum Qden inject_Z]. nia. }
  assert (I1 : increasing e1) by (repeat constructor). assert (I2 : increasing e2) by (repeat constructor).
  assert (E : integral_flux [(e1, repeat 1 (length e1)); (e2, repeat 1 (length e2))] (Qc_of_Z 2) = Ok [1 * (3 - 2); 1 * (8 - 2)]).
  { unfold integral_flux. rewrite Qc_max_tiny by (apply T; lia). cbn [map concat fst e1 e2 app].
    replace (minimum _) with (Ok (Qc_of_Z 1)) by (vm_compute; reflexivity). cbn [bind].
    replace (Qc_ltb (Qc_of_Z 2) (Qc_of_Z 1)) with false by (vm_compute; reflexivity). cbn [mapM bind].
    rewrite (interpolate_segment (repeat 1 (length e1)) e1 0 (Qc_of_Z 1) (Qc_of_Z 3) 1 1 (Qc_of_Z 2)); try reflexivity; try assumption; try (vm_compute; (reflexivity || discriminate)).
    cbn [bind]. unfold interpolate.
    replace (find_nearest e2 (Qc_of_Z 2) BUpper) with (Ok (0%Z, Qc_of_Z 4)) by (vm_compute; reflexivity).
    cbn [bind]. change (py_index (repeat 1 (length e2)) (0 + 1)) with (Ok 1). change (py_index (repeat 1 (length e2)) 0) with (Ok 1).
    change (py_index e2 (0 + 1)) with (Ok (Qc_of_Z 8)). cbn [bind].
    change (skipn 1 (combine e1 (repeat 1 (length e1)))) with [(Qc_of_Z 3, 1)].
    cbn [Z.ltb Z.compare Z.to_nat skipn combine e2 length repeat map fst snd].
    replace (1 / 1) with 1 by field. rewrite ln_1.
    assert (Z0 : forall x, 0 / x = 0) by (intros; unfold Rdiv; ring). rewrite !Z0.
    assert (P : forall x, Rpower x 0 = 1) by (intros x; unfold Rpower; rewrite Rmult_0_l; apply exp_0).
    rewrite !P, !inj_Z. do 2 f_equal; [|f_equal]; unfold simpson; cbn; unfold trapezoid; cbn; field. }
  specialize (H e1 e2 1 (Qc_of_Z 2) [1 * (3 - 2); 1 * (8 - 2)] I1 I2 Rlt_0_1).
  assert (Some (1 * (8 - 2)) = Some (1 * (inj (last e2 0%Qc) - inj (hd 0%Qc e2)))) as X.
  { apply H; [| |exact E].
    - intros x Ix. repeat (destruct Ix as [<-|Ix]; [apply T; lia|]). destruct Ix.
    - intros x [= <-]. split; [apply T; lia|]. vm_compute. reflexivity. }
  cbn [last hd e2] in X. rewrite !inj_Z in X. injection X as X. lra.
Qed.
Print Assumptions C137_species_refuted.
(** A lower bound counts as the least normal number. *)
Theorem C137_floor : forall species b, (b <= least_normal)%Qc -> integral_flux species b = integral_flux species least_normal.
Proof.
  intros species b H. change least_normal with tiny in *. unfold integral_flux, Qc_max.
  destruct (Qc_ltb_spec tiny tiny) as [C|_]; [exfalso; exact (Qclt_not_eq _ _ C eq_refl)|].
  destruct (Qc_ltb_spec b tiny) as [C|C]; [reflexivity|]. replace b with tiny; [reflexivity|].
  apply Qcle_antisym; [|exact H]. now apply Qcnot_lt_le.
Qed.
Print Assumptions C137_floor.
(** Without any energies there is no result. *)
Theorem C137_no_energies : forall n b, integral_flux (repeat ([], []) n) b = Err ValueError.
Proof. intros n b. unfold integral_flux. replace (concat _) with (@nil Qc); [reflexivity|]. induction n; [reflexivity|exact IHn]. Qed.
Print Assumptions C137_no_energies.
Example C137_case : integral_flux [([Qc_of_Z 1; Qc_of_Z 4; Qc_of_Z 5], [3; 3; 3])] (Qc_of_Z 2) = Ok [3 * (5 - 2)].
Proof.
  etransitivity; [apply (C137_uniform_partial (Qc_of_Z 1) [Qc_of_Z 4; Qc_of_Z 5] 3 (Qc_of_Z 2))|].
  - lra.
  - vm_compute. reflexivity.
  - repeat constructor.
  - vm_compute. discriminate.
  - vm_compute. reflexivity.
  - cbn [last]. rewrite !inj_Z, Rmax_left by lra. reflexivity.
Qed.

(** C138.  The integral of a non-negative spectrum above a bound is
    non-negative when the bound is below all energies, or is one of them, and
    neighbouring steps of energy differ by at most a factor of two. *)
Theorem C138_nonnegative_partial : forall x e f b, (0 < x)%Qc -> increasing (x :: e) -> gentle (map inj (x :: e)) ->
  length f = length (x :: e) -> Forall (Rle 0) f -> (least_normal <= b)%Qc -> (b < last (x :: e) 0)%Qc -> (b < x)%Qc \/ In b (x :: e) ->
  exists y, integral_flux [(x :: e, f)] b = Ok [y] /\ 0 <= y.
Proof.
  intros x e f b PX I G Lf Ff T L C.
  assert (N : forall k, 0 <= simpson (points (skipn k (combine (x :: e) f)))).
  { intros k. apply simpson_nonneg.
    - rewrite points_fst, <- skipn_map, fst_combine by assumption. apply rising_inj. now apply skipn_increasing.
    - rewrite points_fst, <- skipn_map, fst_combine, <- skipn_map by assumption. clear - G. revert G. generalize (map inj (x :: e)).
      induction k as [|k IH]; intros l G; [exact G|]. destruct l; [exact I|]. cbn. apply IH. eapply gentle_tail, G.
    - unfold points. rewrite Forall_map. apply Forall_skipn, Forall_combine_r with (P := Rle 0). exact Ff. }
  destruct C as [C|C].
  - exists (simpson (points (combine (x :: e) f))). split; [now apply integral_below|]. apply (N 0%nat).
  - apply In_nth_error in C as [i Hi].
    assert (Li : (i < length (x :: e))%nat) by (apply nth_error_Some; congruence).
    destruct (at_ex f i) as [f0 F0]; [lia|].
    assert (Xb : (x <= b)%Qc). { destruct i; [injection Hi as ->; apply Qcle_refl|]. apply Qclt_le_weak, (increasing_at _ I 0 (S i)); [lia|reflexivity|exact Hi]. }
    assert (Lt : (S i < length (x :: e))%nat).
    { destruct (Nat.eq_dec (S i) (length (x :: e))) as [Q|Q]; [|lia]. exfalso. revert L. apply Qcle_not_lt.
      destruct (exists_last (l := x :: e)) as (l0 & z & E); [discriminate|]. rewrite E, last_app1.
      rewrite E in Hi, Q. rewrite app_length in Q. cbn [length] in Q. rewrite nth_error_app2 in Hi by lia.
      replace (i - length l0)%nat with 0%nat in Hi by lia. injection Hi as ->. apply Qcle_refl. }
    exists (simpson (points (skipn i (combine (x :: e) f)))). split; [|apply N].
    rewrite integral_above by assumption.
    rewrite (C136_unchanged f (x :: e) i b f0); try assumption; [reflexivity|]. now apply Qclt_le_trans with x.
Qed.
Print Assumptions C138_nonnegative_partial.
(** The spectrum E^-2 at the energies 1, 4 and 16 has a negative integral above
    the energy 2. *)
Theorem C138_refuted :
  ~ (forall x e f b y, (0 < x)%Qc -> increasing (x :: e) -> length f = length (x :: e) -> Forall (Rlt 0) f ->
       integral_flux [(x :: e, f)] b = Ok [y] -> 0 <= y).
Proof.
  intros H. set (e := [Qc_of_Z 1; Qc_of_Z 4; Qc_of_Z 16]). set (f := map (fun x => 1 * Rpower (inj x) (-2)) e).
  assert (I : increasing e) by (repeat constructor).
  assert (E : integral_flux [(e, f)] (Qc_of_Z 2) = Ok [simpson [(2, / 4); (4, / 16); (16, / 256)]]).
  { rewrite (integral_above (Qc_of_Z 1) [Qc_of_Z 4; Qc_of_Z 16]); [|assumption|vm_compute; discriminate|vm_compute; discriminate].
    change [Qc_of_Z 1; Qc_of_Z 4; Qc_of_Z 16] with e.
    rewrite (C136_power_law 1 (-2) f e 0 (Qc_of_Z 1) (Qc_of_Z 4) (Qc_of_Z 2)); try reflexivity; try assumption; try lra; try (vm_compute; (reflexivity || discriminate)).
    do 3 f_equal. unfold f, e. cbn [map combine skipn points fst snd].
    rewrite !inj_Z, !Rpower_m2 by lra. repeat f_equal; field. }
  assert (V : simpson [(2, / 4); (4, / 16); (16, / 256)] < 0).
  { replace (simpson _) with (- (1729 / 1536)); [lra|]. unfold simpson, panels, panel. cbn. field. }
  assert (0 <= simpson [(2, / 4); (4, / 16); (16, / 256)]); [|lra].
  apply (H (Qc_of_Z 1) [Qc_of_Z 4; Qc_of_Z 16] f (Qc_of_Z 2)); try assumption; [vm_compute; reflexivity|reflexivity|].
  unfold f, e. cbn [map]. repeat constructor; rewrite Rmult_1_l; unfold Rpower; apply exp_pos.
Qed.
Print Assumptions C138_refuted.
Example C138_case : exists y, integral_flux [([Qc_of_Z 1; Qc_of_Z 2; Qc_of_Z 4], [9; 0; 1])] (Qc_of_Z 2) = Ok [y] /\ 0 <= y.
Proof.
  apply C138_nonnegative_partial.
  - vm_compute. reflexivity.
  - repeat constructor.
  - cbn [map gentle]. rewrite !inj_Z. lra.
  - reflexivity.
  - repeat constructor; lra.
  - vm_compute. discriminate.
  - vm_compute. reflexivity.
  - right. cbn. auto.
Qed.

(** * Acceleration *)

(** C139.  The rate of acceleration at a shell depends on the velocities and
    diffusion at the shells ahead and behind as stated by [rate]; it is never
    negative; and it vanishes in a uniform flow. *)
Theorem C139_rate : forall v angle mfp speed k n i va vb ma mb aa ab,
  length v = S n -> length angle = S n -> length mfp = S n -> (i < S n)%nat ->
  nth_error v (shell_ahead (S n) i) = Some va -> nth_error v (shell_behind i) = Some vb ->
  nth_error mfp (shell_ahead (S n) i) = Some ma -> nth_error mfp (shell_behind i) = Some mb ->
  nth_error angle (shell_ahead (S n) i) = Some aa -> nth_error angle (shell_behind i) = Some ab ->
  va <> zero -> vb <> zero -> 0 < k -> 0 < speed -> 0 < ma -> 0 < mb ->
  exists l, acceleration_rate (map (fun u => fst (fst u)) v) (map (fun u => snd (fst u)) v) (map snd v) speed angle mfp k = Ok l
  /\ length l = S n
  /\ nth_error l i = Some (Some (rate va vb (diffusion k speed aa ma) (diffusion k speed ab mb))).
Proof.
  intros v angle mfp speed k n i va vb ma mb aa ab Lv La Lm Li Va Vb Ma Mb Aa Ab Na Nb K S Pa Pb.
  apply (acceleration_value n v angle mfp speed k Lv La Lm i va vb ma mb aa ab); try assumption; now apply diffusion_pos.
Qed.
Print Assumptions C139_rate.
Theorem C139_nonnegative : forall va vb ka kb, va <> zero -> vb <> zero -> 0 < ka -> 0 < kb -> 0 <= rate va vb ka kb.
Proof.
  intros va vb ka kb Na Nb Ka Kb. pose proof (norm_pos _ Na). pose proof (norm_pos _ Nb). unfold rate.
  assert (0 < ka / norm va) by now apply Rdiv_lt_0_compat. assert (0 < kb / norm vb) by now apply Rdiv_lt_0_compat.
  unfold Rdiv at 1. apply Rmult_le_pos; [apply Rmult_le_pos; [lra|apply Rabs_pos]|]. left. apply Rinv_0_lt_compat. lra.
Qed.
Print Assumptions C139_nonnegative.
Theorem C139_uniform : forall u angle mfp speed k n, u <> zero -> length angle = S n -> length mfp = S n -> 0 < k -> 0 < speed ->
  Forall (Rlt 0) mfp ->
  acceleration_rate (repeat (fst (fst u)) (S n)) (repeat (snd (fst u)) (S n)) (repeat (snd u) (S n)) speed angle mfp k = Ok (repeat (Some 0) (S n)).
Proof.
  intros u angle mfp speed k n N La Lm K S P. pose proof (norm_pos _ N) as Pu.
  set (v := repeat u (Datatypes.S n)). assert (Lv : length v = Datatypes.S n) by apply repeat_length.
  assert (Each : forall i, (i < Datatypes.S n)%nat -> nth_error v i = Some u).
  { intros i Hi. destruct (nth_error v i) eqn:E; [|apply nth_error_None in E; lia]. f_equal. eapply repeat_spec, nth_error_In, E. }
  assert (H : forall i, (i < Datatypes.S n)%nat -> exists l, acceleration_rate (map (fun u => fst (fst u)) v) (map (fun u => snd (fst u)) v) (map snd v) speed angle mfp k = Ok l /\ length l = Datatypes.S n /\ nth_error l i = Some (Some 0)).
  { intros i Hi. pose proof (shell_ahead_lt _ _ Hi) as Ha. pose proof (shell_behind_lt _ _ Hi) as Hb.
    destruct (at_ex mfp (shell_ahead (Datatypes.S n) i)) as [ma Ma]; [lia|]. destruct (at_ex mfp (shell_behind i)) as [mb Mb]; [lia|].
    destruct (at_ex angle (shell_ahead (Datatypes.S n) i)) as [aa Aa]; [lia|]. destruct (at_ex angle (shell_behind i)) as [ab Ab]; [lia|].
    rewrite Forall_forall in P.
    destruct (C139_rate v angle mfp speed k n i u u ma mb aa ab) as (l & E & Ll & V); try assumption; try (now apply Each).
    - apply P. eapply nth_error_In, Ma.
    - apply P. eapply nth_error_In, Mb.
    - exists l. split; [assumption|split; [assumption|]]. rewrite V. do 2 f_equal. unfold rate. rewrite norm_sq.
      pose proof (dot_self_pos _ N). replace (1 - dot u u / dot u u) with 0 by (field; lra). rewrite Rabs_R0. unfold Rdiv. ring. }
  assert (Q : forall (f : vec -> R), map f v = repeat (f u) (Datatypes.S n)).
  { intros f. unfold v. generalize (Datatypes.S n). intros m. induction m; cbn; congruence. }
  destruct (H 0%nat) as (l & E & Ll & _); [lia|]. rewrite !Q in *. rewrite E. f_equal.
  apply all_repeat; [exact Ll|]. intros i Hi. destruct (H i Hi) as (l' & E' & _ & V). congruence.
Qed.
Print Assumptions C139_uniform.
Example C139_case : acceleration_rate [1; 1] [2; 2] [3; 3] 4 [0; 1] [5; 6] (1 / 2) = Ok [Some 0; Some 0].
Proof. apply (C139_uniform (1, 2, 3) [0; 1] [5; 6] 4 (1 / 2) 1); try reflexivity; try lra; [unfold zero; intros [= ?]; lra|listing]. Qed.
