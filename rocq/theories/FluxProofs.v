(** Lemmas about energies, fluxes and rates. *)

From Coq Require Import List Bool ZArith QArith Qcanon Qreals Arith Reals Lra Lia Psatz Sorted.
From Verif Require Import Py PyFacts QcOrder NumericalModel NumericalSpec NumericalProofs ComputedModel ComputedSpec VectorProofs IntegralProofs.
Import ListNotations.
Open Scope nat_scope.
Open Scope R_scope.
Open Scope py_scope.

Lemma div_v_exponential rho0 k l : 0 < rho0 -> (2 <= length l)%nat -> rising (map fst l) ->
  follows (fun t => rho0 * exp (- (k * t))) l -> div_v l = Ok (repeat k (length l)).
Proof.
  intros P L S F. unfold div_v. rewrite (gradient_linear (ln rho0) (- k)).
  - cbn [rmap]. rewrite map_length. f_equal. clear. induction (length l) as [|n IH]; [reflexivity|]. cbn. rewrite IH. f_equal. ring.
  - now rewrite map_length.
  - rewrite map_map. exact S.
  - unfold follows in *. rewrite Forall_map. apply Forall_impl with (2 := F). intros [t r]. cbn. intros ->.
    rewrite ln_mult by (assumption || apply exp_pos). rewrite ln_exp. ring.
Qed.
Lemma div_v_scale c l : 0 < c -> rising (map fst l) -> Forall (fun p => 0 < snd p) l ->
  div_v (map (fun p => (fst p, c * snd p)) l) = div_v l.
Proof.
  intros C S P. unfold div_v. rewrite map_map. cbn [fst snd].
  assert (E : forall l, map (fun p : R * R => (fst p, ln (snd p) + ln c)) l = map (fun p => (fst p, snd p + ln c)) (map (fun p => (fst p, ln (snd p))) l)).
  { intros m. rewrite map_map. reflexivity. }
  rewrite (map_ext_in _ (fun p => (fst p, ln (snd p) + ln c)) l).
  2:{ intros p I. rewrite Forall_forall in P. rewrite ln_mult by auto. f_equal. ring. }
  rewrite E. assert (S' : rising (map fst (map (fun p => (fst p, ln (snd p))) l))) by (rewrite map_map; exact S).
  revert S'. generalize (map (fun p => (fst p, ln (snd p))) l). clear. intros l S.
  assert (G : gradient (map (fun p => (fst p, snd p + ln c)) l) = gradient l); [|now rewrite G].
  assert (Sl : forall p q, slope (fst p, snd p + ln c) (fst q, snd q + ln c) = slope p q).
  { intros p q. unfold slope. cbn. f_equal. ring. }
  assert (In : inner_slopes (map (fun p => (fst p, snd p + ln c)) l) = inner_slopes l).
  { induction l as [|p m IH]; [reflexivity|]. destruct m as [|q [|r m]]; [reflexivity..|].
    cbn [map] in S. apply rising3 in S as (A & B & _ & S).
    change (inner_slopes (map (fun p => (fst p, snd p + ln c)) (p :: q :: r :: m)))
      with (inner_slope (fst p, snd p + ln c) (fst q, snd q + ln c) (fst r, snd r + ln c) :: inner_slopes (map (fun p => (fst p, snd p + ln c)) (q :: r :: m))).
    rewrite (IH S). change (inner_slopes (p :: q :: r :: m)) with (inner_slope p q r :: inner_slopes (q :: r :: m)). f_equal.
    unfold inner_slope. cbn [fst snd]. field. repeat split; lra. }
  destruct l as [|p [|q l]]; [reflexivity..|].
  destruct (split_last (p :: q :: l)) as (l0 & d & e & E); [cbn; lia|].
  unfold gradient. cbn [map]. rewrite Sl. f_equal. f_equal. f_equal; [exact In|].
  change ((fst p, snd p + ln c) :: (fst q, snd q + ln c) :: map (fun p => (fst p, snd p + ln c)) l) with (map (fun p => (fst p, snd p + ln c)) (p :: q :: l)).
  rewrite E, map_app. cbn [map].
  destruct (nth_tail (map (fun p => (fst p, snd p + ln c)) l0) (fst d, snd d + ln c) (fst e, snd e + ln c) (fst p, snd p + ln c)) as [-> ->].
  destruct (nth_tail l0 d e p) as [-> ->]. now rewrite Sl.
Qed.

(** * Densities *)

Lemma density_ratio_nth r0 rho i r : r0 <> 0 -> nth_error (r0 :: rho) i = Some r -> nth_error (density_ratio (r0 :: rho)) i = Some (Some (r / r0)).
Proof.
  intros N E. unfold density_ratio. rewrite nth_error_map, E. cbn. now rewrite real_div_ok.
Qed.
Lemma density_ratio_scale k rho : k <> 0 -> (forall r0 l, rho = r0 :: l -> r0 <> 0) -> density_ratio (map (Rmult k) rho) = density_ratio rho.
Proof.
  intros K H. destruct rho as [|r0 rho]; [reflexivity|]. specialize (H r0 rho eq_refl).
  unfold density_ratio. cbn [map]. assert (k * r0 <> 0) by (intros Z; apply Rmult_integral in Z; tauto).
  f_equal.
  - rewrite !real_div_ok by assumption. f_equal. field. tauto.
  - rewrite map_map. apply map_ext. intros a. rewrite !real_div_ok by assumption. f_equal. field. tauto.
Qed.

(** * Rigidity *)

Lemma rigidity_eq c e m q : 0 < c -> 0 < m -> q <> 0 -> 0 <= e ->
  rigidity c e m q = Some (sqrt ((e + m * (c * c)) * (e + m * (c * c)) - m * (c * c) * (m * (c * c))) / c / q).
Proof.
  intros C M Q E. unfold rigidity. cbn zeta.
  assert (A : 0 < m * (c * c)) by (apply Rmult_lt_0_compat; nra). revert A. generalize (m * (c * c)). intros a A.
  rewrite real_sqrt_nonneg by nra. cbn [lift2]. rewrite real_div_ok by lra. cbn [lift2]. now rewrite real_div_ok.
Qed.

(** * Energy *)

Lemma pow_weight v f d : v ^ 4 * f * d = v ^ 2 * (v ^ 2 * f * d).
Proof. ring. Qed.
Lemma average_eq mp l dv : gradient_unit (map fst l) = Ok dv ->
  average_energy mp l = Ok (real_div (1 / 2 * (mp * sum (map2 (fun p d => fst p ^ 2 * (fst p ^ 2 * snd p * d)) l dv))) (sum (map2 (fun p d => fst p ^ 2 * snd p * d) l dv))).
Proof.
  intros E. unfold average_energy, energy_density. rewrite E. cbn [bind].
  rewrite (map2_ext (fun p d => fst p ^ 4 * snd p * d) (fun p d => fst p ^ 2 * (fst p ^ 2 * snd p * d))); [reflexivity|].
  intros. apply pow_weight.
Qed.
Lemma rising_bounds : forall l, rising (map fst l) -> Forall (fun p => first l <= fst p <= final l) l.
Proof.
  assert (H : forall (l : list (R * R)) p, rising (map fst (p :: l)) -> Forall (fun q => fst p <= fst q <= final (p :: l)) (p :: l)).
  { induction l as [|q l IH]; intros p S.
    - constructor; [|constructor]. unfold final. cbn. lra.
    - cbn [map] in S. apply rising2 in S as [A S]. specialize (IH q S).
      assert (E : final (p :: q :: l) = final (q :: l)) by (unfold final; now rewrite (last_cons p q l (0, 0) (0, 0))). rewrite E.
      constructor; [inversion IH; subst; lra|]. apply Forall_impl with (2 := IH). intros; cbn in *; lra. }
  intros [|p l] S; [constructor|]. now apply H.
Qed.
Lemma average_bounds mp l : 0 < mp -> (2 <= length l)%nat -> rising (map fst l) -> 0 <= first l ->
  Forall (fun p => 0 <= snd p) l -> Exists (fun p => 0 < fst p /\ 0 < snd p) l ->
  exists a, average_energy mp l = Ok (Some a) /\ 1 / 2 * mp * first l ^ 2 <= a <= 1 / 2 * mp * final l ^ 2.
Proof.
  intros M L S Z F E. destruct (gradient_unit_spec (map fst l)) as (dv & G & Ld & D); [now rewrite map_length|assumption|].
  rewrite map_length in Ld. rewrite (average_eq mp l dv G).
  pose proof (rising_bounds l S) as B.
  assert (W : Forall (fun p : R * R => 0 <= fst p ^ 2 * snd p) l).
  { apply Forall_impl with (2 := F). intros [v f]. cbn. intros. apply Rmult_le_pos; [nra|assumption]. }
  assert (P : 0 < sum (map2 (fun p d => fst p ^ 2 * snd p * d) l dv)).
  { apply (weight_pos (fun p : R * R => fst p ^ 2 * snd p)); auto. apply Exists_exists in E as (p & I & P1 & P2). apply Exists_exists. exists p. split; [assumption|]. apply Rmult_lt_0_compat; [nra|assumption]. }
  destruct (weighted (fun p : R * R => fst p ^ 2) (fun p => fst p ^ 2 * snd p) (first l ^ 2) (final l ^ 2) l dv) as [H1 H2]; auto.
  { apply Forall_impl with (2 := B). intros [v f]. cbn. intros [? ?]. nra. }
  set (w := sum (map2 (fun p d => fst p ^ 2 * snd p * d) l dv)) in *.
  set (u := sum (map2 (fun p d => fst p ^ 2 * (fst p ^ 2 * snd p * d)) l dv)) in *.
  rewrite real_div_ok by lra. eexists. split; [reflexivity|].
  split; apply Rmult_le_reg_r with w; try assumption; unfold Rdiv; rewrite Rmult_assoc with (r2 := / w), Rinv_l, ?Rmult_1_r by lra; nra.
Qed.
Lemma average_scale mp k l : k <> 0 -> average_energy mp (map (fun p => (fst p, k * snd p)) l) = average_energy mp l.
Proof.
  intros K. unfold average_energy, energy_density. rewrite map_map. cbn [fst].
  change (map (fun x => fst x) l) with (map fst l).
  destruct (gradient_unit (map fst l)) as [dv|] eqn:G; [|reflexivity]. cbn [bind].
  rewrite !map2_map_l. cbn [fst snd].
  rewrite (map2_ext (fun p d => fst p ^ 2 * (k * snd p) * d) (fun p d => k * (fst p ^ 2 * snd p * d))) by (intros; ring).
  rewrite (map2_ext (fun p d => fst p ^ 4 * (k * snd p) * d) (fun p d => k * (fst p ^ 4 * snd p * d))) by (intros; ring).
  rewrite !sum2_scale. do 1 f_equal. unfold real_div.
  set (w := sum (map2 (fun p d => fst p ^ 2 * snd p * d) l dv)). set (u := sum (map2 (fun p d => fst p ^ 4 * snd p * d) l dv)).
  destruct (Req_EM_T w 0) as [Z|Z].
  - rewrite Z. destruct (Req_EM_T (k * 0) 0); [reflexivity|lra].
  - destruct (Req_EM_T (k * w) 0) as [Z'|Z']; [apply Rmult_integral in Z'; tauto|]. f_equal. field. tauto.
Qed.
Lemma isotropic_bounds lo hi l : l <> [] -> Forall (fun x => lo <= x <= hi) l ->
  exists a, isotropic_distribution l = Some a /\ lo <= a <= hi.
Proof.
  intros N F. apply sum_bounds in F. unfold isotropic_distribution.
  assert (P : 0 < INR (length l)) by (apply lt_0_INR; destruct l; [easy|cbn; lia]).
  rewrite real_div_ok by lra. eexists. split; [reflexivity|].
  split; apply Rmult_le_reg_r with (INR (length l)); try assumption; unfold Rdiv; rewrite Rmult_assoc, Rinv_l by lra; lra.
Qed.
