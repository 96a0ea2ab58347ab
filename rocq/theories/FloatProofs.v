(** Rounding to binary64. *)

From Coq Require Import ZArith QArith Qpower Qabs Qcanon Lia Lqa Bool.
From Verif Require Import Py SymbolicModel FloatSpec.
Open Scope Z_scope.

(** * Integers nearest to a fraction *)
Lemma nearest n d k : 0 < d -> Z.abs (round_half_even n d * d - n) <= Z.abs (k * d - n).
Proof.
  intros D. unfold round_half_even. pose proof (Z.div_mod n d ltac:(lia)) as E. pose proof (Z.mod_pos_bound n d D) as B.
  set (q := n / d) in *. set (r := n mod d) in *.
  assert (k <= q - 1 \/ k = q \/ k = q + 1 \/ q + 2 <= k) as C by lia.
  assert (forall c, c <= -1 -> c * d <= - d) as L by (intros; nia). assert (forall c, 2 <= c -> 2 * d <= c * d) as R by (intros; nia).
  assert (k * d - n = (k - q) * d - r) as -> by lia.
  destruct (Z.ltb_spec (2 * r) d); [|destruct (Z.ltb_spec d (2 * r)); [|destruct (Z.even q)]];
    (replace (q * d - n) with (- r) by lia || replace ((q + 1) * d - n) with (d - r) by lia);
    destruct C as [C|[->|[->|C]]];
    try (specialize (L (k - q) ltac:(lia))); try (specialize (R (k - q) ltac:(lia))); try lia.
Qed.
Lemma tie n d k : 0 < d -> Z.abs (round_half_even n d * d - n) = Z.abs (k * d - n) -> k <> round_half_even n d -> Z.even (round_half_even n d) = true.
Proof.
  intros D. unfold round_half_even. pose proof (Z.div_mod n d ltac:(lia)) as E. pose proof (Z.mod_pos_bound n d D) as B.
  set (q := n / d) in *. set (r := n mod d) in *.
  assert (k <= q - 1 \/ k = q \/ k = q + 1 \/ q + 2 <= k) as C by lia.
  assert (forall c, c <= -1 -> c * d <= - d) as L by (intros; nia). assert (forall c, 2 <= c -> 2 * d <= c * d) as R by (intros; nia).
  assert (k * d - n = (k - q) * d - r) as -> by lia.
  destruct (Z.ltb_spec (2 * r) d); [|destruct (Z.ltb_spec d (2 * r)); [|destruct (Z.even q) eqn:Ev]];
    (replace (q * d - n) with (- r) by lia || replace ((q + 1) * d - n) with (d - r) by lia);
    destruct C as [C|[->|[->|C]]];
    try (specialize (L (k - q) ltac:(lia))); try (specialize (R (k - q) ltac:(lia))); try lia; auto.
  all: intros _ _; rewrite Z.even_add, Ev; reflexivity.
Qed.

(** * The exponent *)
Lemma scaled_pos n d e : 0 < n -> 0 < d -> 0 < fst (scaled n d e) /\ 0 < snd (scaled n d e).
Proof. intros N D. unfold scaled. destruct (Z.leb_spec 0 e); cbn; split; auto; apply Z.mul_pos_pos; auto; apply Z.pow_pos_nonneg; lia. Qed.
Lemma scaled_value n d e : 0 < n -> 0 < d ->
  (inject_Z (fst (scaled n d e)) / inject_Z (snd (scaled n d e)) * Qpower (2#1) e == inject_Z n / inject_Z d)%Q.
Proof.
  intros N D. assert (~ (inject_Z d == 0)%Q) as Nd by (unfold Qeq; cbn; lia).
  unfold scaled. destruct (Z.leb_spec 0 e); cbn [fst snd]; rewrite inject_Z_mult.
  - rewrite Zpower_Qpower by lia. change (inject_Z 2) with (2#1)%Q.
    assert (~ (Qpower (2#1) e == 0)%Q) as Np by (apply Qpower_not_0; discriminate). field. auto.
  - rewrite Zpower_Qpower by lia. change (inject_Z 2) with (2#1)%Q. rewrite Qpower_opp.
    assert (~ (Qpower (2#1) e == 0)%Q) as Np by (apply Qpower_not_0; discriminate). field. auto.
Qed.
Lemma scaled_step n d e :
  fst (scaled n d (e - 1)) * snd (scaled n d e) = 2 * (fst (scaled n d e) * snd (scaled n d (e - 1))).
Proof.
  unfold scaled. destruct (Z.leb_spec 0 e), (Z.leb_spec 0 (e - 1)); cbn [fst snd]; try lia.
  - replace (2 ^ e) with (2 * 2 ^ (e - 1)); [ring|]. rewrite <- Z.pow_succ_r by lia. f_equal. lia.
  - assert (e = 0) as -> by lia. change (2 ^ - (0 - 1)) with 2. change (2 ^ 0) with 1. ring.
  - replace (2 ^ (- (e - 1))) with (2 * 2 ^ (- e)); [ring|]. rewrite <- Z.pow_succ_r by lia. f_equal. lia.
Qed.
Lemma scaled_first n d : 0 < n -> 0 < d -> let e := Z.log2 n - Z.log2 d - 52 in
  2 ^ 51 * snd (scaled n d e) < fst (scaled n d e) < 2 ^ 53 * snd (scaled n d e).
Proof.
  intros N D. cbv zeta. destruct (Z.log2_spec n N) as [N1 N2]. destruct (Z.log2_spec d D) as [D1 D2].
  pose proof (Z.log2_nonneg n) as Ln. pose proof (Z.log2_nonneg d) as Ld.
  set (a := Z.log2 n) in *. set (b := Z.log2 d) in *. rewrite Z.pow_succ_r in N2, D2 by lia.
  unfold scaled. destruct (Z.leb_spec 0 (a - b - 52)) as [L|L]; cbn [fst snd].
  - set (t := a - b - 52) in *. assert (2 ^ a = 2 ^ 52 * 2 ^ t * 2 ^ b) as E by (rewrite <- !Z.pow_add_r by lia; f_equal; lia).
    assert (0 < 2 ^ t) by (apply Z.pow_pos_nonneg; lia). change (2 ^ 52) with (2 * 2 ^ 51) in E. change (2 ^ 53) with (4 * 2 ^ 51). set (c := 2 ^ 51) in *.
    assert (0 < c) by now vm_compute. assert (0 < c * 2 ^ t) by nia. split; nia.
  - assert (2 ^ a * 2 ^ (- (a - b - 52)) = 2 ^ 52 * 2 ^ b) as E by (rewrite <- !Z.pow_add_r by lia; f_equal; lia).
    set (u := 2 ^ (- (a - b - 52))) in *. assert (0 < u) by (apply Z.pow_pos_nonneg; lia).
    change (2 ^ 52) with (2 * 2 ^ 51) in E. change (2 ^ 53) with (4 * 2 ^ 51). set (c := 2 ^ 51) in *.
    assert (0 < c) by now vm_compute. split; nia.
Qed.

(** * Rounding positive numbers *)
Lemma round_pos n d : 0 < n -> 0 < d -> exists e n1 d1, 0 < d1 /\ 2 ^ 52 * d1 <= n1 < 2 ^ 53 * d1
  /\ (inject_Z n / inject_Z d == inject_Z n1 / inject_Z d1 * Qpower (2#1) e)%Q
  /\ round64_pos n d = (inject_Z (round_half_even n1 d1) * Qpower (2#1) e)%Q.
Proof.
  intros N D. unfold round64_pos. set (e0 := Z.log2 n - Z.log2 d - 52).
  destruct (scaled_first n d N D) as [A B]. fold e0 in A, B. destruct (scaled_pos n d e0 N D) as [P Q].
  destruct (scaled n d e0) as [n0 d0] eqn:E0. cbn [fst snd] in *.
  set (e := if n0 / d0 <? 2 ^ 52 then e0 - 1 else e0). destruct (scaled_pos n d e N D) as [P1 Q1].
  pose proof (scaled_value n d e N D) as V. destruct (scaled n d e) as [n1 d1] eqn:E1. cbn [fst snd] in *.
  exists e, n1, d1. split; [exact Q1|]. split; [|split; [now rewrite V|reflexivity]].
  pose proof (scaled_step n d e0) as S. rewrite E0 in S. cbn [fst snd] in S.
  unfold e in E1. destruct (Z.ltb_spec (n0 / d0) (2 ^ 52)) as [L|L].
  - rewrite E1 in S. cbn [fst snd] in S.
    assert (n0 < 2 ^ 52 * d0) as L' by (pose proof (Z.mul_succ_div_gt n0 d0 Q); nia).
    change (2 ^ 53) with (2 * 2 ^ 52). change (2 ^ 52) with (2 * 2 ^ 51) in *. set (c := 2 ^ 51) in *. assert (0 < c) by now vm_compute.
    split; apply (Z.mul_le_mono_pos_r _ _ d0 Q) || apply (Z.mul_lt_mono_pos_r d0 _ _ Q); rewrite ?S; nia.
  - rewrite E0 in E1. injection E1 as -> ->. split; [|exact B]. pose proof (Z.mul_div_le n1 d1 Q). nia.
Qed.
Section Positive.
Open Scope Q_scope.
Variables (e n1 d1 : Z) (x : Q).
Hypothesis (D : (0 < d1)%Z) (B : (2 ^ 52 * d1 <= n1 < 2 ^ 53 * d1)%Z).
Let t := Qpower (2#1) e.
Hypothesis (X : x == inject_Z n1 / inject_Z d1 * t).
Let M := round_half_even n1 d1.

Lemma t_pos : 0 < t. Proof. apply Qpower_0_lt. reflexivity. Qed.
Lemma d_pos : 0 < inject_Z d1. Proof. change 0 with (inject_Z 0). now rewrite <- Zlt_Qlt. Qed.
Lemma dist k : Qabs (inject_Z k * t - x) == inject_Z (Z.abs (k * d1 - n1)) * (t / inject_Z d1).
Proof.
  pose proof t_pos. pose proof d_pos.
  assert (inject_Z k * t - x == inject_Z (k * d1 - n1) * (t / inject_Z d1)) as ->.
  { rewrite X. unfold Z.sub. rewrite inject_Z_plus, inject_Z_opp, inject_Z_mult. field. intros E. rewrite E in H0. now apply Qlt_irrefl in H0. }
  rewrite Qabs_Qmult. apply Qmult_comp; [reflexivity|]. apply Qabs_pos. apply Qlt_le_weak. now apply Qlt_shift_div_l; [|rewrite Qmult_0_l].
Qed.
Lemma unit_pos : 0 < t / inject_Z d1.
Proof. apply Qlt_shift_div_l; [exact d_pos|]. rewrite Qmult_0_l. exact t_pos. Qed.
Lemma M_bounds : (2 ^ 52 <= M <= 2 ^ 53)%Z.
Proof.
  pose proof (nearest n1 d1 (2 ^ 52) D) as L. pose proof (nearest n1 d1 (2 ^ 53) D) as U. fold M in L, U.
  split; apply (Z.mul_le_mono_pos_r _ _ d1 D); lia.
Qed.
Lemma power_split a : (e <= a)%Z -> Qpower (2#1) a == inject_Z (2 ^ (a - e)) * t.
Proof.
  intros L. rewrite Zpower_Qpower by lia. change (inject_Z 2) with (2#1). unfold t. rewrite <- Qpower_plus by discriminate.
  replace (a - e + e)%Z with a by lia. reflexivity.
Qed.
Lemma below m a : (Z.abs m < 2 ^ 53)%Z -> (a < e)%Z -> Qabs (inject_Z M * t - x) < Qabs (inject_Z m * Qpower (2#1) a - x).
Proof.
  intros Hm L. apply Qle_lt_trans with (Qabs (inject_Z (2 ^ 52) * t - x)).
  - rewrite !dist. apply Qmult_le_compat_r; [|apply Qlt_le_weak, unit_pos]. rewrite <- Zle_Qle. now apply nearest.
  - assert (inject_Z m * Qpower (2#1) a < inject_Z (2 ^ 52) * t) as C.
    { apply Qlt_le_trans with (inject_Z (2 ^ 53) * Qpower (2#1) a).
      - apply Qmult_lt_compat_r; [now apply Qpower_0_lt|]. rewrite <- Zlt_Qlt. lia.
      - change (2 ^ 53)%Z with (2 ^ 52 * 2)%Z. rewrite inject_Z_mult, <- Qmult_assoc. apply Qmult_le_l; [reflexivity|].
        change (inject_Z 2) with (2#1). assert ((2#1) * Qpower (2#1) a == Qpower (2#1) (1 + a)) as -> by (rewrite Qpower_plus by discriminate; reflexivity).
        unfold t. apply Qpower_le_compat_l; [lia|]. discriminate. }
    assert (inject_Z (2 ^ 52) * t <= x) as Lx.
    { rewrite X. apply Qmult_le_compat_r; [|apply Qlt_le_weak, t_pos]. apply Qle_shift_div_l; [exact d_pos|].
      rewrite <- inject_Z_mult, <- Zle_Qle. apply B. }
    rewrite !Qabs_neg; lra.
Qed.
Lemma round_nearest m a : (Z.abs m < 2 ^ 53)%Z -> Qabs (inject_Z M * t - x) <= Qabs (inject_Z m * Qpower (2#1) a - x).
Proof.
  intros Hm. destruct (Z.le_gt_cases e a) as [L|L]; [|apply Qlt_le_weak; now apply below].
  assert (inject_Z m * Qpower (2#1) a == inject_Z (m * 2 ^ (a - e)) * t) as -> by (rewrite power_split by exact L; rewrite inject_Z_mult; ring).
  rewrite !dist. apply Qmult_le_compat_r; [|apply Qlt_le_weak, unit_pos]. rewrite <- Zle_Qle. now apply nearest.
Qed.
Lemma round_tie m a : (Z.abs m < 2 ^ 53)%Z -> Qabs (inject_Z M * t - x) == Qabs (inject_Z m * Qpower (2#1) a - x) ->
  ~ inject_Z M * t == inject_Z m * Qpower (2#1) a -> Z.even M = true.
Proof.
  intros Hm E N. destruct (Z.le_gt_cases e a) as [L|L].
  - assert (inject_Z m * Qpower (2#1) a == inject_Z (m * 2 ^ (a - e)) * t) as R by (rewrite power_split by exact L; rewrite inject_Z_mult; ring).
    rewrite R in E, N. rewrite !dist in E. apply (tie n1 d1 (m * 2 ^ (a - e)) D).
    + fold M. apply Qmult_inj_r in E; [|intros Z; pose proof unit_pos as U; rewrite Z in U; now apply Qlt_irrefl in U].
      unfold Qeq in E. cbn in E. lia.
    + fold M. intros Z. apply N. now rewrite Z.
  - exfalso. pose proof (below m a Hm L) as C. rewrite E in C. now apply Qlt_irrefl in C.
Qed.
End Positive.

(** * All numbers *)
Lemma dyadic_value m e : (this (dyadic m e) == inject_Z m * Qpower (2#1) e)%Q.
Proof. apply Qred_correct. Qed.
Lemma this_opp q : (this (Qcopp q) == - this q)%Q.
Proof. apply Qred_correct. Qed.
Lemma dyadic_opp m e : dyadic (- m) e = Qcopp (dyadic m e).
Proof. apply Qc_is_canon. rewrite this_opp, !dyadic_value, inject_Z_opp. ring. Qed.
Lemma distance_opp x y : (distance (Qcopp x) (Qcopp y) == distance x y)%Q.
Proof. unfold distance. rewrite !this_opp, <- Qabs_opp. apply Qabs_wd. ring. Qed.
Lemma double_opp x : double x -> double (Qcopp x).
Proof. intros (m & e & L & ->). exists (- m), e. rewrite Z.abs_opp, dyadic_opp. auto. Qed.
Lemma even_double_opp x : even_double x -> even_double (Qcopp x).
Proof. intros (m & e & L & E & ->). exists (- m), e. rewrite Z.abs_opp, Z.even_opp, dyadic_opp. auto. Qed.
Lemma even_double_double x : even_double x -> double x.
Proof. intros (m & e & L & _ & ->). exists m, e. split; [lia|reflexivity]. Qed.
Lemma qc_opp_opp (x : Qc) : Qcopp (Qcopp x) = x.
Proof. apply Qc_is_canon. rewrite !this_opp. ring. Qed.

Definition rounded (q y : Qc) : Prop := double y /\ forall x, double x ->
  (distance y q <= distance x q)%Q /\ ((distance y q == distance x q)%Q -> y <> x -> even_double y).
Lemma rounded_opp q y : rounded q y -> rounded (Qcopp q) (Qcopp y).
Proof.
  intros [Y H]. split; [now apply double_opp|]. intros x X. destruct (H (Qcopp x) (double_opp _ X)) as [A B].
  rewrite <- (qc_opp_opp x). rewrite !distance_opp. split; [exact A|]. intros E N. apply even_double_opp, B; [exact E|].
  intros E'. apply N. now rewrite E'.
Qed.
Lemma big_double m e : 2 ^ 52 <= m <= 2 ^ 53 -> Z.even m = true -> even_double (dyadic m e).
Proof.
  intros B E. destruct (Z.eq_dec m (2 ^ 53)) as [->|N]; [|exists m, e; split; [lia|auto]].
  exists (2 ^ 52), (e + 1). split; [now split; vm_compute|]. split; [reflexivity|].
  apply Qc_is_canon. rewrite !dyadic_value, Qpower_plus by discriminate. change (2 ^ 53) with (2 ^ 52 * 2). rewrite inject_Z_mult. change (inject_Z 2) with (2#1)%Q.
  change (Qpower (2 # 1) 1) with (2#1)%Q. generalize (inject_Z (2 ^ 52)) (Qpower (2#1) e). intros. ring.
Qed.
Lemma rounded_pos n d : 0 < n -> 0 < d -> forall q, (this q == inject_Z n / inject_Z d)%Q -> rounded q (Q2Qc (round64_pos n d)).
Proof.
  intros N D q Hq. destruct (round_pos n d N D) as (e & n1 & d1 & D1 & B & X & R). rewrite R. fold (dyadic (round_half_even n1 d1) e).
  rewrite <- Hq in X. pose proof (M_bounds n1 d1 D1 B) as MB.
  split.
  - destruct (Z.eq_dec (round_half_even n1 d1) (2 ^ 53)) as [E|Ne].
    + apply even_double_double, big_double; [exact MB|]. rewrite E. reflexivity.
    + eexists _, e. split; [|reflexivity]. lia.
  - intros x (m & a & Hm & ->). unfold distance. rewrite !dyadic_value.
    split; [exact (round_nearest e n1 d1 _ D1 B X m a Hm)|]. intros E Nx. apply big_double; [exact MB|].
    refine (round_tie e n1 d1 _ D1 B X m a Hm E _). intros E'. apply Nx, Qc_is_canon. now rewrite !dyadic_value.
Qed.
Lemma abs_zero a : (Qabs a <= 0)%Q -> (a == 0)%Q.
Proof. intros L. pose proof (Qle_Qabs a). pose proof (Qle_Qabs (- a)) as O. rewrite Qabs_opp in O. lra. Qed.
Lemma distance_zero x y : (distance x y <= 0)%Q -> x = y.
Proof. intros H. apply Qc_is_canon. apply abs_zero in H. lra. Qed.
Lemma distance_same x : (distance x x == 0)%Q.
Proof. unfold distance. rewrite (Qabs_wd _ 0%Q) by ring. reflexivity. Qed.
Lemma round_rounded q : rounded q (round64 q).
Proof.
  unfold round64, Qc_num, Qc_den. destruct q as [[n d] C]. cbn [this Qnum Qden]. destruct n as [|p|p].
  - assert (Qcmake (0 # d) C = 0%Qc) as -> by (apply Qc_is_canon; reflexivity).
    split; [exists 0, 0; split; [now vm_compute|apply Qc_is_canon; reflexivity]|].
    intros x _. rewrite distance_same. split; [apply Qabs_nonneg|].
    intros E Nx. exfalso. apply Nx. symmetry. apply distance_zero. rewrite <- E. apply Qle_refl.
  - apply (rounded_pos (Zpos p) (Zpos d)); try lia. cbn [this]. apply Qmake_Qdiv.
  - rewrite <- (qc_opp_opp (Qcmake (Zneg p # d) C)).
    apply rounded_opp. apply (rounded_pos (Zpos p) (Zpos d)); try lia. rewrite this_opp. cbn [this]. apply (Qmake_Qdiv (Zpos p) d).
Qed.
Lemma round_exact q : double q -> round64 q = q.
Proof.
  intros D. destruct (round_rounded q) as [_ H]. destruct (H q D) as [L _]. rewrite distance_same in L. now apply distance_zero.
Qed.

(** * The relative error *)
Lemma half n d : 0 < d -> 2 * Z.abs (round_half_even n d * d - n) <= d.
Proof.
  intros D. unfold round_half_even. pose proof (Z.div_mod n d ltac:(lia)) as E. pose proof (Z.mod_pos_bound n d D) as B.
  set (q := n / d) in *. set (r := n mod d) in *.
  destruct (Z.ltb_spec (2 * r) d); [|destruct (Z.ltb_spec d (2 * r)); [|destruct (Z.even q)]];
    (replace (q * d - n) with (- r) by lia || replace ((q + 1) * d - n) with (d - r) by lia); lia.
Qed.
Lemma error_pos n d : 0 < n -> 0 < d -> forall q, (this q == inject_Z n / inject_Z d)%Q ->
  (inject_Z (2 ^ 53) * distance (Q2Qc (round64_pos n d)) q <= this q)%Q.
Proof.
  intros N D q Hq. destruct (round_pos n d N D) as (e & n1 & d1 & D1 & B & X & R). rewrite R. fold (dyadic (round_half_even n1 d1) e).
  rewrite <- Hq in X. unfold distance. rewrite dyadic_value, (dist e n1 d1 _ D1 X).
  assert (this q == inject_Z n1 * (Qpower (2#1) e / inject_Z d1))%Q as -> by (rewrite X; field; intros Z; unfold Qeq in Z; cbn in Z; lia).
  rewrite Qmult_assoc. apply Qmult_le_compat_r; [|apply Qlt_le_weak, unit_pos; exact D1].
  rewrite <- inject_Z_mult, <- Zle_Qle. pose proof (half n1 d1 D1). change (2 ^ 53) with (2 ^ 52 * 2). nia.
Qed.
Lemma round_error q : (inject_Z (2 ^ 53) * distance (round64 q) q <= Qabs (this q))%Q.
Proof.
  unfold round64, Qc_num, Qc_den. destruct q as [[n d] C]. cbn [this Qnum Qden]. destruct n as [|p|p].
  - assert (Qcmake (0 # d) C = 0%Qc) as -> by (apply Qc_is_canon; reflexivity). rewrite distance_same, Qmult_0_r. apply Qabs_nonneg.
  - rewrite Qabs_pos by (unfold Qle; cbn; lia). apply (error_pos (Zpos p) (Zpos d)); try lia. cbn [this]. apply Qmake_Qdiv.
  - rewrite <- Qabs_opp. rewrite <- (qc_opp_opp (Qcmake (Zneg p # d) C)) at 1. rewrite distance_opp.
    rewrite Qabs_pos by (unfold Qle; cbn; lia). change (- (Z.neg p # d))%Q with (Z.pos p # d)%Q.
    assert (this (Qcopp (Qcmake (Zneg p # d) C)) == Z.pos p # d)%Q as E by (rewrite this_opp; reflexivity).
    rewrite <- E. apply (error_pos (Zpos p) (Zpos d)); try lia. rewrite E. apply (Qmake_Qdiv (Zpos p) d).
Qed.
Lemma apart p q : (Qabs (this p) + Qabs (this q) < inject_Z (2 ^ 53) * distance p q)%Q -> round64 p <> round64 q.
Proof.
  intros L E. pose proof (round_error p) as P. pose proof (round_error q) as Q. rewrite E in P.
  assert (distance p q <= distance (round64 q) p + distance (round64 q) q)%Q as T.
  { unfold distance. assert (this p - this q == - (this (round64 q) - this p) + (this (round64 q) - this q))%Q as -> by ring.
    rewrite <- (Qabs_opp (this (round64 q) - this p)). apply Qabs_triangle. }
  assert (0 < inject_Z (2 ^ 53))%Q as K by reflexivity.
  apply (Qmult_le_l _ _ _ K) in T. rewrite Qmult_plus_distr_r in T. lra.
Qed.
Lemma small_apart p q : small p -> small q -> p <> q -> round64 p <> round64 q.
Proof.
  intros [P1 P2] [Q1 Q2] N. apply apart. unfold distance.
  destruct p as [[a b] Cp], q as [[c d] Cq]. unfold Qc_num, Qc_den in *. cbn [this Qnum Qden] in *.
  assert (a * Zpos d - c * Zpos b <> 0) as Ne.
  { intros E. apply N, Qc_is_canon. unfold Qeq. cbn. lia. }
  change (Qabs ((a # b) - (c # d))) with (Z.abs (a * Zpos d + - c * Zpos b) # (b * d)).
  change (Qabs (a # b)) with (Z.abs a # b). change (Qabs (c # d)) with (Z.abs c # d).
  unfold Qlt, Qplus, Qmult, inject_Z. cbn [Qnum Qden].
  assert (Z.abs a * Zpos d + Z.abs c * Zpos b < 2 ^ 53) as S.
  { change (2 ^ 53) with (2 ^ 26 * 2 ^ 26 + 2 ^ 26 * 2 ^ 26). set (k := 2 ^ 26) in *. nia. }
  replace (a * Zpos d + - c * Zpos b) with (a * Zpos d - c * Zpos b) by lia. rewrite !Pos2Z.inj_mul.
  set (u := Z.abs a * Zpos d + Z.abs c * Zpos b) in *. set (v := Z.abs (a * Zpos d - c * Zpos b)) in *. assert (1 <= v) by (unfold v; lia).
  assert (0 < Zpos b * Zpos d) by lia. set (w := Zpos b * Zpos d) in *.
  set (k := 2 ^ 53) in *. assert (k <= k * v) by nia. rewrite Z.mul_1_l. apply Z.mul_lt_mono_pos_r; lia.
Qed.
