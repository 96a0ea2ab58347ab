(** Lemmas about derivatives, sums and integrals. *)

From Coq Require Import List Bool ZArith Arith Reals Lra Lia Psatz Sorted.
From Verif Require Import Py PyFacts NumericalModel ComputedModel ComputedSpec VectorProofs.
Import ListNotations.
Open Scope R_scope.

Lemma rising_inv x l : rising (x :: l) -> rising l /\ Forall (Rlt x) l.
Proof. intros H. inversion H; subst. now split. Qed.
Lemma rising2 x y l : rising (x :: y :: l) -> x < y /\ rising (y :: l).
Proof. intros H. apply rising_inv in H as [H F]. inversion F; subst. now split. Qed.
Lemma rising3 x y z l : rising (x :: y :: z :: l) -> x < y /\ y < z /\ rising (z :: l) /\ rising (y :: z :: l).
Proof. intros H. apply rising2 in H as [A H]. pose proof H as H0. apply rising2 in H as [B H]. now repeat split. Qed.
Lemma rising_app l m : rising (l ++ m) -> rising l /\ rising m.
Proof.
  induction l as [|x l IH]; cbn; intros H; [split; [constructor|assumption]|].
  apply rising_inv in H as [H F]. destruct (IH H). apply Forall_app in F as [F _].
  split; [now constructor|assumption].
Qed.

(** * Simpson's rule *)

Lemma panel_exact a b c p q r : fst p < fst q -> fst q < fst r ->
  snd p = quadratic a b c (fst p) -> snd q = quadratic a b c (fst q) -> snd r = quadratic a b c (fst r) ->
  panel p q r = primitive a b c (fst r) - primitive a b c (fst p).
Proof.
  intros H1 H2 E1 E2 E3. unfold panel. cbn zeta. rewrite E1, E2, E3. unfold quadratic, primitive. field. split; lra.
Qed.
Lemma odd_SS n : Nat.odd (S (S n)) = Nat.odd n.
Proof. reflexivity. Qed.
Lemma pairwise (P : list (R * R) -> Prop) :
  P [] -> (forall p, P [p]) -> (forall p q l, P l -> (forall r, P (r :: l)) -> P (p :: q :: l)) ->
  forall l, P l.
Proof.
  intros H0 H1 H2 l. assert (P l /\ forall r, P (r :: l)) as [H _]; [|exact H].
  induction l as [|p l [IH IH']]; [now split|]. split; [apply IH'|]. intros r. now apply H2.
Qed.
Lemma last_cons {A} (x y : A) l d d' : last (x :: y :: l) d = last (y :: l) d'.
Proof. cbn [last]. revert y. induction l as [|z l IH]; intros y; [reflexivity|]. apply IH. Qed.
Lemma last_app1 {A} (l : list A) x d : last (l ++ [x]) d = x.
Proof. induction l as [|y l IH]; [reflexivity|]. cbn. destruct (l ++ [x]) eqn:E; [now destruct l|]. exact IH. Qed.

Lemma panels_step p q r l : panels (p :: q :: r :: l) = panel p q r + panels (r :: l).
Proof. reflexivity. Qed.
Lemma panels_exact a b c : forall n l, (length l < n)%nat -> rising (map fst l) -> follows (quadratic a b c) l -> Nat.odd (length l) = true ->
  panels l = primitive a b c (final l) - primitive a b c (first l).
Proof.
  induction n as [|n IH]; intros l L S F O; [lia|].
  destruct l as [|p [|q [|r l]]]; try easy.
  - unfold final, first. cbn. lra.
  - rewrite panels_step. cbn [map] in S. apply rising3 in S as (A & B & S & _).
    inversion F as [|? ? Fp F1]; subst. inversion F1 as [|? ? Fq F2]; subst. pose proof F2 as F3. inversion F2 as [|? ? Fr _]; subst.
    rewrite (panel_exact a b c p q r) by assumption.
    rewrite (IH (r :: l)); [|cbn in *; lia|assumption|assumption|exact O].
    unfold first, final. cbn [hd]. rewrite (last_cons p q _ _ (0, 0)), (last_cons q r _ _ (0, 0)). lra.
Qed.

Lemma split_last {A} (l : list A) : (2 <= length l)%nat -> exists l0 d e, l = l0 ++ [d; e].
Proof.
  intros H. destruct (exists_last (l := l)) as [l1 [e ->]]; [now destruct l|].
  rewrite app_length in H. cbn in H.
  destruct (exists_last (l := l1)) as [l0 [d ->]]; [destruct l1; [cbn in H; lia|discriminate]|].
  exists l0, d, e. now rewrite <- app_assoc.
Qed.
Lemma removelast2 {A} (l : list A) d e : removelast (l ++ [d; e]) = l ++ [d].
Proof. rewrite removelast_app by discriminate. reflexivity. Qed.
Lemma nth_tail {A} (l : list A) d e x : nth (length (l ++ [d; e]) - 1) (l ++ [d; e]) x = e /\ nth (length (l ++ [d; e]) - 2) (l ++ [d; e]) x = d.
Proof.
  rewrite app_length. cbn [length]. split.
  - rewrite app_nth2 by lia. now replace (length l + 2 - 1 - length l)%nat with 1%nat by lia.
  - rewrite app_nth2 by lia. now replace (length l + 2 - 2 - length l)%nat with 0%nat by lia.
Qed.
Lemma simpson_even l0 d e p q l1 : l0 ++ [d; e] = p :: q :: l1 -> Nat.odd (length (p :: q :: l1)) = false ->
  simpson (p :: q :: l1) = ((trapezoid d e + panels (l0 ++ [d])) + (trapezoid p q + panels (q :: l1))) / 2.
Proof.
  intros E O. unfold simpson. rewrite O. cbn [tl]. rewrite <- E.
  destruct (nth_tail l0 d e p) as [-> ->]. now rewrite removelast2.
Qed.
Lemma simpson_odd l : Nat.odd (length l) = true -> simpson l = panels l.
Proof. unfold simpson. now intros ->. Qed.

Lemma trapezoid_exact a b p q :
  snd p = quadratic a b 0 (fst p) -> snd q = quadratic a b 0 (fst q) ->
  trapezoid p q = primitive a b 0 (fst q) - primitive a b 0 (fst p).
Proof. intros E1 E2. unfold trapezoid. rewrite E1, E2. unfold quadratic, primitive. field. Qed.

Lemma odd_length_step {A} (x : A) l : Nat.odd (length (x :: l)) = negb (Nat.odd (length l)).
Proof. cbn [length]. rewrite Nat.odd_succ, <- Nat.negb_odd. reflexivity. Qed.

Lemma first_app l0 d e p q l1 : l0 ++ [d; e] = p :: q :: l1 -> first (l0 ++ [d]) = fst p.
Proof. destruct l0; cbn; intros [= -> _]; reflexivity. Qed.
Lemma simpson_linear a b l : l <> [] -> rising (map fst l) -> follows (quadratic a b 0) l ->
  simpson l = primitive a b 0 (final l) - primitive a b 0 (first l).
Proof.
  intros N S F. destruct (Nat.odd (length l)) eqn:O.
  - rewrite simpson_odd by assumption. eapply panels_exact; eauto.
  - destruct l as [|p [|q l1]]; try easy.
    destruct (split_last (p :: q :: l1)) as (l0 & d & e & E); [cbn; lia|]. symmetry in E.
    rewrite (simpson_even _ _ _ _ _ _ E O).
    pose proof F as F'. rewrite <- E in F'. apply Forall_app in F' as [F0 F1].
    inversion F1 as [|? ? Fd F2]; subst. inversion F2 as [|? ? Fe _]; subst.
    inversion F as [|? ? Fp F3]; subst. pose proof F3 as F4. inversion F3 as [|? ? Fq _]; subst.
    rewrite (trapezoid_exact a b d e), (trapezoid_exact a b p q) by assumption.
    assert (S1 : rising (map fst (l0 ++ [d]))).
    { rewrite <- E in S. replace (l0 ++ [d; e]) with ((l0 ++ [d]) ++ [e]) in S by now rewrite <- app_assoc.
      rewrite map_app in S. now apply rising_app in S as [S _]. }
    assert (O2 : Nat.odd (length (q :: l1)) = true). { rewrite odd_length_step in O. now destruct (Nat.odd (length (q :: l1))). }
    assert (O1 : Nat.odd (length (l0 ++ [d])) = true).
    { rewrite <- O2. f_equal. apply (f_equal (@length _)) in E. rewrite app_length in *. cbn in *. lia. }
    assert (F5 : follows (quadratic a b 0) (l0 ++ [d])).
    { apply Forall_app. split; [assumption|]. constructor; [assumption|constructor]. }
    rewrite (panels_exact a b 0 _ (l0 ++ [d]) (Nat.lt_succ_diag_r _) S1 F5 O1).
    rewrite (first_app _ _ _ _ _ _ E).
    assert (S2 : rising (map fst (q :: l1))) by (cbn [map] in *; now apply rising2 in S as [_ S]).
    rewrite (panels_exact a b 0 _ (q :: l1) (Nat.lt_succ_diag_r _) S2 F4 O2).
    unfold final, first. rewrite last_app1. cbn [hd]. rewrite (last_cons p q l1 (0, 0) (0, 0)).
    assert (Le : last (q :: l1) (0, 0) = e).
    { rewrite <- (last_cons p q l1 (0, 0) (0, 0)), <- E.
      replace (l0 ++ [d; e]) with ((l0 ++ [d]) ++ [e]) by now rewrite <- app_assoc. apply last_app1. }
    rewrite Le. lra.
Qed.

(** The rule is linear in the values. *)
Lemma panels_additive {A} (x f g : A -> R) k : forall n (l : list A), (length l < n)%nat ->
  panels (map (fun t => (x t, k * f t + g t)) l)
  = k * panels (map (fun t => (x t, f t)) l) + panels (map (fun t => (x t, g t)) l).
Proof.
  induction n as [|n IH]; intros l L; [lia|].
  destruct l as [|p [|q [|r l]]]; cbn [map]; try (cbn; ring).
  rewrite !panels_step. specialize (IH (r :: l)). cbn [map] in IH. rewrite IH by (cbn in *; lia).
  unfold panel. cbn [fst snd]. ring.
Qed.
Lemma removelast_map {A B} (f : A -> B) l : removelast (map f l) = map f (removelast l).
Proof. induction l as [|x [|y l] IH]; [reflexivity..|]. cbn [map removelast] in *. now rewrite <- IH. Qed.
Lemma tl_map {A B} (f : A -> B) l : tl (map f l) = map f (tl l).
Proof. now destruct l. Qed.
Lemma simpson_map_even {A} (F : A -> R * R) p q l : Nat.odd (length (p :: q :: l)) = false ->
  simpson (map F (p :: q :: l))
  = ((trapezoid (F (nth (length (p :: q :: l) - 2) (p :: q :: l) p)) (F (nth (length (p :: q :: l) - 1) (p :: q :: l) p))
      + panels (map F (removelast (p :: q :: l)))) + (trapezoid (F p) (F q) + panels (map F (q :: l)))) / 2.
Proof.
  intros O. unfold simpson. rewrite map_length, O, <- removelast_map, <- !(map_nth F). reflexivity.
Qed.
Lemma simpson_additive {A} (x f g : A -> R) k (l : list A) :
  simpson (map (fun t => (x t, k * f t + g t)) l)
  = k * simpson (map (fun t => (x t, f t)) l) + simpson (map (fun t => (x t, g t)) l).
Proof.
  assert (P : forall m, panels (map (fun t => (x t, k * f t + g t)) m)
    = k * panels (map (fun t => (x t, f t)) m) + panels (map (fun t => (x t, g t)) m)).
  { intros m. apply (panels_additive x f g k (S (length m))). lia. }
  destruct (Nat.odd (length l)) eqn:O.
  - rewrite !simpson_odd by now rewrite map_length. apply P.
  - destruct l as [|p [|q l]]; [cbn; field|easy|]. rewrite !simpson_map_even, !P by assumption.
    unfold trapezoid. cbn [fst snd]. field.
Qed.

(** Weights are positive when neighbouring steps are similar. *)
Lemma gentle_tail x l : gentle (x :: l) -> gentle l.
Proof. destruct l as [|y [|z l]]; cbn; tauto. Qed.
Lemma gentle_app l m : gentle (l ++ m) -> gentle l.
Proof.
  induction l as [|x l IH]; [easy|]. intros H. pose proof (IH (gentle_tail _ _ H)) as G.
  destruct l as [|y [|z l]]; cbn in *; tauto.
Qed.
Lemma panel_nonneg p q r : fst p < fst q -> fst q < fst r ->
  fst r - fst q <= 2 * (fst q - fst p) -> fst q - fst p <= 2 * (fst r - fst q) ->
  0 <= snd p -> 0 <= snd q -> 0 <= snd r -> 0 <= panel p q r.
Proof.
  intros A B C D P Q T. unfold panel. cbn zeta. set (h0 := fst q - fst p) in *. set (h1 := fst r - fst q) in *.
  assert (H0 : 0 < h0) by (unfold h0; lra). assert (H1 : 0 < h1) by (unfold h1; lra).
  assert (W0 : 0 <= 2 - h1 / h0). { assert (h1 / h0 <= 2); [|lra]. apply Rmult_le_reg_r with h0; [assumption|]. unfold Rdiv. rewrite Rmult_assoc, Rinv_l by lra. lra. }
  assert (W1 : 0 <= 2 - h0 / h1). { assert (h0 / h1 <= 2); [|lra]. apply Rmult_le_reg_r with h1; [assumption|]. unfold Rdiv. rewrite Rmult_assoc, Rinv_l by lra. lra. }
  assert (W2 : 0 <= (h0 + h1) * ((h0 + h1) / (h0 * h1))).
  { apply Rmult_le_pos; [lra|]. unfold Rdiv. apply Rmult_le_pos; [lra|]. left. apply Rinv_0_lt_compat. nra. }
  apply Rmult_le_pos; [lra|]. repeat apply Rplus_le_le_0_compat; now apply Rmult_le_pos.
Qed.
Lemma panels_nonneg : forall n l, (length l < n)%nat -> rising (map fst l) -> gentle (map fst l) -> Forall (fun p => 0 <= snd p) l -> 0 <= panels l.
Proof.
  induction n as [|n IH]; intros l L S G F; [lia|].
  destruct l as [|p [|q [|r l]]]; try (cbn; lra). rewrite panels_step. cbn [map] in *.
  apply rising3 in S as (A & B & S & _). destruct G as (G1 & G2 & G). apply gentle_tail in G.
  inversion F as [|? ? Fp F1]; subst. inversion F1 as [|? ? Fq F2]; subst. inversion F2 as [|? ? Fr _]; subst.
  apply Rplus_le_le_0_compat; [now apply panel_nonneg|]. apply IH; auto. cbn in *. lia.
Qed.
Lemma trapezoid_nonneg p q : fst p < fst q -> 0 <= snd p -> 0 <= snd q -> 0 <= trapezoid p q.
Proof. intros. unfold trapezoid. nra. Qed.
Lemma simpson_nonneg l : rising (map fst l) -> gentle (map fst l) -> Forall (fun p => 0 <= snd p) l -> 0 <= simpson l.
Proof.
  intros S G F. destruct (Nat.odd (length l)) eqn:O.
  - rewrite simpson_odd by assumption. eapply panels_nonneg; eauto.
  - destruct l as [|p [|q l1]]; [cbn; lra|easy|].
    destruct (split_last (p :: q :: l1)) as (l0 & d & e & E); [cbn; lia|]. symmetry in E.
    rewrite (simpson_even _ _ _ _ _ _ E O).
    pose proof F as F'. rewrite <- E in F'. pose proof S as S'. rewrite <- E in S'. pose proof G as G'. rewrite <- E in G'.
    replace (l0 ++ [d; e]) with ((l0 ++ [d]) ++ [e]) in F', S', G' by now rewrite <- app_assoc.
    rewrite map_app in S', G'. apply gentle_app in G'.
    assert (Sd : fst d < fst e).
    { rewrite map_app in S'. rewrite <- app_assoc in S'. apply rising_app in S' as [_ S']. cbn in S'. now apply rising2 in S' as [? _]. }
    apply rising_app in S' as [S' _]. apply Forall_app in F' as [F0 Fe].
    inversion Fe as [|? ? Fe' _]; subst. pose proof F0 as F0'. apply Forall_app in F0' as [_ Fd]. inversion Fd as [|? ? Fd' _]; subst.
    inversion F as [|? ? Fp F1]; subst. inversion F1 as [|? ? Fq _]; subst.
    cbn [map] in S. apply rising2 in S as [Sp S]. apply gentle_tail in G.
    pose proof (trapezoid_nonneg d e Sd Fd' Fe'). pose proof (trapezoid_nonneg p q Sp Fp Fq).
    pose proof (panels_nonneg _ (l0 ++ [d]) (Nat.lt_succ_diag_r _) S' G' F0). pose proof (panels_nonneg _ (q :: l1) (Nat.lt_succ_diag_r _) S G F1). lra.
Qed.

(** * Gradients *)

Lemma slope_linear a b p q : fst p <> fst q -> snd p = a + b * fst p -> snd q = a + b * fst q -> slope p q = b.
Proof. intros N P Q. unfold slope. rewrite P, Q. field. lra. Qed.
Lemma inner_slope_linear a b p q r : fst p < fst q -> fst q < fst r ->
  snd p = a + b * fst p -> snd q = a + b * fst q -> snd r = a + b * fst r -> inner_slope p q r = b.
Proof. intros H1 H2 P Q T. unfold inner_slope. cbn zeta. rewrite P, Q, T. field. repeat split; lra. Qed.
Lemma inner_slopes_linear a b : forall l, rising (map fst l) -> follows (fun x => a + b * x) l ->
  inner_slopes l = repeat b (length l - 2).
Proof.
  induction l as [|p l IH]; intros HS F; [reflexivity|].
  destruct l as [|q [|r l]]; [reflexivity..|].
  cbn [inner_slopes map] in *. apply rising3 in HS as (A & B & _ & HS).
  inversion F as [|? ? Fp F1]; subst. inversion F1 as [|? ? Fq F2]; subst. inversion F2 as [|? ? Fr _]; subst.
  rewrite (inner_slope_linear a b) by assumption. rewrite (IH HS F1).
  cbn [length]. replace (S (S (S (length l))) - 2)%nat with (S (length l)) by lia.
  replace (S (S (length l)) - 2)%nat with (length l) by lia. reflexivity.
Qed.
Lemma repeat_snoc {A} (x : A) n : repeat x n ++ [x] = repeat x (S n).
Proof. induction n as [|n IH]; [reflexivity|]. cbn. now rewrite IH. Qed.
Lemma gradient_linear a b l : (2 <= length l)%nat -> rising (map fst l) -> follows (fun x => a + b * x) l ->
  gradient l = Ok (repeat b (length l)).
Proof.
  intros L HS F. destruct l as [|p [|q l]]; [cbn in L; lia..|].
  destruct (split_last (p :: q :: l) L) as (l0 & d & e & E).
  pose proof (inner_slopes_linear a b _ HS F) as I. unfold gradient.
  destruct (nth_tail l0 d e p) as [N1 N2]. rewrite <- E in N1, N2.
  rewrite N1, N2, I.
  assert (slope p q = b) as ->.
  { cbn [map] in HS. apply rising2 in HS as [? _]. inversion F as [|? ? Fp F1]; subst. inversion F1 as [|? ? Fq F2]; subst.
    apply (slope_linear a b); auto. lra. }
  assert (slope d e = b) as ->.
  { rewrite E in HS, F. rewrite map_app in HS. apply rising_app in HS as [_ HS]. cbn in HS. apply rising2 in HS as [? _].
    apply Forall_app in F as [_ F]. inversion F as [|? ? Fp F1]; subst. inversion F1 as [|? ? Fq F2]; subst.
    apply (slope_linear a b); auto. lra. }
  rewrite repeat_snoc. cbn [length]. now replace (S (S (S (length l)) - 2))%nat with (S (length l)) by lia.
Qed.

Lemma inner_unit_pos l : rising l -> Forall (fun d => 0 < d) (inner_unit l).
Proof.
  induction l as [|p l IH]; intros S; [constructor|]. destruct l as [|q [|r l]]; [constructor..|].
  apply rising3 in S as (A & B & _ & S). change (inner_unit (p :: q :: r :: l)) with ((r - p) / 2 :: inner_unit (q :: r :: l)).
  constructor; [lra|now apply IH].
Qed.
Lemma inner_unit_length l : length (inner_unit l) = (length l - 2)%nat.
Proof.
  induction l as [|p l IH]; [reflexivity|]. destruct l as [|q [|r l]]; [reflexivity..|].
  change (inner_unit (p :: q :: r :: l)) with ((r - p) / 2 :: inner_unit (q :: r :: l)). cbn [length] in *. lia.
Qed.
Lemma gradient_unit_spec l : (2 <= length l)%nat -> rising l ->
  exists dv, gradient_unit l = Ok dv /\ length dv = length l /\ Forall (fun d => 0 < d) dv.
Proof.
  intros L S. destruct l as [|a [|b l]]; [cbn in L; lia..|].
  destruct (split_last (a :: b :: l) L) as (l0 & d & e & E).
  eexists. split; [reflexivity|]. destruct (nth_tail l0 d e 0) as [N1 N2]. rewrite <- E in N1, N2. rewrite N1, N2. split.
  - rewrite app_comm_cons, app_length. cbn [length]. rewrite inner_unit_length. cbn. lia.
  - constructor; [apply rising2 in S as [? _]; lra|]. apply Forall_app. split; [now apply inner_unit_pos|].
    constructor; [|constructor]. rewrite E in S. apply rising_app in S as [_ S]. apply rising2 in S as [? _]. lra.
Qed.
Lemma gradient_unit_short l : (length l < 2)%nat -> gradient_unit l = Err ValueError.
Proof. destruct l as [|a [|b l]]; cbn; [reflexivity..|lia]. Qed.

(** * Sums *)

Lemma map2_map_l {A A' B C} (g : A -> A') (f : A' -> B -> C) l : forall m, map2 f (map g l) m = map2 (fun a b => f (g a) b) l m.
Proof. induction l as [|a l IH]; intros [|b m]; cbn; [reflexivity..|]. now rewrite IH. Qed.
Lemma map2_ext {A B C} (f g : A -> B -> C) : (forall a b, f a b = g a b) -> forall l m, map2 f l m = map2 g l m.
Proof. intros E l. induction l as [|a l IH]; intros [|b m]; cbn; [reflexivity..|]. now rewrite E, IH. Qed.
Lemma map2_length {A B C} (f : A -> B -> C) l : forall m, length l = length m -> length (map2 f l m) = length l.
Proof. induction l as [|a l IH]; intros [|b m] E; cbn in *; try easy. rewrite IH; lia. Qed.
Lemma map2_nth {A B C} (f : A -> B -> C) l : forall m i a b, nth_error l i = Some a -> nth_error m i = Some b -> nth_error (map2 f l m) i = Some (f a b).
Proof. induction l as [|x l IH]; intros [|y m] [|i] a b Ha Hb; cbn in *; try easy; [congruence|]. now apply IH. Qed.

Lemma sum_scale k l : sum (map (Rmult k) l) = k * sum l.
Proof. induction l as [|x l IH]; cbn; [ring|]. fold (sum l). unfold sum in *. cbn. rewrite IH. ring. Qed.
Lemma sum2_scale {A B} (f : A -> B -> R) k l : forall m, sum (map2 (fun a b => k * f a b) l m) = k * sum (map2 f l m).
Proof. induction l as [|a l IH]; intros [|b m]; cbn; try ring. fold (sum (map2 (fun a b => k * f a b) l m)). rewrite IH. fold (sum (map2 f l m)). ring. Qed.
Lemma weighted {A} (u w : A -> R) lo hi : forall (l : list A) dv, length dv = length l ->
  Forall (fun d => 0 < d) dv -> Forall (fun p => 0 <= w p) l -> Forall (fun p => lo <= u p <= hi) l ->
  lo * sum (map2 (fun p d => w p * d) l dv) <= sum (map2 (fun p d => u p * (w p * d)) l dv) <= hi * sum (map2 (fun p d => w p * d) l dv).
Proof.
  induction l as [|p l IH]; intros [|d dv] L D W U; try easy.
  { cbn. lra. }
  inversion D; subst. inversion W; subst. inversion U; subst. cbn in L.
  destruct (IH dv) as [I1 I2]; auto. cbn. fold (sum (map2 (fun p d => w p * d) l dv)). fold (sum (map2 (fun p d => u p * (w p * d)) l dv)).
  assert (0 <= w p * d) by nra. nra.
Qed.
Lemma weight_pos {A} (w : A -> R) : forall (l : list A) dv, length dv = length l ->
  Forall (fun d => 0 < d) dv -> Forall (fun p => 0 <= w p) l -> Exists (fun p => 0 < w p) l ->
  0 < sum (map2 (fun p d => w p * d) l dv).
Proof.
  assert (N : forall (l : list A) dv, Forall (fun d => 0 < d) dv -> Forall (fun p => 0 <= w p) l -> 0 <= sum (map2 (fun p d => w p * d) l dv)).
  { induction l as [|p l IH]; intros [|d dv] D W; try (cbn; lra).
    inversion D; subst. inversion W; subst. cbn. fold (sum (map2 (fun p d => w p * d) l dv)). specialize (IH dv H2 H4). nra. }
  induction l as [|p l IH]; intros [|d dv] L D W E; try easy.
  all: try now inversion E.
  inversion D as [|? ? D1 D2]; subst. inversion W as [|? ? W1 W2]; subst. cbn. fold (sum (map2 (fun p d => w p * d) l dv)). cbn in L.
  inversion E as [? ? P|? ? P]; subst.
  - specialize (N l dv D2 W2). nra.
  - specialize (IH dv ltac:(lia) D2 W2 P). nra.
Qed.
Lemma sum_bounds lo hi l : Forall (fun x => lo <= x <= hi) l -> lo * INR (length l) <= sum l <= hi * INR (length l).
Proof.
  induction 1 as [|x l H _ IH]; [cbn; lra|]. cbn [length sum fold_right]. fold (sum l). rewrite S_INR. lra.
Qed.
