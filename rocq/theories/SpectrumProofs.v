(** Lemmas about spectra and rates of acceleration. *)

From Coq Require Import List Bool ZArith QArith Qcanon Qreals Arith Reals Lra Lia Psatz Sorted.
From Verif Require Import Py PyFacts QcOrder NumericalModel NumericalSpec NumericalProofs ComputedModel ComputedSpec VectorProofs IntegralProofs.
Import ListNotations.
Open Scope nat_scope.
Open Scope R_scope.
Open Scope py_scope.

Lemma inj_lt x y : (x < y)%Qc -> inj x < inj y.
Proof. intros H. apply Qlt_Rlt. exact H. Qed.
Lemma inj_le x y : (x <= y)%Qc -> inj x <= inj y.
Proof. intros H. apply Qle_Rle. exact H. Qed.
Lemma inj_0 : inj 0 = 0.
Proof. unfold inj. cbn. unfold Q2R. cbn. lra. Qed.
Lemma inj_pos x : (0 < x)%Qc -> 0 < inj x.
Proof. intros H. rewrite <- inj_0. now apply inj_lt. Qed.

Lemma increasing_sorted a : increasing a -> sorted a.
Proof.
  induction 1 as [|x a _ IH F]; constructor; [assumption|]. apply Forall_impl with (2 := F). intros y H. now apply Qclt_le_weak.
Qed.
Lemma increasing_at a : increasing a -> forall i j x y, (i < j)%nat -> at_ a i x -> at_ a j y -> (x < y)%Qc.
Proof.
  induction 1 as [|z a _ IH F]; intros [|i] [|j] x y L Hx Hy; try lia; try easy.
  - injection Hx as <-. rewrite Forall_forall in F. apply F. eapply nth_error_In, Hy.
  - apply (IH i j); auto. lia.
Qed.
Lemma increasing_index a i j x y : increasing a -> at_ a i x -> at_ a j y -> (x < y)%Qc -> (i < j)%nat.
Proof.
  intros I Hx Hy L. destruct (Nat.lt_total i j) as [H|[H|H]]; [assumption|exfalso..].
  - subst. assert (x = y) by congruence. subst. now apply Qclt_not_eq in L.
  - pose proof (increasing_at a I j i y x H Hy Hx). apply (Qclt_not_le _ _ L). now apply Qclt_le_weak.
Qed.
Lemma increasing_same a i j x : increasing a -> at_ a i x -> at_ a j x -> i = j.
Proof.
  intros I Hi Hj. destruct (Nat.lt_total i j) as [H|[H|H]]; [exfalso|assumption|exfalso].
  - pose proof (increasing_at a I i j x x H Hi Hj) as L. now apply Qclt_not_eq in L.
  - pose proof (increasing_at a I j i x x H Hj Hi) as L. now apply Qclt_not_eq in L.
Qed.

Lemma find_segment e i x0 x1 m : increasing e -> at_ e i x0 -> at_ e (S i) x1 -> (x0 <= m)%Qc -> (m < x1)%Qc ->
  find_nearest e m BUpper = Ok (Z.of_nat i, x0).
Proof.
  intros I H0 H1 L0 L1. destruct (find_upper e m) as [H _]; [now apply increasing_sorted|intros ->; now destruct i|].
  destruct H as (j & r & E & Hj & (_ & Lr & G)); [exists x0; split; [eapply nth_error_In, H0|assumption]|].
  rewrite E. assert (j = i) as ->; [|unfold at_ in *; congruence].
  assert (Le : (x0 <= r)%Qc) by (apply G; [eapply nth_error_In, H0|assumption]).
  assert (j < S i)%nat. { apply (increasing_index e j (S i) r x1 I Hj H1). eapply Qcle_lt_trans; eassumption. }
  destruct (Nat.lt_total i j) as [L|[L|L]]; [lia|congruence|].
  pose proof (increasing_at e I j i r x0 L Hj H0) as C. exfalso. now apply (Qclt_not_le _ _ C).
Qed.
Lemma interpolate_segment f e i x0 x1 f0 f1 m : increasing e -> at_ e i x0 -> at_ e (S i) x1 -> at_ f i f0 -> at_ f (S i) f1 ->
  (x0 <= m)%Qc -> (m < x1)%Qc ->
  interpolate f e m = Ok ((m, f0 * Rpower (inj m / inj x0) (ln (f1 / f0) / ln (inj x1 / inj x0))) :: skipn (S i) (combine e f)).
Proof.
  intros I X0 X1 F0 F1 L0 L1. unfold interpolate. rewrite (find_segment e i x0 x1 m) by assumption. cbn [bind].
  replace (Z.of_nat i + 1)%Z with (Z.of_nat (S i)) by lia.
  rewrite (py_index_at f _ _ F1), (py_index_at f _ _ F0), (py_index_at e _ _ X1). cbn [bind].
  destruct (Z.ltb_spec (Z.of_nat i) 0); [lia|]. now rewrite Nat2Z.id.
Qed.
Lemma interpolate_beyond f e x m : increasing e -> length f = length e -> at_ e (length e - 1) x -> (x <= m)%Qc ->
  interpolate f e m = Err IndexError.
Proof.
  intros I Lf X L. unfold interpolate. assert (N : e <> []) by (intros ->; now cbn in X).
  destruct (find_upper e m) as [H _]; [now apply increasing_sorted|assumption|].
  destruct H as (j & r & E & Hj & (_ & Lr & G)); [exists x; split; [eapply nth_error_In, X|assumption]|].
  rewrite E. cbn [bind].
  assert (Le : (x <= r)%Qc) by (apply G; [eapply nth_error_In, X|assumption]).
  assert (Ljl : (j < length e)%nat) by (apply nth_error_Some; unfold at_ in Hj; congruence).
  assert (j = (length e - 1))%nat as ->.
  { destruct (Nat.eq_dec j (length e - 1)) as [Q|Q]; [assumption|].
    pose proof (increasing_at e I j (length e - 1) r x ltac:(lia) Hj X) as C. exfalso. now apply (Qclt_not_le _ _ C). }
  unfold py_index. rewrite Lf. destruct (Z.ltb_spec (Z.of_nat (length e - 1) + 1) 0); [lia|].
  destruct (Z.leb_spec 0 (Z.of_nat (length e - 1) + 1)); [|reflexivity].
  destruct (Z.ltb_spec (Z.of_nat (length e - 1) + 1) (Z.of_nat (length e))); [lia|]. reflexivity.
Qed.

(** The interpolated value lies on the straight line between its neighbours
    in the logarithms. *)
Lemma ln_div x y : 0 < x -> 0 < y -> ln (x / y) = ln x - ln y.
Proof. intros X Y. unfold Rdiv. rewrite ln_mult, ln_Rinv; [ring|assumption..|now apply Rinv_0_lt_compat]. Qed.
Lemma log_chord x0 x1 m f0 f1 : 0 < x0 -> x0 <= m -> m < x1 -> 0 < f0 -> 0 < f1 ->
  let y := f0 * Rpower (m / x0) (ln (f1 / f0) / ln (x1 / x0)) in
  0 < y /\ exists w, 0 <= w < 1 /\ ln m = ln x0 + w * (ln x1 - ln x0) /\ ln y = ln f0 + w * (ln f1 - ln f0).
Proof.
  intros X0 L0 L1 F0 F1. cbn zeta.
  assert (P : 0 < Rpower (m / x0) (ln (f1 / f0) / ln (x1 / x0))) by (unfold Rpower; apply exp_pos).
  split; [now apply Rmult_lt_0_compat|].
  assert (Dx : 0 < ln x1 - ln x0) by (apply Rlt_Rminus, ln_increasing; lra).
  assert (Dm : 0 <= ln m - ln x0). { destruct L0 as [L0| ->]; [left; apply Rlt_Rminus, ln_increasing; lra|lra]. }
  assert (Dm' : ln m < ln x1) by (apply ln_increasing; lra).
  exists ((ln m - ln x0) / (ln x1 - ln x0)). split; [split|split].
  - unfold Rdiv. apply Rmult_le_pos; [assumption|]. left. now apply Rinv_0_lt_compat.
  - apply Rmult_lt_reg_r with (ln x1 - ln x0); [assumption|]. unfold Rdiv. rewrite Rmult_assoc, Rinv_l by lra. lra.
  - field. lra.
  - rewrite ln_mult by assumption. unfold Rpower. rewrite ln_exp, !ln_div by lra. field. lra.
Qed.
Lemma power_law a g x0 x1 m : 0 < a -> 0 < x0 -> x0 < x1 -> 0 < m ->
  let f x := a * Rpower x g in
  f x0 * Rpower (m / x0) (ln (f x1 / f x0) / ln (x1 / x0)) = f m.
Proof.
  intros A X0 X1 M. cbn zeta.
  assert (Dx : 0 < ln x1 - ln x0) by (apply Rlt_Rminus, ln_increasing; lra).
  assert (E : forall x, ln (a * Rpower x g) = ln a + g * ln x).
  { intros x. rewrite ln_mult by (assumption || unfold Rpower; apply exp_pos). unfold Rpower. now rewrite ln_exp. }
  assert (Q : forall x, 0 < a * Rpower x g) by (intros; apply Rmult_lt_0_compat; [assumption|unfold Rpower; apply exp_pos]).
  rewrite !ln_div, !E by (auto; lra).
  replace ((ln a + g * ln x1 - (ln a + g * ln x0)) / (ln x1 - ln x0)) with g by (field; lra).
  unfold Rpower. rewrite ln_div by lra. rewrite Rmult_assoc, <- exp_plus. do 2 f_equal. ring.
Qed.

(** * Integral flux *)

Lemma minimum_increasing x e : increasing (x :: e) -> minimum (x :: e) = Ok x.
Proof.
  intros I. inversion I as [|? ? _ F]; subst. cbn [minimum]. f_equal. clear I.
  induction F as [|y e L _ IH]; [reflexivity|]. cbn [fold_left]. unfold Qc_min at 2.
  destruct (Qc_ltb_spec y x) as [C|C]; [|exact IH]. exfalso. apply (Qclt_not_le _ _ C). now apply Qclt_le_weak.
Qed.
Lemma Qc_max_tiny b : (tiny <= b)%Qc -> Qc_max b tiny = b.
Proof. intros H. unfold Qc_max. destruct (Qc_ltb_spec b tiny) as [C|C]; [|reflexivity]. exfalso. now apply (Qclt_not_le _ _ C). Qed.

(** A spectrum with real energies. *)
Definition points (l : list (Qc * R)) : list (R * R) := map (fun p => (inj (fst p), snd p)) l.

Lemma integral_below x e f b : increasing (x :: e) -> (tiny <= b)%Qc -> (b < x)%Qc ->
  integral_flux [(x :: e, f)] b = Ok [simpson (points (combine (x :: e) f))].
Proof.
  intros I T L. unfold integral_flux. cbn zeta. rewrite Qc_max_tiny by assumption. cbn [map concat fst]. rewrite app_nil_r.
  rewrite (minimum_increasing x e I). cbn [bind]. destruct (Qc_ltb_spec b x) as [C|C]; [reflexivity|easy].
Qed.
Lemma integral_above x e f b : increasing (x :: e) -> (tiny <= b)%Qc -> (x <= b)%Qc ->
  integral_flux [(x :: e, f)] b = match interpolate f (x :: e) b with Ok l => Ok [simpson (points l)] | Err er => Err er end.
Proof.
  intros I T L. unfold integral_flux. cbn zeta. rewrite Qc_max_tiny by assumption. cbn [map concat fst]. rewrite app_nil_r.
  rewrite (minimum_increasing x e I). cbn [bind]. destruct (Qc_ltb_spec b x) as [C|C]; [exfalso; now apply (Qclt_not_le _ _ C)|].
  cbn [mapM]. destruct (interpolate f (x :: e) b); reflexivity.
Qed.

Lemma rising_inj e : increasing e -> rising (map inj e).
Proof.
  induction 1 as [|x e _ IH F]; cbn; constructor; [assumption|]. rewrite Forall_map. apply Forall_impl with (2 := F). intros y. apply inj_lt.
Qed.
Lemma points_fst l : map fst (points l) = map inj (map fst l).
Proof. unfold points. rewrite !map_map. reflexivity. Qed.
Lemma fst_combine {A B} (e : list A) : forall (f : list B), length f = length e -> map fst (combine e f) = e.
Proof. induction e as [|x e IH]; intros [|y f] L; cbn in *; try easy. now rewrite IH by lia. Qed.
Lemma skipn_map {A B} (g : A -> B) n : forall l, skipn n (map g l) = map g (skipn n l).
Proof. induction n as [|n IH]; intros [|x l]; cbn; auto. Qed.
Lemma skipn_increasing n : forall e, increasing e -> increasing (skipn n e).
Proof. induction n as [|n IH]; intros e I; [exact I|]. destruct e; [exact I|]. cbn. apply IH. now inversion I. Qed.
Lemma nth_error_skip {A} n : forall (l : list A) k, nth_error (skipn n l) k = nth_error l (n + k).
Proof. induction n as [|n IH]; intros [|x l] k; cbn; auto. now destruct k. Qed.
Lemma skipn_above e i m x1 : increasing e -> at_ e (S i) x1 -> (m < x1)%Qc -> increasing (m :: skipn (S i) e).
Proof.
  intros I X L. constructor; [now apply skipn_increasing|]. rewrite Forall_forall. intros y Y.
  apply In_nth_error in Y as [k Hk]. rewrite nth_error_skip in Hk.
  apply Qclt_le_trans with x1; [assumption|]. destruct k as [|k].
  - rewrite Nat.add_0_r in Hk. unfold at_ in X. replace y with x1 by congruence. apply Qcle_refl.
  - apply Qclt_le_weak, (increasing_at e I (S i) (S i + S k)); [lia|exact X|exact Hk].
Qed.
Lemma last_skipn {A} n : forall (l : list A) d, (n < length l)%nat -> last (skipn n l) d = last l d.
Proof.
  induction n as [|n IH]; intros l d L; [reflexivity|]. destruct l as [|x [|y l]]; [easy|cbn in L; lia|].
  cbn [skipn]. rewrite IH by (cbn in *; lia). symmetry. apply last_cons.
Qed.
Lemma last_combine (e : list Qc) : forall (f : list R) d, length f = length e -> fst (last (combine e f) d) = last e (fst d).
Proof.
  induction e as [|x e IH]; intros [|y f] d L; try easy.
  destruct e as [|x' e], f as [|y' f]; try discriminate; [reflexivity|].
  change (combine (x :: x' :: e) (y :: y' :: f)) with ((x, y) :: combine (x' :: e) (y' :: f)).
  change (combine (x' :: e) (y' :: f)) with ((x', y') :: combine e f).
  rewrite (last_cons _ _ _ d d), (last_cons x x' e (fst d) (fst d)). apply (IH (y' :: f) d). cbn in *. lia.
Qed.
Lemma last_points l d : l <> [] -> last (points l) d = (fun p => (inj (fst p), snd p)) (last l (0%Qc, 0)).
Proof.
  destruct l as [|x l]; [easy|]. intros _. revert x. induction l as [|y l IH]; intros x; [reflexivity|].
  change (points (x :: y :: l)) with ((inj (fst x), snd x) :: (inj (fst y), snd y) :: points l).
  rewrite (last_cons _ _ _ d d), (last_cons x y l (0%Qc, 0) (0%Qc, 0)). apply IH.
Qed.

Lemma uniform_simpson F l : l <> [] -> increasing (map fst l) -> Forall (fun p => snd p = F) l ->
  simpson (points l) = F * (inj (fst (last l (0%Qc, 0))) - inj (fst (hd (0%Qc, 0) l))).
Proof.
  intros N I H. rewrite (simpson_linear F 0).
  - unfold final, first. rewrite last_points by assumption. destruct l as [|p l]; [easy|].
    unfold primitive. cbn [points map hd fst snd]. field.
  - now destruct l.
  - rewrite points_fst. now apply rising_inj.
  - unfold follows, points. rewrite Forall_map. apply Forall_impl with (2 := H). intros [x y]. cbn. intros ->. unfold quadratic. ring.
Qed.
Lemma Forall_combine_r {A B} (P : B -> Prop) (e : list A) : forall f, Forall P f -> Forall (fun p => P (snd p)) (combine e f).
Proof. induction e as [|x e IH]; intros [|y f] H; cbn; constructor; inversion H; subst; auto. Qed.
Lemma Forall_skipn {A} (P : A -> Prop) n : forall l, Forall P l -> Forall P (skipn n l).
Proof. induction n as [|n IH]; intros l H; [exact H|]. destruct l; [constructor|]. cbn. apply IH. now inversion H. Qed.

Lemma uniform_flux x e F b : 0 < F -> (0 < x)%Qc -> increasing (x :: e) -> (tiny <= b)%Qc ->
  let top := last (x :: e) 0%Qc in
  ((b < x)%Qc -> integral_flux [(x :: e, repeat F (length (x :: e)))] b = Ok [F * (inj top - inj x)])
  /\ ((x <= b)%Qc -> (b < top)%Qc -> integral_flux [(x :: e, repeat F (length (x :: e)))] b = Ok [F * (inj top - inj b)])
  /\ ((top <= b)%Qc -> integral_flux [(x :: e, repeat F (length (x :: e)))] b = Err IndexError).
Proof.
  intros PF PX I T top. set (f := repeat F (length (x :: e))).
  assert (Lf : length f = length (x :: e)) by apply repeat_length.
  assert (Ff : Forall (eq F) f) by (rewrite Forall_forall; intros y Y; symmetry; eapply repeat_spec, Y).
  assert (Top : at_ (x :: e) (length (x :: e) - 1) top).
  { unfold at_, top. destruct (exists_last (l := x :: e)) as (l0 & z & E); [discriminate|]. rewrite E, last_app1, app_length. cbn [length].
    rewrite nth_error_app2 by lia. now replace (length l0 + 1 - 1 - length l0)%nat with 0%nat by lia. }
  split; [|split].
  - intros L. rewrite integral_below by assumption. do 2 f_equal.
    rewrite (uniform_simpson F).
    + rewrite last_combine by assumption. reflexivity.
    + discriminate.
    + now rewrite fst_combine.
    + apply Forall_combine_r with (P := fun y => y = F). apply Forall_impl with (2 := Ff). now intros.
  - intros L0 L1. rewrite integral_above by assumption.
    (* the segment of [b] *)
    assert (Seg : exists i x0 x1, at_ (x :: e) i x0 /\ at_ (x :: e) (S i) x1 /\ (x0 <= b)%Qc /\ (b < x1)%Qc).
    { destruct (find_upper (x :: e) b) as [H _]; [now apply increasing_sorted|discriminate|].
      destruct H as (j & r & _ & Hj & (_ & Lr & G)); [exists x; split; [now left|assumption]|].
      assert (Lj : (j < length (x :: e) - 1)%nat).
      { apply (increasing_index (x :: e) j _ r top I Hj Top). eapply Qcle_lt_trans; eassumption. }
      destruct (at_ex (x :: e) (S j)) as [x1 H1]; [lia|]. exists j, r, x1. split; [assumption|]. split; [assumption|]. split; [assumption|].
      apply Qcnot_le_lt. intros C. pose proof (increasing_at _ I j (S j) r x1 ltac:(lia) Hj H1) as D.
      apply (Qclt_not_le _ _ D). apply G; [eapply nth_error_In, H1|assumption]. }
    destruct Seg as (i & x0 & x1 & H0 & H1 & B0 & B1).
    assert (Li : (S i < length (x :: e))%nat) by (apply nth_error_Some; unfold at_ in H1; congruence).
    assert (Fi : forall k, (k < length (x :: e))%nat -> at_ f k F).
    { intros k Hk. unfold at_. destruct (nth_error f k) eqn:E; [|apply nth_error_None in E; lia].
      f_equal. symmetry. rewrite Forall_forall in Ff. apply Ff. eapply nth_error_In, E. }
    rewrite (interpolate_segment f (x :: e) i x0 x1 F F b) by (assumption || apply Fi; lia).
    do 2 f_equal. replace (F / F) with 1 by (field; lra). rewrite ln_1. unfold Rdiv at 2. rewrite Rmult_0_l.
    rewrite Rpower_O, Rmult_1_r.
    2:{ assert (0 < inj x0). { apply inj_pos. destruct i; [cbn in H0; injection H0 as <-; assumption|].
          apply Qclt_trans with x; [assumption|]. now apply (increasing_at (x :: e) I 0 (S i)); [lia| |]. }
        unfold Rdiv. apply Rmult_lt_0_compat; [|now apply Rinv_0_lt_compat]. pose proof (inj_le _ _ B0). lra. }
    rewrite (uniform_simpson F).
    + cbn [hd fst]. do 2 f_equal. unfold top.
      assert (Ls : (S i < length (combine (x :: e) f))%nat) by (rewrite combine_length; lia).
      pose proof (skipn_length (S i) (combine (x :: e) f)) as Lk.
      destruct (skipn (S i) (combine (x :: e) f)) as [|p l] eqn:E; [cbn [length] in Lk; lia|].
      rewrite (last_cons _ p l _ (0%Qc, 0)), <- E, last_skipn by assumption. now rewrite last_combine.
    + discriminate.
    + cbn [map fst]. rewrite <- skipn_map, fst_combine by assumption. now apply (skipn_above (x :: e) i b x1).
    + constructor; [reflexivity|]. apply Forall_skipn. apply Forall_combine_r with (P := fun y => y = F). apply Forall_impl with (2 := Ff). now intros.
  - intros L. rewrite integral_above; [|assumption..|].
    + now rewrite (interpolate_beyond f (x :: e) top).
    + apply Qcle_trans with top; [|assumption]. destruct e as [|y e]; [apply Qcle_refl|].
      apply Qclt_le_weak. apply (increasing_at (x :: y :: e) I 0 (length (x :: y :: e) - 1)); [cbn; lia|reflexivity|exact Top].
Qed.

(** * Acceleration *)

Lemma take_ok {A} (a : list A) idx : Forall (fun i => (i < length a)%nat) idx ->
  exists l, take idx a = Ok l /\ length l = length idx /\ forall k i, nth_error idx k = Some i -> nth_error l k = nth_error a i.
Proof.
  unfold take. induction 1 as [|i idx L _ (l & E & Ll & H)].
  - exists []. split; [reflexivity|split; [reflexivity|]]. intros [|k] i Hk; easy.
  - destruct (nth_error a i) as [x|] eqn:Ei; [|apply nth_error_None in Ei; lia].
    exists (x :: l). cbn [mapM]. rewrite Ei. cbn [bind]. rewrite E. cbn [bind length].
    split; [reflexivity|split; [now rewrite Ll|]]. intros [|k] j Hk; cbn in *; [injection Hk as <-; congruence|]. now apply H.
Qed.
Lemma nth_seq s n k : (k < n)%nat -> nth_error (seq s n) k = Some (s + k)%nat.
Proof. revert s k. induction n as [|n IH]; intros s [|k] L; cbn; try lia; [f_equal; lia|]. rewrite IH by lia. f_equal. lia. Qed.
Lemma ahead_spec {A} (l : list A) : l <> [] ->
  exists m, ahead l = Ok m /\ length m = length l /\ forall i, (i < length l)%nat -> nth_error m i = nth_error l (shell_ahead (length l) i).
Proof.
  intros N. assert (P : (0 < length l)%nat) by (destruct l; [easy|cbn; lia]).
  destruct (take_ok l (seq 1 (length l - 1) ++ [(length l - 1)%nat])) as (m & E & Lm & H).
  { apply Forall_app. split; [|constructor; [lia|constructor]]. rewrite Forall_forall. intros i I. apply in_seq in I. lia. }
  exists m. split; [exact E|]. rewrite app_length, seq_length in Lm. cbn in Lm. split; [lia|]. intros i Li. apply H.
  unfold shell_ahead. destruct (Nat.eqb_spec (S i) (length l)) as [Q|Q].
  - rewrite nth_error_app2, seq_length by (rewrite seq_length; lia). replace (i - (length l - 1))%nat with 0%nat by lia. cbn. f_equal. lia.
  - rewrite nth_error_app1 by (rewrite seq_length; lia). rewrite nth_seq by lia. f_equal.
Qed.
Lemma behind_spec {A} (l : list A) : l <> [] ->
  exists m, behind l = Ok m /\ length m = length l /\ forall i, (i < length l)%nat -> nth_error m i = nth_error l (shell_behind i).
Proof.
  intros N. assert (P : (0 < length l)%nat) by (destruct l; [easy|cbn; lia]).
  destruct (take_ok l (0%nat :: seq 0 (length l - 1))) as (m & E & Lm & H).
  { constructor; [lia|]. rewrite Forall_forall. intros i I. apply in_seq in I. lia. }
  exists m. split; [exact E|]. cbn [length] in Lm. rewrite seq_length in Lm. split; [lia|]. intros i Li. apply H.
  destruct i as [|i]; [reflexivity|]. cbn. rewrite nth_seq by lia. f_equal.
Qed.
Lemma shell_ahead_lt n i : (i < n)%nat -> (shell_ahead n i < n)%nat.
Proof. unfold shell_ahead. destruct (Nat.eqb_spec (S i) n); lia. Qed.
Lemma shell_behind_lt n i : (i < n)%nat -> (shell_behind i < n)%nat.
Proof. destruct i; cbn; lia. Qed.
Lemma nonempty_length {A} (l : list A) n : length l = S n -> l <> [].
Proof. now destruct l. Qed.

Lemma map2_len {A B C} (f : A -> B -> C) l m n : length l = n -> length m = n -> length (map2 f l m) = n.
Proof. intros L M. rewrite map2_length; congruence. Qed.

Section Rates.
Variables (n : nat) (v : list vec) (angle mfp : list R) (speed k : R).
Hypothesis Lv : length v = S n.
Hypothesis La : length angle = S n.
Hypothesis Lm : length mfp = S n.
Let vr := map (fun u : vec => fst (fst u)) v.
Let vt := map (fun u : vec => snd (fst u)) v.
Let vp := map (fun u : vec => snd u) v.
Let vs := map2 (fun f z => f z) (map2 (fun x y z => sqrt (x * x + y * y + z * z)) vr vt) vp.
Let kappa := map2 (fun m k => m * (k * speed / 3)) mfp (map (fun a => cos a * cos a + k * (sin a * sin a)) angle).

Lemma comp_nth (f : vec -> R) i u : nth_error v i = Some u -> nth_error (map f v) i = Some (f u).
Proof. intros H. now rewrite nth_error_map, H. Qed.
Lemma speed_nth i u : nth_error v i = Some u -> nth_error vs i = Some (norm u).
Proof.
  intros H. unfold vs. destruct u as [[x y] z].
  apply (map2_nth (fun f z => f z) _ _ i (fun z => sqrt (x * x + y * y + z * z)) z).
  - apply (map2_nth (fun x y z => sqrt (x * x + y * y + z * z)) vr vt i x y); unfold vr, vt; now rewrite nth_error_map, H.
  - unfold vp. now rewrite nth_error_map, H.
Qed.
Lemma kappa_nth i m a : nth_error mfp i = Some m -> nth_error angle i = Some a -> nth_error kappa i = Some (diffusion k speed a m).
Proof. intros M H. unfold kappa, diffusion. apply (map2_nth (fun m k => m * (k * speed / 3))); [assumption|]. now rewrite nth_error_map, H. Qed.

Lemma acceleration_nth i va vb ma mb aa ab : (i < S n)%nat ->
  nth_error v (shell_ahead (S n) i) = Some va -> nth_error v (shell_behind i) = Some vb ->
  nth_error mfp (shell_ahead (S n) i) = Some ma -> nth_error mfp (shell_behind i) = Some mb ->
  nth_error angle (shell_ahead (S n) i) = Some aa -> nth_error angle (shell_behind i) = Some ab ->
  exists l, acceleration_rate vr vt vp speed angle mfp k = Ok l /\ length l = S n
  /\ nth_error l i = Some (lift2 real_div
       (match real_div (dot va vb) (norm va * norm va) with Some q => Some (norm va * Rabs (1 - q)) | None => None end)
       (lift2 (fun a b => Some (3 * (a + b))) (real_div (diffusion k speed aa ma) (norm va)) (real_div (diffusion k speed ab mb) (norm vb)))).
Proof.
  intros Li Va Vb Ma Mb Aa Ab.
  assert (Lr : length vr = S n) by (unfold vr; now rewrite map_length).
  assert (Lt : length vt = S n) by (unfold vt; now rewrite map_length).
  assert (Lp : length vp = S n) by (unfold vp; now rewrite map_length).
  assert (Ls : length vs = S n). { unfold vs. rewrite !map2_length; rewrite ?map2_length; congruence. }
  assert (Lk : length kappa = S n). { unfold kappa. rewrite map2_length; [assumption|]. rewrite map_length. congruence. }
  unfold acceleration_rate.
  destruct (ahead_spec vr (nonempty_length _ _ Lr)) as (r1 & -> & Lr1 & Hr1). destruct (behind_spec vr (nonempty_length _ _ Lr)) as (r0 & -> & Lr0 & Hr0).
  destruct (ahead_spec vt (nonempty_length _ _ Lt)) as (t1 & -> & Lt1 & Ht1). destruct (behind_spec vt (nonempty_length _ _ Lt)) as (t0 & -> & Lt0 & Ht0).
  destruct (ahead_spec vp (nonempty_length _ _ Lp)) as (p1 & -> & Lp1 & Hp1). destruct (behind_spec vp (nonempty_length _ _ Lp)) as (p0 & -> & Lp0 & Hp0).
  cbn [bind]. cbn zeta. fold vs. fold kappa.
  destruct (ahead_spec vs (nonempty_length _ _ Ls)) as (s1 & -> & Ls1 & Hs1). cbn [bind].
  set (kx := map2 real_div kappa vs).
  assert (Lkx : length kx = S n) by (unfold kx; rewrite map2_length; congruence).
  destruct (ahead_spec kx (nonempty_length _ _ Lkx)) as (k1 & -> & Lk1 & Hk1). destruct (behind_spec kx (nonempty_length _ _ Lkx)) as (k0 & -> & Lk0 & Hk0).
  cbn [bind]. eexists. split; [reflexivity|]. split.
  - repeat apply map2_len; congruence.
  - rewrite Lr in *. rewrite Lt in *. rewrite Lp in *. rewrite Ls in *. rewrite Lkx in *.
    pose proof (shell_ahead_lt _ _ Li) as Lai. pose proof (shell_behind_lt _ _ Li) as Lbi.
    destruct va as [[xa ya] za], vb as [[xb yb] zb].
    apply (map2_nth (lift2 real_div)).
    + apply (map2_nth (fun s d => match real_div d (s * s) with Some q => Some (s * Rabs (1 - q)) | None => None end) s1 _ i (norm (xa, ya, za)) (xa * xb + ya * yb + za * zb)).
      * rewrite Hs1 by assumption. now apply speed_nth.
      * apply (map2_nth Rplus _ _ i (xa * xb + ya * yb) (za * zb)).
        -- apply (map2_nth Rplus _ _ i (xa * xb) (ya * yb)).
           ++ apply map2_nth; [rewrite Hr1 by assumption|rewrite Hr0 by assumption]; unfold vr; rewrite nth_error_map; [now rewrite Va|now rewrite Vb].
           ++ apply map2_nth; [rewrite Ht1 by assumption|rewrite Ht0 by assumption]; unfold vt; rewrite nth_error_map; [now rewrite Va|now rewrite Vb].
        -- apply map2_nth; [rewrite Hp1 by assumption|rewrite Hp0 by assumption]; unfold vp; rewrite nth_error_map; [now rewrite Va|now rewrite Vb].
    + apply (map2_nth (fun a b => lift2 (fun a b => Some (3 * (a + b))) a b)).
      * rewrite Hk1 by assumption. unfold kx. apply map2_nth; [now apply kappa_nth|now apply speed_nth].
      * rewrite Hk0 by assumption. unfold kx. apply map2_nth; [now apply kappa_nth|now apply speed_nth].
Qed.
Lemma acceleration_value i va vb ma mb aa ab : (i < S n)%nat ->
  nth_error v (shell_ahead (S n) i) = Some va -> nth_error v (shell_behind i) = Some vb ->
  nth_error mfp (shell_ahead (S n) i) = Some ma -> nth_error mfp (shell_behind i) = Some mb ->
  nth_error angle (shell_ahead (S n) i) = Some aa -> nth_error angle (shell_behind i) = Some ab ->
  va <> zero -> vb <> zero -> 0 < diffusion k speed aa ma -> 0 < diffusion k speed ab mb ->
  exists l, acceleration_rate vr vt vp speed angle mfp k = Ok l /\ length l = S n
  /\ nth_error l i = Some (Some (rate va vb (diffusion k speed aa ma) (diffusion k speed ab mb))).
Proof.
  intros Li Va Vb Ma Mb Aa Ab Na Nb Da Db.
  destruct (acceleration_nth i va vb ma mb aa ab Li Va Vb Ma Mb Aa Ab) as (l & E & Ll & H).
  exists l. split; [exact E|]. split; [exact Ll|]. rewrite H. f_equal.
  pose proof (norm_pos _ Na). pose proof (norm_pos _ Nb).
  assert (0 < norm va * norm va) by (now apply Rmult_lt_0_compat). rewrite (real_div_ok _ (norm va * norm va)) by lra. rewrite !real_div_ok by lra. cbn [lift2].
  assert (0 < diffusion k speed aa ma / norm va) by (apply Rdiv_lt_0_compat; assumption).
  assert (0 < diffusion k speed ab mb / norm vb) by (apply Rdiv_lt_0_compat; assumption).
  rewrite real_div_ok by lra. reflexivity.
Qed.
End Rates.

Lemma diffusion_pos k speed a m : 0 < k -> 0 < speed -> 0 < m -> 0 < diffusion k speed a m.
Proof.
  intros K S M. unfold diffusion. apply Rmult_lt_0_compat; [assumption|]. apply Rdiv_lt_0_compat; [|lra].
  apply Rmult_lt_0_compat; [|assumption]. pose proof (sin2_cos2 a) as T. unfold Rsqr in T.
  pose proof (Rle_0_sqr (cos a)) as C. pose proof (Rle_0_sqr (sin a)) as D. unfold Rsqr in *.
  destruct (Req_dec (sin a * sin a) 0) as [Z|Z]; [rewrite Z in *; lra|]. assert (0 < k * (sin a * sin a)) by (apply Rmult_lt_0_compat; lra). lra.
Qed.

Lemma inj_Q q : inj (Q2Qc q) = Q2R q.
Proof. unfold inj. apply Qeq_eqR. apply Qred_correct. Qed.
Lemma inj_Z z : inj (Qc_of_Z z) = IZR z.
Proof. unfold Qc_of_Z. rewrite inj_Q. unfold Q2R, inject_Z. cbn. field. Qed.
Lemma Rpower_m2 x : 0 < x -> Rpower x (-2) = / (x * x).
Proof.
  intros P. replace (-2) with (- INR 2) by (cbn; ring). rewrite Rpower_Ropp, Rpower_pow by assumption. f_equal. cbn. ring.
Qed.
Lemma all_repeat {A} (x : A) : forall n l, length l = n -> (forall i, (i < n)%nat -> nth_error l i = Some x) -> l = repeat x n.
Proof.
  induction n as [|n IH]; intros [|y l] L H; try easy. cbn. f_equal.
  - specialize (H 0%nat ltac:(lia)). cbn in H. congruence.
  - apply IH; [cbn in L; lia|]. intros i Li. apply (H (S i)). lia.
Qed.
