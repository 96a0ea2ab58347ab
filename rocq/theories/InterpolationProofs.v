(** Lemmas about interpolation. *)

From Coq Require Import List Bool ZArith QArith Qcanon Arith Sorted Lia Permutation.
From Verif Require Import Py PyFacts QcOrder NumericalModel NumericalSpec NumericalProofs.
Import ListNotations.
Open Scope nat_scope.
Open Scope list_scope.
Open Scope py_scope.

Lemma increasing_at a : increasing a -> forall i j x y, i < j -> at_ a i x -> at_ a j y -> (x < y)%Qc.
Proof.
  induction 1 as [|z a S IH F]; intros i j x y L Hx Hy; [destruct i; discriminate|].
  rewrite Forall_forall in F. destruct i as [|i], j as [|j]; try lia.
  - injection Hx as <-. apply F. eapply at_In. exact Hy.
  - eapply (IH i j); eauto. lia.
Qed.
Lemma increasing_sorted a : increasing a -> sorted a.
Proof.
  induction 1 as [|z a S IH F]; constructor; auto. eapply Forall_impl; [|exact F]. intros x. apply Qc_lt_le.
Qed.

Lemma existsb_Qc t a : existsb (Qc_eqb t) a = true <-> In t a.
Proof.
  rewrite existsb_exists. split.
  - intros [x [I E]]. destruct (Qc_eqb_spec t x); [now subst|discriminate].
  - intro I. exists t. split; auto. apply Qc_eqb_refl.
Qed.

(** ** Reference points *)

Lemma nearest_hit a i t : increasing a -> at_ a i t -> nearest a t i t.
Proof.
  intros S H. assert (dist t t = 0%Qc) as Z by (rewrite dist_ge; qlra). split; auto. rewrite Z. split; intros j y Hy.
  - destruct (Qclt_le_dec y t) as [L|L].
    + rewrite dist_le by (now apply Qc_lt_le). qlra.
    + rewrite dist_ge by auto. qlra.
  - intro L. assert (y < t)%Qc by (eapply (increasing_at a S j i); eauto). rewrite dist_le by (now apply Qc_lt_le). qlra.
Qed.

Lemma interp_hit array reference i t c axis : increasing reference -> at_ reference i t -> at_ array i c ->
  interp_1d array reference t axis = Ok c.
Proof.
  intros S H Hc. unfold interp_1d.
  assert (existsb (Qc_eqb t) reference = true) as -> by (apply existsb_Qc; eapply at_In; eauto).
  assert (find_nearest reference t BNone = Ok (Z.of_nat i, t)) as -> by (apply find_nearest_none, nearest_hit; auto).
  cbn [bind fst]. now apply py_index_at.
Qed.

(** ** Between reference points *)

Lemma insert_id {A} (le : A -> A -> bool) x l : Forall (fun y => le x y = true) l -> insert_by le x l = x :: l.
Proof. destruct l as [|y l]; simpl; auto. intro F. inversion F as [|? ? E]; subst. now rewrite E. Qed.
Lemma sort_id {A} (le : A -> A -> bool) l : StronglySorted (fun a b => le a b = true) l -> sort_by le l = l.
Proof.
  induction 1 as [|x l S IH F]; simpl; auto. unfold sort_by in *. rewrite IH. now apply insert_id.
Qed.

Lemma combine_at {A B} (x : list A) (y : list B) i p : length x = length y ->
  (at_ (combine x y) i p <-> at_ x i (fst p) /\ at_ y i (snd p)).
Proof.
  unfold at_. revert y i. induction x as [|a x IH]; intros [|b y] [|i] L; simpl in *; try lia.
  - split; [discriminate|intros [H _]; discriminate].
  - split; [discriminate|intros [H _]; discriminate].
  - destruct p. simpl. split; [intro H; injection H as <- <-; auto|intros [H1 H2]; congruence].
  - apply IH. lia.
Qed.

Lemma combine_sorted x (y : list cell) : increasing x -> 
  StronglySorted (fun a b => Qc_leb (fst a) (fst b) = true) (combine x y).
Proof.
  intro S. revert y. induction S as [|a x S IH F]; intros [|b y]; simpl; constructor; auto.
  apply Forall_forall. intros [u v] I. apply in_combine_l in I. rewrite Forall_forall in F. specialize (F u I).
  simpl. destruct (Qc_leb_spec a u); auto. exfalso. apply n. now apply Qc_lt_le.
Qed.

Lemma filter_prefix {A} (p : A -> bool) l k : k <= length l ->
  (forall j x, at_ l j x -> (p x = true <-> j < k)) -> length (filter p l) = k.
Proof.
  revert k. induction l as [|x l IH]; intros k L H; simpl in *; [lia|].
  assert (p x = true <-> 0 < k) as H0 by (apply (H 0); reflexivity).
  destruct k as [|k].
  - destruct (p x); [destruct H0 as [H0 _]; specialize (H0 eq_refl); lia|]. apply (IH 0); [lia|].
    intros j y Hy. rewrite (H (S j) y Hy). lia.
  - destruct (p x); [|destruct H0 as [_ H0]; discriminate H0; lia]. simpl. f_equal. apply IH; [lia|].
    intros j y Hy. rewrite (H (S j) y Hy). lia.
Qed.

Lemma rev_hd {A} (l : list A) x : at_ l (length l - 1) x -> exists r, rev l = x :: r.
Proof.
  destruct l as [|y l _] using rev_ind; [destruct (length (@nil A) - 1); discriminate|].
  unfold at_. rewrite app_length. simpl. replace (length l + 1 - 1) with (length l) by lia.
  rewrite nth_error_app2, Nat.sub_diag by lia. simpl. intro H. injection H as ->. rewrite rev_app_distr. simpl. eauto.
Qed.

Lemma interp1d_between x y t i xl xh yl yh : increasing x -> length x = length y ->
  at_ x i xl -> at_ x (S i) xh -> at_ y i yl -> at_ y (S i) yh -> (xl < t)%Qc -> (t < xh)%Qc ->
  interp1d x y t = Ok (chord xl xh yl yh t).
Proof.
  intros S L Hl Hh Yl Yh L1 L2. unfold interp1d. rewrite (proj2 (Nat.eqb_eq _ _) L). cbn [negb].
  rewrite sort_id by now apply combine_sorted.
  assert (length (combine x y) = length x) as Lc by (rewrite combine_length; lia).
  assert (Lh := at_lt _ _ _ Hh).
  assert (forall j u v, at_ (combine x y) j (u, v) -> at_ x j u) as CX by (intros j u v H; now apply combine_at in H).
  destruct (combine x y) as [|[x0 y0] s] eqn:E; [simpl in Lc; lia|]. rewrite <- E in *.
  destruct (at_ex (combine x y) (length (combine x y) - 1)) as [[xn yn] Hn]; [lia|].
  destruct (rev_hd _ _ Hn) as [r ->].
  assert (at_ x 0 x0) as H0 by (apply (CX 0 x0 y0); now rewrite E).
  apply CX in Hn. rewrite Lc in *.
  assert (x0 <= xl)%Qc as A1 by (apply (sorted_at x (increasing_sorted x S) 0 i); auto; lia).
  assert (xh <= xn)%Qc as A2 by (apply (sorted_at x (increasing_sorted x S) (Datatypes.S i) (length x - 1)); auto; lia).
  destruct (Qc_ltb_spec t x0); [qlra|]. destruct (Qc_ltb_spec xn t); [qlra|]. cbn [orb].
  assert (length (filter (fun p : Qc * cell => Qc_ltb (fst p) t) (combine x y)) = Datatypes.S i) as ->.
  { apply filter_prefix; [lia|]. intros j [u v] Hj. apply CX in Hj. simpl. destruct (Qc_ltb_spec u t) as [Lu|Lu].
    - split; auto. intros _. destruct (Nat.lt_ge_cases j (Datatypes.S i)) as [K|K]; auto.
      assert (xh <= u)%Qc by (apply (sorted_at x (increasing_sorted x S) (Datatypes.S i) j); auto). qlra.
    - split; [discriminate|]. intro K. exfalso. apply Lu.
      assert (u <= xl)%Qc by (apply (sorted_at x (increasing_sorted x S) j i); auto; lia). qlra. }
  replace (Nat.min (Nat.max (Datatypes.S i) 1) (length x - 1)) with (Datatypes.S i) by lia.
  replace (Datatypes.S i - 1) with i by lia.
  assert (nth_error (combine x y) i = Some (xl, yl)) as -> by (apply (combine_at x y i (xl, yl) L); auto).
  assert (nth_error (combine x y) (Datatypes.S i) = Some (xh, yh)) as -> by (apply (combine_at x y (Datatypes.S i) (xh, yh) L); auto).
  destruct (Nat.eqb_spec (length x) 1); [lia|]. reflexivity.
Qed.

Lemma not_in_between x i xl xh t : increasing x -> at_ x i xl -> at_ x (S i) xh -> (xl < t)%Qc -> (t < xh)%Qc -> ~ In t x.
Proof.
  intros S Hl Hh L1 L2 I. apply In_at in I as [j Hj]. destruct (Nat.le_gt_cases j i) as [K|K].
  - assert (t <= xl)%Qc by (apply (sorted_at x (increasing_sorted x S) j i); auto). qlra.
  - assert (xh <= t)%Qc by (apply (sorted_at x (increasing_sorted x S) (Datatypes.S i) j); auto; lia). qlra.
Qed.

Lemma find_between x i xl xh t : increasing x -> at_ x i xl -> at_ x (S i) xh -> (xl < t)%Qc -> (t < xh)%Qc ->
  find_1d_indices x t = (Z.of_nat i, Z.of_nat (S i)).
Proof.
  intros S Hl Hh L1 L2. rewrite (surjective_pairing (find_1d_indices x t)). f_equal.
  - destruct (find_1d_lower x t) as [[j [y [H1 [H2 [H3 H4]]]]]|[H1 _]].
    + rewrite H1. f_equal. assert (i <= j) by (apply (H4 i xl); auto; now apply Qc_lt_le).
      destruct (Nat.le_gt_cases j i); [lia|]. 
      assert (xh <= y)%Qc by (apply (sorted_at x (increasing_sorted x S) (Datatypes.S i) j); auto). qlra.
    + specialize (H1 xl (at_In _ _ _ Hl)). qlra.
  - destruct (find_1d_upper x t) as [[j [y [H1 [H2 [H3 H4]]]]]|[H1 _]].
    + rewrite H1. f_equal. assert (j <= Datatypes.S i) by (apply (H4 (Datatypes.S i) xh); auto; now apply Qc_lt_le).
      destruct (Nat.le_gt_cases j i); [|lia].
      assert (y <= xl)%Qc by (apply (sorted_at x (increasing_sorted x S) j i); auto). qlra.
    + specialize (H1 xh (at_In _ _ _ Hh)). qlra.
Qed.

Lemma positions_two i : positions (Z.of_nat i) (Z.of_nat (S i) + 1) = [i; S i].
Proof.
  unfold positions. replace (Z.of_nat (S i) + 1 - Z.of_nat i)%Z with 2%Z by lia. simpl.
  rewrite Nat2Z.id. repeat f_equal; lia.
Qed.

Lemma take_two {A} (a : list A) i x y : at_ a i x -> at_ a (S i) y -> take [i; S i] a = Ok [x; y].
Proof. unfold at_, take. intros H1 H2. cbn [mapM]. now rewrite H1, H2. Qed.

Lemma interp_between array reference t i xl xh yl yh axis : increasing reference -> length array = length reference ->
  at_ reference i xl -> at_ reference (S i) xh -> at_ array i yl -> at_ array (S i) yh ->
  (xl < t)%Qc -> (t < xh)%Qc -> ok_axis axis ->
  interp_1d array reference t axis = Ok (chord xl xh yl yh t).
Proof.
  intros S L Hl Hh Yl Yh L1 L2 A. unfold interp_1d.
  destruct (existsb (Qc_eqb t) reference) eqn:E.
  { apply existsb_Qc in E. exfalso. eapply not_in_between; [exact S|exact Hl|exact Hh|exact L1|exact L2|exact E]. }
  assert (forall ax, ((ax =? 0) || (ax =? -1))%Z = true ->
    (do idx <- restrict_1d reference t ax; do ref <- take idx reference; do arr <- take idx array; Ok (ref, arr))
    = Ok ([xl; xh], [yl; yh])) as R.
  { intros ax Hax. unfold restrict_1d. rewrite Hax. rewrite (find_between reference i xl xh t S Hl Hh L1 L2). cbn [bind].
    rewrite positions_two, (take_two reference i xl xh Hl Hh), (take_two array i yl yh Yl Yh). reflexivity. }
  assert (interp1d [xl; xh] [yl; yh] t = Ok (chord xl xh yl yh t)) as Two.
  { apply (interp1d_between [xl; xh] [yl; yh] t 0); try reflexivity; auto.
    constructor; [constructor; constructor|constructor; [qlra|constructor]]. }
  destruct A as [->|[->| ->]].
  - cbn [bind]. assert (Lh := at_lt _ _ _ Hh). destruct (Nat.eqb_spec (length reference) 1); [lia|].
    apply (interp1d_between reference array t i); auto.
  - rewrite (R 0%Z eq_refl). cbn [bind]. exact Two.
  - rewrite (R (-1)%Z eq_refl). cbn [bind]. exact Two.
Qed.

Lemma chord_spec xl xh yl yh t k r : (xl < t)%Qc -> (t < xh)%Qc -> at_ (chord xl xh yl yh t) k r ->
  exists a b, at_ yl k a /\ at_ yh k b /\ on_chord xl xh a b t r /\ between a b r.
Proof.
  intros L1 L2 H. unfold chord in H. apply at_map in H as [[a b] [H ->]]. simpl.
  assert (at_ yl k a /\ at_ yh k b) as [Ha Hb].
  { unfold at_ in *. revert yl yh H. induction k as [|k IH]; intros [|u yl] [|v yh] H; simpl in *; try discriminate.
    - injection H as -> ->. auto.
    - now apply IH. }
  exists a, b. split; auto. split; auto.
  assert (xh - xl <> 0)%Qc as N by (intro E; qlra).
  set (w := ((t - xl) / (xh - xl))%Qc).
  assert (w * (xh - xl) = t - xl)%Qc as W by (unfold w; field; exact N).
  assert (0 <= w)%Qc as W0.
  { destruct (Qclt_le_dec w 0) as [X|X]; auto. exfalso.
    assert (w * (xh - xl) < 0)%Qc; [|qlra]. clear - X L1 L2. qnra. }
  assert (w <= 1)%Qc as W1.
  { destruct (Qclt_le_dec 1 w) as [X|X]; auto. exfalso.
    assert (xh - xl < w * (xh - xl))%Qc; [|qlra]. clear - X L1 L2. qnra. }
  assert ((b - a) / (xh - xl) * (t - xl) + a = a + w * (b - a))%Qc as E by (unfold w; field; exact N).
  rewrite E. split.
  - exists w. split; [auto|]. split; [|reflexivity]. qlra.
  - clearbody w. clear - W0 W1. destruct (Qclt_le_dec a b) as [X|X].
    + left. split; qnra.
    + right. split; qnra.
Qed.

Lemma chord_length xl xh yl yh t : length yl = length yh -> length (chord xl xh yl yh t) = length yl.
Proof. intro H. unfold chord. rewrite map_length, combine_length. lia. Qed.

(** ** Outside the reference *)

Lemma find_below x t : (forall y, In y x -> (t < y)%Qc) -> x <> [] -> find_1d_indices x t = (0%Z, 0%Z).
Proof.
  intros All N. rewrite (surjective_pairing (find_1d_indices x t)). f_equal.
  - destruct (find_1d_lower x t) as [[j [y [H1 [H2 [H3 H4]]]]]|[_ H]]; auto. specialize (All y (at_In _ _ _ H2)). qlra.
  - destruct x as [|x0 x]; [congruence|]. destruct (find_1d_upper (x0 :: x) t) as [[j [y [H1 [H2 [H3 H4]]]]]|[H _]].
    + rewrite H1. assert (j <= 0); [|lia]. apply (H4 0 x0 eq_refl). apply Qc_lt_le, All. now left.
    + assert (A1 := All x0 (or_introl eq_refl)). assert (A2 := H x0 (or_introl eq_refl)). qlra.
Qed.
Lemma find_above x t : (forall y, In y x -> (y < t)%Qc) -> x <> [] ->
  find_1d_indices x t = (Z.of_nat (length x - 1), Z.of_nat (length x - 1)).
Proof.
  intros All N. assert (0 < length x) as L by (destruct x; [congruence|simpl; lia]).
  destruct (at_ex x (length x - 1)) as [z Hz]; [lia|].
  rewrite (surjective_pairing (find_1d_indices x t)). f_equal.
  - destruct (find_1d_lower x t) as [[j [y [H1 [H2 [H3 H4]]]]]|[H _]].
    + rewrite H1. f_equal. assert (Lj := at_lt _ _ _ H2). assert (length x - 1 <= j); [|lia]. apply (H4 _ z Hz).
      apply Qc_lt_le, All. eapply at_In; eauto.
    + assert (A1 := All z (at_In _ _ _ Hz)). assert (A2 := H z (at_In _ _ _ Hz)). qlra.
  - destruct (find_1d_upper x t) as [[j [y [H1 [H2 [H3 H4]]]]]|[_ H]].
    + specialize (All y (at_In _ _ _ H2)). qlra.
    + rewrite H. lia.
Qed.

Lemma positions_one i : positions (Z.of_nat i) (Z.of_nat i + 1) = [i].
Proof.
  unfold positions. replace (Z.of_nat i + 1 - Z.of_nat i)%Z with 1%Z by lia. simpl.
  rewrite Nat2Z.id. repeat f_equal; lia.
Qed.

Lemma take_one {A} (a : list A) i x : at_ a i x -> take [i] a = Ok [x].
Proof. unfold at_, take. intro H. cbn [mapM]. now rewrite H. Qed.

Lemma interp_outside array reference t axis : length array = length reference -> reference <> [] ->
  axis = Some 0%Z \/ axis = Some (-1)%Z ->
  ((forall y, In y reference -> (t < y)%Qc) -> exists c, at_ array 0 c /\ interp_1d array reference t axis = Ok c)
  /\ ((forall y, In y reference -> (y < t)%Qc) ->
      exists c, at_ array (length array - 1) c /\ interp_1d array reference t axis = Ok c).
Proof.
  intros L N A. assert (0 < length reference) as La by (destruct reference; [congruence|simpl; lia]).
  assert (forall i, i < length reference -> find_1d_indices reference t = (Z.of_nat i, Z.of_nat i) -> ~ In t reference ->
    exists c, at_ array i c /\ interp_1d array reference t axis = Ok c) as One.
  { intros i Li F NI. destruct (at_ex array i) as [c Hc]; [lia|]. destruct (at_ex reference i Li) as [x Hx].
    exists c. split; auto. unfold interp_1d. destruct (existsb (Qc_eqb t) reference) eqn:E; [apply existsb_Qc in E; contradiction|].
    assert (match axis with
      | Some ax => do idx <- restrict_1d reference t ax; do ref <- take idx reference; do arr <- take idx array; Ok (ref, arr)
      | None => Ok (reference, array) end = Ok ([x], [c])) as ->; [|reflexivity].
    destruct A as [->| ->]; unfold restrict_1d; cbn [Z.eqb orb]; rewrite F; cbn [bind]; rewrite positions_one; cbn [bind Pos.eqb];
      rewrite (take_one reference i x Hx), (take_one array i c Hc); reflexivity. }
  split; intro All.
  - apply One; [lia|apply find_below; auto|]. intro I. specialize (All t I). qlra.
  - rewrite L. apply One; [lia|apply find_above; auto|]. intro I. specialize (All t I). qlra.
Qed.

Lemma interp_outside_none array reference t : length array = length reference -> 2 <= length reference -> increasing reference ->
  (forall y, In y reference -> (t < y)%Qc) \/ (forall y, In y reference -> (y < t)%Qc) ->
  interp_1d array reference t None = Err ValueError.
Proof.
  intros L N S A. unfold interp_1d. destruct (existsb (Qc_eqb t) reference) eqn:E.
  { apply existsb_Qc in E. exfalso. destruct A as [A|A]; specialize (A t E); qlra. }
  cbn [bind]. destruct (Nat.eqb_spec (length reference) 1); [lia|]. unfold interp1d.
  rewrite (proj2 (Nat.eqb_eq _ _) (eq_sym L)). cbn [negb]. rewrite sort_id by now apply combine_sorted.
  assert (length (combine reference array) = length reference) as Lc by (rewrite combine_length; lia).
  assert (forall j u v, at_ (combine reference array) j (u, v) -> In u reference) as CX.
  { intros j u v H. apply combine_at in H; [|lia]. eapply at_In. apply H. }
  destruct (combine reference array) as [|[x0 y0] s] eqn:Ec; [simpl in Lc; lia|]. rewrite <- Ec in *.
  destruct (at_ex (combine reference array) (length (combine reference array) - 1)) as [[xn yn] Hn]; [lia|].
  destruct (rev_hd _ _ Hn) as [r ->]. apply CX in Hn.
  assert (In x0 reference) as H0 by (apply (CX 0 x0 y0); now rewrite Ec).
  destruct A as [A|A].
  - specialize (A x0 H0). destruct (Qc_ltb_spec t x0); [reflexivity|contradiction].
  - specialize (A xn Hn). destruct (Qc_ltb_spec xn t); [now rewrite orb_true_r|contradiction].
Qed.

(** ** Two-dimensional reference *)

Definition segment {A} (l n : nat) (a : list A) : list A := firstn n (skipn l a).

Lemma take_segment {A} (a : list A) l u : l <= u -> u < length a ->
  take (positions (Z.of_nat l) (Z.of_nat u + 1)) a = Ok (segment l (S u - l) a).
Proof.
  intros L1 L2. unfold positions. rewrite Nat2Z.id. replace (Z.to_nat (Z.of_nat u + 1 - Z.of_nat l)) with (S u - l) by lia.
  unfold segment. remember (S u - l) as n eqn:En. assert (l + n <= length a) as L by lia. clear L1 L2 En u.
  revert l L. induction n as [|n IH]; intros l L; [reflexivity|].
  destruct (at_ex a l) as [x Hx]; [lia|]. assert (skipn l a = x :: skipn (S l) a) as ->.
  { clear - Hx. revert a Hx. induction l as [|l IH]; intros [|y a] H; try discriminate.
    - injection H as ->. reflexivity.
    - simpl. now apply IH. }
  unfold take in *. cbn [seq map mapM firstn]. rewrite Nat.add_0_r. unfold at_ in Hx. rewrite Hx. cbn [bind].
  rewrite <- seq_shift, map_map. specialize (IH (S l) ltac:(lia)).
  assert (map (fun x => l + S x) (seq 0 n) = map (fun k => S l + k) (seq 0 n)) as -> by (apply map_ext; intro; lia).
  rewrite IH. reflexivity.
Qed.

Lemma nth_error_firstn' {A} (a : list A) n i : i < n -> nth_error (firstn n a) i = nth_error a i.
Proof.
  revert n i. induction a as [|x a IH]; intros [|n] [|i] L; simpl; auto; try lia. apply IH. lia.
Qed.
Lemma nth_error_skipn' {A} (a : list A) l i : nth_error (skipn l a) i = nth_error a (l + i).
Proof.
  revert a. induction l as [|l IH]; intros [|x a]; simpl; auto. now destruct i.
Qed.

Lemma segment_at {A} (a : list A) l n i x : at_ (segment l n a) i x <-> i < n /\ at_ a (l + i) x.
Proof.
  unfold segment, at_. split.
  - intro H. assert (i < n).
    { assert (i < length (firstn n (skipn l a))) by (apply nth_error_Some; congruence). rewrite firstn_length in *. lia. }
    split; auto. rewrite nth_error_firstn' in H by auto. now rewrite nth_error_skipn' in H.
  - intros [L H]. rewrite nth_error_firstn' by auto. now rewrite nth_error_skipn'.
Qed.

Lemma segment_length {A} (a : list A) l n : l + n <= length a -> length (segment l n a) = n.
Proof. unfold segment. intro H. rewrite firstn_length, skipn_length. lia. Qed.

Lemma increasing_iff a : increasing a <-> forall i j x y, i < j -> at_ a i x -> at_ a j y -> (x < y)%Qc.
Proof.
  split; [apply increasing_at|]. induction a as [|z a IH]; intro H; constructor.
  - apply IH. intros i j x y L Hx Hy. apply (H (S i) (S j)); auto. lia.
  - apply Forall_forall. intros y I. apply In_at in I as [j Hj]. apply (H 0 (S j) z y); auto; [lia|reflexivity].
Qed.
Lemma segment_increasing a l n : increasing a -> increasing (segment l n a).
Proof.
  rewrite !increasing_iff. intros H i j x y L Hx Hy. apply segment_at in Hx as [_ Hx]. apply segment_at in Hy as [_ Hy].
  apply (H (l + i) (l + j)); auto. lia.
Qed.

Lemma interp_segment row arr t i l n : increasing row -> length arr = length row -> brackets row t i ->
  l <= i -> S i < l + n -> l + n <= length row ->
  exists c, interp1d (segment l n row) (segment l n arr) t = Ok c /\ interp_1d arr row t None = Ok c.
Proof.
  intros S L [xl [xh [Hl [Hh [L1 L2]]]]] A B C.
  destruct (at_ex arr i) as [yl Yl]; [lia|]. destruct (at_ex arr (Datatypes.S i)) as [yh Yh]; [lia|].
  exists (chord xl xh yl yh t). split.
  - apply (interp1d_between _ _ t (i - l)); auto.
    + now apply segment_increasing.
    + rewrite !segment_length; lia.
    + apply segment_at. split; [lia|]. now replace (l + (i - l)) with i by lia.
    + apply segment_at. split; [lia|]. now replace (l + Datatypes.S (i - l)) with (Datatypes.S i) by lia.
    + apply segment_at. split; [lia|]. now replace (l + (i - l)) with i by lia.
    + apply segment_at. split; [lia|]. now replace (l + Datatypes.S (i - l)) with (Datatypes.S i) by lia.
  - eapply interp_between; eauto. now left.
Qed.

Lemma fold_zmin l : forall b, (fold_left Z.min l b <= b)%Z /\ (forall x, In x l -> fold_left Z.min l b <= x)%Z
  /\ In (fold_left Z.min l b) (b :: l).
Proof.
  induction l as [|y l IH]; intro b; simpl; [repeat split; auto; try lia; intros ? []|].
  destruct (IH (Z.min b y)) as [H1 [H2 H3]]. split; [lia|]. split.
  - intros x [<-|I]; [lia|auto].
  - destruct H3 as [H3|H3]; [|auto]. destruct (Z.min_spec b y) as [[_ E]|[_ E]]; rewrite E in *; auto.
Qed.
Lemma fold_zmax l : forall b, (b <= fold_left Z.max l b)%Z /\ (forall x, In x l -> x <= fold_left Z.max l b)%Z
  /\ In (fold_left Z.max l b) (b :: l).
Proof.
  induction l as [|y l IH]; intro b; simpl; [repeat split; auto; try lia; intros ? []|].
  destruct (IH (Z.max b y)) as [H1 [H2 H3]]. split; [lia|]. split.
  - intros x [<-|I]; [lia|auto].
  - destruct H3 as [H3|H3]; [|auto]. destruct (Z.max_spec b y) as [[_ E]|[_ E]]; rewrite E in *; auto.
Qed.

Lemma restrict_2d_spec rows t m : rows <> [] ->
  (forall row, In row rows -> length row = m /\ exists i, brackets row t i /\ increasing row) ->
  exists l u, restrict_2d rows t = Ok (positions (Z.of_nat l) (Z.of_nat u + 1)) /\ l <= u /\ u < m
    /\ forall row i, In row rows -> brackets row t i -> l <= i /\ S i <= u.
Proof.
  intros N H. unfold restrict_2d. destruct rows as [|r rows]; [congruence|]. clear N.
  cbn [map].
  set (lo := fold_left Z.min (map fst (map (fun row => find_1d_indices row t) rows)) (fst (find_1d_indices r t))).
  set (hi := fold_left Z.max (map snd (map (fun row => find_1d_indices row t) rows)) (snd (find_1d_indices r t))).
  assert (forall row i, In row (r :: rows) -> brackets row t i ->
    find_1d_indices row t = (Z.of_nat i, Z.of_nat (S i)) /\ S i < m) as F.
  { intros row i I [xl [xh [Hl [Hh [L1 L2]]]]]. destruct (H row I) as [Lm [_ [_ Inc]]]. split.
    - eapply find_between; eauto.
    - rewrite <- Lm. eapply at_lt; eauto. }
  destruct (fold_zmin (map fst (map (fun row => find_1d_indices row t) rows)) (fst (find_1d_indices r t))) as [A1 [A2 A3]].
  destruct (fold_zmax (map snd (map (fun row => find_1d_indices row t) rows)) (snd (find_1d_indices r t))) as [B1 [B2 B3]].
  fold lo in A1, A2, A3. fold hi in B1, B2, B3.
  assert (forall row i, In row (r :: rows) -> brackets row t i -> (lo <= Z.of_nat i)%Z /\ (Z.of_nat (S i) <= hi)%Z) as Bd.
  { intros row i I Br. destruct (F row i I Br) as [E _]. destruct I as [<-|I].
    - rewrite E in A1, B1. simpl fst in *. simpl snd in *. auto.
    - split.
      + apply A2. apply in_map_iff. exists (find_1d_indices row t). rewrite E. split; auto.
        apply in_map_iff. exists row. split; auto.
      + apply B2. apply in_map_iff. exists (find_1d_indices row t). rewrite E. split; auto.
        apply in_map_iff. exists row. split; auto. }
  assert (forall (g : Z * Z -> Z) z, In z (g (find_1d_indices r t) :: map g (map (fun row => find_1d_indices row t) rows)) ->
    exists row, In row (r :: rows) /\ z = g (find_1d_indices row t)) as Or.
  { intros g z [<-|I]; [exists r; simpl; auto|]. apply in_map_iff in I as [p [<- I]]. apply in_map_iff in I as [row [<- I]].
    exists row. simpl. auto. }
  destruct (Or fst lo A3) as [rl [Il El]]. destruct (Or snd hi B3) as [rh [Ih Eh]].
  destruct (H rl Il) as [_ [il [Bl _]]]. destruct (H rh Ih) as [_ [ih [Bh _]]].
  destruct (F rl il Il Bl) as [Fl Ll]. destruct (F rh ih Ih Bh) as [Fh Lh]. rewrite Fl in El. rewrite Fh in Eh.
  cbn [fst] in El. cbn [snd] in Eh.
  exists il, (S ih). rewrite <- El, <- Eh. split; [reflexivity|]. destruct (Bd rl il Il Bl) as [_ X]. 
  split; [lia|]. split; [exact Lh|]. intros row i I Br. destruct (Bd row i I Br) as [X1 X2]. lia.
Qed.

Lemma mapM_map {A B} (f : A -> res B) (g : A -> B) l : (forall x, In x l -> f x = Ok (g x)) -> mapM f l = Ok (map g l).
Proof.
  induction l as [|x l IH]; intro H; [reflexivity|]. cbn [mapM map]. rewrite (H x (or_introl eq_refl)). cbn [bind].
  rewrite IH; [reflexivity|]. intros y I. apply H. now right.
Qed.

Lemma interp_2d_rows array reference t m : reference <> [] -> length array = length reference ->
  (forall row, In row array -> length row = m) ->
  (forall row, In row reference -> length row = m /\ increasing row /\ exists i, brackets row t i) ->
  exists cells, interp_2d array reference t = Ok (Rows cells) /\ length cells = length reference
    /\ forall r ref arr, at_ reference r ref -> at_ array r arr ->
         exists c, at_ cells r c /\ interp_1d arr ref t None = Ok c.
Proof.
  intros N L HA HR. unfold interp_2d.
  assert (existsb (fun row => existsb (Qc_eqb t) row) reference = false) as ->.
  { destruct (existsb _ reference) eqn:E; auto. apply existsb_exists in E as [row [I E]]. apply existsb_Qc in E.
    destruct (HR row I) as [_ [Inc [i [xl [xh [Hl [Hh [L1 L2]]]]]]]]. exfalso.
    eapply not_in_between; [exact Inc|exact Hl|exact Hh|exact L1|exact L2|exact E]. }
  destruct (restrict_2d_spec reference t m N) as [l [u [-> [Llu [Lum Br]]]]].
  { intros row I. destruct (HR row I) as [H1 [H2 [i H3]]]. split; auto. exists i. auto. }
  cbn [bind].
  rewrite (mapM_map (take (positions (Z.of_nat l) (Z.of_nat u + 1))) (segment l (S u - l)) reference).
  2: { intros row I. apply take_segment; auto. destruct (HR row I) as [E _]. lia. }
  cbn [bind]. rewrite (mapM_map (take (positions (Z.of_nat l) (Z.of_nat u + 1))) (segment l (S u - l)) array).
  2: { intros row I. apply take_segment; auto. rewrite (HA row I). lia. }
  cbn [bind].
  destruct (Nat.eqb_spec (length (concat (map (segment l (S u - l)) reference))) 1) as [E|_].
  { exfalso. destruct reference as [|row rows]; [congruence|]. cbn [map concat] in E. rewrite app_length in E.
    destruct (HR row (or_introl eq_refl)) as [E1 [_ [i Hi]]]. destruct (Br row i (or_introl eq_refl) Hi) as [X Y].
    rewrite segment_length in E by lia. lia. }
  set (f := fun xy : list Qc * list cell => interp1d (fst xy) (snd xy) t).
  assert (exists cells, mapM f (combine (map (segment l (S u - l)) reference) (map (segment l (S u - l)) array)) = Ok cells
    /\ length cells = length reference
    /\ forall r ref arr, at_ reference r ref -> at_ array r arr -> exists c, at_ cells r c /\ interp_1d arr ref t None = Ok c) as X.
  { clear N. revert array L HA. induction reference as [|ref reference IH]; intros [|arr array] L HA; try discriminate.
    - exists []. split; [reflexivity|]. split; [reflexivity|]. intros [|r] ? ? H; discriminate.
    - cbn [map combine mapM]. destruct (HR ref (or_introl eq_refl)) as [Lm [Inc [i Hi]]].
      destruct (Br ref i (or_introl eq_refl) Hi) as [X Y].
      destruct (interp_segment ref arr t i l (S u - l)) as [c [C1 C2]]; auto; try lia.
      { rewrite (HA arr (or_introl eq_refl)). now symmetry. }
      unfold f at 1. cbn [fst snd]. rewrite C1. cbn [bind].
      destruct IH with (array := array) as [cells [E [Lc Hc]]].
      + intros row I. apply HR. now right.
      + intros row k I. apply Br. now right.
      + simpl in L. lia.
      + intros row I. apply HA. now right.
      + rewrite E. cbn [bind]. exists (c :: cells). split; [reflexivity|]. split; [simpl; lia|].
        intros [|r] ref' arr' H1 H2.
        * injection H1 as <-. injection H2 as <-. exists c. split; [reflexivity|exact C2].
        * destruct (Hc r ref' arr' H1 H2) as [d [D1 D2]]. exists d. auto. }
  destruct X as [cells [E [Lc Hc]]]. rewrite E. cbn [bind]. exists cells. auto.
Qed.

Lemma interp_2d_hit array reference t cells : (exists row, In row reference /\ In t row) ->
  interp_2d array reference t <> Ok (Rows cells).
Proof.
  intros [row [I It]] H. unfold interp_2d in H.
  assert (existsb (fun row => existsb (Qc_eqb t) row) reference = true) as E.
  { apply existsb_exists. exists row. split; auto. now apply existsb_Qc. }
  rewrite E in H. destruct (find_nearest_nd _ _ t) as [[idx v]|]; [|discriminate]. cbn [bind fst] in H.
  destruct idx as [|a [|b [|? ?]]]; try discriminate.
  destruct (py_index array (Z.of_nat a)); [|discriminate]. cbn [bind] in H.
  destruct (py_index _ (Z.of_nat b)); discriminate.
Qed.

(** ** Restriction *)

Lemma restrict_two x i xl xh t : increasing x -> at_ x i xl -> at_ x (S i) xh -> (xl < t)%Qc -> (t < xh)%Qc ->
  restrict_1d x t 0 = Ok [i; S i].
Proof.
  intros S Hl Hh L1 L2. unfold restrict_1d. cbn [Z.eqb orb]. rewrite (find_between x i xl xh t S Hl Hh L1 L2).
  now rewrite positions_two.
Qed.
Lemma restrict_hit x i t : increasing x -> at_ x i t -> restrict_1d x t 0 = Ok [i].
Proof.
  intros S H. unfold restrict_1d. cbn [Z.eqb orb].
  assert (find_1d_indices x t = (Z.of_nat i, Z.of_nat i)) as ->; [|now rewrite positions_one].
  rewrite (surjective_pairing (find_1d_indices x t)). f_equal.
  - destruct (find_1d_lower x t) as [[j [y [H1 [H2 [H3 H4]]]]]|[H1 _]].
    + rewrite H1. f_equal. assert (i <= j) by (apply (H4 i t); auto; qlra).
      destruct (Nat.le_gt_cases j i); [lia|]. assert (t < y)%Qc by (apply (increasing_at x S i j); auto). qlra.
    + specialize (H1 t (at_In _ _ _ H)). qlra.
  - destruct (find_1d_upper x t) as [[j [y [H1 [H2 [H3 H4]]]]]|[H1 _]].
    + rewrite H1. f_equal. assert (j <= i) by (apply (H4 i t); auto; qlra).
      destruct (Nat.le_gt_cases i j); [lia|]. assert (y < t)%Qc by (apply (increasing_at x S j i); auto). qlra.
    + specialize (H1 t (at_In _ _ _ H)). qlra.
Qed.
