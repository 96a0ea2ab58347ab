(** Lemmas about the numerical tools. *)

From Coq Require Import List Bool ZArith QArith Qcanon Arith Sorted Lia Permutation.
From Verif Require Import Py PyFacts QcOrder NumericalModel NumericalSpec.
Import ListNotations.
Open Scope nat_scope.
Open Scope list_scope.
Open Scope py_scope.

Lemma at_lt {A} (a : list A) i x : at_ a i x -> i < length a.
Proof. unfold at_. intro H. apply nth_error_Some. congruence. Qed.
Lemma at_ex {A} (a : list A) i : i < length a -> exists x, at_ a i x.
Proof. unfold at_. intro H. apply nth_error_Some in H. destruct (nth_error a i); [eauto|congruence]. Qed.
Lemma at_fun {A} (a : list A) i x y : at_ a i x -> at_ a i y -> x = y.
Proof. unfold at_. congruence. Qed.
Lemma at_In {A} (a : list A) i x : at_ a i x -> In x a.
Proof. apply nth_error_In. Qed.
Lemma In_at {A} (a : list A) x : In x a -> exists i, at_ a i x.
Proof. apply In_nth_error. Qed.
Lemma at_map {A B} (f : A -> B) a i y : at_ (map f a) i y <-> exists x, at_ a i x /\ y = f x.
Proof.
  unfold at_. rewrite nth_error_map. destruct (nth_error a i) as [x|]; simpl; split.
  - intro H. injection H as <-. eauto.
  - intros [x' [E ->]]. congruence.
  - discriminate.
  - intros [x' [E _]]. discriminate.
Qed.

(** * argmin *)

Definition is_argmin (l : list Qc) (i : nat) : Prop :=
  exists x, at_ l i x /\ (forall j y, at_ l j y -> (x <= y)%Qc) /\ (forall j y, at_ l j y -> j < i -> (x < y)%Qc).

Lemma at_snoc {A} (p : list A) x i y : at_ (p ++ [x]) i y <-> at_ p i y \/ (i = length p /\ y = x).
Proof.
  unfold at_. destruct (Nat.lt_trichotomy i (length p)) as [L|[E|L]].
  - rewrite nth_error_app1 by auto. split; [auto|]. intros [H|[H _]]; [auto|lia].
  - subst. rewrite nth_error_app2, Nat.sub_diag by lia. simpl. split.
    + intro H. injection H as ->. auto.
    + intros [H|[_ ->]]; auto. exfalso. assert (length p < length p); [|lia]. apply nth_error_Some. congruence.
  - assert (nth_error (p ++ [x]) i = None) as -> by (apply nth_error_None; rewrite app_length; simpl; lia).
    assert (nth_error p i = None) as -> by (apply nth_error_None; lia).
    split; [discriminate|]. intros [H|[H _]]; [discriminate|lia].
Qed.

Lemma argmin_go_spec l : forall p best least, at_ p best least -> is_argmin p best ->
  is_argmin (p ++ l) (argmin_go best least (length p) l).
Proof.
  induction l as [|x l IH]; intros p best least Hb Ha; simpl; [now rewrite app_nil_r|].
  replace (p ++ x :: l) with ((p ++ [x]) ++ l) by now rewrite <- app_assoc.
  replace (S (length p)) with (length (p ++ [x])) by (rewrite app_length; simpl; lia).
  destruct Ha as [m [Hm [H1 H2]]]. assert (m = least) by (eapply at_fun; eauto). subst m.
  destruct (Qc_ltb_spec x least) as [L|L].
  - apply IH.
    + apply at_snoc. auto.
    + exists x. split; [apply at_snoc; auto|]. split.
      * intros j y H. apply at_snoc in H as [H|[_ ->]]; [|qlra]. specialize (H1 j y H). qlra.
      * intros j y H Lj. apply at_snoc in H as [H|[E _]]; [|lia]. specialize (H1 j y H). qlra.
  - apply Qc_nlt in L. apply IH.
    + apply at_snoc. auto.
    + exists least. split; [apply at_snoc; auto|]. split.
      * intros j y H. apply at_snoc in H as [H|[_ ->]]; eauto.
      * intros j y H Lj. apply at_snoc in H as [H|[E _]]; eauto. apply at_lt in Hb. lia.
Qed.

Lemma argmin_spec l i : argmin l = Ok i <-> is_argmin l i.
Proof.
  assert (forall j, argmin l = Ok j -> is_argmin l j) as A.
  { destruct l as [|x l]; [discriminate|]. intros j H. injection H as <-.
    apply (argmin_go_spec l [x] 0 x); [reflexivity|]. exists x. split; [reflexivity|]. split.
    - intros [|[|j]] y H; try discriminate. injection H as <-. qlra.
    - intros; lia. }
  split; [apply A|]. intros [x [Hx [H1 H2]]]. destruct l as [|z l]; [destruct i; discriminate|].
  destruct (argmin (z :: l)) as [j|e] eqn:E; [|discriminate]. destruct (A j eq_refl) as [y [Hy [H3 H4]]]. f_equal.
  destruct (Nat.lt_trichotomy i j) as [L|[L|L]]; auto.
  - specialize (H4 _ _ Hx L). specialize (H1 _ _ Hy). qlra.
  - specialize (H2 _ _ Hy L). specialize (H3 _ _ Hx). qlra.
Qed.

Lemma argmin_some l : l <> [] -> exists i, argmin l = Ok i.
Proof. destruct l; [congruence|]. intros _. eexists. reflexivity. Qed.

Lemma argmin_nearest a t i : argmin (map (fun x => Qc_abs (x - t)) a) = Ok i <-> exists x, nearest a t i x.
Proof.
  rewrite argmin_spec. unfold is_argmin, nearest. split.
  - intros [d [H [H1 H2]]]. apply at_map in H as [x [H ->]]. exists x. split; auto. split.
    + intros j y Hy. apply (H1 j). apply at_map. eauto.
    + intros j y Hy. apply H2. apply at_map. eauto.
  - intros [x [H [H1 H2]]]. exists (Qc_abs (x - t)). split; [apply at_map; eauto|]. split.
    + intros j y Hy. apply at_map in Hy as [z [Hz ->]]. eapply H1; eauto.
    + intros j y Hy. apply at_map in Hy as [z [Hz ->]]. eapply H2; eauto.
Qed.

Lemma py_index_nat {A} (a : list A) i : py_index a (Z.of_nat i) = match nth_error a i with Some x => Ok x | None => Err IndexError end.
Proof.
  unfold py_index. destruct (Z.ltb_spec (Z.of_nat i) 0); [lia|]. destruct (Z.leb_spec 0 (Z.of_nat i)); [|lia].
  destruct (Z.ltb_spec (Z.of_nat i) (Z.of_nat (length a))); simpl.
  - now rewrite Nat2Z.id.
  - assert (nth_error a i = None) as ->; auto. apply nth_error_None. lia.
Qed.
Lemma py_index_at {A} (a : list A) i x : at_ a i x -> py_index a (Z.of_nat i) = Ok x.
Proof. intro H. rewrite py_index_nat. unfold at_ in H. now rewrite H. Qed.

Lemma find_nearest_none a t i x : find_nearest a t BNone = Ok (Z.of_nat i, x) <-> nearest a t i x.
Proof.
  unfold find_nearest. split.
  - destruct (argmin (map (fun x => Qc_abs (x - t)) a)) as [j|] eqn:E; [|discriminate]. cbn [bind].
    apply argmin_nearest in E as [y H]. rewrite (py_index_at a j y) by apply H. cbn [bind]. intro G.
    injection G as G1 ->. assert (j = i) by lia. now subst.
  - intro H. assert (argmin (map (fun x => Qc_abs (x - t)) a) = Ok i) as -> by (apply argmin_nearest; eauto).
    cbn [bind]. rewrite (py_index_at a i x) by apply H. reflexivity.
Qed.

Lemma find_nearest_empty t b : find_nearest [] t b = Err ValueError.
Proof. reflexivity. Qed.

Lemma find_nearest_ex a t : a <> [] -> exists i x, find_nearest a t BNone = Ok (Z.of_nat i, x).
Proof.
  intro N. destruct (argmin_some (map (fun x => Qc_abs (x - t)) a)) as [i E].
  { destruct a; [congruence|discriminate]. }
  apply argmin_nearest in E as [x H]. exists i, x. now apply find_nearest_none.
Qed.

(** * Bounded search *)

Lemma seek_up_spec a t : forall k i fuel, i + k = length a -> k < fuel ->
  (exists j x, i <= j /\ at_ a j x /\ (t <= x)%Qc /\ (forall m y, i <= m < j -> at_ a m y -> (y < t)%Qc)
     /\ seek_up fuel a t (Z.of_nat i) = Ok (Some (Z.of_nat j)))
  \/ ((forall m y, i <= m -> at_ a m y -> (y < t)%Qc) /\ seek_up fuel a t (Z.of_nat i) = Ok None).
Proof.
  induction k as [|k IH]; intros i [|fuel] L F; try lia; simpl.
  - right. rewrite py_index_nat. assert (nth_error a i = None) as -> by (apply nth_error_None; lia). split; auto.
    intros m y Hm H. apply at_lt in H. lia.
  - destruct (at_ex a i) as [x Hx]; [lia|]. rewrite (py_index_at a i x Hx). destruct (Qc_ltb_spec x t) as [Lx|Lx].
    + replace (Z.of_nat i + 1)%Z with (Z.of_nat (S i)) by lia.
      destruct (IH (S i) fuel) as [[j [z [H1 [H2 [H3 [H4 H5]]]]]]|[H1 H2]]; try lia.
      * left. exists j, z. split; [lia|]. split; auto. split; auto. split; auto. intros m y Hm Hy.
        destruct (Nat.eq_dec m i) as [->|Nm]; [assert (y = x) by (eapply at_fun; eauto); now subst|]. apply (H4 m); auto. lia.
      * right. split; auto. intros m y Hm Hy.
        destruct (Nat.eq_dec m i) as [->|Nm]; [assert (y = x) by (eapply at_fun; eauto); now subst|]. apply (H1 m); auto. lia.
    + left. exists i, x. split; auto. split; auto. split; [now apply Qc_nlt|]. split; auto. intros; lia.
Qed.

Lemma sorted_at a : sorted a -> forall i j x y, i <= j -> at_ a i x -> at_ a j y -> (x <= y)%Qc.
Proof.
  induction 1 as [|z a S IH F]; intros i j x y L Hx Hy; [destruct i; discriminate|].
  rewrite Forall_forall in F. destruct i as [|i], j as [|j]; try lia.
  - injection Hx as <-. injection Hy as <-. qlra.
  - injection Hx as <-. apply F. eapply at_In. exact Hy.
  - eapply (IH i j); eauto. lia.
Qed.

Lemma py_index_last {A} (a : list A) x : py_index (a ++ [x]) (-1) = Ok x.
Proof.
  unfold py_index. rewrite app_length. simpl length. destruct (Z.ltb_spec (-1) 0); [|lia].
  replace (-1 + Z.of_nat (length a + 1))%Z with (Z.of_nat (length a)) by lia.
  destruct (Z.leb_spec 0 (Z.of_nat (length a))); [|lia].
  destruct (Z.ltb_spec (Z.of_nat (length a)) (Z.of_nat (length a + 1))); [|lia]. simpl.
  rewrite Nat2Z.id, nth_error_app2, Nat.sub_diag by lia. reflexivity.
Qed.

Lemma dist_le x t : (x <= t)%Qc -> dist x t = (t - x)%Qc.
Proof. intro H. unfold dist. rewrite Qc_abs_neg; [qlra|qlra]. Qed.
Lemma dist_ge x t : (t <= x)%Qc -> dist x t = (x - t)%Qc.
Proof. intro H. unfold dist. rewrite Qc_abs_nonneg; [reflexivity|qlra]. Qed.

Lemma find_lower a t : sorted a -> a <> [] ->
  ((exists y, In y a /\ (t <= y)%Qc) -> exists i r, find_nearest a t BLower = Ok (Z.of_nat i, r) /\ at_ a i r /\ least_above a t r)
  /\ ((forall y, In y a -> (y < t)%Qc) -> exists r, find_nearest a t BLower = Ok ((-1)%Z, r) /\ r = last a 0%Qc).
Proof.
  intros S N. destruct (argmin_some (map (fun x => Qc_abs (x - t)) a)) as [i E].
  { destruct a; [congruence|discriminate]. }
  unfold find_nearest. rewrite E. cbn [bind]. apply argmin_nearest in E as [x0 [Hx [Hmin _]]].
  assert (Li := at_lt _ _ _ Hx).
  destruct (seek_up_spec a t (length a - i) i (2 * length a + 2)) as [[j [x [H1 [H2 [H3 [H4 H5]]]]]]|[H1 H2]]; try lia.
  - rewrite H5. cbn [bind]. rewrite (py_index_at a j x H2). cbn [bind]. split.
    + intros _. exists j, x. split; auto. split; auto. split; [eapply at_In; eauto|]. split; auto. intros y Iy Ly.
      apply In_at in Iy as [m Hm]. destruct (Nat.le_gt_cases j m) as [L|L]; [eapply sorted_at; eauto|].
      destruct (Nat.le_gt_cases i m) as [L'|L'].
      * specialize (H4 m y ltac:(lia) Hm). qlra.
      * (* m < i: y <= x0 and y is at or above t *)
        assert (y <= x0)%Qc by (eapply (sorted_at a S m i); eauto; lia).
        assert (Hd := Hmin m y Hm). rewrite !dist_ge in Hd by qlra.
        destruct (Nat.eq_dec i j) as [Ej|Nj]; [subst j; assert (x = x0) by (eapply at_fun; eauto); subst; qlra|].
        specialize (H4 i x0 ltac:(lia) Hx). qlra.
    + intro All. exfalso. specialize (All x (at_In _ _ _ H2)). qlra.
  - rewrite H2. cbn [bind]. split.
    + intros [y [Iy Ly]]. exfalso. apply In_at in Iy as [m Hm]. destruct (Nat.le_gt_cases i m) as [L|L].
      * specialize (H1 m y L Hm). qlra.
      * specialize (H1 i x0 (le_n _) Hx). assert (y <= x0)%Qc by (eapply (sorted_at a S m i); eauto; lia). qlra.
    + intros _. destruct a as [|r a _] using rev_ind; [congruence|]. exists r. rewrite py_index_last. cbn [bind].
      split; auto. now rewrite last_last.
Qed.

Lemma py_index_neg {A} (a : list A) k : (1 <= k <= length a) ->
  exists x, at_ a (length a - k) x /\ py_index a (- Z.of_nat k) = Ok x.
Proof.
  intro L. destruct (at_ex a (length a - k)) as [x Hx]; [lia|]. exists x. split; auto.
  unfold py_index. destruct (Z.ltb_spec (- Z.of_nat k) 0); [|lia].
  replace (- Z.of_nat k + Z.of_nat (length a))%Z with (Z.of_nat (length a - k)) by lia.
  destruct (Z.leb_spec 0 (Z.of_nat (length a - k))); [|lia].
  destruct (Z.ltb_spec (Z.of_nat (length a - k)) (Z.of_nat (length a))); [|lia]. simpl.
  rewrite Nat2Z.id. unfold at_ in Hx. now rewrite Hx.
Qed.

Lemma seek_wrap a t : (forall y, In y a -> (t < y)%Qc) -> forall k j fuel, j + k = length a -> k < fuel ->
  seek_down fuel a t (- Z.of_nat (S j)) = Ok None.
Proof.
  intro All. induction k as [|k IH]; intros j [|fuel] L F; try lia; cbn [seek_down].
  - assert (py_index a (- Z.of_nat (S j)) = Err IndexError) as ->; auto. unfold py_index.
    destruct (Z.ltb_spec (- Z.of_nat (S j)) 0); [|lia].
    destruct (Z.leb_spec 0 (- Z.of_nat (S j) + Z.of_nat (length a))); [lia|]. reflexivity.
  - destruct (py_index_neg a (S j)) as [x [Hx ->]]; [lia|]. specialize (All x (at_In _ _ _ Hx)).
    destruct (Qc_ltb_spec t x); [|contradiction].
    replace (- Z.of_nat (S j) - 1)%Z with (- Z.of_nat (S (S j)))%Z by lia. apply IH; lia.
Qed.

Lemma seek_down_spec a t : forall i fuel, i < length a -> (length a + i + 1 < fuel) ->
  (exists j x, j <= i /\ at_ a j x /\ (x <= t)%Qc /\ (forall m y, j < m <= i -> at_ a m y -> (t < y)%Qc)
     /\ seek_down fuel a t (Z.of_nat i) = Ok (Some (Z.of_nat j)))
  \/ ((forall m y, m <= i -> at_ a m y -> (t < y)%Qc)
      /\ ((forall y, In y a -> (t < y)%Qc) -> seek_down fuel a t (Z.of_nat i) = Ok None)).
Proof.
  induction i as [|i IH]; intros [|fuel] L F; try lia; cbn [seek_down].
  - destruct (at_ex a 0) as [x Hx]; [lia|]. rewrite (py_index_at a 0 x Hx). destruct (Qc_ltb_spec t x) as [Lx|Lx].
    + right. split.
      * intros m y Hm Hy. assert (m = 0) by lia. subst. assert (y = x) by (eapply at_fun; eauto). now subst.
      * intro All. apply (seek_wrap a t All (length a) 0); lia.
    + left. exists 0, x. split; auto. split; auto. split; [now apply Qc_nlt|]. split; auto. intros; lia.
  - destruct (at_ex a (S i)) as [x Hx]; [lia|]. rewrite (py_index_at a (S i) x Hx). destruct (Qc_ltb_spec t x) as [Lx|Lx].
    + replace (Z.of_nat (S i) - 1)%Z with (Z.of_nat i) by lia.
      destruct (IH fuel) as [[j [z [H1 [H2 [H3 [H4 H5]]]]]]|[H1 H2]]; try lia.
      * left. exists j, z. split; [lia|]. split; auto. split; auto. split; auto. intros m y Hm Hy.
        destruct (Nat.eq_dec m (S i)) as [->|Nm]; [assert (y = x) by (eapply at_fun; eauto); now subst|]. apply (H4 m); auto. lia.
      * right. split; auto. intros m y Hm Hy.
        destruct (Nat.eq_dec m (S i)) as [->|Nm]; [assert (y = x) by (eapply at_fun; eauto); now subst|]. apply (H1 m); auto. lia.
    + left. exists (S i), x. split; auto. split; auto. split; [now apply Qc_nlt|]. split; auto. intros; lia.
Qed.

Lemma find_upper a t : sorted a -> a <> [] ->
  ((exists y, In y a /\ (y <= t)%Qc) -> exists i r, find_nearest a t BUpper = Ok (Z.of_nat i, r) /\ at_ a i r /\ greatest_below a t r)
  /\ ((forall y, In y a -> (t < y)%Qc) -> exists r, find_nearest a t BUpper = Ok (0%Z, r) /\ r = hd 0%Qc a).
Proof.
  intros S N. destruct (argmin_some (map (fun x => Qc_abs (x - t)) a)) as [i E].
  { destruct a; [congruence|discriminate]. }
  unfold find_nearest. rewrite E. cbn [bind]. apply argmin_nearest in E as [x0 [Hx [Hmin _]]].
  assert (Li := at_lt _ _ _ Hx).
  destruct (seek_down_spec a t i (2 * length a + 2)) as [[j [x [H1 [H2 [H3 [H4 H5]]]]]]|[H1 H2]]; try lia.
  - rewrite H5. cbn [bind]. rewrite (py_index_at a j x H2). cbn [bind]. split.
    + intros _. exists j, x. split; auto. split; auto. split; [eapply at_In; eauto|]. split; auto. intros y Iy Ly.
      apply In_at in Iy as [m Hm]. destruct (Nat.le_gt_cases m j) as [L|L]; [eapply sorted_at; eauto|].
      destruct (Nat.le_gt_cases m i) as [L'|L'].
      * specialize (H4 m y ltac:(lia) Hm). qlra.
      * assert (x0 <= y)%Qc by (eapply (sorted_at a S i m); eauto; lia).
        assert (Hd := Hmin m y Hm). rewrite !dist_le in Hd by qlra.
        destruct (Nat.eq_dec i j) as [Ej|Nj]; [subst j; assert (x = x0) by (eapply at_fun; eauto); subst; qlra|].
        specialize (H4 i x0 ltac:(lia) Hx). qlra.
    + intro All. exfalso. specialize (All x (at_In _ _ _ H2)). qlra.
  - split.
    + intros [y [Iy Ly]]. exfalso. apply In_at in Iy as [m Hm]. destruct (Nat.le_gt_cases m i) as [L|L].
      * specialize (H1 m y L Hm). qlra.
      * specialize (H1 i x0 (le_n _) Hx). assert (x0 <= y)%Qc by (eapply (sorted_at a S i m); eauto; lia). qlra.
    + intro All. rewrite H2 by auto. cbn [bind]. destruct a as [|r a]; [congruence|]. exists r. split; reflexivity.
Qed.

(** * Bounding indices *)

Lemma where_In p a i : In i (where_ p a) <-> exists x, at_ a i x /\ p x = true.
Proof.
  unfold where_. rewrite in_map_iff. 
  assert (forall (l : list Qc) s k x, In (k, x) (combine (seq s (length l)) l) <-> s <= k /\ at_ l (k - s) x) as H.
  { induction l as [|y l IH]; intros s k x; simpl.
    - split; [contradiction|]. intros [_ H]. unfold at_ in H. destruct (k - s); discriminate.
    - rewrite IH. split.
      + intros [E|[L H]]; [injection E as <- <-; split; [lia|]; now rewrite Nat.sub_diag|].
        split; [lia|]. unfold at_. replace (k - s) with (S (k - S s)) by lia. exact H.
      + intros [L H]. destruct (Nat.eq_dec k s) as [->|N].
        * left. rewrite Nat.sub_diag in H. injection H as <-. reflexivity.
        * right. split; [lia|]. unfold at_ in *. replace (k - s) with (S (k - S s)) in H by lia. exact H. }
  split.
  - intros [[k x] [E I]]. simpl in E. subst. apply filter_In in I as [I P]. apply H in I as [_ I].
    rewrite Nat.sub_0_r in I. eauto.
  - intros [x [Hx P]]. exists (i, x). split; auto. apply filter_In. split; auto. apply H. rewrite Nat.sub_0_r. split; [lia|auto].
Qed.

Lemma fold_max_spec r : forall i, In (fold_left Nat.max r i) (i :: r) /\ forall k, In k (i :: r) -> k <= fold_left Nat.max r i.
Proof.
  induction r as [|x r IH]; intro i; simpl.
  - split; auto. intros k [<-|[]]. auto.
  - destruct (IH (Nat.max i x)) as [H1 H2]. split.
    + destruct H1 as [H1|H1]; auto. rewrite <- H1. destruct (Nat.max_spec i x) as [[_ ->]|[_ ->]]; auto.
    + intros k [<-|[<-|I]].
      * specialize (H2 (Nat.max i x) (or_introl eq_refl)). lia.
      * specialize (H2 (Nat.max i x) (or_introl eq_refl)). lia.
      * apply H2. now right.
Qed.
Lemma fold_min_spec r : forall i, In (fold_left Nat.min r i) (i :: r) /\ forall k, In k (i :: r) -> fold_left Nat.min r i <= k.
Proof.
  induction r as [|x r IH]; intro i; simpl.
  - split; auto. intros k [<-|[]]. auto.
  - destruct (IH (Nat.min i x)) as [H1 H2]. split.
    + destruct H1 as [H1|H1]; auto. rewrite <- H1. destruct (Nat.min_spec i x) as [[_ ->]|[_ ->]]; auto.
    + intros k [<-|[<-|I]].
      * specialize (H2 (Nat.min i x) (or_introl eq_refl)). lia.
      * specialize (H2 (Nat.min i x) (or_introl eq_refl)). lia.
      * apply H2. now right.
Qed.

(** Exact, for every array. *)
Lemma find_1d_lower a t :
  (exists i x, fst (find_1d_indices a t) = Z.of_nat i /\ at_ a i x /\ (x <= t)%Qc
     /\ forall j y, at_ a j y -> (y <= t)%Qc -> j <= i)
  \/ ((forall y, In y a -> (t < y)%Qc) /\ fst (find_1d_indices a t) = 0%Z).
Proof.
  unfold find_1d_indices. simpl. assert (W := where_In (fun x => Qc_leb x t) a).
  destruct (where_ (fun x => Qc_leb x t) a) as [|k r].
  - right. split; auto. intros y I. apply In_at in I as [i Hi]. destruct (Qc_leb_spec y t) as [L|L].
    + destruct (proj2 (W i)). exists y. split; auto. destruct (Qc_leb_spec y t); auto.
    + now apply Qcnot_le_lt.
  - left. destruct (fold_max_spec r k) as [H1 H2]. apply W in H1 as [x [Hx L]]. exists (fold_left Nat.max r k), x.
    split; auto. split; auto. split; [destruct (Qc_leb_spec x t); [auto|discriminate]|].
    intros j y Hj Ly. apply H2, W. exists y. split; auto. destruct (Qc_leb_spec y t); auto.
Qed.
Lemma find_1d_upper a t :
  (exists i x, snd (find_1d_indices a t) = Z.of_nat i /\ at_ a i x /\ (t <= x)%Qc
     /\ forall j y, at_ a j y -> (t <= y)%Qc -> i <= j)
  \/ ((forall y, In y a -> (y < t)%Qc) /\ snd (find_1d_indices a t) = (Z.of_nat (length a) - 1)%Z).
Proof.
  unfold find_1d_indices. simpl. assert (W := where_In (fun x => Qc_leb t x) a).
  destruct (where_ (fun x => Qc_leb t x) a) as [|k r].
  - right. split; auto. intros y I. apply In_at in I as [i Hi]. destruct (Qc_leb_spec t y) as [L|L].
    + destruct (proj2 (W i)). exists y. split; auto. destruct (Qc_leb_spec t y); auto.
    + now apply Qcnot_le_lt.
  - left. destruct (fold_min_spec r k) as [H1 H2]. apply W in H1 as [x [Hx L]]. exists (fold_left Nat.min r k), x.
    split; auto. split; auto. split; [destruct (Qc_leb_spec t x); [auto|discriminate]|].
    intros j y Hj Ly. apply H2, W. exists y. split; auto. destruct (Qc_leb_spec t y); auto.
Qed.

Lemma bounding_sorted a t : sorted a -> a <> [] -> exists l u lx ux,
  find_1d_indices a t = (Z.of_nat l, Z.of_nat u) /\ at_ a l lx /\ at_ a u ux
  /\ ((exists y, In y a /\ (y <= t)%Qc) -> greatest_below a t lx)
  /\ ((forall y, In y a -> (t < y)%Qc) -> l = 0)
  /\ ((exists y, In y a /\ (t <= y)%Qc) -> least_above a t ux)
  /\ ((forall y, In y a -> (y < t)%Qc) -> u = length a - 1).
Proof.
  intros S N. assert (0 < length a) as La by (destruct a; [congruence|simpl; lia]).
  assert (exists l lx, fst (find_1d_indices a t) = Z.of_nat l /\ at_ a l lx
    /\ ((exists y, In y a /\ (y <= t)%Qc) -> greatest_below a t lx)
    /\ ((forall y, In y a -> (t < y)%Qc) -> l = 0)) as [l [lx [L1 [L2 [L3 L4]]]]].
  { destruct (find_1d_lower a t) as [[i [x [H1 [H2 [H3 H4]]]]]|[H1 H2]].
    - exists i, x. split; auto. split; auto. split.
      + intros _. split; [eapply at_In; eauto|]. split; auto. intros y Iy Ly. apply In_at in Iy as [j Hj].
        apply (sorted_at a S j i); eauto.
      + intro All. specialize (All x (at_In _ _ _ H2)). qlra.
    - destruct (at_ex a 0 La) as [x Hx]. exists 0, x. split; auto. split; auto. split; auto.
      intros [y [Iy Ly]]. specialize (H1 y Iy). qlra. }
  assert (exists u ux, snd (find_1d_indices a t) = Z.of_nat u /\ at_ a u ux
    /\ ((exists y, In y a /\ (t <= y)%Qc) -> least_above a t ux)
    /\ ((forall y, In y a -> (y < t)%Qc) -> u = length a - 1)) as [u [ux [U1 [U2 [U3 U4]]]]].
  { destruct (find_1d_upper a t) as [[i [x [H1 [H2 [H3 H4]]]]]|[H1 H2]].
    - exists i, x. split; auto. split; auto. split.
      + intros _. split; [eapply at_In; eauto|]. split; auto. intros y Iy Ly. apply In_at in Iy as [j Hj].
        apply (sorted_at a S i j); eauto.
      + intro All. specialize (All x (at_In _ _ _ H2)). qlra.
    - destruct (at_ex a (length a - 1)) as [x Hx]; [lia|]. exists (length a - 1), x. split; [lia|]. split; auto. split; auto.
      intros [y [Iy Ly]]. specialize (H1 y Iy). qlra. }
  exists l, u, lx, ux. split; [|tauto]. destruct (find_1d_indices a t). simpl in *. congruence.
Qed.

(** * Multi-dimensional positions *)

Lemma unravel_spec shape : forall i, i < fold_right Nat.mul 1 shape ->
  ravel (unravel i shape) shape = i /\ Forall2 lt (unravel i shape) shape.
Proof.
  induction shape as [|n rest IH]; intros i L; simpl in *; [split; [lia|constructor]|].
  set (s := fold_right Nat.mul 1 rest) in *. assert (s <> 0) by (intro E; rewrite E in L; lia).
  destruct (IH (i mod s)) as [H1 H2]; [apply Nat.mod_upper_bound; auto|]. split.
  - rewrite H1. rewrite Nat.mul_comm. symmetry. apply Nat.div_mod. auto.
  - constructor; auto. apply Nat.div_lt_upper_bound; auto. lia.
Qed.

Lemma find_nd flat shape t : flat <> [] -> length flat = fold_right Nat.mul 1 shape ->
  exists idx x, find_nearest_nd flat shape t = Ok (idx, x) /\ Forall2 lt idx shape /\ nearest flat t (ravel idx shape) x.
Proof.
  intros N L. unfold find_nearest_nd. destruct (argmin_some (map (fun x => Qc_abs (x - t)) flat)) as [i E].
  { destruct flat; [congruence|discriminate]. }
  rewrite E. cbn [bind]. apply argmin_nearest in E as [x H]. assert (Li := at_lt _ _ _ (proj1 H)).
  assert (nth_error flat i = Some x) as -> by apply H. exists (unravel i shape), x. split; auto.
  destruct (unravel_spec shape i) as [H1 H2]; [lia|]. split; auto. now rewrite H1.
Qed.
