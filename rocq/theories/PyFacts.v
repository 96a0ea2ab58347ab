(** Lemmas about the Python prelude. *)

From Coq Require Import String Ascii List Bool ZArith NArith QArith Qcanon Qpower Lia.
From Coq Require Import Permutation Sorted.
From Verif Require Import Py.
Import ListNotations.
Open Scope list_scope.

(** * Booleans reflecting equality *)

Lemma str_eqb_spec a b : reflect (a = b) (str_eqb a b).
Proof. unfold str_eqb. destruct (str_eq_dec a b); constructor; auto. Qed.

Lemma str_eqb_refl a : str_eqb a a = true.
Proof. destruct (str_eqb_spec a a); congruence. Qed.

Lemma str_eqb_neq a b : a <> b -> str_eqb a b = false.
Proof. destruct (str_eqb_spec a b); congruence. Qed.

Lemma str_eqb_sym a b : str_eqb a b = str_eqb b a.
Proof. destruct (str_eqb_spec a b), (str_eqb_spec b a); congruence. Qed.

Lemma Qc_eqb_spec a b : reflect (a = b) (Qc_eqb a b).
Proof. unfold Qc_eqb. destruct (Qc_eq_dec a b); constructor; auto. Qed.

Lemma Qc_eqb_refl a : Qc_eqb a a = true.
Proof. destruct (Qc_eqb_spec a a); congruence. Qed.

Lemma Qc_eqb_neq a b : a <> b -> Qc_eqb a b = false.
Proof. destruct (Qc_eqb_spec a b); congruence. Qed.

Lemma Qc_eqb_sym a b : Qc_eqb a b = Qc_eqb b a.
Proof. destruct (Qc_eqb_spec a b), (Qc_eqb_spec b a); congruence. Qed.

Lemma Qc_leb_spec a b : reflect (a <= b)%Qc (Qc_leb a b).
Proof.
  unfold Qc_leb, Qcle. destruct (Qle_bool a b) eqn:E; constructor.
  - now apply Qle_bool_iff.
  - intro H. apply Qle_bool_iff in H. congruence.
Qed.

Lemma Qc_ltb_spec a b : reflect (a < b)%Qc (Qc_ltb a b).
Proof.
  unfold Qc_ltb. change (Qle_bool b a) with (Qc_leb b a).
  destruct (Qc_leb_spec b a) as [H|H]; simpl; constructor.
  - now apply Qcle_not_lt.
  - now apply Qcnot_le_lt.
Qed.

(** * Rationals *)

Ltac qc_canon :=
  apply Qc_is_canon;
  unfold Qc_zpow, Qc_of_Z, Qcdiv, Qcmult, Qcplus, Qcopp, Qcinv;
  cbn [this Q2Qc]; rewrite ?Qred_correct.

Lemma Qc_1_neq_0 : (1 <> 0)%Qc.
Proof. intro H. discriminate (f_equal this H). Qed.
#[export] Hint Resolve Qc_1_neq_0 : core.

Lemma Qc_mult_neq_0 a b : a <> 0%Qc -> b <> 0%Qc -> (a * b <> 0)%Qc.
Proof. intros Ha Hb H. destruct (Qcmult_integral _ _ H); auto. Qed.

Lemma Qc_opp_neq_0 a : a <> 0%Qc -> (- a <> 0)%Qc.
Proof.
  intros Ha H. apply Ha. replace a with (- - a)%Qc by ring. rewrite H. ring.
Qed.

Lemma Qc_inv_neq_0 a : a <> 0%Qc -> (/ a <> 0)%Qc.
Proof.
  intros Ha H. apply Qc_1_neq_0. rewrite <- (Qcmult_inv_l a Ha), H. ring.
Qed.

Lemma Q2Qc_eq_iff a b : (a == b)%Q <-> Q2Qc a = Q2Qc b.
Proof. split; intro H; now apply Q2Qc_eq_iff. Qed.

Lemma Qc_of_Z_inj a b : Qc_of_Z a = Qc_of_Z b -> a = b.
Proof.
  unfold Qc_of_Z. intro H. apply Q2Qc_eq_iff in H. unfold inject_Z, Qeq in H.
  simpl in H. lia.
Qed.

Lemma Qc_zpow_0 q : Qc_zpow q 0 = 1%Qc.
Proof. reflexivity. Qed.

Lemma this_neq_0 q : q <> 0%Qc -> ~ (this q == 0)%Q.
Proof.
  intros H E. apply H. apply Qc_is_canon. simpl. exact E.
Qed.

Lemma Qc_zpow_1_r q : Qc_zpow q 1 = q.
Proof.
  qc_canon. reflexivity.
Qed.

Lemma Qc_zpow_add q a b : q <> 0%Qc -> Qc_zpow q (a + b) = (Qc_zpow q a * Qc_zpow q b)%Qc.
Proof.
  intro H. qc_canon.
  apply Qpower_plus. now apply this_neq_0.
Qed.

Lemma Qc_zpow_mul q r a : Qc_zpow (q * r)%Qc a = (Qc_zpow q a * Qc_zpow r a)%Qc.
Proof.
  qc_canon.
  apply Qmult_power.
Qed.

Lemma Qc_zpow_pow q a b : Qc_zpow q (a * b) = Qc_zpow (Qc_zpow q a) b.
Proof.
  qc_canon.
  apply Qpower_mult.
Qed.

Lemma Qc_zpow_1_l a : Qc_zpow 1 a = 1%Qc.
Proof.
  qc_canon. apply Qpower_1.
Qed.

Lemma Qc_zpow_neq_0 q a : q <> 0%Qc -> Qc_zpow q a <> 0%Qc.
Proof.
  intros H E. assert (Qc_zpow q (a + - a) = 1%Qc) as E1
    by (replace (a + - a)%Z with 0%Z by lia; apply Qc_zpow_0).
  rewrite Qc_zpow_add, E in E1 by auto. apply Qc_1_neq_0. rewrite <- E1. ring.
Qed.

Lemma Qc_zpow_m1 q : Qc_zpow q (-1) = (/ q)%Qc.
Proof.
  qc_canon. reflexivity.
Qed.

Lemma Qc_num_of_Z z : Qc_num (Qc_of_Z z) = z.
Proof.
  unfold Qc_num, Qc_of_Z. cbn [this Q2Qc inject_Z].
  destruct (Z.eq_dec z 0) as [->|H]; [reflexivity|].
  unfold inject_Z, Qred.
  assert (G := Z.ggcd_gcd z 1). assert (C := Z.ggcd_correct_divisors z 1).
  destruct (Z.ggcd z 1) as [g [aa bb]]. simpl in *. destruct C as [C1 C2].
  rewrite Z.gcd_1_r in G. subst g. lia.
Qed.

Lemma Qc_den_of_Z z : Qc_den (Qc_of_Z z) = 1%positive.
Proof.
  unfold Qc_den, Qc_of_Z. cbn [this Q2Qc inject_Z].
  unfold inject_Z, Qred.
  assert (G := Z.ggcd_gcd z 1). assert (C := Z.ggcd_correct_divisors z 1).
  destruct (Z.ggcd z 1) as [g [aa bb]]. simpl in *. destruct C as [C1 C2].
  rewrite Z.gcd_1_r in G. subst g. replace bb with 1%Z by lia. reflexivity.
Qed.

Lemma Qc_is_int_of_Z z : Qc_is_int (Qc_of_Z z) = true.
Proof. unfold Qc_is_int. now rewrite Qc_den_of_Z. Qed.

Lemma Qc_int_eq q : Qc_is_int q = true -> q = Qc_of_Z (Qc_num q).
Proof.
  unfold Qc_is_int, Qc_den, Qc_num, Qc_of_Z. intro H.
  apply Pos.eqb_eq in H. apply Qc_is_canon. cbn [this Q2Qc]. rewrite Qred_correct.
  unfold inject_Z. rewrite <- H. destruct (this q); reflexivity.
Qed.

Lemma Qc_of_Z_add a b : Qc_of_Z (a + b) = (Qc_of_Z a + Qc_of_Z b)%Qc.
Proof.
  qc_canon.
  now rewrite inject_Z_plus.
Qed.

Lemma Qc_of_Z_mul a b : Qc_of_Z (a * b) = (Qc_of_Z a * Qc_of_Z b)%Qc.
Proof.
  qc_canon.
  now rewrite inject_Z_mult.
Qed.

Lemma Qc_of_Z_opp a : Qc_of_Z (- a) = (- Qc_of_Z a)%Qc.
Proof.
  qc_canon.
  now rewrite inject_Z_opp.
Qed.

Lemma Qc_is_int_iff q : Qc_is_int q = true <-> exists z, q = Qc_of_Z z.
Proof.
  split; [eauto using Qc_int_eq|]. intros [z ->]. apply Qc_is_int_of_Z.
Qed.

Lemma Qc_frac_eq q : q = (Qc_of_Z (Qc_num q) / Qc_of_Z (Zpos (Qc_den q)))%Qc.
Proof.
  qc_canon. unfold Qc_num, Qc_den, inject_Z. destruct (this q) as [n d].
  unfold Qeq, Qmult, Qinv. cbn [Qnum Qden]. lia.
Qed.

Lemma prodQc_app l m : prodQc (l ++ m) = (prodQc l * prodQc m)%Qc.
Proof. induction l; simpl; [ring|]. rewrite IHl. ring. Qed.

Lemma sumQc_app l m : sumQc (l ++ m) = (sumQc l + sumQc m)%Qc.
Proof. induction l; simpl; [ring|]. rewrite IHl. ring. Qed.

Lemma prodQc_perm l m : Permutation l m -> prodQc l = prodQc m.
Proof. induction 1; simpl; try congruence; ring. Qed.

Lemma sumQc_perm l m : Permutation l m -> sumQc l = sumQc m.
Proof. induction 1; simpl; try congruence; ring. Qed.

Lemma prodQc_neq_0 l : Forall (fun q => q <> 0%Qc) l -> prodQc l <> 0%Qc.
Proof. induction 1; simpl; [discriminate || auto|]. now apply Qc_mult_neq_0. Qed.

Lemma fold_left_Qcmult l x : fold_left Qcmult l x = (x * prodQc l)%Qc.
Proof. revert x; induction l; intro x; simpl; [ring|]. rewrite IHl. ring. Qed.

(** * The order on strings *)

Lemma code_inj a b : code a = code b -> a = b.
Proof.
  unfold code. intro H. rewrite <- (ascii_N_embedding a), <- (ascii_N_embedding b).
  now rewrite H.
Qed.

Lemma str_leb_refl a : str_leb a a = true.
Proof. induction a; simpl; auto. now rewrite N.ltb_irrefl. Qed.

Lemma str_leb_total a b : str_leb a b = true \/ str_leb b a = true.
Proof.
  revert b; induction a as [|x a IH]; intros [|y b]; simpl; auto.
  destruct (N.ltb_spec (code x) (code y)), (N.ltb_spec (code y) (code x)); auto.
Qed.

Lemma str_leb_antisym a b : str_leb a b = true -> str_leb b a = true -> a = b.
Proof.
  revert b; induction a as [|x a IH]; intros [|y b]; simpl; auto; try discriminate.
  destruct (N.ltb_spec (code x) (code y)), (N.ltb_spec (code y) (code x));
    try discriminate; try lia.
  intros. f_equal; [apply code_inj; lia|auto].
Qed.

Lemma str_leb_trans a b c : str_leb a b = true -> str_leb b c = true -> str_leb a c = true.
Proof.
  revert b c; induction a as [|x a IH]; intros [|y b] [|z c]; simpl; auto; try discriminate.
  destruct (N.ltb_spec (code x) (code y)), (N.ltb_spec (code y) (code x)),
    (N.ltb_spec (code y) (code z)), (N.ltb_spec (code z) (code y)),
    (N.ltb_spec (code x) (code z)), (N.ltb_spec (code z) (code x));
    try discriminate; try lia; auto; eauto.
Qed.

(** * Sorting *)

Section Sorting.
  Context {A : Type} (le : A -> A -> bool).

  Lemma insert_by_perm x l : Permutation (insert_by le x l) (x :: l).
  Proof.
    induction l as [|y l IH]; simpl; auto.
    destruct (le x y); auto.
    eapply perm_trans; [apply perm_skip, IH|apply perm_swap].
  Qed.

  Lemma sort_by_perm l : Permutation (sort_by le l) l.
  Proof.
    induction l as [|x l IH]; simpl; auto.
    eapply perm_trans; [apply insert_by_perm|now apply perm_skip].
  Qed.

  Lemma insert_by_In x y l : In y (insert_by le x l) <-> y = x \/ In y l.
  Proof.
    split; intro H.
    - apply (Permutation_in _ (insert_by_perm x l)) in H. destruct H; auto.
    - apply (Permutation_in _ (Permutation_sym (insert_by_perm x l))). simpl. intuition.
  Qed.

  Lemma insert_by_Forall (P : A -> Prop) x l : P x -> Forall P l -> Forall P (insert_by le x l).
  Proof.
    intros Hx Hl. apply Forall_forall. intros y Hy. apply insert_by_In in Hy.
    destruct Hy as [->|Hy]; auto. rewrite Forall_forall in Hl. auto.
  Qed.

  Hypothesis le_total : forall x y, le x y = true \/ le y x = true.
  Hypothesis le_trans : forall x y z, le x y = true -> le y z = true -> le x z = true.

  Lemma insert_by_sorted x l :
    StronglySorted (fun a b => le a b = true) l ->
    StronglySorted (fun a b => le a b = true) (insert_by le x l).
  Proof.
    induction 1 as [|y l Hl IH Hy]; simpl.
    - repeat constructor.
    - destruct (le x y) eqn:E.
      + constructor; [now constructor|]. constructor; auto.
        eapply Forall_impl; [|exact Hy]. simpl. eauto.
      + constructor; auto. apply insert_by_Forall; auto.
        destruct (le_total x y); congruence.
  Qed.

  Lemma sort_by_sorted l : StronglySorted (fun a b => le a b = true) (sort_by le l).
  Proof. induction l; simpl; [constructor|now apply insert_by_sorted]. Qed.

  (** Stability: sorting a list sorted by [R] gives a list sorted by [le] and,
      within equal keys, by [R]. *)
  Variable R : A -> A -> Prop.
  Let lex a b := (le a b = true /\ le b a = false) \/ (le a b = true /\ le b a = true /\ R a b).

  Lemma insert_by_stable x l :
    Forall (R x) l -> StronglySorted lex l -> StronglySorted lex (insert_by le x l).
  Proof.
    intros Hx Hl. revert Hx. induction Hl as [|y l Hl IH Hy]; simpl; intro Hx.
    - repeat constructor.
    - inversion Hx as [|? ? Rxy Hx']; subst. destruct (le x y) eqn:E.
      + constructor; [now constructor|]. constructor.
        * destruct (le y x) eqn:E2; [right|left]; auto.
        * rewrite Forall_forall in *. intros z Hz.
          assert (le y z = true) as Lyz by (destruct (Hy z Hz) as [[]|[]]; tauto).
          assert (le x z = true) as Lxz by eauto.
          destruct (le z x) eqn:E2; [right|left]; auto.
      + constructor; auto. apply insert_by_Forall; auto.
        left. destruct (le_total x y); [congruence|auto].
  Qed.

  Lemma sort_by_stable l : StronglySorted R l -> StronglySorted lex (sort_by le l).
  Proof.
    induction 1 as [|x l Hl IH Hx]; simpl; [constructor|].
    apply insert_by_stable; auto.
    rewrite Forall_forall in *. intros y Hy.
    apply (Permutation_in _ (sort_by_perm l)) in Hy. auto.
  Qed.
End Sorting.

Lemma insert_by_map {A B} (f : A -> B) leA leB x l :
  (forall a b, leA a b = leB (f a) (f b)) ->
  map f (insert_by leA x l) = insert_by leB (f x) (map f l).
Proof.
  intro H. induction l as [|y l IH]; simpl; auto.
  rewrite <- H. destruct (leA x y); simpl; congruence.
Qed.

(** Two strictly sorted lists with the same elements are equal. *)
Lemma sorted_perm_eq {A} (R : A -> A -> Prop) l m :
  (forall a b, R a b -> R b a -> a = b) ->
  StronglySorted R l -> StronglySorted R m -> Permutation l m -> l = m.
Proof.
  intro anti. intros Hl. revert m. induction Hl as [|x l Hl IH Hx]; intros m Hm P.
  - apply Permutation_nil in P. auto.
  - destruct Hm as [|y m Hm Hy].
    + apply Permutation_sym, Permutation_nil in P. discriminate.
    + assert (x = y) as ->.
      { assert (In x (y :: m)) as I1 by (eapply Permutation_in; [exact P|left; auto]).
        assert (In y (x :: l)) as I2
          by (eapply Permutation_in; [exact (Permutation_sym P)|left; auto]).
        destruct I1 as [->|I1]; auto. destruct I2 as [->|I2]; auto.
        rewrite Forall_forall in *. auto. }
      f_equal. apply IH; auto. eapply Permutation_cons_inv; eauto.
Qed.

Lemma StronglySorted_impl_In {A} (R T : A -> A -> Prop) l :
  (forall a b, In a l -> In b l -> R a b -> T a b) ->
  StronglySorted R l -> StronglySorted T l.
Proof.
  intros H Hl. induction Hl as [|x l Hl IH Hx]; constructor.
  - apply IH. intros; apply H; simpl; auto.
  - rewrite Forall_forall in *. intros y Hy. apply H; simpl; auto.
Qed.

(** * Decimal numerals *)

Lemma digit_chr_code n : (n < 10)%N -> code (digit_chr n) = (48 + n)%N.
Proof.
  intro H. unfold code, digit_chr. rewrite N_ascii_embedding; lia.
Qed.

Lemma digit_chr_digit n : (n < 10)%N -> is_digit (digit_chr n) = true.
Proof.
  intro H. unfold is_digit. rewrite digit_chr_code by auto.
  apply andb_true_iff; split; apply N.leb_le; lia.
Qed.

Lemma digit_chr_val n : (n < 10)%N -> digit_val (digit_chr n) = n.
Proof. intro H. unfold digit_val. rewrite digit_chr_code by auto. lia. Qed.

Lemma fold_digits_acc s a :
  fold_left (fun acc c => (10 * acc + digit_val c)%N) s a
  = (a * 10 ^ N.of_nat (length s) + digits_val s)%N.
Proof.
  unfold digits_val. revert a; induction s as [|c s IH]; intro a.
  - simpl. lia.
  - cbn [fold_left length]. rewrite IH, (IH (10 * 0 + digit_val c)%N).
    replace (N.of_nat (S (length s))) with (N.succ (N.of_nat (length s))) by lia.
    rewrite N.pow_succ_r'. lia.
Qed.

Lemma digits_val_cons c s :
  digits_val (c :: s) = (digit_val c * 10 ^ N.of_nat (length s) + digits_val s)%N.
Proof.
  unfold digits_val at 1. cbn [fold_left].
  replace (10 * 0 + digit_val c)%N with (digit_val c) by lia. apply fold_digits_acc.
Qed.

Lemma dec_go_spec fuel n acc :
  (n < 2 ^ N.of_nat fuel \/ n < 10)%N ->
  exists u, dec_go fuel n acc = u ++ acc /\ u <> [] /\ forallb is_digit u = true
            /\ digits_val u = n.
Proof.
  revert n acc; induction fuel as [|f IH]; intros n acc H.
  - assert (n < 10)%N by (simpl in H; lia). simpl.
    destruct (N.ltb_spec n 10); [|lia].
    exists [digit_chr n]. repeat split; try discriminate.
    + simpl. now rewrite digit_chr_digit.
    + rewrite digits_val_cons, digit_chr_val by auto. unfold digits_val. simpl. lia.
  - simpl. destruct (N.ltb_spec n 10).
    + exists [digit_chr n]. repeat split; try discriminate.
      * simpl. now rewrite digit_chr_digit.
      * rewrite digits_val_cons, digit_chr_val by auto. unfold digits_val. simpl. lia.
    + assert (n mod 10 < 10)%N by (apply N.mod_lt; lia).
      destruct (IH (n / 10)%N (digit_chr (n mod 10) :: acc)) as [u [E [N1 [D V]]]].
      { left. destruct H as [H|]; [|lia].
        replace (N.of_nat (S f)) with (N.succ (N.of_nat f)) in H by lia.
        rewrite N.pow_succ_r' in H. apply N.div_lt_upper_bound; lia. }
      exists (u ++ [digit_chr (n mod 10)]). rewrite E, <- app_assoc. repeat split.
      * destruct u; discriminate.
      * rewrite forallb_app, D. simpl. now rewrite digit_chr_digit.
      * unfold digits_val. rewrite fold_left_app. fold (digits_val u). rewrite V.
        cbn [fold_left]. rewrite digit_chr_val by auto.
        pose proof (N.div_mod n 10). lia.
Qed.

Lemma dec_of_N_spec n :
  dec_of_N n <> [] /\ forallb is_digit (dec_of_N n) = true /\ digits_val (dec_of_N n) = n.
Proof.
  unfold dec_of_N. destruct (dec_go_spec (N.size_nat n) n []) as [u [E H]].
  - left. destruct n as [|p]; [simpl; lia|]. 
    assert (Npos p < 2 ^ N.size (Npos p))%N by apply N.size_gt.
    replace (N.of_nat (N.size_nat (N.pos p))) with (N.size (N.pos p)); auto.
    simpl. clear. induction p; simpl; auto; rewrite ?IHp; lia.
  - rewrite app_nil_r in E. rewrite E. exact H.
Qed.

Lemma dec_of_N_digit n : (n < 10)%N -> dec_of_N n = [digit_chr n].
Proof.
  intro H. unfold dec_of_N. destruct (N.size_nat n); simpl;
    (destruct (N.ltb_spec n 10); [reflexivity|lia]).
Qed.

Lemma digits_val_dec n : digits_val (dec_of_N n) = n.
Proof. apply dec_of_N_spec. Qed.

(** * Stripping *)

Lemma lstrip_id s : match s with c :: _ => is_space c = false | [] => True end -> lstrip s = s.
Proof. destruct s; simpl; auto. intros ->. reflexivity. Qed.

Definition head_ok (p : ascii -> bool) (s : str) : Prop :=
  match s with c :: _ => p c = false | [] => True end.

Lemma strip_id s :
  head_ok is_space s -> head_ok is_space (rev s) -> strip s = s.
Proof.
  intros H1 H2. unfold strip, rstrip. rewrite (lstrip_id s) by auto.
  rewrite (lstrip_id (rev s)) by auto. apply rev_involutive.
Qed.

Lemma lstrip_length s : (length (lstrip s) <= length s)%nat.
Proof. induction s; simpl; auto. destruct (is_space a); simpl; lia. Qed.

Lemma strip_length s : (length (strip s) <= length s)%nat.
Proof.
  unfold strip, rstrip. rewrite rev_length.
  etransitivity; [apply lstrip_length|]. rewrite rev_length. apply lstrip_length.
Qed.

(** * Lists without duplicates *)

Lemma NoDup_app_l {A} (l r : list A) : NoDup (l ++ r) -> NoDup l.
Proof.
  induction l as [|a l IH]; intro N; [constructor|]. inversion N; subst. constructor; auto.
  intro I. apply H1. apply in_or_app. auto.
Qed.
Lemma NoDup_app_r {A} (l r : list A) : NoDup (l ++ r) -> NoDup r.
Proof. induction l as [|a l IH]; intro N; [auto|]. inversion N; subst. auto. Qed.
Lemma NoDup_app_disj {A} (l r : list A) : NoDup (l ++ r) -> forall a, In a l -> In a r -> False.
Proof.
  induction l as [|b l IH]; intros N a I J; [contradiction|]. inversion N; subst. destruct I as [->|I].
  - apply H1. apply in_or_app. auto.
  - eapply IH; eauto.
Qed.
Lemma NoDup_app_intro {A} (l r : list A) :
  NoDup l -> NoDup r -> (forall a, In a l -> In a r -> False) -> NoDup (l ++ r).
Proof.
  induction l as [|b l IH]; intros N M D; [auto|]. inversion N; subst. simpl. constructor.
  - intro I. apply in_app_or in I as [I|I]; [auto|]. apply (D b); [now left|auto].
  - apply IH; auto. intros a I. apply D. now right.
Qed.
Lemma NoDup_snoc {A} (l : list A) a : NoDup l -> ~ In a l -> NoDup (l ++ [a]).
Proof.
  intros N I. apply NoDup_app_intro; auto; [repeat constructor; auto|]. intros b Ib [->|[]]. contradiction.
Qed.
