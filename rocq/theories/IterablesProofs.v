(** Lemmas about the iterable tools. *)

From Coq Require Import String Ascii List Bool ZArith NArith QArith Qcanon Lia Arith.
From Verif Require Import Py PyFacts PyDict IterablesModel IterablesSpec.
Import ListNotations.
Open Scope list_scope.
Open Scope py_scope.

(** * unique *)

Lemma sub_app {A} (l m : list A) : subsequence l m -> forall l' m', subsequence l' m' -> subsequence (l ++ l') (m ++ m').
Proof. intros H l' m' H'. induction H as [|x l m H IH|x l m H IH]; simpl; [exact H'|apply sub_skip|apply sub_keep]; exact IH. Qed.
Lemma sub_refl {A} (l : list A) : subsequence l l.
Proof. induction l; [apply sub_nil|now apply sub_keep]. Qed.
Lemma sub_In {A} (l m : list A) x : subsequence l m -> In x l -> In x m.
Proof. induction 1; simpl; auto. intros [H'|H']; auto. Qed.

Section Unique.
Context {A : Type}.
Variable eqb : A -> A -> bool.
Hypothesis E : equivalence eqb.
Lemma eqv_refl a : eqb a a = true. Proof. apply (proj1 E). Qed.
Lemma eqv_sym a b : eqb a b = true -> eqb b a = true. Proof. apply (proj1 (proj2 E)). Qed.
Lemma eqv_trans a b c : eqb a b = true -> eqb b c = true -> eqb a c = true. Proof. apply (proj2 (proj2 E)). Qed.

Lemma unique_step l x : unique eqb (l ++ [x]) =
  if existsb (eqb x) (unique eqb l) then unique eqb l else unique eqb l ++ [x].
Proof. unfold unique. now rewrite fold_left_app. Qed.

Lemma unique_covers l x : In x l -> exists y, In y (unique eqb l) /\ eqb x y = true.
Proof.
  induction l as [|z l IH] using rev_ind; [contradiction|]. intro I. rewrite unique_step.
  apply in_app_or in I as [I|[<-|[]]].
  - destruct (IH I) as [y [Iy Ey]]. exists y. split; auto. destruct (existsb _ _); auto. apply in_or_app. auto.
  - destruct (existsb (eqb z) (unique eqb l)) eqn:X.
    + apply existsb_exists in X as [y [Iy Ey]]. eauto.
    + exists z. split; [apply in_or_app; right; now left|apply eqv_refl].
Qed.

Lemma unique_sub l : subsequence (unique eqb l) l.
Proof.
  induction l as [|x l IH] using rev_ind; [constructor|]. rewrite unique_step. destruct (existsb _ _).
  - rewrite <- (app_nil_r (unique eqb l)). apply sub_app; auto. apply sub_skip, sub_nil.
  - apply sub_app; auto. apply sub_refl.
Qed.

Lemma existsb_unique l x : existsb (eqb x) (unique eqb l) = existsb (eqb x) l.
Proof.
  apply eq_true_iff_eq. rewrite !existsb_exists. split.
  - intros [y [I Y]]. exists y. split; auto. eapply sub_In; eauto using unique_sub.
  - intros [y [I Y]]. destruct (unique_covers l y I) as [z [J Z]]. exists z. split; auto.
    eapply eqv_trans; eauto.
Qed.

Lemma unique_snoc l x : unique eqb (l ++ [x]) =
  if existsb (eqb x) l then unique eqb l else unique eqb l ++ [x].
Proof. now rewrite unique_step, existsb_unique. Qed.

Lemma unique_distinct l : ForallOrdPairs (fun x y => eqb x y = false) (unique eqb l).
Proof.
  induction l as [|x l IH] using rev_ind; [constructor|]. rewrite unique_step.
  destruct (existsb (eqb x) (unique eqb l)) eqn:X; auto.
  assert (forall y, In y (unique eqb l) -> eqb y x = false) as N.
  { intros y I. destruct (eqb y x) eqn:Y; auto. exfalso.
    assert (existsb (eqb x) (unique eqb l) = true); [|congruence]. apply existsb_exists. exists y. split; auto.
    now apply eqv_sym. }
  clear X. revert N IH. generalize (unique eqb l) as u. induction u as [|y u IHu]; intros N D; simpl.
  - repeat constructor.
  - inversion D; subst. constructor.
    + apply Forall_app. split; auto. constructor; [|constructor]. apply N. now left.
    + apply IHu; auto. intros z I. apply N. now right.
Qed.

Lemma unique_fixed l : ForallOrdPairs (fun x y => eqb x y = false) l -> unique eqb l = l.
Proof.
  induction l as [|x l IH] using rev_ind; intro D; [reflexivity|].
  assert (ForallOrdPairs (fun x y => eqb x y = false) l /\ forall y, In y l -> eqb y x = false) as [D1 D2].
  { clear IH. induction l as [|y l IHl]; [split; [constructor|contradiction]|]. simpl in D. inversion D as [|? ? F D']; subst.
    destruct (IHl D') as [D1 D2]. apply Forall_app in F as [F1 F2]. split; [constructor; auto|].
    intros z [<-|I]; auto. now inversion F2. }
  rewrite unique_snoc, IH by auto. destruct (existsb (eqb x) l) eqn:X; auto.
  apply existsb_exists in X as [y [I Y]]. apply eqv_sym in Y. rewrite D2 in Y; auto. discriminate.
Qed.

Lemma unique_idem l : unique eqb (unique eqb l) = unique eqb l.
Proof. apply unique_fixed, unique_distinct. Qed.

End Unique.

Lemma decides_equiv {A} (eqb : A -> A -> bool) : decides eqb -> equivalence eqb.
Proof.
  intro D. split; [|split].
  - intro a. destruct (D a a); congruence.
  - intros a b. destruct (D a b) as [->|]; [|discriminate]. destruct (D b b); congruence.
  - intros a b c. destruct (D a b) as [->|]; [auto|discriminate].
Qed.

Lemma unique_NoDup {A} (eqb : A -> A -> bool) l : decides eqb -> NoDup (unique eqb l).
Proof.
  intro D. assert (X := unique_distinct eqb (decides_equiv eqb D) l). induction X as [|x u F X IH]; constructor; auto.
  intro I. rewrite Forall_forall in F. specialize (F x I). destruct (D x x); congruence.
Qed.

Lemma unique_In {A} (eqb : A -> A -> bool) l x : decides eqb -> (In x (unique eqb l) <-> In x l).
Proof.
  intro D. split; [eapply sub_In; apply unique_sub|]. intro I.
  destruct (unique_covers eqb (decides_equiv eqb D) l x I) as [y [J Y]]. destruct (D x y); [now subst|discriminate].
Qed.

(** * unwrap *)

Lemma obj_size_ind (P : obj -> Prop) :
  P ONone -> (forall s, P (OStr s)) -> (forall z, P (ONum z)) ->
  (forall k l, Forall P l -> P (OSeq k l)) -> forall o, P o.
Proof.
  intros H1 H2 H3 H4. fix IH 1. intros [|s|z|k l]; [exact H1|apply H2|apply H3|].
  apply H4. induction l as [|x l IHl]; [apply Forall_nil|apply Forall_cons; [apply IH|exact IHl]].
Qed.

Lemma strip_wraps o : wraps o (strip_seq o).
Proof.
  induction o as [|s|z|k l F] using obj_size_ind; try constructor.
  destruct l as [|x [|y l]]; simpl; try constructor. now inversion F.
Qed.
Lemma strip_not_singleton o : ~ singleton (strip_seq o).
Proof.
  induction o as [|s|z|k l F] using obj_size_ind; simpl; try (intros [k' [x' H]]; discriminate).
  destruct l as [|x [|y l]]; simpl; try (intros [k' [x' H]]; discriminate). now inversion F.
Qed.
Lemma strip_unique o r : wraps o r -> ~ singleton r -> strip_seq o = r.
Proof.
  induction 1 as [r|k o r W IH]; intro N; [|simpl; auto].
  destruct r as [|s|z|k l]; auto. destruct l as [|x [|y l]]; auto. destruct N. now exists k, x.
Qed.

Lemma unwrap_spec o r : unwrap o = r <-> wraps o r /\ ~ singleton r.
Proof.
  unfold unwrap. simpl. split.
  - intros <-. split; [apply strip_wraps|apply strip_not_singleton].
  - intros [W N]. now apply strip_unique.
Qed.
Lemma unwrap_idem o : unwrap (unwrap o) = unwrap o.
Proof. apply unwrap_spec. split; [constructor|]. now apply (unwrap_spec o). Qed.
Lemma wraps_same o p : wraps o p -> unwrap o = unwrap p.
Proof. unfold unwrap. simpl. induction 1; simpl; auto. Qed.

Lemma unwrap_as_spec k o : unwrap_as k o = OSeq k
  (match unwrap o with ONone => [] | OSeq _ l => l | x => [x] end).
Proof. unfold unwrap_as. now destruct (unwrap o). Qed.

(** * distribute *)
Lemma distribute_spec a b l : distribute a b = Ok l -> forall x y, In (x, y) l <->
  (match a with OSeq _ la => In x la | _ => x = a end) /\ (match b with OSeq _ lb => In y lb | _ => y = b end).
Proof.
  intros H x y. destruct a as [|s|z|k la], b as [|s'|z'|k' lb]; simpl in H; try discriminate; injection H as <-;
    try (rewrite in_prod_iff; tauto); rewrite in_map_iff; split;
    try (intros [i [E I]]; injection E as <- <-; auto); intros [H1 H2]; subst; eauto.
Qed.
Lemma distribute_err a b : distribute a b = Err TypeError <-> is_whole a = false /\ is_whole b = false.
Proof. destruct a, b; simpl; split; try tauto; try (intros [? ?]); try discriminate; auto. Qed.
Lemma distribute_count a b l : distribute a b = Ok l ->
  length l = (match a with OSeq _ la => length la | _ => 1 end * match b with OSeq _ lb => length lb | _ => 1 end)%nat.
Proof.
  intro H. destruct a as [|s|z|k la], b as [|s'|z'|k' lb]; simpl in H; try discriminate; injection H as <-;
    rewrite ?prod_length, ?map_length; lia.
Qed.

(** * transpose_list *)

Lemma mapM_ok {A B} (f : A -> res B) (g : A -> B) l : (forall x, In x l -> f x = Ok (g x)) -> mapM f l = Ok (map g l).
Proof.
  induction l as [|x l IH]; intro H; simpl; auto. rewrite (H x (or_introl eq_refl)). simpl.
  rewrite IH; auto. intros y I. apply H. now right.
Qed.

Lemma nth_error_lt {A} (l : list A) i d : (i < length l)%nat -> nth_error l i = Some (nth i l d).
Proof. revert i. induction l as [|x l IH]; intros [|i] H; simpl in *; try lia; auto. apply IH. lia. Qed.

Lemma transpose_ok {A} (d : A) (l : list (list A)) n :
  l <> [] -> Forall (fun r => length r = n) l ->
  transpose_list l = Ok (map (fun i => map (fun r => nth i r d) l) (seq 0 n)).
Proof.
  intros N F. destruct l as [|first l']; [congruence|]. unfold transpose_list.
  assert (length first = n) as -> by (inversion F; auto). apply mapM_ok. intros i I. apply mapM_ok. intros r J.
  rewrite Forall_forall in F. apply in_seq in I. rewrite (nth_error_lt r i d); auto. rewrite F; auto. lia.
Qed.

Lemma transpose_entries {A} (d : A) (l : list (list A)) n m : l <> [] -> Forall (fun r => length r = n) l ->
  length l = m ->
  exists t, transpose_list l = Ok t /\ length t = n /\ Forall (fun r => length r = m) t
  /\ forall i j, (i < n)%nat -> (j < m)%nat -> nth j (nth i t []) d = nth i (nth j l []) d.
Proof.
  intros N F M. eexists. split; [apply (transpose_ok d); [exact N|exact F]|]. rewrite map_length, seq_length. split; auto. split.
  - apply Forall_forall. intros r I. apply in_map_iff in I as [i [<- I]]. now rewrite map_length.
  - intros i j Hi Hj. rewrite nth_indep with (d' := map (fun r => nth 0 r d) l) by (now rewrite map_length, seq_length).
    rewrite (map_nth (fun i => map (fun r => nth i r d) l) (seq 0 n) 0%nat i).
    rewrite seq_nth by auto. simpl. rewrite nth_indep with (d' := nth i [] d) by (rewrite map_length; lia).
    now rewrite (map_nth (fun r => nth i r d)).
Qed.

Lemma transpose_twice {A} (l t : list (list A)) n : l <> [] -> n <> O -> Forall (fun r => length r = n) l ->
  transpose_list l = Ok t -> transpose_list t = Ok l.
Proof.
  intros N Nn F H. destruct l as [|first l'] eqn:El; [congruence|]. rewrite <- El in *.
  assert (exists d : A, True) as [d _].
  { subst l. inversion F; subst. destruct first; [simpl in Nn; congruence|]. eauto. }
  destruct (transpose_entries d l n (length l)) as [t' [E [Lt [Ft Ht]]]]; auto.
  rewrite H in E. injection E as <-.
  assert (t <> []) as Nt by (destruct t; [simpl in Lt; congruence|discriminate]).
  destruct (transpose_entries d t (length l) n Nt Ft Lt) as [u [E [Lu [Fu Hu]]]].
  rewrite E. f_equal. apply nth_ext with (d := []) (d' := []); [auto|]. intros j Hj. rewrite Lu in Hj.
  rewrite Forall_forall in F, Fu.
  assert (length (nth j u []) = n) as L1 by (apply Fu, nth_In; lia).
  assert (length (nth j l []) = n) as L2 by (apply F, nth_In; lia).
  apply nth_ext with (d := d) (d' := d); [congruence|]. intros i Hi. rewrite L1 in Hi.
  rewrite Hu by auto. now apply Ht.
Qed.

(** * show_at_most *)

Lemma show_short {A} n (l : list A) : (Z.of_nat (length l) <= n)%Z -> show_at_most n l = map Some l.
Proof. intro H. unfold show_at_most. apply Z.leb_le in H. now rewrite H. Qed.

Lemma show_long {A} n (l : list A) : (1 <= n < Z.of_nat (length l))%Z ->
  exists pre mid last, l = pre ++ mid ++ [last] /\ Z.of_nat (length pre) = (n - 1)%Z /\ mid <> []
  /\ show_at_most n l = map Some pre ++ [None; Some last].
Proof.
  intro H. unfold show_at_most. destruct (Z.leb_spec (Z.of_nat (length l)) n); [lia|].
  destruct l as [|last l] using rev_ind; [simpl in *; lia|]. clear IHl. rewrite rev_app_distr. simpl.
  rewrite app_length in *. simpl in *.
  unfold slice_upto. destruct (Z.ltb_spec (n - 1) 0); [lia|].
  assert (Z.to_nat (n - 1) <= length l)%nat as L by lia.
  exists (firstn (Z.to_nat (n - 1)) l), (skipn (Z.to_nat (n - 1)) l), last.
  split; [now rewrite app_assoc, firstn_skipn|]. rewrite firstn_length. split; [lia|]. split.
  - intro E. apply (f_equal (@length A)) in E. rewrite skipn_length in E. simpl in E. lia.
  - rewrite firstn_app. replace (Z.to_nat (n - 1) - length l)%nat with O by lia. simpl. now rewrite app_nil_r.
Qed.

(** * Slices *)

Definition present (x : option Z) (P : Z -> Prop) : Prop := match x with Some z => P z | None => True end.

Lemma range_list_empty r : (0 < r_step r)%Z -> (r_stop r <= r_start r)%Z -> range_list r = [].
Proof.
  intros S H. unfold range_list. destruct (Z.ltb_spec 0 (r_step r)); [|lia].
  assert ((r_stop r - r_start r + r_step r - 1) / r_step r <= 0)%Z as L.
  { assert ((r_stop r - r_start r + r_step r - 1) / r_step r < 1)%Z; [|lia]. apply Z.div_lt_upper_bound; lia. }
  rewrite Z.max_l by lia. reflexivity.
Qed.

Lemma slice_range_ok s n : (0 <= n)%Z ->
  present (s_start s) (fun x => 0 <= x)%Z -> present (s_stop s) (fun x => 0 < x <= n)%Z ->
  present (s_step s) (fun x => 0 < x)%Z ->
  exists r i, slice_to_range s (Some n) = Ok r /\ slice_indices s n = Some i /\ range_list r = range_list i.
Proof.
  intros Hn H1 H2 H3. destruct s as [a b c]. simpl in *. unfold slice_to_range, slice_indices. simpl.
  set (step := match c with Some x => x | None => 1%Z end).
  assert (0 < step)%Z as S by (unfold step; destruct c; simpl in *; lia).
  destruct (Z.eqb_spec step 0); [lia|]. destruct (Z.ltb_spec step 0); [lia|].
  assert (or_int c 1 = step) as ->.
  { unfold or_int, step. destruct c as [x|]; auto. destruct (Z.eqb_spec x 0); simpl in *; lia. }
  assert (or_int b n = match b with Some x => if (x <? 0)%Z then Z.max (x + n) 0 else Z.min x n | None => n end) as ->.
  { unfold or_int. destruct b as [x|]; auto. simpl in H2. destruct (Z.eqb_spec x 0); [lia|]. destruct (Z.ltb_spec x 0); lia. }
  eexists. eexists. split; [reflexivity|]. split; [reflexivity|].
  assert (or_int a 0 = match a with Some x => x | None => 0%Z end) as ->.
  { unfold or_int. destruct a as [x|]; auto. destruct (Z.eqb_spec x 0); lia. }
  destruct a as [x|]; auto. simpl in H1. destruct (Z.ltb_spec x 0); [lia|].
  destruct (Z.le_gt_cases x n) as [L|L]; [now rewrite Z.min_l by lia|].
  rewrite !range_list_empty; simpl; auto; destruct b as [y|]; simpl in *; try (destruct (Z.ltb_spec y 0)); lia.
Qed.
