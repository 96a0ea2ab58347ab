(** Lemmas about restrictions of arrays. *)

From Coq Require Import String Ascii List Bool ZArith QArith Qcanon Lia.
From Verif Require Import Py PyFacts ArrayModel ArraySpec ArrayProofs IterablesProofs
  RestrictionModel RestrictionSpec.
Import ListNotations.
Open Scope list_scope.
Open Scope nat_scope.

Lemma position_stands n z p : position n z = Ok p <-> stands_for n z p.
Proof.
  unfold position. split.
  - destruct (Z.leb_spec (- Z.of_nat n) z); destruct (Z.ltb_spec z (Z.of_nat n)); cbn [andb]; try discriminate.
    destruct (Z.ltb_spec z 0); intros [= <-].
    + replace z with (Z.of_nat (Z.to_nat (z + Z.of_nat n)) - Z.of_nat n)%Z at 1 by lia.
      apply from_end. lia.
    + replace z with (Z.of_nat (Z.to_nat z)) at 1 by lia. apply from_start. lia.
  - intros [q H|q H].
    + destruct (Z.leb_spec (- Z.of_nat n) (Z.of_nat q)); [|lia].
      destruct (Z.ltb_spec (Z.of_nat q) (Z.of_nat n)); [|lia]. cbn [andb].
      destruct (Z.ltb_spec (Z.of_nat q) 0); [lia|]. f_equal. lia.
    + destruct (Z.leb_spec (- Z.of_nat n) (Z.of_nat q - Z.of_nat n)); [|lia].
      destruct (Z.ltb_spec (Z.of_nat q - Z.of_nat n) (Z.of_nat n)); [|lia]. cbn [andb].
      destruct (Z.ltb_spec (Z.of_nat q - Z.of_nat n) 0); [|lia]. f_equal. lia.
Qed.
Lemma position_error n z e : position n z = Err e -> e = IndexError.
Proof. unfold position. destruct (_ && _); congruence. Qed.
Lemma position_bound n z p : position n z = Ok p -> p < n.
Proof. rewrite position_stands. now intros [q H|q H]. Qed.

(** * The order of the axes *)

Lemma filter_all {A} (f : A -> bool) l : (forall x, In x l -> f x = true) -> filter f l = l.
Proof.
  induction l as [|x l IH]; intros H; [reflexivity|]. cbn.
  rewrite H by now left. f_equal. apply IH. intros y Hy. apply H. now right.
Qed.
Lemma without_source p q :
  filter (fun k => negb (Nat.eqb k p)) (seq 0 (p + S q)) = seq 0 p ++ seq (S p) q.
Proof.
  rewrite seq_app, filter_app. cbn [Nat.add seq filter]. rewrite Nat.eqb_refl. cbn [negb].
  f_equal; apply filter_all; intros x H; apply in_seq in H; destruct (Nat.eqb_spec x p); lia || reflexivity.
Qed.
Lemma order_to_front p q : move_order (p + S q) p 0 = p :: seq 0 p ++ seq (S p) q.
Proof. unfold move_order. now rewrite without_source. Qed.
Lemma order_from_front p q : move_order (p + S q) 0 p = seq 1 p ++ 0 :: seq (S p) q.
Proof.
  unfold move_order. rewrite <- plus_n_Sm. pose proof (without_source 0 (p + q)) as W.
  change (0 + S (p + q)) with (S (p + q)) in W. rewrite W. cbn [seq app]. rewrite seq_app.
  rewrite firstn_app, skipn_app, seq_length, Nat.sub_diag.
  rewrite firstn_all2, skipn_all2 by (rewrite seq_length; lia). cbn [firstn skipn app].
  rewrite app_nil_r. reflexivity.
Qed.

Lemma where_in k a m rest : a <= k < a + m -> where_is k (seq a m ++ rest) = k - a.
Proof.
  revert a. induction m as [|m IH]; intros a H; [lia|].
  cbn [seq app where_is]. destruct (Nat.eqb_spec a k); [lia|].
  rewrite IH by lia. lia.
Qed.
Lemma where_out k a m rest : ~ a <= k < a + m -> where_is k (seq a m ++ rest) = m + where_is k rest.
Proof.
  revert a. induction m as [|m IH]; intros a H; [reflexivity|].
  cbn [seq app where_is]. destruct (Nat.eqb_spec a k); [lia|].
  rewrite IH by lia. reflexivity.
Qed.
Lemma where_in' k a m : a <= k < a + m -> where_is k (seq a m) = k - a.
Proof. intros H. rewrite <- (app_nil_r (seq a m)). now apply where_in. Qed.

Lemma map_nth_seq (l r : list nat) :
  map (fun k => nth k (l ++ r) 0) (seq 0 (length l)) = l.
Proof.
  revert r. induction l as [|x l IH]; intros r; [reflexivity|].
  cbn [length seq map app nth]. f_equal. rewrite <- seq_shift, map_map. cbn [nth]. apply IH.
Qed.
Lemma map_nth_seq_from (l r : list nat) :
  map (fun k => nth k (l ++ r) 0) (seq (length l) (length r)) = r.
Proof.
  induction l as [|x l IH].
  - pose proof (map_nth_seq r []) as E. rewrite app_nil_r in E. exact E.
  - cbn [length]. rewrite <- seq_shift, map_map. cbn [app nth]. exact IH.
Qed.

Lemma split_seq p q : seq 0 (S (p + q)) = seq 0 p ++ p :: seq (S p) q.
Proof. rewrite plus_n_Sm, seq_app. reflexivity. Qed.

Lemma to_front_index (j : nat) (before after : list nat) :
  map (fun k => nth (where_is k (length before :: seq 0 (length before) ++ seq (S (length before)) (length after)))
                    (j :: before ++ after) 0) (seq 0 (S (length before + length after)))
  = before ++ j :: after.
Proof.
  rewrite split_seq, map_app. cbn [map]. f_equal; [|f_equal].
  - etransitivity; [|exact (map_nth_seq before after)]. apply map_ext_in. intros k H. apply in_seq in H.
    cbn [where_is]. destruct (Nat.eqb_spec (length before) k); [lia|].
    rewrite where_in by lia. now rewrite Nat.sub_0_r.
  - cbn [where_is]. now rewrite Nat.eqb_refl.
  - etransitivity; [|exact (map_nth_seq_from before after)].
    rewrite <- seq_shift, map_map. apply map_ext_in. intros k H. apply in_seq in H.
    cbn [where_is]. destruct (Nat.eqb_spec (length before) (S k)); [lia|].
    rewrite where_out, seq_shift by lia. rewrite where_in' by lia.
    cbn [nth]. f_equal. lia.
Qed.

Lemma from_front_index (j : nat) (before after : list nat) :
  map (fun k => nth (where_is k (seq 1 (length before) ++ 0 :: seq (S (length before)) (length after)))
                    (before ++ j :: after) 0) (seq 0 (S (length before + length after)))
  = j :: before ++ after.
Proof.
  cbn [seq map]. f_equal.
  - rewrite where_out by lia. cbn [where_is Nat.eqb]. rewrite app_nth2 by lia.
    now rewrite Nat.add_0_r, Nat.sub_diag.
  - rewrite seq_app, map_app. f_equal.
    + etransitivity; [|exact (map_nth_seq before (j :: after))]. rewrite <- seq_shift, map_map.
      apply map_ext_in. intros k H. apply in_seq in H. rewrite !seq_shift, where_in by lia. f_equal. lia.
    + etransitivity; [|exact (map_nth_seq_from (before ++ [j]) after)]. rewrite <- app_assoc. cbn [app].
      rewrite app_length. cbn [length]. rewrite Nat.add_1_r.
      change (1 + length before) with (S (length before)).
      apply map_ext_in. intros k H. apply in_seq in H. rewrite where_out by lia.
      cbn [where_is]. destruct (Nat.eqb_spec 0 k); [lia|].
      rewrite where_in' by lia. f_equal. lia.
Qed.

(** * Arrays *)

Lemma inside_length s i : inside s i -> length i = length s.
Proof. induction 1; cbn; auto. Qed.
Lemma inside_split l r i : inside (l ++ r) i ->
  exists before after, i = before ++ after /\ inside l before /\ inside r after.
Proof.
  revert i. induction l as [|x l IH]; intros i H.
  - exists [], i. repeat split; [constructor|exact H].
  - inversion H as [|k ? i' ? H1 H2]; subst. destruct (IH _ H2) as (b & c & -> & H3 & H4).
    exists (k :: b), c. repeat split; [now constructor|exact H4].
Qed.
Lemma inside_app l r i j : inside l i -> inside r j -> inside (l ++ r) (i ++ j).
Proof. intros H1 H2. induction H1; [exact H2|]. now constructor. Qed.

Section Moves.
Context (a : arr) (l r : list nat) (n : nat).
Lemma ndim_split : shape a = l ++ n :: r -> length (shape a) = length l + S (length r).
Proof. intros ->. now rewrite app_length. Qed.

Lemma to_front : shape a = l ++ n :: r ->
  let b := transpose (move_order (length l + S (length r)) (length l) 0) a in
  shape b = n :: l ++ r /\
  forall j before after, j < n -> inside l before -> inside r after ->
    at_ b (j :: before ++ after) = at_ a (before ++ j :: after).
Proof.
  intros H. cbn zeta. rewrite order_to_front.
  assert (S : map (fun k => nth k (shape a) 0) (length l :: seq 0 (length l) ++ seq (S (length l)) (length r)) = n :: l ++ r).
  { rewrite H. cbn [map]. rewrite app_nth2, Nat.sub_diag by lia. cbn [nth]. f_equal.
    rewrite map_app. f_equal; [apply map_nth_seq|].
    etransitivity; [|exact (map_nth_seq_from (l ++ [n]) r)]. rewrite <- app_assoc. cbn [app].
    rewrite app_length. cbn [length]. now rewrite Nat.add_1_r. }
  split; [exact S|]. intros j before after Hj Hb Ha. unfold transpose. rewrite S.
  rewrite at_build by (constructor; [exact Hj|now apply inside_app]).
  f_equal. rewrite <- (inside_length _ _ Hb), <- (inside_length _ _ Ha).
  cbn [length]. rewrite app_length, !seq_length. apply to_front_index.
Qed.

Lemma from_front : shape a = n :: l ++ r ->
  let b := transpose (move_order (length l + S (length r)) 0 (length l)) a in
  shape b = l ++ n :: r /\
  forall j before after, j < n -> inside l before -> inside r after ->
    at_ b (before ++ j :: after) = at_ a (j :: before ++ after).
Proof.
  intros H. cbn zeta. rewrite order_from_front.
  assert (S : map (fun k => nth k (shape a) 0) (seq 1 (length l) ++ 0 :: seq (S (length l)) (length r)) = l ++ n :: r).
  { rewrite H, map_app. cbn [map nth].
    assert (E : forall c m, map (fun k => nth k (n :: l ++ r) 0) (seq (S c) m) = map (fun k => nth k (l ++ r) 0) (seq c m)).
    { intros c m. now rewrite <- seq_shift, map_map. }
    rewrite !E, map_nth_seq, map_nth_seq_from. reflexivity. }
  split; [exact S|]. intros j before after Hj Hb Ha. unfold transpose. rewrite S.
  rewrite at_build by (apply inside_app; [exact Hb|now constructor]).
  f_equal. rewrite <- (inside_length _ _ Hb), <- (inside_length _ _ Ha).
  rewrite app_length. cbn [length]. rewrite !seq_length, <- plus_n_Sm. apply from_front_index.
Qed.
End Moves.

Lemma filled_transpose o a : filled (transpose o a).
Proof. apply filled_build. Qed.

Lemma names_position ndim axis k : names_axis ndim axis k ->
  position ndim (match axis with None => (-1)%Z | Some z => z end) = Ok k.
Proof.
  intros [z j H|j H]; apply position_stands; [exact H|].
  replace (-1)%Z with (Z.of_nat j - Z.of_nat ndim)%Z by lia. apply from_end. lia.
Qed.

Lemma positions_all n indices ps : Forall2 (stands_for n) indices ps -> mapM (position n) indices = Ok ps.
Proof.
  induction 1 as [|z p zs ps H1 H2 IH]; [reflexivity|].
  cbn [mapM]. apply position_stands in H1. rewrite H1. cbn [bind]. now rewrite IH.
Qed.
Lemma positions_some n indices : (exists z, In z indices /\ forall p, ~ stands_for n z p) ->
  mapM (position n) indices = Err IndexError.
Proof.
  intros (z & H1 & H2). induction indices as [|y l IH]; [contradiction|].
  cbn [mapM]. destruct (position n y) as [p|e] eqn:E.
  - cbn [bind]. destruct H1 as [->|H1].
    + exfalso. apply position_stands in E. exact (H2 _ E).
    + now rewrite (IH H1).
  - apply position_error in E as ->. reflexivity.
Qed.

Lemma zero_position p q : position (p + S q) 0 = Ok 0.
Proof. apply position_stands. apply (from_start (p + S q) 0). lia. Qed.

Theorem apply_ok a l n r axis indices ps : shape a = l ++ n :: r ->
  names_axis (length (shape a)) axis (length l) -> Forall2 (stands_for n) indices ps ->
  exists b, restriction_apply indices a axis = Ok b /\ filled b /\
    shape b = l ++ length indices :: r /\
    forall before j p after, inside l before -> inside r after -> nth_error ps j = Some p ->
      at_ b (before ++ j :: after) = at_ a (before ++ p :: after).
Proof.
  intros Hs Hx Hi. pose proof (names_position _ _ _ Hx) as P. unfold restriction_apply, moveaxis.
  rewrite P. cbn [bind]. rewrite (ndim_split a l r n Hs) in P |- *.
  rewrite zero_position. cbn [bind].
  destruct (to_front a l r n Hs) as [S1 A1].
  set (front := transpose (move_order (length l + S (length r)) (length l) 0) a) in *.
  unfold take_first. rewrite S1, (positions_all _ _ _ Hi). cbn [bind].
  assert (L : length ps = length indices) by (clear -Hi; induction Hi; cbn; auto).
  set (taken := build _ _). assert (St : shape taken = length ps :: l ++ r) by reflexivity.
  assert (N : length (shape taken) = length l + S (length r)).
  { rewrite St. cbn [length]. rewrite app_length. lia. }
  rewrite N, P. rewrite zero_position. cbn [bind].
  destruct (from_front taken l r (length ps) St) as [S2 A2].
  eexists. split; [reflexivity|]. split; [apply filled_transpose|].
  split; [now rewrite S2, L|]. intros before j p after Hb Ha Hj.
  assert (Lj : j < length ps) by (apply nth_error_Some; congruence).
  rewrite A2 by assumption. unfold taken.
  rewrite at_build by (constructor; [exact Lj|now apply inside_app]).
  rewrite (nth_error_nth _ _ _ Hj). apply A1; auto.
  clear -Hi Hj. revert j Hj. induction Hi as [|z q zs qs H1 H2 IH]; intros [|j]; cbn; try discriminate.
  - intros [= <-]. now destruct H1.
  - apply IH.
Qed.

Theorem apply_index_error a l n r axis indices : shape a = l ++ n :: r ->
  names_axis (length (shape a)) axis (length l) -> (exists z, In z indices /\ forall p, ~ stands_for n z p) ->
  restriction_apply indices a axis = Err IndexError.
Proof.
  intros Hs Hx Hi. pose proof (names_position _ _ _ Hx) as P. unfold restriction_apply, moveaxis.
  rewrite P. cbn [bind]. rewrite (ndim_split a l r n Hs) in P |- *.
  rewrite zero_position. cbn [bind].
  destruct (to_front a l r n Hs) as [S1 _]. unfold take_first. rewrite S1.
  now rewrite (positions_some _ _ Hi).
Qed.
Theorem apply_axis_error a axis indices : (forall k, ~ names_axis (length (shape a)) axis k) ->
  restriction_apply indices a axis = Err IndexError.
Proof.
  intros H. unfold restriction_apply, moveaxis.
  destruct (position (length (shape a)) (match axis with None => (-1)%Z | Some z => z end)) as [k|e] eqn:E.
  - exfalso. apply position_stands in E. apply (H k). destruct axis as [z|]; [now constructor|].
    inversion E as [p Hp Eq|p Hp Eq]; subst; [lia|]. apply last_axis. lia.
  - apply position_error in E as ->. reflexivity.
Qed.
