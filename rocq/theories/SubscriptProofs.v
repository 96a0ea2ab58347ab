(** Basic indexing selects what the specification says. *)

From Coq Require Import String List Bool ZArith QArith Qcanon Lia FinFun.
From Verif Require Import Py PyFacts ArrayModel ArraySpec ArrayProofs ArrayOpsProofs IterablesMoreProofs SubscriptSpec.
Import ListNotations.
Open Scope list_scope.
Open Scope nat_scope.
Open Scope py_scope.

Lemma position_names n z k : position n z = Ok k <-> names_position n z k.
Proof.
  unfold position, names_position. split.
  - destruct (Z.leb_spec (- Z.of_nat n) z); [|discriminate]. destruct (Z.ltb_spec z (Z.of_nat n)); [|discriminate].
    cbn. intro E. injection E as <-. destruct (Z.ltb_spec z 0); lia.
  - intros [L E]. destruct (Z.leb_spec (- Z.of_nat n) z); [|lia]. destruct (Z.ltb_spec z (Z.of_nat n)); [|lia].
    cbn. f_equal. destruct (Z.ltb_spec z 0); lia.
Qed.
Lemma position_error n z e : position n z = Err e -> e = IndexError.
Proof. unfold position. destruct (_ && _); [discriminate|]. now intros [=]. Qed.

Lemma ceil_up a b st m : (0 < st)%Z -> (0 <= m)%Z ->
  ((a + m * st < b)%Z <-> (m < (if Z.ltb a b then (b - a - 1) / st + 1 else 0))%Z).
Proof.
  intros S M. destruct (Z.ltb_spec a b).
  - pose proof (Z.div_mod (b - a - 1) st ltac:(lia)) as D. pose proof (Z.mod_pos_bound (b - a - 1) st S) as B.
    set (q := ((b - a - 1) / st)%Z) in *. set (r := ((b - a - 1) mod st)%Z) in *. split; intro H1; nia.
  - split; [nia|lia].
Qed.
Lemma ceil_down a b st m : (st < 0)%Z -> (0 <= m)%Z ->
  ((b < a + m * st)%Z <-> (m < (if Z.ltb b a then (a - b - 1) / (- st) + 1 else 0))%Z).
Proof.
  intros S M. pose proof (ceil_up b a (- st) m ltac:(lia) M) as H.
  rewrite <- H. lia.
Qed.

Definition progression (x y st : Z) : list nat :=
  map (fun k => Z.to_nat (x + Z.of_nat k * st))
    (seq 0 (Z.to_nat (if Z.ltb st 0 then (if Z.ltb y x then (x - y - 1) / (- st) + 1 else 0)%Z
                      else (if Z.ltb x y then (y - x - 1) / st + 1 else 0)%Z))).

Lemma progression_spec x y st m p : st <> 0%Z ->
  (if Z.ltb st 0 then (-1 <= y)%Z else (0 <= x)%Z) ->
  nth_error (progression x y st) m = Some p <->
  Z.of_nat p = (x + Z.of_nat m * st)%Z /\ (if Z.ltb st 0 then y < Z.of_nat p else Z.of_nat p < y)%Z.
Proof.
  intros S0 B. unfold progression. rewrite nth_error_map.
  assert (SQ : forall k, nth_error (seq 0 k) m = if Nat.ltb m k then Some m else None).
  { intro k. destruct (Nat.ltb_spec m k).
    - rewrite (nth_error_nth' _ 0) by (now rewrite seq_length). now rewrite seq_nth.
    - apply nth_error_None. now rewrite seq_length. }
  rewrite SQ. destruct (Z.ltb_spec st 0) as [Ne|Ps].
  - set (c := (if (y <? x)%Z then _ else _)). destruct (Nat.ltb_spec m (Z.to_nat c)) as [L|L]; cbn [option_map].
    + assert (Q : (y < x + Z.of_nat m * st)%Z) by (apply ceil_down; fold c; lia).
      split; [intro E; injection E as <-; lia|intros [P _]; f_equal; lia].
    + split; [discriminate|]. intros [P Q]. rewrite P in Q. apply ceil_down in Q; [fold c in Q; lia|lia|lia].
  - set (c := (if (x <? y)%Z then _ else _)). destruct (Nat.ltb_spec m (Z.to_nat c)) as [L|L]; cbn [option_map].
    + assert (Q : (x + Z.of_nat m * st < y)%Z) by (apply ceil_up; fold c; lia).
      split; [intro E; injection E as <-; nia|intros [P _]; f_equal; lia].
    + split; [discriminate|]. intros [P Q]. rewrite P in Q. apply ceil_up in Q; [fold c in Q; lia|lia|lia].
Qed.

Lemma slice_as_progression n a b c ks : slice_positions n a b c = Ok ks ->
  exists x y st, slice_of (Z.of_nat n) a b c x y st /\ ks = progression x y st.
Proof.
  unfold slice_positions. destruct (Z.eqb_spec (match c with Some s => s | None => 1%Z end) 0) as [|S0]; [discriminate|].
  set (st := match c with Some s => s | None => 1%Z end) in *. intro E. injection E as <-.
  eexists _, _, st. split.
  - split; [exact S0|]. split; [unfold st; now destruct c|]. split; reflexivity.
  - unfold progression. 
    assert (A : match a with Some x => clipped (Z.of_nat n) st x | None => if Z.ltb st 0 then (Z.of_nat n - 1)%Z else 0%Z end
      = match a with
        | Some x => if Z.ltb x 0 then Z.max (x + Z.of_nat n) (if Z.ltb st 0 then (-1)%Z else 0%Z)
                    else Z.min x (if Z.ltb st 0 then (Z.of_nat n - 1)%Z else Z.of_nat n)
        | None => if Z.ltb st 0 then (if Z.ltb st 0 then (Z.of_nat n - 1)%Z else Z.of_nat n)
                  else (if Z.ltb st 0 then (-1)%Z else 0%Z)
        end).
    { destruct a as [z|]; unfold clipped; destruct (Z.ltb_spec st 0); try reflexivity; destruct (Z.ltb_spec z 0); lia. }
    assert (B : match b with Some x => clipped (Z.of_nat n) st x | None => if Z.ltb st 0 then (-1)%Z else Z.of_nat n end
      = match b with
        | Some x => if Z.ltb x 0 then Z.max (x + Z.of_nat n) (if Z.ltb st 0 then (-1)%Z else 0%Z)
                    else Z.min x (if Z.ltb st 0 then (Z.of_nat n - 1)%Z else Z.of_nat n)
        | None => if Z.ltb st 0 then (if Z.ltb st 0 then (-1)%Z else 0%Z)
                  else (if Z.ltb st 0 then (Z.of_nat n - 1)%Z else Z.of_nat n)
        end).
    { destruct b as [z|]; unfold clipped; destruct (Z.ltb_spec st 0); try reflexivity; destruct (Z.ltb_spec z 0); lia. }
    rewrite A, B. reflexivity.
Qed.

Lemma slice_bounds n a b c x y st : slice_of (Z.of_nat n) a b c x y st ->
  (if Z.ltb st 0 then (-1 <= y)%Z else (0 <= x)%Z).
Proof.
  intros (_ & _ & -> & ->). unfold clipped. destruct (Z.ltb_spec st 0); [destruct b|destruct a]; lia.
Qed.

Lemma slice_positions_spec n a b c ks : slice_positions n a b c = Ok ks ->
  forall m p, nth_error ks m = Some p <-> slice_at n a b c m p.
Proof.
  intros E m p. destruct (slice_as_progression _ _ _ _ _ E) as (x & y & st & SO & ->).
  rewrite (progression_spec x y st m p (proj1 SO) (slice_bounds _ _ _ _ _ _ _ SO)).
  unfold slice_at. split; [intros [P Q]; now exists x, y, st|].
  intros (f & l & s & O & P & Q).
  assert (s = st) by (destruct O as (_ & S1 & _), SO as (_ & S2 & _); destruct c; congruence). subst s.
  assert (f = x) by (destruct O as (_ & _ & F & _), SO as (_ & _ & X & _); congruence).
  assert (l = y) by (destruct O as (_ & _ & _ & F), SO as (_ & _ & _ & X); congruence). subst. now split.
Qed.
Lemma slice_positions_error n a b c e : slice_positions n a b c = Err e -> e = ValueError /\ c = Some 0%Z.
Proof.
  unfold slice_positions. destruct (Z.eqb_spec (match c with Some s => s | None => 1%Z end) 0) as [E|]; [|discriminate].
  intros [= <-]. split; [reflexivity|]. destruct c; [congruence|discriminate].
Qed.
Lemma slice_positions_zero n a b : slice_positions n a b (Some 0%Z) = Err ValueError.
Proof. reflexivity. Qed.
Lemma slice_count n a b c ks : slice_positions n a b c = Ok ks ->
  forall k, k < length ks <-> exists p, slice_at n a b c k p.
Proof.
  intros E k. rewrite <- nth_error_Some. split.
  - intro H. destruct (nth_error ks k) as [p|] eqn:P; [|contradiction]. exists p. now apply (slice_positions_spec _ _ _ _ _ E).
  - intros [p P]. apply (slice_positions_spec _ _ _ _ _ E) in P. congruence.
Qed.
Lemma slice_inside n a b c m p : slice_at n a b c m p -> p < n.
Proof.
  intros (f & l & s & (S & _ & F & L) & P & Q).
  destruct (Z.ltb_spec s 0).
  - assert (f < Z.of_nat n)%Z. { subst f. unfold clipped. destruct (Z.ltb_spec s 0); [|lia]. destruct a; lia. }
    nia.
  - assert (l <= Z.of_nat n)%Z. { subst l. unfold clipped. destruct (Z.ltb_spec s 0); [lia|]. destruct b; lia. }
    lia.
Qed.

Lemma consumes_used l : forallb basic_item l = true -> length (filter consumes l) = axes_used l.
Proof.
  unfold axes_used. induction l as [|i l IH]; [reflexivity|]. cbn [forallb]. intro H. apply andb_prop in H as [H1 H2].
  destruct i; cbn in *; try (now rewrite IH); discriminate.
Qed.

Lemma keep_whole s : selected_shape (map (fun n => Keep (seq 0 n)) s) = s.
Proof. induction s as [|n s IH]; [reflexivity|].
  change (length (seq 0 n) :: selected_shape (map (fun n => Keep (seq 0 n)) s) = n :: s).
  now rewrite seq_length, IH.
Qed.
Lemma source_app s r i j : length i = length s -> Forall2 lt i s ->
  source (map (fun n => Keep (seq 0 n)) s ++ r) (i ++ j) = i ++ source r j.
Proof.
  intros L F. induction F as [|k n i s H F IH]; [reflexivity|]. cbn. rewrite seq_nth by exact H. cbn. now rewrite IH by (cbn in L; lia).
Qed.
Lemma selected_app l r : selected_shape (l ++ r) = selected_shape l ++ selected_shape r.
Proof. unfold selected_shape. apply flat_map_app. Qed.

(** One ellipsis as several steps. *)
Lemma result_ellipsis l r : forall s t, axes_used l = length t -> result_shape t l r ->
  result_shape (s ++ t) (IEll :: l) (s ++ r).
Proof.
  intros s t E H. induction s as [|n s IH]; [now apply RS_done|]. cbn. apply RS_axis; [|exact IH].
  rewrite app_length. lia.
Qed.
Lemma from_ellipsis l j i : forall s t a, length a = length s -> axes_used l = length t -> comes_from t l j i ->
  comes_from (s ++ t) (IEll :: l) (a ++ j) (a ++ i).
Proof.
  intros s t. induction s as [|n s IH]; intros [|k a] L E H; try discriminate; [now apply CF_done|].
  cbn. apply CF_axis; [rewrite app_length; lia|]. apply IH; auto.
Qed.

Lemma select_spec l : forallb basic_item l = true -> forall s r, axes_used l <= length s -> select s l = Ok r ->
  result_shape s l (selected_shape r) /\
  forall j, inside (selected_shape r) j -> inside s (source r j) /\ comes_from s l j (source r j).
Proof.
  induction l as [|x l IH]; intros Hb s r U E.
  - cbn in E. injection E as <-. rewrite keep_whole. split; [constructor|]. intros j J.
    assert (Q : source (map (fun n => Keep (seq 0 n)) s) j = j).
    { rewrite <- (app_nil_r (map _ s)), <- (app_nil_r j).
      rewrite source_app; [cbn; now rewrite !app_nil_r|exact (F2_length _ _ _ J)|exact J]. }
    rewrite Q. split; [exact J|constructor].
  - cbn [forallb] in Hb. apply andb_prop in Hb as [Hx Hb]. specialize (IH Hb). destruct x as [z|a b c| | |q]; cbn in E.
    + destruct s as [|n s]; [discriminate|]. unfold bind in E.
      destruct (position n z) as [k|] eqn:P; [|discriminate]. destruct (select s l) as [r'|] eqn:R; [|discriminate].
      injection E as <-. apply position_names in P.
      destruct (IH s r') as [A B]; [unfold axes_used in *; cbn in U; lia|exact R|]. cbn. split; [econstructor; eassumption|].
      intros j J. destruct (B j J) as [B1 B2]. split; [constructor; [apply P|exact B1]|]. now constructor.
    + destruct s as [|n s]; [discriminate|]. unfold bind in E.
      destruct (slice_positions n a b c) as [ks|] eqn:P; [|discriminate]. destruct (select s l) as [r'|] eqn:R; [|discriminate].
      injection E as <-. destruct (IH s r') as [A B]; [unfold axes_used in *; cbn in U; lia|exact R|]. cbn. split.
      * constructor; [|exact (slice_count _ _ _ _ _ P)|exact A].
        intros ->. now rewrite slice_positions_zero in P.
      * intros j J. inversion J as [|k m j' s' K J']; subst. destruct (B j' J') as [B1 B2].
        assert (S : slice_at n a b c k (nth k ks 0)).
        { apply (slice_positions_spec _ _ _ _ _ P). now apply nth_error_nth'. }
        split; [constructor; [exact (slice_inside _ _ _ _ _ _ S)|exact B1]|]. now constructor.
    + unfold bind in E. rewrite (consumes_used l Hb) in E. change (axes_used (IEll :: l)) with (axes_used l) in U.
      destruct (select (skipn (length s - axes_used l) s) l) as [r'|] eqn:R; [|discriminate]. injection E as <-.
      set (t := skipn (length s - axes_used l) s) in *. set (h := firstn (length s - axes_used l) s) in *.
      assert (S : s = h ++ t) by (symmetry; apply firstn_skipn).
      assert (T : length t = axes_used l) by (unfold t; rewrite skipn_length; lia).
      destruct (IH t r') as [A B]; [lia|exact R|]. rewrite selected_app, keep_whole. rewrite S.
      split; [now apply result_ellipsis|]. intros j J.
      apply Forall2_app_inv_r in J as (j1 & j2 & J1 & J2 & ->).
      pose proof (F2_length _ _ _ J1) as L1. rewrite source_app by assumption.
      destruct (B j2 J2) as [B1 B2]. split; [now apply Forall2_app|]. now apply from_ellipsis.
    + unfold bind in E. destruct (select s l) as [r'|] eqn:R; [|discriminate]. injection E as <-.
      destruct (IH s r') as [A B]; [exact U|exact R|]. cbn. split; [now constructor|].
      intros j J. inversion J as [|k m j' s' K J']; subst. destruct (B j' J') as [B1 B2].
      split; [exact B1|]. assert (k = 0) by lia. subst. now constructor.
    + discriminate.
Qed.

Lemma select_total l : forallb basic_item l = true -> forall s rs, result_shape s l rs -> exists r, select s l = Ok r.
Proof.
  induction l as [|x l IH]; intros Hb s rs R; [eexists; reflexivity|].
  cbn [forallb] in Hb. apply andb_prop in Hb as [Hx Hb]. specialize (IH Hb).
  destruct x as [z|a b c| | |q]; [| | | |discriminate].
  - inversion R as [| |n s0 z0 k l0 r0 P X| | |]; subst. apply position_names in P. cbn. rewrite P. cbn.
    destruct (IH _ _ X) as [r' ->]. eexists. reflexivity.
  - inversion R as [| | |n s0 a0 b0 c0 m l0 r0 Nz Cn X| |]; subst. cbn. destruct (slice_positions n a b c) as [ks|e] eqn:P.
    + cbn. destruct (IH _ _ X) as [r' ->]. eexists. reflexivity.
    + apply slice_positions_error in P as [_ ->]. contradiction.
  - assert (H : exists h t r', s = h ++ t /\ axes_used l = length t /\ result_shape t l r').
    { clear IH. remember (IEll :: l) as m eqn:M. induction R; try discriminate.
      - injection M as ->. destruct (IHR eq_refl) as (h & t & r' & -> & E & X). exists (n :: h), t, r'. auto.
      - injection M as ->. exists [], s, r. auto. }
    destruct H as (h & t & r' & -> & E & X). destruct (IH _ _ X) as [r0 R0]. cbn.
    rewrite (consumes_used l Hb), app_length. replace (length h + length t - axes_used l) with (length h) by lia.
    rewrite skipn_app, skipn_all, Nat.sub_diag. cbn [app skipn]. rewrite R0. eexists. reflexivity.
  - inversion R as [|s0 l0 r0 X| | | |]; subst. cbn. destruct (IH _ _ X) as [r' ->]. eexists. reflexivity.
Qed.

Lemma select_error l : forallb basic_item l = true -> forall s e, select s l = Err e ->
  e = IndexError \/ e = ValueError /\ exists a b, In (ISlice a b (Some 0%Z)) l.
Proof.
  induction l as [|x l IH]; intros Hb s e E; [discriminate|].
  cbn [forallb] in Hb. apply andb_prop in Hb as [Hx Hb]. specialize (IH Hb).
  assert (W : forall s e, select s l = Err e -> e = IndexError \/ e = ValueError /\ exists a b, In (ISlice a b (Some 0%Z)) (x :: l)).
  { intros s0 e0 H. destruct (IH s0 e0 H) as [->|[-> (a & b & I)]]; [now left|]. right. split; [reflexivity|]. exists a, b. now right. }
  destruct x as [z|a b c| | |q]; [| | | |discriminate]; cbn in E; unfold bind in E.
  - destruct s as [|n s]; [injection E as <-; now left|]. destruct (position n z) eqn:P.
    + destruct (select s l) eqn:R; [discriminate|]. injection E as <-. eapply W. exact R.
    + injection E as <-. left. exact (position_error _ _ _ P).
  - destruct s as [|n s]; [injection E as <-; now left|]. destruct (slice_positions n a b c) eqn:P.
    + destruct (select s l) eqn:R; [discriminate|]. injection E as <-. eapply W. exact R.
    + injection E as <-. apply slice_positions_error in P as [-> ->]. right. split; [reflexivity|]. exists a, b. now left.
  - destruct (select _ l) eqn:R; [discriminate|]. injection E as <-. eapply W. exact R.
  - destruct (select _ l) eqn:R; [discriminate|]. injection E as <-. eapply W. exact R.
Qed.

Lemma ellipses_count l : length (filter is_ell l) = ellipses l.
Proof. reflexivity. Qed.

Lemma shape_used s l r : result_shape s l r -> axes_used l <= length s.
Proof.
  unfold axes_used. induction 1; cbn in *; try lia.
Qed.

Lemma basic_ok a l r : forallb basic_item l = true -> basic a l = Ok r ->
  ellipses l <= 1 /\ result_shape (shape a) l (shape r) /\
  forall j, inside (shape r) j -> exists i, inside (shape a) i /\ comes_from (shape a) l j i /\ at_ r j = at_ a i.
Proof.
  intros Hb E. unfold basic in E. rewrite ellipses_count, (consumes_used l Hb) in E.
  destruct (Nat.ltb_spec 1 (ellipses l)); [discriminate|]. destruct (Nat.ltb_spec (length (shape a)) (axes_used l)); [discriminate|].
  unfold bind in E. destruct (select (shape a) l) as [x|] eqn:S; [|discriminate]. injection E as <-.
  destruct (select_spec l Hb (shape a) x ltac:(lia) S) as [A B]. cbn [apply_selections build shape].
  split; [lia|]. split; [exact A|]. intros j J. destruct (B j J) as [B1 B2]. exists (source x j).
  split; [exact B1|]. split; [exact B2|]. unfold apply_selections. now rewrite at_build.
Qed.
Lemma basic_total a l rs : forallb basic_item l = true -> ellipses l <= 1 -> result_shape (shape a) l rs ->
  exists r, basic a l = Ok r.
Proof.
  intros Hb Le R. unfold basic. rewrite ellipses_count, (consumes_used l Hb).
  destruct (Nat.ltb_spec 1 (ellipses l)); [lia|]. pose proof (shape_used _ _ _ R).
  destruct (Nat.ltb_spec (length (shape a)) (axes_used l)); [lia|].
  destruct (select_total l Hb _ _ R) as [x ->]. eexists. reflexivity.
Qed.
Lemma basic_error a l e : forallb basic_item l = true -> basic a l = Err e ->
  e = IndexError \/ e = ValueError /\ exists x y, In (ISlice x y (Some 0%Z)) l.
Proof.
  intros Hb E. unfold basic in E.
  destruct (Nat.ltb _ _); [injection E as <-; now left|]. destruct (Nat.ltb _ _); [injection E as <-; now left|].
  unfold bind in E. destruct (select (shape a) l) as [x|] eqn:S; [discriminate|]. injection E as <-.
  exact (select_error l Hb _ _ S).
Qed.

(** The specification determines the sizes and the elements. *)
Lemma names_unique n z k k' : names_position n z k -> names_position n z k' -> k = k'.
Proof. intros [A B] [C D]. lia. Qed.
Lemma at_unique n a b c m p p' : slice_at n a b c m p -> slice_at n a b c m p' -> p = p'.
Proof.
  intros (f & l & s & (S0 & S & F & L) & P & _) (f' & l' & s' & (S0' & S' & F' & L') & P' & _).
  assert (s = s') by (destruct c; congruence). subst s'. assert (f = f') by congruence. subst. lia.
Qed.

Lemma shape_unique s l r r' : result_shape s l r -> result_shape s l r' -> r = r'.
Proof.
  intros H. revert r'. induction H as [s|s l r H IH|n s z k l r P H IH|n s a b c m l r C M H IH|n s l r U H IH|s l r U H IH]; intros r' R.
  - now inversion R.
  - inversion R; subst. f_equal. now apply IH.
  - inversion R; subst. now apply IH.
  - inversion R as [| | |? ? ? ? ? m' ? ? C' M' R'| |]; subst. f_equal; [|now apply IH].
    destruct (Nat.lt_trichotomy m m') as [L|[L|L]]; [exfalso|exact L|exfalso].
    + apply M', M in L. lia.
    + apply M, M' in L. lia.
  - inversion R; subst; [f_equal; now apply IH|]. cbn in *. lia.
  - inversion R; subst; [cbn in *; lia|]. now apply IH.
Qed.
Lemma from_unique s l j i i' : comes_from s l j i -> comes_from s l j i' -> i = i'.
Proof.
  intros H. revert i'. induction H as [s i|s l j i H IH|n s z k l j i P H IH|n s a b c k p l j i P H IH|n s k l j i U H IH|s l j i U H IH]; intros i' R.
  - now inversion R.
  - inversion R; subst. now apply IH.
  - inversion R as [| |? ? ? k' ? ? ? P'| | |]; subst. f_equal; [exact (names_unique _ _ _ _ P P')|now apply IH].
  - inversion R as [| | |? ? ? ? ? ? ? ? ? ? P'| |]; subst. f_equal; [exact (at_unique _ _ _ _ _ _ _ P P')|now apply IH].
  - inversion R; subst; [f_equal; now apply IH|]. cbn in *. lia.
  - inversion R; subst; [cbn in *; lia|]. now apply IH.
Qed.
Lemma basic_filled a l r : basic a l = Ok r -> filled r.
Proof.
  unfold basic. destruct (Nat.ltb _ _); [discriminate|]. destruct (Nat.ltb _ _); [discriminate|].
  destruct (select _ _) as [x|]; [|discriminate]. cbn. intros [= <-]. apply filled_build.
Qed.
Lemma ranges_axes s l r : Forall (fun i => match i with ISlice _ _ _ | IEll => True | _ => False end) l ->
  result_shape s l r -> length r = length s.
Proof.
  intros F H. induction H; auto; inversion F; subst; try contradiction; cbn; auto.
Qed.

(** * Names of axes *)

Lemma default_length n : length (default_dims n) = n.
Proof. unfold default_dims. now rewrite map_length, seq_length. Qed.
Lemma default_nth n k : k < n -> nth_error (default_dims n) k = Some (lit "x" ++ dec_of_N (N.of_nat k)).
Proof.
  intros K. unfold default_dims. rewrite nth_error_map, nth_error_nth' with (d := 0) by (rewrite seq_length; exact K).
  rewrite seq_nth by exact K. reflexivity.
Qed.
Lemma default_distinct n : NoDup (default_dims n).
Proof.
  unfold default_dims. apply FinFun.Injective_map_NoDup; [|apply seq_NoDup].
  intros x y E. apply app_inv_head in E. apply dec_inj in E. lia.
Qed.

(** * Sizes of sums *)

Lemma bcast_ones s : bcast2 s (repeat 1 (length s)) = Some s.
Proof.
  induction s as [|n s IH]; [reflexivity|]. cbn. rewrite IH. destruct (Nat.eqb_spec n 1) as [->|]; reflexivity.
Qed.
Lemma broadcast_pair a b : length a = length b -> broadcast [a; b] = bcast2 a b.
Proof.
  intros L. unfold broadcast. cbn [map fold_right]. rewrite <- L, Nat.max_0_r, Nat.max_id. unfold pad.
  rewrite <- L, !Nat.sub_diag. cbn [repeat app]. now rewrite L, bcast_ones.
Qed.
Lemma bcast_fits a b : Forall2 (fun x y => x = y \/ x = 1 \/ y = 1) a b ->
  bcast2 a b = Some (map2 (fun x y => if Nat.eqb x 1 then y else x) a b).
Proof.
  induction 1 as [|x y a b H F IH]; [reflexivity|]. cbn. rewrite IH.
  destruct (Nat.eqb_spec x y); destruct (Nat.eqb_spec y 1); destruct (Nat.eqb_spec x 1); subst; auto; lia.
Qed.
Lemma bcast_some a : forall b r, length a = length b -> bcast2 a b = Some r -> Forall2 (fun x y => x = y \/ x = 1 \/ y = 1) a b.
Proof.
  induction a as [|x a IH]; intros [|y b] r L E; try discriminate; [constructor|]. cbn in E, L.
  destruct (bcast2 a b) as [t|] eqn:B; [|discriminate]. constructor; [|eapply IH; [lia|exact B]].
  destruct (Nat.eqb_spec x y); [now left|]. destruct (Nat.eqb_spec x 1); [auto|]. destruct (Nat.eqb_spec y 1); [auto|discriminate].
Qed.
Lemma bindex_same s i : length i = length s -> bindex s i = map2 (fun n k => if Nat.eqb n 1 then 0 else k) s i.
Proof.
  intros L. unfold bindex. rewrite L, Nat.sub_diag. reflexivity.
Qed.
