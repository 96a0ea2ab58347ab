(** Termination of the parser and of the operand factory on every string. *)

From Coq Require Import String Ascii List Bool ZArith NArith QArith Qcanon Lia.
From Verif Require Import Py PyFacts SymbolicModel SymbolicSpec SymbolicRx.
Import ListNotations.
Open Scope list_scope.
Open Scope nat_scope.
Open Scope py_scope.

Definition halts {A} (r : res A) : Prop := r <> Err OutOfFuel.

Lemma halts_bind {A B} (m : res A) (f : A -> res B) :
  halts m -> (forall a, m = Ok a -> halts (f a)) -> halts (bind m f).
Proof.
  intros Hm Hf. destruct m as [a|e]; [now apply Hf|].
  intro E. apply Hm. simpl in E. congruence.
Qed.

Lemma halts_Ok {A} (a : A) : halts (Ok a).
Proof. discriminate. Qed.

Lemma halts_frac_pow F a b : halts (frac_pow F a b).
Proof.
  unfold frac_pow. destruct (Qc_is_int b); [destruct (_ && _); discriminate|].
  destruct (Qc_eqb a 0); [destruct (Qc_ltb b 0); discriminate|].
  destruct (fpow F a b); discriminate.
Qed.

Lemma halts_term_pow F t p : halts (term_pow F t p).
Proof. apply halts_bind; [apply halts_frac_pow|]. intros. apply halts_Ok. Qed.

Lemma halts_term_fpow F t p : halts (term_fpow F t p).
Proof.
  apply halts_bind; [|intros; apply halts_Ok]. unfold frac_fpow.
  destruct (fpow F (coef t) p); discriminate.
Qed.

Lemma halts_lift f o : (forall t, halts (f t)) -> halts (lift_pow f o).
Proof. intro H. destruct o; simpl; (apply halts_bind; [apply H|intros; apply halts_Ok]). Qed.

Lemma halts_evaluate F op o : halts (evaluate F op o).
Proof.
  destruct op as [[]|]; simpl; try apply halts_Ok; apply halts_lift; intro;
    [apply halts_term_pow|apply halts_term_fpow].
Qed.

Lemma halts_rat r : halts (rat_value r).
Proof. unfold rat_value. destruct (r_tail r); [destruct (_ =? _)%N|]; discriminate. Qed.

Lemma halts_std o : halts (std o).
Proof. destruct o; [apply halts_rat|discriminate]. Qed.

Lemma halts_variable m : halts (build_variable m).
Proof.
  destruct m as [[c b] e]. apply halts_bind; [apply halts_std|]. intros.
  apply halts_bind; [apply halts_std|]. intros. apply halts_Ok.
Qed.

Lemma halts_constant F m : halts (build_constant F m).
Proof.
  destruct m as [c e]. apply halts_bind; [apply halts_rat|]. intros.
  apply halts_bind; [apply halts_std|]. intros.
  apply halts_bind; [apply halts_frac_pow|]. intros. apply halts_Ok.
Qed.

Lemma halts_with_rest {A} (m : res A) r : halts m -> halts (with_rest m r).
Proof. intro H. apply halts_bind; auto. intros. apply halts_Ok. Qed.

Lemma halts_simplex F md s : halts (match_simplex F md s).
Proof.
  unfold match_simplex.
  destruct (rx_run md rx_variable s) as [[v rv]|], (rx_run md rx_constant s) as [[c rc]|];
    try (destruct (Nat.eqb _ _)); try apply halts_Ok;
    apply halts_with_rest; auto using halts_variable, halts_constant.
Qed.

Lemma halts_complex F md s : halts (match_complex F md s).
Proof.
  unfold match_complex. destruct (find_bounds s) as [[i0 e]|]; [|apply halts_Ok].
  apply halts_bind; [apply halts_simplex|]. intros m _.
  destruct m as [[t ?]|];
    (destruct (match md with Match => _ | FullMatch => _ end); [apply halts_Ok|]);
    (destruct (rx_run Match rx_exponent (skipn e s)) as [[x rest]|];
     (destruct (match md with Match => _ | FullMatch => _ end); [apply halts_Ok|];
      apply halts_bind; [apply halts_std|intros; apply halts_Ok])).
Qed.

Lemma halts_search F md s : halts (search F md s).
Proof.
  unfold search. apply halts_bind; [apply halts_simplex|]. intros [[t r]|] _; [apply halts_Ok|].
  apply halts_bind; [apply halts_complex|]. intros [[t r]|] _; apply halts_Ok.
Qed.

(** * Progress *)

Lemma bounds_go_range s : forall i st c i0 e,
  bounds_go s i st c = Some (i0, e) ->
  match st with
  | Some j => i0 = j
  | None => i <= i0
  end /\ i < e <= i + length s /\ (st = None -> c = 0%Z -> i0 = i -> i + 2 <= e).
Proof.
  induction s as [|x s IH]; intros i st c i0 e H; [discriminate|].
  cbn [bounds_go] in H.
  destruct (is_chr "(" x) eqn:E1; [|destruct (is_chr ")" x) eqn:E2].
  - destruct st as [j|]; destruct (c + 1 =? 0)%Z eqn:E.
    + injection H as <- <-. simpl. split; [auto|]. split; [lia|]. discriminate.
    + apply IH in H. simpl in *. split; [tauto|]. split; [lia|]. discriminate.
    + injection H as <- <-. simpl. split; [auto|]. split; [lia|]. intros _ ->. discriminate E.
    + apply IH in H. simpl in *. destruct H as [-> [H _]]. split; [auto|]. split; lia.
  - destruct st as [j|]; [destruct (c - 1 =? 0)%Z eqn:E|].
    + injection H as <- <-. simpl. split; [auto|]. split; [lia|]. discriminate.
    + apply IH in H. simpl in *. split; [tauto|]. split; [lia|]. discriminate.
    + apply IH in H. simpl in *. destruct H as [H1 [H2 _]]. split; [lia|]. split; [lia|]. lia.
  - destruct st as [j|]; [destruct (c =? 0)%Z eqn:E|].
    + injection H as <- <-. simpl. split; [auto|]. split; [lia|]. discriminate.
    + apply IH in H. simpl in *. split; [tauto|]. split; [lia|]. discriminate.
    + apply IH in H. simpl in *. destruct H as [H1 [H2 _]]. split; [lia|]. split; [lia|]. lia.
Qed.

Lemma bounds_start s : forall i st c i0 e,
  bounds_go s i st c = Some (i0, e) -> match st with Some j => j <= i | None => True end -> i0 < e.
Proof.
  induction s as [|x s IH]; intros i st c i0 e H Hj; [discriminate|].
  cbn [bounds_go] in H.
  destruct (is_chr "(" x) eqn:E1; [|destruct (is_chr ")" x) eqn:E2].
  - destruct st as [j|]; destruct (c + 1 =? 0)%Z; try (injection H as <- <-; lia);
      apply IH in H; auto; lia.
  - destruct st as [j|]; [destruct (c - 1 =? 0)%Z; try (injection H as <- <-; lia)|];
      apply IH in H; auto; lia.
  - destruct st as [j|]; [destruct (c =? 0)%Z; try (injection H as <- <-; lia)|];
      apply IH in H; auto; lia.
Qed.

Lemma find_bounds_range s i0 e :
  find_bounds s = Some (i0, e) -> i0 < e /\ 2 <= e <= length s.
Proof.
  intro H. assert (i0 < e) as L by (eapply bounds_start in H; auto).
  apply bounds_go_range in H as [H1 [H2 H3]]. split; auto.
  destruct (Nat.eq_dec i0 0) as [->|]; [specialize (H3 eq_refl eq_refl eq_refl)|]; lia.
Qed.

Definition shrinks {A} (r : rx A) : Prop := forall s a t, In (a, t) (r s) -> length t <= length s.

Lemma consumes_shrinks {A} (r : rx A) P : consumes r P -> shrinks r.
Proof. intros H s a t I. apply H in I as [u [-> _]]. rewrite app_length. lia. Qed.

Lemma rational_shrinks : shrinks rx_rational.
Proof. eapply consumes_shrinks, rational_consumes. Qed.

Lemma hd_In {A} (l : list A) x : hd_error l = Some x -> In x l.
Proof. destruct l; simpl; [discriminate|]. intro H. injection H as ->. auto. Qed.

Lemma exponent_shrinks s x r :
  rx_run Match rx_exponent s = Some (x, r) -> length r < length s.
Proof.
  intro H. apply hd_In in H. apply In_bind in H as [a [t [H1 H2]]].
  apply rational_shrinks in H2. destruct s as [|c s]; unfold rx_cls in H1; [destruct H1|].
  destruct (is_chr "^" c); [|destruct H1]. destruct H1 as [H1|[]]. injection H1 as <- <-. simpl. lia.
Qed.

Lemma complex_progress F md s t r :
  match_complex F md s = Ok (Some (t, r)) ->
  length (base t) < length s /\ length r < length s /\ base t <> [].
Proof.
  unfold match_complex. destruct (find_bounds s) as [[i0 e]|] eqn:B; [|discriminate].
  apply find_bounds_range in B as [B1 B2].
  destruct (match_simplex F FullMatch (firstn i0 s)) as [m|]; [|discriminate]. cbn [bind].
  assert (length (skipn e s) < length s) as Lk by (rewrite skipn_length; lia).
  assert (forall c ev, length (base (init c (substr (i0 + 1) (e - 1) s) ev)) < length s) as Lb.
  { intros c ev. unfold init. cbn [base].
    assert (length (substr (i0 + 1) (e - 1) s) <= e - 1 - (i0 + 1)) as L
      by (unfold substr; rewrite firstn_length; lia).
    destruct (substr (i0 + 1) (e - 1) s); simpl in *; lia. }
  assert (forall (c : Qc) (g h : bool) (i1 : nat),
    (if g then Ok None
     else let '(x, rest) := match rx_run Match rx_exponent (skipn e s) with
                            | Some (r, rest) => (Some r, rest)
                            | None => (None, skipn e s)
                            end in
          if match md with
             | FullMatch => negb (Nat.eqb i1 O) || match rest with [] => false | _ => true end
             | Match => false
             end
          then Ok None
          else do ev <- std x; Ok (Some (init c (substr (i0 + 1) (e - 1) s) ev, rest)))
    = Ok (Some (t, r)) -> length (base t) < length s /\ length r < length s /\ base t <> []) as K.
  { intros c g _ i1. destruct g; [discriminate|].
    destruct (rx_run Match rx_exponent (skipn e s)) as [[x rest]|] eqn:X; [apply exponent_shrinks in X|];
      (destruct (match md with Match => _ | FullMatch => _ end); [discriminate|]);
      (destruct (std _) as [ev|]; [|discriminate]); cbn [bind]; intro H; injection H as <- <-;
      (split; [apply Lb|]; split; [lia|]; unfold init; simpl; destruct (substr _ _ s); discriminate). }
  destruct m as [[u ?]|]; apply K; exact true.
Qed.

Lemma shrinks_bind {A B} (m : rx A) (f : A -> rx B) : shrinks m -> (forall a, shrinks (f a)) -> shrinks (rx_bind m f).
Proof.
  intros Hm Hf s b u I. apply In_bind in I as [a [t [H1 H2]]].
  apply Hm in H1. apply Hf in H2. lia.
Qed.

Lemma tail_shrinks : shrinks rx_tail.
Proof.
  apply (consumes_shrinks _ (fun _ => True)). unfold rx_tail. consume; auto.
Qed.

Lemma opt_nonempty {A} (m : rx A) s : rx_opt m s <> [].
Proof. unfold rx_opt. intro E. apply app_eq_nil in E as [_ E]. discriminate. Qed.

Lemma bind_nonempty {A B} (m : rx A) (f : A -> rx B) s :
  m s <> [] -> (forall a t, f a t <> []) -> rx_bind m f s <> [].
Proof.
  intros Hm Hf E. unfold rx_bind in E. destruct (m s) as [|[a t] l]; [congruence|].
  simpl in E. apply app_eq_nil in E as [E _]. now apply Hf in E.
Qed.

Lemma tail_nonempty s : rx_tail s <> [].
Proof.
  unfold rx_tail, rx_alt. intro E. apply app_eq_nil in E as [_ E]. revert E.
  apply bind_nonempty; [apply opt_nonempty|]. intros.
  apply bind_nonempty; [apply opt_nonempty|]. intros. discriminate.
Qed.

Lemma hd_app {A} (l m : list A) x : l <> [] -> hd_error (l ++ m) = Some x -> hd_error l = Some x.
Proof. destruct l; [congruence|auto]. Qed.

Lemma flat_map_nonempty {A B} (f : A -> list B) l : l <> [] -> (forall x, f x <> []) -> flat_map f l <> [].
Proof. destruct l; [congruence|]. simpl. intros _ H E. apply app_eq_nil in E as [E _]. now apply H in E. Qed.

Lemma star_nonempty p s : rx_star p s <> [].
Proof.
  destruct s as [|c s]; simpl; [discriminate|]. destruct (p c); [|discriminate].
  intro E. apply app_eq_nil in E as [_ E]. discriminate.
Qed.

Lemma hd_bind {A B} (m : rx A) (f : A -> rx B) s b u :
  (forall a t, f a t <> []) ->
  hd_error (rx_bind m f s) = Some (b, u) -> exists a t, hd_error (m s) = Some (a, t) /\ In (b, u) (f a t).
Proof.
  intros Hf H. unfold rx_bind in H. destruct (m s) as [|[a t] l]; [discriminate|].
  exists a, t. split; auto. simpl in H. apply hd_app in H; auto. now apply hd_In in H.
Qed.

(** The part of [rational] after the sign consumes at least one character. *)
Definition rx_unsigned (sg : option ascii) : rx rat :=
  rx_bind (rx_look starts_number) (fun _ =>
  rx_bind (rx_star is_digit) (fun n =>
  rx_bind rx_tail (fun t => rx_ret (mkRat sg n t)))).

Lemma unsigned_first sg s x r :
  hd_error (rx_unsigned sg s) = Some (x, r) -> length r < length s.
Proof.
  unfold rx_unsigned, rx_bind at 1, rx_look. destruct (starts_number s) eqn:N; [|discriminate].
  cbn [flat_map fst snd]. rewrite app_nil_r.
  destruct s as [|c s]; [discriminate|]. cbn [starts_number] in N.
  assert (forall n, shrinks (rx_bind rx_tail (fun t => rx_ret (mkRat sg n t)))) as ST.
  { intro n. apply shrinks_bind; [apply tail_shrinks|]. intros t w y z [E|[]]. injection E as <- <-. lia. }
  destruct (is_digit c) eqn:D.
  - unfold rx_bind at 1. cbn [rx_star]. rewrite D. rewrite flat_map_app. intro H.
    apply hd_app in H.
    + apply hd_In in H. apply in_flat_map in H as [[n t] [H1 H2]].
      apply in_map_iff in H1 as [[n' t'] [E1 H1]]. injection E1 as <- <-. cbn [fst snd] in H2.
      apply ST in H2.
      destruct (consumes_star is_digit (fun _ => True) (fun _ _ => I) s n' t' H1) as [u [-> _]].
      simpl. rewrite app_length. lia.
    + apply flat_map_nonempty.
      * intro E. apply map_eq_nil in E. now apply star_nonempty in E.
      * intros [n t]. cbn [fst snd]. apply bind_nonempty; [apply tail_nonempty|]. intros. discriminate.
  - cbn [orb] in N. destruct (is_chr "." c) eqn:P; [|discriminate].
    unfold rx_bind at 1. cbn [rx_star]. rewrite D. cbn [flat_map fst snd]. rewrite app_nil_r.
    intro H. apply hd_bind in H as [a [t [H1 H2]]]; [|intros; discriminate].
    destruct H2 as [H2|[]]. injection H2 as <- <-.
    unfold rx_tail, rx_alt in H1.
    assert (is_chr "/" c = false) as NS by (revert P; by_char c).
    rewrite none_bind' in H1 by (apply none_cls; exact NS).
    cbn [app] in H1. apply hd_bind in H1 as [f [v [H1 H2]]];
      [|intros; apply bind_nonempty; [apply opt_nonempty|intros; discriminate]].
    assert (length t <= length v).
    { eapply (consumes_shrinks _ (fun _ => True)); [|exact H2]. consume; auto. }
    unfold rx_opt at 1 in H1. apply hd_app in H1.
    + apply hd_In in H1. apply in_map_iff in H1 as [[f' v'] [E1 H1]]. injection E1 as <- <-.
      apply In_bind in H1 as [c' [w [H1 H3]]]. unfold rx_cls in H1. rewrite P in H1.
      destruct H1 as [H1|[]]. injection H1 as <- <-.
      apply (consumes_star is_digit (fun _ => True) (fun _ _ => I)) in H3 as [u [-> _]].
      cbn [snd] in *. simpl. rewrite app_length. lia.
    + intro E. apply map_eq_nil in E. unfold rx_bind, rx_cls in E. rewrite P in E.
      cbn [flat_map fst snd] in E. rewrite app_nil_r in E. now apply star_nonempty in E.
Qed.

Lemma rational_first s x r : hd_error (rx_rational s) = Some (x, r) -> length r < length s.
Proof.
  change (rx_rational s) with (rx_bind (rx_opt (rx_cls is_sign)) rx_unsigned s).
  unfold rx_bind, rx_opt. destruct s as [|c s].
  - simpl. discriminate.
  - simpl rx_cls. destruct (is_sign c).
    + cbn [map app flat_map fst snd]. rewrite app_nil_r. intro H.
      destruct (rx_unsigned (Some c) s) as [|p l] eqn:E.
      * simpl in H. now apply unsigned_first in H.
      * simpl in H. injection H as ->. assert (length r < length s); [|simpl; lia].
        apply (unsigned_first (Some c) s x r). now rewrite E.
    + cbn [map app flat_map fst snd]. rewrite app_nil_r. apply unsigned_first.
Qed.


Lemma constant_first s c r : rx_run Match rx_constant s = Some (c, r) -> length r < length s.
Proof.
  intro H. simpl in H. apply hd_bind in H as [a [t [H1 H2]]].
  - apply rational_first in H1.
    assert (length r <= length t); [|lia].
    eapply (consumes_shrinks _ (fun _ => True)); [|exact H2].
    unfold rx_exponent, rx_rational, rx_tail. consume; auto.
  - intros. apply bind_nonempty; [apply opt_nonempty|]. intros. discriminate.
Qed.

Lemma variable_first s v r : rx_run Match rx_variable s = Some (v, r) -> length r < length s.
Proof.
  intro H. simpl in H. apply hd_In in H. apply In_bind in H as [c [t [H1 H2]]].
  assert (length t <= length s).
  { eapply (consumes_shrinks _ (fun _ => True)); [|exact H1].
    unfold rx_rational, rx_tail. consume; auto. }
  apply In_bind in H2 as [b [u [H2 H3]]].
  assert (length r <= length u).
  { eapply (consumes_shrinks _ (fun _ => True)); [|exact H3].
    unfold rx_exponent, rx_rational, rx_tail. consume; auto. }
  apply In_bind in H2 as [l [w [H2 H4]]].
  assert (length u <= length w).
  { eapply (consumes_shrinks _ (fun _ => True)); [|exact H4]. consume; auto. }
  apply In_bind in H2 as [x [y [H2 HZ]]].
  assert (length w <= length y).
  { eapply (consumes_shrinks _ (fun _ => True)); [|exact HZ]. consume; auto. }
  destruct t as [|k t]; unfold rx_cls in H2; [destruct H2|]. destruct (is_base_chr k); [|destruct H2].
  destruct H2 as [H2|[]]. injection H2 as <- <-. simpl in *. lia.
Qed.

Lemma with_rest_inv {A} (m : res A) r a r' : with_rest m r = Ok (Some (a, r')) -> r' = r.
Proof. unfold with_rest. destruct m; simpl; congruence. Qed.

Lemma simplex_progress F s t r : match_simplex F Match s = Ok (Some (t, r)) -> length r < length s.
Proof.
  unfold match_simplex.
  destruct (rx_run Match rx_variable s) as [[v rv]|] eqn:V, (rx_run Match rx_constant s) as [[c rc]|] eqn:C;
    try (destruct (Nat.eqb _ _)); try discriminate; intro H; apply with_rest_inv in H; subst r;
    eauto using variable_first, constant_first.
Qed.

Lemma search_progress F s o r :
  search F Match s = Ok (Some (o, r)) ->
  length r < length s /\ match o with Group g => length (base g) < length s | _ => True end.
Proof.
  unfold search. destruct (match_simplex F Match s) as [[[t u]|]|] eqn:E; cbn [bind]; try discriminate.
  - intro H. injection H as <- <-. eauto using simplex_progress.
  - destruct (match_complex F Match s) as [[[t u]|]|] eqn:E2; cbn [bind]; try discriminate.
    intro H. injection H as <- <-. apply complex_progress in E2. tauto.
Qed.

Lemma rx_suffix_run (r : rx unit) s t :
  shrinks r -> rx_run Match r s = Some (tt, t) -> length t <= length s.
Proof. intros Hs H. simpl in H. apply hd_In in H. now apply Hs in H. Qed.

Lemma text_shrinks w : shrinks (rx_text w).
Proof.
  induction w as [|c w IH]; simpl.
  - intros s a t [E|[]]. injection E as <- <-. lia.
  - apply shrinks_bind; auto. apply (consumes_shrinks _ (fun _ => True)). consume; auto.
Qed.

Lemma operator_shrinks s o r : operator_parse s = Some (o, r) -> length r <= length s.
Proof.
  unfold operator_parse.
  destruct (rx_run Match rx_multiply s) as [[[] a]|] eqn:E1.
  - intro H. injection H as <- <-. eapply rx_suffix_run; [|exact E1].
    apply (consumes_shrinks _ (fun _ => True)). unfold rx_multiply. consume; auto.
  - destruct (rx_run Match rx_divide s) as [[[] a]|] eqn:E2.
    + intro H. injection H as <- <-. eapply rx_suffix_run; [|exact E2].
      apply (consumes_shrinks _ (fun _ => True)). unfold rx_divide. consume; auto.
    + destruct (rx_run Match rx_sqrt s) as [[[] a]|] eqn:E3; [|discriminate].
      intro H. injection H as <- <-. eapply rx_suffix_run; [|exact E3].
      apply shrinks_bind; [apply (consumes_shrinks _ (fun _ => True)); consume; auto|]. intro.
      apply shrinks_bind; [apply text_shrinks|]. intro.
      apply (consumes_shrinks _ (fun _ => True)). consume; auto.
Qed.

Lemma lift_pow_shape f o o' :
  lift_pow f o = Ok o' ->
  match o, o' with
  | Simple _, Simple _ => True
  | Group t, Group u => f t = Ok u
  | _, _ => False
  end.
Proof. destruct o as [t|t]; simpl; destruct (f t); simpl; intro H; try discriminate; injection H as <-; auto. Qed.

Lemma term_pow_base F t p u : base t <> [] -> term_pow F t p = Ok u -> base u = base t.
Proof.
  intro Nb. unfold term_pow. destruct (frac_pow F (coef t) p); simpl; [|discriminate].
  intro H. injection H as <-. unfold init; simpl. destruct (base t); congruence.
Qed.
Lemma term_fpow_base F t p u : base t <> [] -> term_fpow F t p = Ok u -> base u = base t.
Proof.
  intro Nb. unfold term_fpow. destruct (frac_fpow F (coef t) p); simpl; [|discriminate].
  intro H. injection H as <-. unfold init; simpl. destruct (base t); congruence.
Qed.

Definition group_base (o : operand) : nat := match o with Group g => length (base g) | Simple _ => 0 end.
Definition group_ne (o : operand) : Prop := match o with Group g => base g <> [] | Simple _ => True end.

Lemma lift_pow_base f o o' :
  (forall t u, base t <> [] -> f t = Ok u -> base u = base t) -> group_ne o ->
  lift_pow f o = Ok o' -> group_base o' = group_base o /\ group_ne o'.
Proof.
  intros Hf Hn H. apply lift_pow_shape in H. destruct o as [t|t], o' as [u|u]; simpl in *; try tauto.
  apply Hf in H; auto. rewrite H. auto.
Qed.

Lemma evaluate_base F op o o' :
  group_ne o -> evaluate F op o = Ok o' -> group_base o' = group_base o /\ group_ne o'.
Proof.
  intros Hn. destruct op as [[]|]; simpl; try (intro H; injection H as <-; auto; fail);
    apply lift_pow_base; auto; intros t u; [apply term_pow_base|apply term_fpow_base].
Qed.

Lemma search_ne F s o r : search F Match s = Ok (Some (o, r)) -> group_ne o.
Proof.
  unfold search. destruct (match_simplex F Match s) as [[[t u]|]|] eqn:E; cbn [bind]; try discriminate.
  - intro H. injection H as <- <-. exact I.
  - destruct (match_complex F Match s) as [[[t u]|]|] eqn:E2; cbn [bind]; try discriminate.
    intro H. injection H as <- <-. simpl. now apply complex_progress in E2.
Qed.

Lemma parse_loop_halts F strict e : forall fuel s prev,
  length s < fuel -> halts (parse_loop F strict e fuel s prev).
Proof.
  induction fuel as [|f IH]; intros s prev L; [lia|].
  destruct s as [|c s]; [apply halts_Ok|].
  cbn [parse_loop]. set (S0 := c :: s) in *.
  destruct (match operator_parse S0 with Some (o, r) => (Some o, r) | None => (None, S0) end) as [op s1] eqn:O.
  assert (length s1 <= length S0) as L1.
  { destruct (operator_parse S0) as [[o r]|] eqn:P; injection O as <- <-; auto.
    now apply operator_shrinks in P. }
  destruct (operator_error strict op prev) as [x|] eqn:X.
  { unfold operator_error in X. destruct strict; [|discriminate].
    destruct prev as [[]|]; try discriminate; destruct op as [[]|]; try discriminate;
    injection X as <-; discriminate. }
  apply halts_bind; [apply halts_search|]. intros [[o rest]|] Hm; [|discriminate].
  apply search_progress in Hm as [Hm _]. assert (Ls := strip_length s1).
  apply halts_bind; [apply halts_lift; intro; apply halts_term_pow|]. intros o1 _.
  apply halts_bind; [apply halts_evaluate|]. intros o2 _.
  apply halts_bind; [apply IH; lia|]. intros. apply halts_Ok.
Qed.

Lemma parse_loop_bases F strict e : forall fuel s prev ops,
  parse_loop F strict e fuel s prev = Ok ops ->
  Forall (fun o => group_base o < length s) ops.
Proof.
  induction fuel as [|f IH]; intros s prev ops H.
  - destruct s; [|discriminate]. injection H as <-. constructor.
  - destruct s as [|c s]; [injection H as <-; constructor|].
    cbn [parse_loop] in H. set (S0 := c :: s) in *.
    destruct (match operator_parse S0 with Some (o, r) => (Some o, r) | None => (None, S0) end) as [op s1] eqn:O.
    assert (length s1 <= length S0) as L1.
    { destruct (operator_parse S0) as [[o r]|] eqn:P; injection O as <- <-; auto.
      now apply operator_shrinks in P. }
    destruct (operator_error strict op prev); [discriminate|].
    destruct (operand_parse F s1) as [[[o rest]|]|] eqn:P; cbn [bind] in H; try discriminate.
    assert (Ls := strip_length s1). assert (group_ne o) as Ne by (eapply search_ne; exact P).
    apply search_progress in P as [P1 P2].
    destruct (lift_pow _ o) as [o1|] eqn:E1; cbn [bind] in H; [|discriminate].
    apply lift_pow_base in E1 as [E1 N1]; auto; [|intros t u; apply term_pow_base].
    destruct (evaluate F op o1) as [o2|] eqn:E2; cbn [bind] in H; [|discriminate].
    apply evaluate_base in E2 as [E2 N2]; auto.
    destruct (parse_loop F strict e f rest op) as [more|] eqn:E3; cbn [bind] in H; [|discriminate].
    injection H as <-. constructor.
    + rewrite E2, E1. destruct o; simpl in *; lia.
    + apply IH in E3. eapply Forall_impl; [|exact E3]. intros a Ha. cbv beta in *. lia.
Qed.

Lemma mapM_halts {A B} (f : A -> res B) l : Forall (fun a => halts (f a)) l -> halts (mapM f l).
Proof.
  induction 1 as [|a l Ha _ IH]; simpl; [apply halts_Ok|].
  apply halts_bind; auto. intros. apply halts_bind; auto. intros. apply halts_Ok.
Qed.

Lemma resolve_halts F strict : forall fuel cur,
  length (base cur) < fuel -> halts (resolve F strict fuel cur).
Proof.
  induction fuel as [|f IH]; intros cur L; [lia|]. cbn [resolve].
  apply halts_bind; [apply parse_loop_halts; lia|]. intros ops Ho.
  apply parse_loop_bases in Ho.
  apply halts_bind; [|intros; apply halts_Ok]. apply mapM_halts.
  eapply Forall_impl; [|exact Ho]. intros [t|g] H; [apply halts_Ok|]. apply IH. simpl in H. lia.
Qed.

Lemma parse_halts F strict s : halts (parse F strict s).
Proof. unfold parse. apply resolve_halts. lia. Qed.

Lemma search_full_group F s t r : search F FullMatch s = Ok (Some (Group t, r)) -> length (base t) < length s /\ base t <> [].
Proof.
  unfold search. destruct (match_simplex F FullMatch s) as [[[u v]|]|] eqn:E; cbn [bind]; try discriminate.
  destruct (match_complex F FullMatch s) as [[[u v]|]|] eqn:E2; cbn [bind]; try discriminate.
  intro H. injection H as <- <-. apply complex_progress in E2. tauto.
Qed.

Lemma create_halts F : forall fuel c b e, length b < fuel -> halts (create F fuel c b e).
Proof.
  induction fuel as [|f IH]; intros c b e L; [lia|]. cbn [create].
  set (b0 := match b with [] => lit "1" | _ => b end).
  assert (length b0 <= max 1 (length b)) as Lb by (unfold b0; destruct b; simpl; lia).
  destruct (_ || _); [discriminate|].
  apply halts_bind; [apply halts_search|]. intros [[o r]|] Hs; [|apply halts_Ok].
  apply halts_bind; [apply halts_frac_pow|]. intros p _.
  destruct o as [t|t]; [apply halts_Ok|].
  apply search_full_group in Hs as [Hs Ne].
  apply halts_bind.
  - destruct f as [|f].
    + exfalso. destruct b; simpl in *; [|lia]. unfold b0 in Hs. simpl in Hs.
      destruct (base t) eqn:E; simpl in *; [congruence|lia].
    + apply IH. lia.
  - intros [u|u] _; [|apply halts_Ok].
    apply halts_bind; [apply halts_frac_pow|]. intros. apply halts_Ok.
Qed.
