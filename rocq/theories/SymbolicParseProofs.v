(** Proofs about the parser: brackets, tokens, chains, round trips and
    termination. *)

From Coq Require Import String Ascii List Bool ZArith NArith QArith Qcanon Lia.
From Coq Require Import Permutation Sorted.
From Verif Require Import Py PyFacts SymbolicModel SymbolicSpec SymbolicReduceProofs SymbolicRx.
Import ListNotations.
Open Scope list_scope.
Open Scope nat_scope.

(** * Brackets *)

Lemma is_chr_eqb c d : is_chr c d = Ascii.eqb d c.
Proof. unfold is_chr. apply Ascii.eqb_sym. Qed.

Definition step (c : ascii) : Z :=
  if Ascii.eqb c "(" then 1%Z else if Ascii.eqb c ")" then (-1)%Z else 0%Z.

Lemma depth_cons c s : depth (c :: s) = (step c + depth s)%Z.
Proof. reflexivity. Qed.

Lemma depth_app s t : depth (s ++ t) = (depth s + depth t)%Z.
Proof. induction s; simpl; auto. rewrite IHs. lia. Qed.

Lemma bounds_go_init s i i0 c r :
  bounds_go s i (Some i0) c = Some r <->
  exists k, 1 <= k <= length s /\ (c + depth (firstn k s) = 0)%Z
    /\ (forall k', 1 <= k' < k -> (c + depth (firstn k' s) <> 0)%Z)
    /\ r = (i0, i + k).
Proof.
  revert i c; induction s as [|x s IH]; intros i c.
  - simpl. split; [discriminate|]. intros [k [H _]]. lia.
  - assert (bounds_go (x :: s) i (Some i0) c
            = if (c + step x =? 0)%Z then Some (i0, S i)
              else bounds_go s (S i) (Some i0) (c + step x)%Z) as ->.
    { cbn [bounds_go]. unfold step. rewrite (is_chr_eqb "(" x), (is_chr_eqb ")" x).
      destruct (Ascii.eqb x "("); [reflexivity|]. destruct (Ascii.eqb x ")").
      - reflexivity.
      - now rewrite Z.add_0_r. }
    destruct (Z.eqb_spec (c + step x) 0) as [E|E].
    + split.
      * intro H. injection H as <-. exists 1. cbn [firstn length]. rewrite depth_cons.
        cbn [depth]. split; [lia|]. split; [lia|]. split; [intros; lia|]. f_equal. lia.
      * intros [k [H1 [H2 [H3 ->]]]]. destruct (Nat.eq_dec k 1) as [->|].
        -- f_equal. f_equal. lia.
        -- exfalso. apply (H3 1); [lia|]. cbn [firstn]. rewrite depth_cons. simpl depth. lia.
    + rewrite IH. split; intros [k [H1 [H2 [H3 ->]]]].
      * exists (S k). cbn [firstn length]. rewrite depth_cons. repeat split; try lia.
        -- intros k' Hk'. destruct k' as [|k']; [lia|]. cbn [firstn]. rewrite depth_cons.
           destruct k' as [|k']; [simpl; lia|]. specialize (H3 (S k')). lia.
        -- f_equal. lia.
      * destruct k as [|k]; [lia|]. cbn [firstn length] in *. rewrite depth_cons in H2.
        destruct k as [|k]; [simpl in H2; lia|].
        exists (S k). repeat split; try lia.
        -- intros k' Hk'. specialize (H3 (S k')). cbn [firstn] in H3.
           rewrite depth_cons in H3. lia.
        -- f_equal. lia.
Qed.

Lemma bounds_go_skip p s i c :
  ~ In "("%char p -> bounds_go (p ++ s) i None c = bounds_go s (i + length p) None (c + depth p)%Z.
Proof.
  revert i c; induction p as [|x p IH]; intros i c H.
  - simpl. f_equal; lia.
  - cbn [app bounds_go length]. rewrite (is_chr_eqb "(" x), (is_chr_eqb ")" x).
    destruct (Ascii.eqb_spec x "(") as [->|N1]; [exfalso; apply H; simpl; auto|].
    assert (~ In "("%char p) as H' by (intro; apply H; simpl; auto).
    rewrite depth_cons. unfold step. rewrite (proj2 (Ascii.eqb_neq x "(")) by auto.
    destruct (Ascii.eqb x ")"); rewrite IH by auto; f_equal; lia.
Qed.

Lemma first_open (s : str) :
  ~ In "("%char s \/ exists p q, s = p ++ "("%char :: q /\ ~ In "("%char p.
Proof.
  induction s as [|x s IH]; [left; auto|].
  destruct (ascii_dec x "(") as [->|N1].
  - right. exists [], s. auto.
  - destruct IH as [IH|[p [q [-> H]]]].
    + left. intros [|]; auto.
    + right. exists (x :: p), q. split; auto. intros [|]; auto.
Qed.

Lemma depth_zero s : ~ In "("%char s -> ~ In ")"%char s -> depth s = 0%Z.
Proof.
  induction s as [|x s IH]; intros H1 H2; auto.
  rewrite depth_cons. unfold step.
  rewrite (proj2 (Ascii.eqb_neq x "(")) by (intros ->; apply H1; simpl; auto).
  rewrite (proj2 (Ascii.eqb_neq x ")")) by (intros ->; apply H2; simpl; auto).
  rewrite IH; auto; intro; [apply H1|apply H2]; simpl; auto.
Qed.

Lemma substr_app p q k : substr (length p) (length p + k) (p ++ q) = firstn k q.
Proof.
  unfold substr. rewrite skipn_app, Nat.sub_diag, skipn_all. simpl.
  f_equal. lia.
Qed.

Lemma In_firstn {A} (x : A) k l : In x (firstn k l) -> In x l.
Proof. intro I. rewrite <- (firstn_skipn k l). apply in_or_app. auto. Qed.

Lemma nth_error_mid {A} (p : list A) x q : nth_error (p ++ x :: q) (length p) = Some x.
Proof. rewrite nth_error_app2, Nat.sub_diag; auto. Qed.

Lemma find_bounds_none s : ~ In "("%char s -> find_bounds s = None.
Proof.
  intro H. unfold find_bounds. rewrite <- (app_nil_r s), bounds_go_skip by auto. reflexivity.
Qed.

Lemma find_bounds_correct s i j :
  no_early_close s -> (find_bounds s = Some (i, j) <-> first_group s i j).
Proof.
  intro NE. destruct (first_open s) as [H|[p [q [-> Hp]]]].
  - rewrite find_bounds_none by auto. split; [discriminate|].
    intros [E _]. apply nth_error_In in E. tauto.
  - assert (~ In ")"%char p) as Hc.
    { intro I. apply in_split in I. destruct I as [a [b ->]]. apply Hp.
      rewrite <- app_assoc in NE. simpl in NE. specialize (NE a _ eq_refl).
      apply in_or_app. auto. }
    unfold find_bounds. rewrite bounds_go_skip, depth_zero by auto.
    change (0 + 0)%Z with 0%Z. rewrite Nat.add_0_l.
    assert (bounds_go ("("%char :: q) (length p) None 0
            = bounds_go q (S (length p)) (Some (length p)) 1) as -> by reflexivity.
    rewrite bounds_go_init. unfold first_group. split.
    + intros [k [H1 [H2 [H3 E]]]]. 
      assert (i = length p) as -> by congruence.
      assert (j = length p + S k) as -> by (injection E; lia). clear E.
      rewrite substr_app. cbn [firstn]. rewrite depth_cons.
      split; [|split; [|split; [rewrite app_length; simpl; lia|split]]].
      * apply nth_error_mid.
      * intros k' Hk' E. apply nth_error_In with (n := k') in E as I.
        rewrite nth_error_app1 in E by auto. apply nth_error_In in E. tauto.
      * exact H2.
      * intros k' Hk'. replace k' with (length p + S (k' - S (length p))) by lia.
        rewrite substr_app. cbn [firstn]. rewrite depth_cons. change (step "(") with 1%Z.
        destruct (k' - S (length p)) as [|m] eqn:Em; [simpl; lia|].
        apply H3. lia.
    + intros [E [Hf [B [D Hk]]]].
      assert (i = length p) as ->.
      { destruct (Nat.lt_trichotomy i (length p)) as [L|[E'|L]]; auto.
        - rewrite nth_error_app1 in E by auto. apply nth_error_In in E. tauto.
        - exfalso. apply (Hf (length p)); auto. apply nth_error_mid. }
      rewrite app_length in B. simpl in B.
      assert (exists m, j = length p + S m) as [m ->] by (exists (j - S (length p)); lia).
      rewrite substr_app in D. cbn [firstn] in D. rewrite depth_cons in D.
      change (step "(") with 1%Z in D.
      destruct m as [|m]; [simpl in D; lia|].
      exists (S m). repeat split; try lia.
      * intros k' Hk' E'. apply (Hk (length p + S k')); [lia|].
        rewrite substr_app. cbn [firstn]. rewrite depth_cons. exact E'.
      * f_equal. lia.
Qed.

(** * Tokens *)

(** The rest of the text after a token: nothing, or a blank and something that
    does not end in a blank. *)
Definition okrest (r : str) : Prop :=
  match r with c :: _ => c = " "%char | [] => True end /\ head_ok is_space (rev r).

Lemma okrest_stops r : okrest r -> stops r.
Proof. destruct r as [|c r]; simpl; auto. intros [-> _]. repeat split; reflexivity. Qed.

(** Text [t] reads as operand [o], whatever follows it. *)
Definition reads (F : flops) (t : str) (o : operand) : Prop :=
  t <> []
  /\ (head_ok is_space t /\ head_ok (is_chr "*") t /\ head_ok (is_chr "/") t)
  /\ head_ok is_space (rev t)
  /\ forall r, okrest r ->
       ~ starts_with (lit "sqrt") (t ++ r) /\ search F Match (t ++ r) = Ok (Some (o, r)).

Lemma head_ok_rev_app p t r :
  t <> [] -> head_ok p (rev t) -> head_ok p (rev r) -> head_ok p (rev (t ++ r)).
Proof.
  intros Hn Ht Hr. rewrite rev_app_distr. destruct (rev r) eqn:E; simpl; auto.
Qed.

Lemma reads_parse F t o r :
  reads F t o -> okrest r -> operand_parse F (t ++ r) = Ok (Some (o, r)).
Proof.
  intros [Hn [[Hh _] [Ht H]]] Hr. unfold operand_parse. rewrite strip_id.
  - now apply H.
  - destruct t; [congruence|]. exact Hh.
  - apply head_ok_rev_app; auto. apply Hr.
Qed.

Lemma rx_text_none t s : ~ starts_with t s -> rx_text t s = [].
Proof.
  revert s; induction t as [|c t IH]; intros s H; simpl.
  - exfalso. apply H. now exists s.
  - apply none_bind. intros a u I. destruct s as [|d s]; simpl in I; [tauto|].
    unfold is_chr in I. destruct (Ascii.eqb_spec c d) as [->|]; [|destruct I].
    destruct I as [I|[]]. injection I as <- <-. apply IH. intros [r ->].
    apply H. now exists r.
Qed.

Lemma operator_none s :
  head_ok is_space s -> head_ok (is_chr "*") s -> head_ok (is_chr "/") s ->
  ~ starts_with (lit "sqrt") s -> operator_parse s = None.
Proof.
  intros H1 H2 H3 H4. unfold operator_parse.
  rewrite (none_run rx_multiply), (none_run rx_divide), (none_run rx_sqrt); auto.
  - apply none_bind. intros a t I. rewrite star_none in I by auto.
    destruct I as [I|[]]. injection I as <- <-. apply none_bind', rx_text_none, H4.
  - apply none_bind. intros a t I. rewrite star_none in I by auto.
    destruct I as [I|[]]. injection I as <- <-. apply none_bind', none_cls, H3.
  - apply none_bind. intros a t I. rewrite star_none in I by auto.
    destruct I as [I|[]]. injection I as <- <-. apply none_bind', none_cls, H2.
Qed.

Lemma no_sqrt b v :
  ~ starts_with (lit "sqrt") b -> head_ok is_base_chr v -> ~ starts_with (lit "sqrt") (b ++ v).
Proof.
  intros H Hv [r E]. apply H. symmetry in E.
  destruct (split_prefix (fun c => is_base_chr c = true) _ _ _ _ E) as [w [-> _]].
  - repeat constructor.
  - destruct v; auto. simpl in Hv. congruence.
  - now exists w.
Qed.

Lemma last_digit_not_space s : s <> [] -> forallb is_digit s = true -> head_ok is_space (rev s).
Proof.
  intros Hn H. destruct (rev s) as [|c r] eqn:E; simpl; auto.
  assert (In c s) as I by (apply in_rev; rewrite E; simpl; auto).
  rewrite forallb_forall in H. apply H in I. revert I. by_char c.
Qed.

Lemma rev_app_head p (a b : str) :
  b <> [] -> head_ok p (rev b) -> head_ok p (rev (a ++ b)).
Proof.
  intros Hn H. rewrite rev_app_distr. destruct (rev b) eqn:E; simpl in *; auto.
  apply (f_equal (@rev ascii)) in E. rewrite rev_involutive in E. simpl in E. congruence.
Qed.

Lemma dec_N_last n : head_ok is_space (rev (dec_of_N n)).
Proof. apply last_digit_not_space; apply dec_of_N_spec. Qed.

Lemma dec_Z_nonempty z : dec_of_Z z <> [].
Proof. destruct z; simpl; try discriminate; apply dec_of_N_spec. Qed.

Lemma dec_Z_last z : head_ok is_space (rev (dec_of_Z z)).
Proof.
  destruct z; unfold dec_of_Z; try apply dec_N_last.
  apply (rev_app_head _ ["-"%char]); [apply dec_of_N_spec|apply dec_N_last].
Qed.

Lemma dec_Qc_nonempty q : dec_of_Qc q <> [].
Proof.
  unfold dec_of_Qc. assert (H := dec_Z_nonempty (Qc_num q)).
  destruct (Qc_is_int q); auto. intro E. apply app_eq_nil in E. tauto.
Qed.

Lemma dec_Qc_last q : head_ok is_space (rev (dec_of_Qc q)).
Proof.
  unfold dec_of_Qc. destruct (Qc_is_int q); [apply dec_Z_last|].
  apply rev_app_head; [discriminate|].
  apply (rev_app_head _ ["/"%char]); [apply dec_of_N_spec|apply dec_N_last].
Qed.

Definition numhead (c : ascii) : bool := is_digit c || is_chr "-" c.

Lemma dec_Z_head z : exists c s, dec_of_Z z = c :: s /\ numhead c = true.
Proof.
  destruct z as [|p|p]; unfold dec_of_Z.
  1, 2: match goal with |- context [dec_of_N ?n] =>
          destruct (dec_of_N_spec n) as [H1 [H2 _]]; destruct (dec_of_N n) as [|c s] end;
        [congruence|]; exists c, s; split; auto; simpl in H2;
        apply andb_true_iff in H2 as [H2 _]; unfold numhead; now rewrite H2.
  exists "-"%char, (dec_of_N (Npos p)). auto.
Qed.

Lemma dec_Qc_head q : exists c s, dec_of_Qc q = c :: s /\ numhead c = true.
Proof.
  destruct (dec_Z_head (Qc_num q)) as [c [s [E H]]]. unfold dec_of_Qc.
  destruct (Qc_is_int q); [eauto|]. rewrite E. simpl. eauto.
Qed.

Lemma base_last b : legal_base b -> head_ok is_space (rev b).
Proof.
  intro L. destruct (legal_split b L) as [l [d [-> [N1 [Fl Fd]]]]].
  destruct d as [|c d].
  - rewrite app_nil_r. destruct (rev l) as [|c r] eqn:E; simpl; auto.
    assert (In c l) as I by (apply in_rev; rewrite E; simpl; auto).
    rewrite forallb_forall in Fl. apply Fl in I. now apply base_not_space.
  - apply rev_app_head; [discriminate|]. apply last_digit_not_space; auto; discriminate.
Qed.

Lemma legal_nonempty b : legal_base b -> b <> [].
Proof. intro L. apply legal_head in L as [c [s [-> _]]]. discriminate. Qed.

Lemma legal_not_one b : legal_base b -> b <> lit "1".
Proof. intro L. apply legal_head in L as [c [s [-> H]]]. intro E. injection E as -> ->. discriminate. Qed.

(** A variable token: [b] or [b^e]. *)
Lemma reads_variable F b e :
  legal_base b -> ~ starts_with (lit "sqrt") b -> (Zpos (Qc_den e) < 10)%Z -> e <> 0%Qc ->
  reads F (format_term F (mkTerm 1 b e)) (Simple (mkTerm 1 b e)).
Proof.
  intros L NS He Ne.
  assert (Nb := legal_not_one b L). assert (Nn := legal_nonempty b L).
  destruct (legal_head b L) as [c [s [Eb Hc]]].
  assert (head_ok is_space b) as Hs by (rewrite Eb; now apply base_not_space).
  unfold format_term, format_coef, format_expo. simpl coef. simpl base. simpl expo.
  rewrite str_eqb_neq by auto. rewrite Qc_eqb_refl. simpl negb. simpl andb. simpl orb. cbv iota.
  rewrite app_nil_l.
  assert (head_ok is_space b /\ head_ok (is_chr "*") b /\ head_ok (is_chr "/") b) as HH.
  { rewrite Eb. split; [exact (base_not_space c Hc)|]. split; apply base_not_chr; auto. }
  assert (forall v, head_ok is_base_chr v -> ~ starts_with (lit "sqrt") (b ++ v)) as ON
    by (intros; now apply no_sqrt).
  destruct (Qc_eqb_spec e 1) as [->|N1].
  - rewrite app_nil_r. do 3 (split; [auto using base_last|]). intros r H. split.
    + apply ON. destruct r as [|d r]; simpl; auto. destruct H as [-> _]. reflexivity.
    + apply okrest_stops in H. unfold search, match_simplex.
      rewrite (first_run _ _ _ _ (variable_plain b r L H)).
      rewrite none_run by (apply constant_none_base, legal_head, L).
      simpl. rewrite init_id by auto. reflexivity.
  - split; [|split; [|split; [|intros r H; split]]].
    + destruct b; [congruence|]. discriminate.
    + rewrite Eb in HH |- *. exact HH.
    + apply rev_app_head; [discriminate|].
      apply (rev_app_head _ ["^"%char]); [apply dec_Qc_nonempty|apply dec_Qc_last].
    + rewrite <- app_assoc. apply ON. reflexivity.
    + apply okrest_stops in H. unfold search, match_simplex. rewrite <- app_assoc.
      change (lit "^") with ["^"%char]. rewrite <- app_assoc.
      destruct (variable_expo b e r L He H) as [x [Hx Ex]].
      rewrite (first_run _ _ _ _ Hx).
      rewrite none_run by (apply constant_none_base, legal_head, L).
      simpl. rewrite Ex. simpl. rewrite init_id by auto. reflexivity.
Qed.

Lemma dec_of_Qc_Z z : dec_of_Qc (Qc_of_Z z) = dec_of_Z z.
Proof. unfold dec_of_Qc. now rewrite Qc_is_int_of_Z, Qc_num_of_Z. Qed.

Lemma numhead_facts c :
  numhead c = true ->
  is_space c = false /\ is_chr "*" c = false /\ is_chr "/" c = false /\ c <> "s"%char.
Proof. (destruct c as [[] [] [] [] [] [] [] []]; vm_compute; intros; repeat split; congruence). Qed.

(** A constant token. *)
Lemma reads_constant F q :
  q <> 0%Qc -> fl F q = q -> (Zpos (Qc_den q) < 10)%Z ->
  reads F (format_term F (mkTerm q (lit "1") 1)) (Simple (mkTerm q (lit "1") 1)).
Proof.
  intros Nq Eq Hq.
  assert (format_term F (mkTerm q (lit "1") 1) = dec_of_Qc q) as ->.
  { unfold format_term, format_coef. cbn [base coef]. rewrite str_eqb_refl. simpl negb.
    cbn [andb]. destruct (Qc_eqb_spec (fl F q) (Qc_of_Z (Qc_trunc q))) as [E|]; auto.
    rewrite Eq in E. rewrite E at 2. now rewrite dec_of_Qc_Z. }
  destruct (dec_Qc_head q) as [c [s [Ec Hc]]].
  destruct (numhead_facts c Hc) as [F1 [F2 [F3 F4]]].
  split; [|split; [|split; [|intros r H; split]]].
  - apply dec_Qc_nonempty.
  - rewrite Ec. auto.
  - apply dec_Qc_last.
  - rewrite Ec. intros [w E]. injection E as -> _. tauto.
  - apply okrest_stops in H. unfold search, match_simplex.
    rewrite none_run by (apply variable_none_number; auto using dec_Qc_no_base).
    destruct (constant_Qc q r Hq H) as [x [Hx Ex]].
    rewrite (first_run _ _ _ _ Hx). simpl. rewrite Ex. simpl.
    unfold frac_pow. change (Qc_is_int 1) with true. cbv iota.
    change (Qc_ltb 1 0) with false. rewrite andb_false_r.
    change (Qc_num 1) with 1%Z. rewrite Qc_zpow_1_r. simpl. rewrite Eq.
    unfold init. rewrite (Qc_eqb_neq q 0) by auto. reflexivity.
Qed.

Lemma rational_none_head c s :
  is_sign c = false -> is_digit c = false -> is_chr "." c = false -> rx_rational (c :: s) = [].
Proof.
  intros H1 H2 H3. apply none_bind. intros a t I. unfold rx_opt in I. rewrite none_cls in I by auto.
  destruct I as [I|[]]. injection I as <- <-. apply none_bind'. unfold rx_look, starts_number.
  rewrite H2, H3. reflexivity.
Qed.

Lemma simplex_none_open F s : match_simplex F Match ("("%char :: s) = Ok None.
Proof.
  unfold match_simplex.
  assert (rx_rational ("("%char :: s) = []) as R by (apply rational_none_head; reflexivity).
  rewrite (none_run rx_variable), (none_run rx_constant).
  - reflexivity.
  - now apply none_bind'.
  - apply none_bind. intros a t I. unfold rx_opt in I. rewrite R in I.
    destruct I as [I|[]]. injection I as <- <-. apply none_bind', none_bind', none_plus. reflexivity.
Qed.

(** Balanced brackets. *)
Definition balanced (s : str) : Prop :=
  depth s = 0%Z /\ forall k, (0 <= depth (firstn k s))%Z.

Lemma balanced_app s t : balanced s -> balanced t -> balanced (s ++ t).
Proof.
  intros [Hs Ps] [Ht Pt]. split; [rewrite depth_app; lia|].
  intro k. rewrite firstn_app, depth_app. specialize (Ps k). specialize (Pt (k - length s)). lia.
Qed.

Lemma balanced_flat s : ~ In "("%char s -> ~ In ")"%char s -> balanced s.
Proof.
  intros H1 H2. split; [now apply depth_zero|]. intro k.
  rewrite depth_zero; [lia| |]; intro I; apply In_firstn in I; tauto.
Qed.

Lemma balanced_wrap s : balanced s -> balanced (lit "(" ++ s ++ lit ")").
Proof.
  intros [Hs Ps]. split.
  - rewrite !depth_app. change (depth (lit "(")) with 1%Z. change (depth (lit ")")) with (-1)%Z. lia.
  - intro k. destruct k as [|k]; [simpl; lia|].
    change (lit "(" ++ s ++ lit ")") with ("("%char :: s ++ lit ")"). rewrite firstn_cons, depth_cons.
    change (step "(") with 1%Z. rewrite firstn_app, depth_app. specialize (Ps k).
    assert (-1 <= depth (firstn (k - length s) (lit ")")))%Z; [|lia].
    destruct (k - length s) as [|[|j]]; vm_compute; discriminate.
Qed.

(** A group token [(t)] or [(t)^n]. *)
Lemma reads_group F t n :
  t <> [] -> balanced t -> n <> 0%Z ->
  reads F (lit "(" ++ t ++ lit ")" ++ sup (Qc_of_Z n)) (Group (mkTerm 1 t (Qc_of_Z n))).
Proof.
  intros Hn Hf Nn.
  assert (Qc_of_Z n <> 0%Qc) as Nq.
  { change 0%Qc with (Qc_of_Z 0). intro E. now apply Qc_of_Z_inj in E. }
  split; [|split; [|split; [|intros r H; split]]].
  - discriminate.
  - repeat split.
  - apply (rev_app_head _ (lit "(" )); [destruct t; discriminate|].
    apply rev_app_head; [discriminate|]. unfold sup. destruct (Qc_eqb (Qc_of_Z n) 1).
    + reflexivity.
    + apply rev_app_head; [discriminate|]. apply rev_app_head; auto using dec_Qc_nonempty, dec_Qc_last.
  - intros [w E]. discriminate E.
  - set (u := sup (Qc_of_Z n) ++ r).
    assert ((lit "(" ++ t ++ lit ")" ++ sup (Qc_of_Z n)) ++ r = "("%char :: (t ++ lit ")") ++ u) as ->.
    { unfold u. rewrite <- !app_assoc. reflexivity. }
    unfold search. rewrite simplex_none_open. cbn [bind].
    unfold match_complex.
    assert (find_bounds ("("%char :: (t ++ lit ")") ++ u) = Some (0, length t + 2)) as ->.
    { unfold find_bounds.
      change (bounds_go ("("%char :: (t ++ lit ")") ++ u) 0 None 0)
        with (bounds_go ((t ++ lit ")") ++ u) 1 (Some 0) 1).
      apply bounds_go_init. exists (S (length t)). destruct Hf as [Ho Hc].
      rewrite <- app_assoc. split; [rewrite !app_length; simpl; lia|].
      assert (firstn (S (length t)) (t ++ lit ")" ++ u) = t ++ lit ")") as ->.
      { replace (S (length t)) with (length t + 1) by lia.
        rewrite firstn_app_2. reflexivity. }
      rewrite depth_app, Ho. repeat split.
      - intros k Hk. rewrite firstn_app. replace (k - length t) with 0 by lia.
        rewrite firstn_O, app_nil_r. specialize (Hc k). lia.
      - f_equal. lia. }
    assert (match_simplex F FullMatch (firstn 0 ("("%char :: (t ++ lit ")") ++ u)) = Ok None)
      as -> by reflexivity.
    cbn [bind].
    assert (skipn (length t + 2) ("("%char :: (t ++ lit ")") ++ u) = u) as ->.
    { replace (length t + 2) with (length ("("%char :: t ++ lit ")"))
        by (simpl; rewrite app_length; simpl; lia).
      change ("("%char :: (t ++ lit ")") ++ u) with (("("%char :: t ++ lit ")") ++ u).
      rewrite skipn_app, skipn_all, Nat.sub_diag. reflexivity. }
    change (0 + 1) with 1. assert (substr 1 (length t + 2 - 1) ("("%char :: (t ++ lit ")") ++ u) = t) as ->.
    { unfold substr. simpl skipn. rewrite <- app_assoc.
      replace (length t + 2 - 1 - 1) with (length t + 0) by lia.
      rewrite firstn_app_2. simpl. now rewrite app_nil_r. }
    apply okrest_stops in H. unfold u, sup.
    destruct (Qc_eqb_spec (Qc_of_Z n) 1) as [->|N1].
    + rewrite app_nil_l. rewrite none_run by (apply stops_exponent, H).
      simpl. rewrite init_id; auto.
    + rewrite dec_of_Qc_Z. destruct (rational_int n r H) as [x [Hx Ex]].
      assert (first rx_exponent ((lit "^" ++ dec_of_Z n) ++ r) x r) as Hx'.
      { change ((lit "^" ++ dec_of_Z n) ++ r) with ("^"%char :: dec_of_Z n ++ r).
        eapply first_bind; [apply first_cls; reflexivity|exact Hx]. }
      rewrite (first_run _ _ _ _ Hx'). simpl. rewrite Ex. simpl. rewrite init_id; auto.
Qed.
