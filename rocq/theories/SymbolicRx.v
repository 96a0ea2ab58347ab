(** Lemmas about the regular-expression combinators and the patterns of the
    symbolic module. *)

From Coq Require Import String Ascii List Bool ZArith NArith QArith Qcanon Lia.
From Verif Require Import Py PyFacts SymbolicModel SymbolicSpec.
Import ListNotations.
Open Scope list_scope.

Ltac by_char c :=
  destruct c as [[] [] [] [] [] [] [] []]; vm_compute; intros; congruence.

(** [r] tried on [s] first yields value [a] and rest [t]. *)
Definition first {A} (r : rx A) (s : str) (a : A) (t : str) : Prop :=
  exists tl, r s = (a, t) :: tl.

Lemma first_run {A} (r : rx A) s a t : first r s a t -> rx_run Match r s = Some (a, t).
Proof. intros [tl E]. simpl. now rewrite E. Qed.

Lemma none_run {A} (r : rx A) s : r s = [] -> rx_run Match r s = None.
Proof. intro E. simpl. now rewrite E. Qed.

Lemma first_ret {A} (a : A) s : first (rx_ret a) s a s.
Proof. now exists []. Qed.

Lemma first_bind {A B} (m : rx A) (f : A -> rx B) s a t b u :
  first m s a t -> first (f a) t b u -> first (rx_bind m f) s b u.
Proof.
  intros [tl E] [tl' E']. unfold first, rx_bind. rewrite E. simpl. rewrite E'. simpl. eauto.
Qed.

Lemma none_bind {A B} (m : rx A) (f : A -> rx B) s :
  (forall a t, In (a, t) (m s) -> f a t = []) -> rx_bind m f s = [].
Proof.
  intro H. unfold rx_bind. induction (m s) as [|[a t] l IH]; simpl; auto.
  rewrite H by (simpl; auto). simpl. apply IH. intros; apply H; simpl; auto.
Qed.

Lemma none_bind' {A B} (m : rx A) (f : A -> rx B) s : m s = [] -> rx_bind m f s = [].
Proof. intro E. unfold rx_bind. now rewrite E. Qed.

Lemma In_bind {A B} (m : rx A) (f : A -> rx B) s b u :
  In (b, u) (rx_bind m f s) <-> exists a t, In (a, t) (m s) /\ In (b, u) (f a t).
Proof.
  unfold rx_bind. rewrite in_flat_map. split.
  - intros [[a t] [H1 H2]]. eauto.
  - intros [a [t [H1 H2]]]. exists (a, t). auto.
Qed.

Lemma first_alt_l {A} (m n : rx A) s a t : first m s a t -> first (rx_alt m n) s a t.
Proof. intros [tl E]. unfold first, rx_alt. rewrite E. simpl. eauto. Qed.

Lemma first_alt_r {A} (m n : rx A) s a t : m s = [] -> first n s a t -> first (rx_alt m n) s a t.
Proof. intros E [tl E']. unfold first, rx_alt. rewrite E, E'. simpl. eauto. Qed.

Lemma first_opt {A} (m : rx A) s a t : first m s a t -> first (rx_opt m) s (Some a) t.
Proof. intros [tl E]. unfold first, rx_opt. rewrite E. simpl. eauto. Qed.

Lemma first_opt_none {A} (m : rx A) s : m s = [] -> first (rx_opt m) s None s.
Proof. intros E. unfold first, rx_opt. rewrite E. simpl. eauto. Qed.

Lemma first_cls p c s : p c = true -> first (rx_cls p) (c :: s) c s.
Proof. intro H. unfold first, rx_cls. rewrite H. eauto. Qed.

Lemma first_look p s : p s = true -> first (rx_look p) s tt s.
Proof. intro H. unfold first, rx_look. rewrite H. eauto. Qed.

Lemma none_cls p s : head_ok p s -> rx_cls p s = [].
Proof. destruct s; simpl; auto. now intros ->. Qed.

Lemma star_none p s : head_ok p s -> rx_star p s = [([], s)].
Proof. destruct s; simpl; auto. now intros ->. Qed.

Lemma first_star p u v : forallb p u = true -> head_ok p v -> first (rx_star p) (u ++ v) u v.
Proof.
  intros Hu Hv. induction u as [|c u IH].
  - simpl. unfold first. rewrite star_none by auto. eauto.
  - simpl in Hu. apply andb_true_iff in Hu. destruct Hu as [Hc Hu].
    destruct (IH Hu) as [tl E]. unfold first. simpl. rewrite Hc, E. simpl. eauto.
Qed.

Lemma first_plus p u v :
  u <> [] -> forallb p u = true -> head_ok p v -> first (rx_plus p) (u ++ v) u v.
Proof.
  intros Hn Hu Hv. destruct u as [|c u]; [congruence|].
  simpl in Hu. apply andb_true_iff in Hu. destruct Hu as [Hc Hu].
  unfold rx_plus. simpl. eapply first_bind; [apply first_cls, Hc|].
  eapply first_bind; [apply first_star; eauto|apply first_ret].
Qed.

Lemma first_plus_lazy p c v : p c = true -> first (rx_plus_lazy p) (c :: v) [c] v.
Proof.
  intros Hc. unfold rx_plus_lazy. eapply first_bind; [apply first_cls, Hc|].
  eapply first_bind; [|apply first_ret]. unfold first. destruct v; simpl; eauto.
Qed.

Lemma none_plus p s : head_ok p s -> rx_plus p s = [].
Proof. intro H. apply none_bind'. now apply none_cls. Qed.

(** * What a pattern consumes *)

Definition consumes {A} (r : rx A) (P : ascii -> Prop) : Prop :=
  forall s a t, In (a, t) (r s) -> exists u, s = u ++ t /\ Forall P u.

Lemma consumes_ret {A} (a : A) P : consumes (rx_ret a) P.
Proof. intros s b t [E|[]]. injection E as <- <-. exists []. auto. Qed.

Lemma consumes_bind {A B} (m : rx A) (f : A -> rx B) P :
  consumes m P -> (forall a, consumes (f a) P) -> consumes (rx_bind m f) P.
Proof.
  intros Hm Hf s b u H. apply In_bind in H. destruct H as [a [t [H1 H2]]].
  apply Hm in H1 as [x [-> Fx]]. apply Hf in H2 as [y [-> Fy]].
  exists (x ++ y). rewrite app_assoc. split; auto. apply Forall_app; auto.
Qed.

Lemma consumes_alt {A} (m n : rx A) P : consumes m P -> consumes n P -> consumes (rx_alt m n) P.
Proof. intros Hm Hn s a t H. apply in_app_or in H. destruct H; eauto. Qed.

Lemma consumes_opt {A} (m : rx A) P : consumes m P -> consumes (rx_opt m) P.
Proof.
  intros Hm s a t H. apply in_app_or in H. destruct H as [H|[E|[]]].
  - apply in_map_iff in H. destruct H as [[b t'] [E H]]. injection E as <- <-. eauto.
  - injection E as <- <-. exists []. auto.
Qed.

Lemma consumes_cls p (P : ascii -> Prop) :
  (forall c, p c = true -> P c) -> consumes (rx_cls p) P.
Proof.
  intros Hp s a t H. destruct s as [|c s]; simpl in H; [tauto|].
  destruct (p c) eqn:E; [|destruct H]. destruct H as [H|[]]. injection H as <- <-.
  exists [c]. auto.
Qed.

Lemma consumes_star p (P : ascii -> Prop) :
  (forall c, p c = true -> P c) -> consumes (rx_star p) P.
Proof.
  intros Hp s. induction s as [|c s IH]; intros a t H; simpl in H.
  - destruct H as [H|[]]. injection H as <- <-. exists []. auto.
  - destruct (p c) eqn:E.
    + apply in_app_or in H. destruct H as [H|[H|[]]].
      * apply in_map_iff in H. destruct H as [[b t'] [E' H]]. injection E' as <- <-.
        apply IH in H as [u [-> F]]. exists (c :: u). auto.
      * injection H as <- <-. exists []. auto.
    + destruct H as [H|[]]. injection H as <- <-. exists []. auto.
Qed.

Lemma consumes_star_lazy p (P : ascii -> Prop) :
  (forall c, p c = true -> P c) -> consumes (rx_star_lazy p) P.
Proof.
  intros Hp s. induction s as [|c s IH]; intros a t H; simpl in H.
  - destruct H as [H|[]]. injection H as <- <-. exists []. auto.
  - destruct H as [H|H].
    + injection H as <- <-. exists []. auto.
    + destruct (p c) eqn:E; [|destruct H].
      apply in_map_iff in H. destruct H as [[b t'] [E' H]]. injection E' as <- <-.
      apply IH in H as [u [-> F]]. exists (c :: u). auto.
Qed.

Lemma consumes_plus p (P : ascii -> Prop) :
  (forall c, p c = true -> P c) -> consumes (rx_plus p) P.
Proof.
  intro H. apply consumes_bind; [now apply consumes_cls|]. intro.
  apply consumes_bind; [now apply consumes_star|]. intro. apply consumes_ret.
Qed.

Lemma consumes_plus_lazy p (P : ascii -> Prop) :
  (forall c, p c = true -> P c) -> consumes (rx_plus_lazy p) P.
Proof.
  intro H. apply consumes_bind; [now apply consumes_cls|]. intro.
  apply consumes_bind; [now apply consumes_star_lazy|]. intro. apply consumes_ret.
Qed.

Lemma consumes_look p P : consumes (rx_look p) P.
Proof.
  intros s a t H. unfold rx_look in H. destruct (p s); [|destruct H].
  destruct H as [H|[]]. injection H as <- <-. exists []. auto.
Qed.

Definition numeric (c : ascii) : bool :=
  is_digit c || is_sign c || is_chr "/" c || is_chr "." c || is_expchar c.

Ltac consume :=
  repeat lazymatch goal with
    | |- consumes (rx_ret _) _ => apply consumes_ret
    | |- consumes (rx_look _) _ => apply consumes_look
    | |- consumes (rx_opt _) _ => apply consumes_opt
    | |- consumes (rx_alt _ _) _ => apply consumes_alt
    | |- consumes (rx_cls _) _ => apply consumes_cls
    | |- consumes (rx_star _) _ => apply consumes_star
    | |- consumes (rx_plus _) _ => apply consumes_plus
    | |- consumes (rx_plus_lazy _) _ => apply consumes_plus_lazy
    | |- consumes (rx_bind _ _) _ => apply consumes_bind; [|intro]
    end.

Lemma rational_consumes : consumes rx_rational (fun c => numeric c = true).
Proof.
  unfold rx_rational, rx_tail. consume; unfold numeric;
    intros c H; rewrite H, ?orb_true_r; auto.
Qed.

(** * Splitting a string at a character that a pattern cannot consume *)

Lemma split_prefix (P : ascii -> Prop) u r' t r :
  u ++ r' = t ++ r -> Forall P u ->
  match r with c :: _ => ~ P c | [] => True end ->
  exists v, t = u ++ v /\ r' = v ++ r.
Proof.
  revert t; induction u as [|c u IH]; intros t E F H; simpl in *.
  - exists t. auto.
  - inversion F; subst. destruct t as [|d t]; simpl in E.
    + subst r. tauto.
    + injection E as <- E. destruct (IH t E) as [v [-> ->]]; auto. exists v. auto.
Qed.

(** * Numbers *)

(** A rest that cannot extend a number or exponent. *)
Definition stops (s : str) : Prop :=
  match s with
  | c :: _ => numeric c = false /\ is_chr "^" c = false /\ is_base_chr c = false
  | [] => True
  end.

Lemma stops_digit s : stops s -> head_ok is_digit s.
Proof.
  destruct s; simpl; auto. intros [H _]. unfold numeric in H.
  destruct (is_digit a); simpl in H; congruence.
Qed.

Lemma stops_chr c s : stops s -> numeric c = true \/ c = "^"%char -> head_ok (is_chr c) s.
Proof.
  destruct s as [|d s]; simpl; auto. intros [H [H' _]] [Hc|Hc].
  - unfold is_chr. destruct (Ascii.eqb_spec c d); [subst; congruence|auto].
  - subst c. exact H'.
Qed.

Lemma stops_expchar s : stops s -> head_ok is_expchar s.
Proof.
  destruct s; simpl; auto. intros [H _]. unfold numeric in H.
  destruct (is_expchar a); auto. rewrite !orb_true_r in H. congruence.
Qed.

Lemma stops_exponent s : stops s -> rx_exponent s = [].
Proof. intro H. apply none_bind', none_cls, stops_chr; auto. Qed.

Lemma tail_int s : stops s -> first rx_tail s (RDec None None) s.
Proof.
  intro H. apply first_alt_r.
  - apply none_bind', none_cls, stops_chr; auto.
  - eapply first_bind; [apply first_opt_none, none_bind', none_cls, stops_chr; auto|].
    eapply first_bind; [apply first_opt_none, none_bind', none_cls, stops_expchar; auto|].
    apply first_ret.
Qed.

Lemma digit_not_sign c : is_digit c = true -> is_sign c = false.
Proof. by_char c. Qed.

(** The unsigned part of a number text. *)
Lemma rational_unsigned u v t w :
  u <> [] -> forallb is_digit u = true -> head_ok is_digit v ->
  first rx_tail v t w ->
  first rx_rational (u ++ v) (mkRat None u t) w.
Proof.
  intros Hn Hu Hv Ht. unfold rx_rational.
  eapply first_bind.
  { apply first_opt_none, none_cls. destruct u as [|c u]; [congruence|]. simpl in *.
    apply andb_true_iff in Hu as [Hc _]. now apply digit_not_sign. }
  eapply first_bind.
  { apply first_look. destruct u as [|c u]; [congruence|]. simpl in *.
    apply andb_true_iff in Hu as [Hc _]. rewrite Hc. reflexivity. }
  eapply first_bind; [apply first_star; eauto|].
  eapply first_bind; [exact Ht|]. apply first_ret.
Qed.

Lemma rational_signed u v t w :
  u <> [] -> forallb is_digit u = true -> head_ok is_digit v ->
  first rx_tail v t w ->
  first rx_rational ("-"%char :: u ++ v) (mkRat (Some "-"%char) u t) w.
Proof.
  intros Hn Hu Hv Ht. unfold rx_rational.
  eapply first_bind; [apply first_opt, first_cls; reflexivity|].
  eapply first_bind.
  { apply first_look. destruct u as [|c u]; [congruence|]. simpl in *.
    apply andb_true_iff in Hu as [Hc _]. rewrite Hc. reflexivity. }
  eapply first_bind; [apply first_star; eauto|].
  eapply first_bind; [exact Ht|]. apply first_ret.
Qed.

(** Reading back a printed integer numerator. *)
Lemma rational_Z z v t w :
  head_ok is_digit v -> first rx_tail v t w ->
  exists r, first rx_rational (dec_of_Z z ++ v) r w
    /\ r_tail r = t /\ digits_val (r_num r) = Z.abs_N z
    /\ is_minus (r_sign r) = (z <? 0)%Z.
Proof.
  intros Hv Ht. destruct z as [|p|p]; unfold dec_of_Z.
  - destruct (dec_of_N_spec (Z.to_N 0)) as [N1 [D V]]. eexists. split.
    + apply rational_unsigned; eauto.
    + simpl. auto.
  - destruct (dec_of_N_spec (Z.to_N (Zpos p))) as [N1 [D V]]. eexists. split.
    + apply rational_unsigned; eauto.
    + repeat split; auto.
  - destruct (dec_of_N_spec (Npos p)) as [N1 [D V]]. eexists. split.
    + simpl app. apply rational_signed; eauto.
    + repeat split; auto.
Qed.

Lemma signed_abs z : (if (z <? 0)%Z then - Qc_of_N (Z.abs_N z) else Qc_of_N (Z.abs_N z))%Qc = Qc_of_Z z.
Proof.
  unfold Qc_of_N. rewrite N2Z.inj_abs_N. destruct (Z.ltb_spec z 0).
  - rewrite <- Qc_of_Z_opp. f_equal. lia.
  - f_equal. lia.
Qed.

Lemma rational_int z v :
  stops v -> exists r, first rx_rational (dec_of_Z z ++ v) r v /\ rat_value r = Ok (Qc_of_Z z).
Proof.
  intro Hv. destruct (rational_Z z v (RDec None None) v) as [r [H [T [N1 M]]]];
    auto using stops_digit, tail_int.
  exists r. split; auto. unfold rat_value. rewrite T, N1, M. f_equal.
  rewrite <- signed_abs. simpl length.
  assert (Qc_of_N (10 ^ N.of_nat 0) = 1)%Qc as -> by reflexivity.
  assert (Qc_of_N (digits_val []) = 0)%Qc as -> by reflexivity.
  destruct (z <? 0)%Z; field; auto.
Qed.

Lemma rational_frac z d v :
  (0 < d < 10)%N -> stops v ->
  exists r, first rx_rational (dec_of_Z z ++ ["/"%char] ++ dec_of_N d ++ v) r v
    /\ rat_value r = Ok (Qc_of_Z z / Qc_of_N d)%Qc.
Proof.
  intros Hd Hv. rewrite dec_of_N_digit by lia.
  destruct (rational_Z z (["/"%char] ++ [digit_chr d] ++ v) (RDen [digit_chr d]) v)
    as [r [H [T [N1 M]]]].
  - reflexivity.
  - apply first_alt_l. eapply first_bind; [apply first_cls; reflexivity|].
    eapply first_bind; [apply first_plus_lazy, digit_chr_digit; lia|]. apply first_ret.
  - exists r. split; auto. unfold rat_value. rewrite T, N1, M.
    assert (digits_val [digit_chr d] = d) as ->.
    { rewrite digits_val_cons, digit_chr_val by lia. unfold digits_val. simpl. lia. }
    destruct (N.eqb_spec d 0); [lia|]. f_equal.
    rewrite <- signed_abs.
    assert (Qc_of_N d <> 0%Qc) as Nd.
    { unfold Qc_of_N. change 0%Qc with (Qc_of_Z 0). intro E. apply Qc_of_Z_inj in E. lia. }
    destruct (z <? 0)%Z; field; auto.
Qed.

(** Reading back [str(q)] when the denominator has one digit. *)
Lemma rational_Qc q v :
  (Zpos (Qc_den q) < 10)%Z -> stops v ->
  exists r, first rx_rational (dec_of_Qc q ++ v) r v /\ rat_value r = Ok q.
Proof.
  intros Hq Hv. unfold dec_of_Qc. destruct (Qc_is_int q) eqn:I.
  - destruct (rational_int (Qc_num q) v Hv) as [r [H E]]. exists r. split; auto.
    rewrite E. f_equal. symmetry. now apply Qc_int_eq.
  - rewrite <- !app_assoc.
    destruct (rational_frac (Qc_num q) (Npos (Qc_den q)) v) as [r [H E]]; auto; try lia.
    exists r. split; auto. rewrite E. f_equal. symmetry. apply (Qc_frac_eq q).
Qed.

(** * Bases *)

Lemma letter_chr c : letter c -> is_base_chr c = true.
Proof.
  unfold letter, is_base_chr, code. intros [H|[H|[->| ->]]]; auto.
  - replace ((97 <=? N_of_ascii c)%N) with true by (symmetry; apply N.leb_le; lia).
    replace ((N_of_ascii c <=? 122)%N) with true by (symmetry; apply N.leb_le; lia). auto.
  - replace ((65 <=? N_of_ascii c)%N) with true by (symmetry; apply N.leb_le; lia).
    replace ((N_of_ascii c <=? 90)%N) with true by (symmetry; apply N.leb_le; lia).
    rewrite orb_true_r. auto.
Qed.

Lemma digit_digit c : digit c -> is_digit c = true.
Proof.
  unfold digit, is_digit, code. intro H. apply andb_true_iff; split; apply N.leb_le; lia.
Qed.

Lemma digit_not_base c : is_digit c = true -> is_base_chr c = false.
Proof. by_char c. Qed.

Lemma base_not_digit c : is_base_chr c = true -> is_digit c = false.
Proof.
  intro H. destruct (is_digit c) eqn:E; auto. apply digit_not_base in E. congruence.
Qed.

Lemma legal_split b :
  legal_base b ->
  exists l d, b = l ++ d /\ l <> [] /\ forallb is_base_chr l = true /\ forallb is_digit d = true.
Proof.
  intros [l [d [E [N1 [Fl Fd]]]]]. exists l, d. repeat split; auto.
  - apply forallb_forall. intros c I. rewrite Forall_forall in Fl. auto using letter_chr.
  - apply forallb_forall. intros c I. rewrite Forall_forall in Fd. auto using digit_digit.
Qed.

Lemma first_base b v :
  legal_base b -> head_ok is_digit v ->
  match v with c :: _ => is_base_chr c = false | [] => True end ->
  first rx_base (b ++ v) b v.
Proof.
  intros L Hd Hb. destruct (legal_split b L) as [l [d [-> [N1 [Fl Fd]]]]].
  rewrite <- app_assoc. unfold rx_base.
  eapply first_bind; [apply first_plus; auto|].
  - destruct d as [|c d]; simpl in *; auto.
    apply andb_true_iff in Fd as [Fc _]. now apply digit_not_base.
  - eapply first_bind; [apply first_star; auto|]. apply first_ret.
Qed.

Definition heads_base (b : str) : Prop := exists c s, b = c :: s /\ is_base_chr c = true.

Lemma legal_head b : legal_base b -> heads_base b.
Proof.
  intro L. destruct (legal_split b L) as [l [d [-> [N1 [Fl Fd]]]]].
  destruct l as [|c l]; [congruence|]. simpl in *.
  apply andb_true_iff in Fl as [Fc _]. exists c, (l ++ d). auto.
Qed.

Lemma base_not_sign c : is_base_chr c = true -> is_sign c = false.
Proof. by_char c. Qed.

Lemma base_not_chr c d : is_base_chr c = true -> is_base_chr d = false -> is_chr d c = false.
Proof.
  intros H H'. unfold is_chr. destruct (Ascii.eqb_spec d c); auto. subst. congruence.
Qed.

Lemma base_not_space c : is_base_chr c = true -> is_space c = false.
Proof. by_char c. Qed.

Lemma rational_none_base b v : heads_base b -> rx_rational (b ++ v) = [].
Proof.
  intros [c [s [-> H]]]. unfold rx_rational.
  apply none_bind. intros a t I. unfold rx_opt in I. rewrite none_cls in I
    by (apply base_not_sign; auto). destruct I as [I|[]]. injection I as <- <-.
  apply none_bind'. unfold rx_look. cbn [starts_number app]. rewrite base_not_digit by auto.
  rewrite base_not_chr by auto. reflexivity.
Qed.

(** The variable pattern on [b] or [b^e]. *)
Lemma variable_plain b v :
  legal_base b -> stops v -> first rx_variable (b ++ v) (None, b, None) v.
Proof.
  intros L Hv. unfold rx_variable.
  eapply first_bind; [apply first_opt_none, rational_none_base, legal_head, L|].
  eapply first_bind.
  { apply first_base; auto using stops_digit. destruct v; simpl in *; tauto. }
  eapply first_bind; [apply first_opt_none, stops_exponent, Hv|]. apply first_ret.
Qed.

Lemma variable_expo b e v :
  legal_base b -> (Zpos (Qc_den e) < 10)%Z -> stops v ->
  exists r, first rx_variable (b ++ ["^"%char] ++ dec_of_Qc e ++ v) (None, b, Some r) v
            /\ rat_value r = Ok e.
Proof.
  intros L He Hv. destruct (rational_Qc e v He Hv) as [r [H E]]. exists r. split; auto.
  unfold rx_variable.
  eapply first_bind; [apply first_opt_none, rational_none_base, legal_head, L|].
  eapply first_bind; [apply first_base; auto; reflexivity|].
  eapply first_bind; [|apply first_ret]. apply first_opt.
  eapply first_bind; [apply first_cls; reflexivity|exact H].
Qed.

Lemma constant_none_base b v : heads_base b -> rx_constant (b ++ v) = [].
Proof. intro H. apply none_bind'. now apply rational_none_base. Qed.

(** The constant pattern on [str(q)]. *)
Lemma constant_Qc q v :
  (Zpos (Qc_den q) < 10)%Z -> stops v ->
  exists r, first rx_constant (dec_of_Qc q ++ v) (r, None) v /\ rat_value r = Ok q.
Proof.
  intros Hq Hv. destruct (rational_Qc q v Hq Hv) as [r [H E]]. exists r. split; auto.
  eapply first_bind; [exact H|].
  eapply first_bind; [apply first_opt_none, stops_exponent, Hv|]. apply first_ret.
Qed.

Definition no_base (s : str) : Prop := Forall (fun c => is_base_chr c = false) s.

Lemma digits_no_base s : forallb is_digit s = true -> no_base s.
Proof.
  intro H. apply Forall_forall. intros c I.
  rewrite forallb_forall in H. auto using digit_not_base.
Qed.

Lemma dec_Z_no_base z : no_base (dec_of_Z z).
Proof.
  destruct z; simpl; try constructor; try apply digits_no_base; try apply dec_of_N_spec;
    reflexivity.
Qed.

Lemma dec_Qc_no_base q : no_base (dec_of_Qc q).
Proof.
  unfold dec_of_Qc. destruct (Qc_is_int q); [apply dec_Z_no_base|].
  apply Forall_app; split; [apply dec_Z_no_base|]. constructor; [reflexivity|].
  apply digits_no_base, dec_of_N_spec.
Qed.

(** No variable starts at a number that is followed by a stop. *)
Lemma variable_none_number t v : no_base t -> stops v -> rx_variable (t ++ v) = [].
Proof.
  intros Ht Hv. unfold rx_variable. apply none_bind. intros a w I. apply none_bind'.
  assert (exists x, w = x ++ v /\ exists u, t = u ++ x) as [x [-> [u ->]]].
  { assert (consumes (rx_opt rx_rational) (fun c => numeric c = true)) as C
      by apply consumes_opt, rational_consumes.
    apply C in I as [u [E F]]. symmetry in E.
    destruct (split_prefix _ _ _ _ _ E F) as [x [-> ->]]; eauto.
    destruct v as [|c v]; auto. destruct Hv as [Hv _]. congruence. }
  apply none_bind', none_bind', none_cls.
  apply Forall_app in Ht as [_ Ht]. destruct x as [|c x]; simpl.
  - destruct v as [|c v]; simpl in *; tauto.
  - now inversion Ht.
Qed.
