(** Proofs about numerals in expressions. *)

From Coq Require Import String Ascii List Bool ZArith NArith QArith Qcanon Qpower Lia.
From Verif Require Import Py PyFacts SymbolicModel SymbolicSpec SymbolicReduceProofs SymbolicRx.
From Verif Require Import SymbolicParseProofs SymbolicChainProofs SymbolicExprProofs DecimalSpec.
Import ListNotations.
Open Scope list_scope.
Open Scope nat_scope.
Open Scope py_scope.

(** * Characters *)

Lemma digits_all d : Forall digit d -> forallb is_digit d = true.
Proof. intro H. apply forallb_forall. rewrite Forall_forall in H. auto using digit_digit. Qed.

Lemma all_digits d : forallb is_digit d = true -> Forall digit d.
Proof.
  intro H. apply Forall_forall. intros c I. rewrite forallb_forall in H. apply H in I.
  unfold is_digit, code in I. apply andb_true_iff in I as [A B]. apply N.leb_le in A, B. split; lia.
Qed.

Lemma number_val d : Forall digit d -> number d = Z.of_N (digits_val d).
Proof.
  assert (forall acc, Forall digit d ->
    fold_left (fun z c => (10 * z + (Z.of_N (N_of_ascii c) - 48))%Z) d (Z.of_N acc)
    = Z.of_N (fold_left (fun a c => (10 * a + (code c - 48))%N) d acc)) as H.
  { induction d as [|c d IH]; intros acc H; auto. inversion H as [|? ? Hc Hd]; subst. cbn [fold_left].
    rewrite <- IH by auto. f_equal. unfold digit in Hc. unfold code. lia. }
  intro D. unfold number. change 0%Z with (Z.of_N 0). rewrite H by auto. reflexivity.
Qed.

(** * The value of a numeral *)

Definition rat_power (x : option (ascii * option ascii * str)) : option (option ascii * str) :=
  match x with Some (_, s, d) => Some (s, d) | None => None end.
Definition rat_of (n : numeral) : rat :=
  mkRat (n_sign n) (n_whole n) (RDec (n_part n) (rat_power (n_power n))).

Lemma digits_val_app u v :
  digits_val (u ++ v) = (digits_val u * 10 ^ N.of_nat (length v) + digits_val v)%N.
Proof.
  induction u as [|c u IH]; [reflexivity|]. cbn [app]. rewrite !digits_val_cons, IH, app_length.
  rewrite Nat2N.inj_add, N.pow_add_r. lia.
Qed.

Lemma minus_sign o : a_sign o -> (if is_minus o then -1 else 1)%Z = sign_of o.
Proof. intros [->|[->| ->]]; reflexivity. Qed.

Lemma ten_pow n : this (Qc_of_N (10 ^ n)) == (10 # 1) ^ (Z.of_N n).
Proof.
  unfold Qc_of_N, Qc_of_Z. cbn [this Q2Qc]. rewrite Qred_correct, N2Z.inj_pow.
  rewrite (Zpower_Qpower 10 (Z.of_N n)) by lia. reflexivity.
Qed.

Lemma ten_not_0 z : ~ (10 # 1) ^ z == 0.
Proof. apply Qpower_not_0. discriminate. Qed.

Lemma numeral_rat n : legal_numeral n -> rat_value (rat_of n) = Ok (numeral_value n).
Proof.
  intros [Hs [Hw [Hp [_ Hx]]]]. unfold rat_value, rat_of. cbn [r_tail r_num r_sign].
  f_equal. unfold numeral_value.
  set (w := n_whole n) in *.
  assert (match n_part n with Some fs => fs | None => [] end = part_of n) as -> by reflexivity.
  set (p := part_of n) in *.
  rewrite number_val by (apply Forall_app; auto). rewrite digits_val_app.
  set (sc := match rat_power (n_power n) with None => 1%Qc | Some (sg, d) => _ end).
  assert (this sc == (10 # 1) ^ power_of n) as Esc.
  { unfold sc, power_of. destruct (n_power n) as [[[c s] d]|] eqn:E; cbn [rat_power].
    - destruct (Hx _ _ _ eq_refl) as [_ [As [_ Hd]]]. rewrite number_val by auto.
      rewrite <- (minus_sign s As). destruct (is_minus s).
      + replace (-1 * Z.of_N (digits_val d))%Z with (- Z.of_N (digits_val d))%Z by lia.
        rewrite Qpower_opp, <- ten_pow. unfold Qcinv. cbn [this Q2Qc]. now rewrite Qred_correct.
      + rewrite Z.mul_1_l. apply ten_pow.
    - reflexivity. }
  rewrite <- (minus_sign (n_sign n) Hs).
  assert (forall q, (if is_minus (n_sign n) then (- q)%Qc else q)
          = (Qc_of_Z (if is_minus (n_sign n) then -1 else 1) * q)%Qc) as ->.
  { intro q. destruct (is_minus (n_sign n)).
    - change (Qc_of_Z (-1)) with (- (1))%Qc. ring.
    - change (Qc_of_Z 1) with 1%Qc. ring. }
  set (sg := (if is_minus (n_sign n) then -1 else 1)%Z).
  apply Qc_is_canon. unfold Qcmult, Qcplus, Qcdiv, Qcinv. cbn [this Q2Qc]. rewrite ?Qred_correct, Esc.
  unfold Qcmult. cbn [this Q2Qc]. rewrite ?Qred_correct, ten_pow.
  unfold Qc_of_N at 1 2, Qc_of_Z. cbn [this Q2Qc]. rewrite !Qred_correct.
  replace (Z.of_N (N.of_nat (length p))) with (Z.of_nat (length p)) by lia.
  assert ((10 # 1) ^ (power_of n - Z.of_nat (length p))
          == (10 # 1) ^ power_of n / (10 # 1) ^ Z.of_nat (length p)) as ->.
  { unfold Qdiv. rewrite <- Qpower_opp. unfold Z.sub. apply Qpower_plus. discriminate. }
  rewrite inject_Z_mult, N2Z.inj_add, N2Z.inj_mul, N2Z.inj_pow, nat_N_Z, inject_Z_plus, inject_Z_mult.
  rewrite (Zpower_Qpower (Z.of_N 10) (Z.of_nat (length p))) by lia. change (inject_Z (Z.of_N 10)) with (10 # 1).
  field. apply ten_not_0.
Qed.

(** * Reading a numeral *)

(** What may follow a number or a base: nothing, or a character that cannot
    continue it; a stroke must not be followed by a digit. *)
Definition calm (v : str) : Prop :=
  stops v \/ exists w, v = "/"%char :: w /\ head_ok is_digit w.

Lemma calm_head (p : ascii -> bool) v :
  calm v -> (stops v -> head_ok p v) -> p "/"%char = false -> head_ok p v.
Proof. intros [H|[w [-> _]]] Hs Hp; auto. Qed.

Lemma stops_sign r : stops r -> head_ok is_sign r.
Proof.
  destruct r as [|c r]; cbn; auto. intros [H _]. unfold numeric in H.
  destruct (is_sign c); auto. rewrite !orb_true_r in H. discriminate.
Qed.

Lemma stops_base r : stops r -> head_ok is_base_chr r.
Proof. destruct r; cbn; tauto. Qed.

Lemma calm_digit v : calm v -> head_ok is_digit v.
Proof. intro H. apply calm_head; auto using stops_digit. Qed.
Lemma calm_expchar v : calm v -> head_ok is_expchar v.
Proof. intro H. apply calm_head; auto using stops_expchar. Qed.
Lemma calm_sign v : calm v -> head_ok is_sign v.
Proof. intro H. apply calm_head; auto using stops_sign. Qed.
Lemma calm_base v : calm v -> head_ok is_base_chr v.
Proof. intro H. apply calm_head; auto using stops_base. Qed.
Lemma calm_dot v : calm v -> head_ok (is_chr ".") v.
Proof. intro H. apply calm_head; auto. intro. apply stops_chr; auto. Qed.
Lemma calm_exponent v : calm v -> rx_exponent v = [].
Proof. intro H. apply none_bind', none_cls, calm_head; auto. intro. apply stops_chr; auto. Qed.

(** The text cannot be read as a denominator. *)
Definition no_slash (v : str) : Prop :=
  rx_bind (rx_cls (is_chr "/")) (fun _ => rx_bind (rx_plus_lazy is_digit) (fun d => rx_ret (RDen d))) v = [].

Lemma calm_slash v : calm v -> no_slash v.
Proof.
  intros [H|[w [-> H]]].
  - apply none_bind', none_cls, stops_chr; auto.
  - apply none_bind. intros a t I. cbn in I. destruct I as [I|[]]. injection I as _ <-.
    now apply none_bind', none_bind', none_cls.
Qed.

Lemma head_no_slash v : head_ok (is_chr "/") v -> no_slash v.
Proof. intro H. now apply none_bind', none_cls. Qed.

(** The text cannot be read as a power of ten. *)
Definition no_power (v : str) : Prop :=
  rx_bind (rx_cls is_expchar) (fun _ =>
  rx_bind (rx_opt (rx_cls is_sign)) (fun sg =>
  rx_bind (rx_plus is_digit) (fun d => rx_ret (sg, d)))) v = [].

Lemma sign_chr o c : a_sign o -> o = Some c -> is_sign c = true /\ is_digit c = false.
Proof. intros [->|[->| ->]] E; try discriminate; injection E as <-; split; reflexivity. Qed.

Lemma digit_head d v (p : ascii -> bool) :
  d <> [] -> forallb is_digit d = true -> (forall c, is_digit c = true -> p c = false) -> head_ok p (d ++ v).
Proof.
  intros N1 D H. destruct d as [|c d]; [congruence|]. simpl in *. apply andb_true_iff in D as [D _]. auto.
Qed.

Lemma power_first c s d v :
  (c = "e"%char \/ c = "E"%char) -> a_sign s -> d <> [] -> Forall digit d -> head_ok is_digit v ->
  first (rx_bind (rx_cls is_expchar) (fun _ =>
         rx_bind (rx_opt (rx_cls is_sign)) (fun sg =>
         rx_bind (rx_plus is_digit) (fun d => rx_ret (sg, d))))) (power_text (Some (c, s, d)) ++ v) (s, d) v.
Proof.
  intros Hc Hs Nd Hd Hv. apply digits_all in Hd. cbn [power_text app].
  eapply first_bind; [apply first_cls; destruct Hc as [->| ->]; reflexivity|].
  rewrite <- app_assoc. eapply first_bind with (a := s) (t := d ++ v).
  - destruct s as [k|].
    + apply first_opt. cbn [opt_text app]. apply first_cls. now apply (sign_chr (Some k)).
    + apply first_opt_none, none_cls. cbn [opt_text app]. apply digit_head; auto using digit_not_sign.
  - eapply first_bind; [now apply first_plus|apply first_ret].
Qed.

(** What may follow a numeral. *)
Definition after (n : numeral) (v : str) : Prop :=
  head_ok is_digit v
  /\ (n_power n = None -> no_power v /\ no_slash v /\ head_ok (is_chr ".") v).

Lemma power_head c s d v (p : ascii -> bool) :
  (c = "e"%char \/ c = "E"%char) -> p "e"%char = false -> p "E"%char = false ->
  head_ok p (power_text (Some (c, s, d)) ++ v).
Proof. intros [->| ->] He HE; cbn; auto. Qed.

Lemma tail_numeral n v :
  legal_numeral n -> after n v ->
  head_ok is_digit (part_text (n_part n) ++ power_text (n_power n) ++ v)
  /\ first rx_tail (part_text (n_part n) ++ power_text (n_power n) ++ v)
       (RDec (n_part n) (rat_power (n_power n))) v.
Proof.
  intros [_ [_ [Hp [_ Hx]]]] [Dv Av].
  assert (forall p : ascii -> bool, p "e"%char = false -> p "E"%char = false ->
    (n_power n = None -> head_ok p v) -> head_ok p (power_text (n_power n) ++ v)) as H.
  { intros p He HE Hv. destruct (n_power n) as [[[c s] d]|] eqn:E; [|now apply Hv].
    destruct (Hx _ _ _ eq_refl) as [Hc _]. now apply power_head. }
  assert (first (rx_opt (rx_bind (rx_cls is_expchar) (fun _ =>
                 rx_bind (rx_opt (rx_cls is_sign)) (fun sg =>
                 rx_bind (rx_plus is_digit) (fun d => rx_ret (sg, d))))))
          (power_text (n_power n) ++ v) (rat_power (n_power n)) v) as P.
  { destruct (n_power n) as [[[c s] d]|] eqn:E.
    - destruct (Hx _ _ _ eq_refl) as [Hc [Hs [Nd Hd]]]. apply first_opt. now apply power_first.
    - apply first_opt_none. now apply Av. }
  unfold part_of in Hp. destruct (n_part n) as [f|] eqn:Ef; cbn [part_text app].
  - split; [reflexivity|]. apply first_alt_r; [apply none_bind', none_cls; reflexivity|].
    eapply first_bind with (a := Some f).
    { apply first_opt. eapply first_bind; [apply first_cls; reflexivity|].
      apply first_star; [now apply digits_all|]. apply H; auto. }
    eapply first_bind; [exact P|apply first_ret].
  - split; [apply H; auto|]. apply first_alt_r.
    + destruct (n_power n) as [[[c s] d]|] eqn:E; [|now apply Av].
      apply none_bind', none_cls, H; auto. discriminate.
    + eapply first_bind with (a := None).
      { apply first_opt_none, none_bind', none_cls, H; auto. intro E. now apply Av. }
      eapply first_bind; [exact P|apply first_ret].
Qed.

Lemma numeral_app n v :
  numeral_text n ++ v
  = opt_text (n_sign n) ++ n_whole n ++ part_text (n_part n) ++ power_text (n_power n) ++ v.
Proof. unfold numeral_text. now rewrite !app_assoc. Qed.

Lemma starts_digits n v :
  legal_numeral n -> starts_number (n_whole n ++ part_text (n_part n) ++ v) = true.
Proof.
  intros [_ [Hw [Hp [N1 _]]]]. apply digits_all in Hw, Hp. destruct (n_whole n) as [|c w].
  - unfold part_of in *. destruct (n_part n) as [[|c f]|]; try (destruct N1; congruence).
    cbn in *. apply andb_true_iff in Hp as [-> _]. reflexivity.
  - cbn in *. apply andb_true_iff in Hw as [-> _]. reflexivity.
Qed.

Lemma unsigned_head n v :
  legal_numeral n -> head_ok is_sign (n_whole n ++ part_text (n_part n) ++ v).
Proof.
  intros [_ [Hw [Hp [N1 _]]]]. apply digits_all in Hw. destruct (n_whole n) as [|c w].
  - unfold part_of in *. destruct (n_part n) as [f|]; [reflexivity|destruct N1; congruence].
  - cbn in *. apply andb_true_iff in Hw as [Hc _]. now apply digit_not_sign.
Qed.

Lemma numeral_first n v :
  legal_numeral n -> after n v -> first rx_rational (numeral_text n ++ v) (rat_of n) v.
Proof.
  intros L A. destruct (tail_numeral n v L A) as [D T]. rewrite numeral_app. unfold rx_rational.
  eapply first_bind with (a := n_sign n).
  { destruct L as [Hs L']. destruct (n_sign n) as [k|] eqn:E; cbn [opt_text app].
    - apply first_opt, first_cls. now apply (sign_chr (Some k)).
    - apply first_opt_none, none_cls. apply unsigned_head. split; [now rewrite E|exact L']. }
  eapply first_bind; [apply first_look; now apply starts_digits|].
  eapply first_bind; [apply first_star; [apply digits_all, L|exact D]|].
  eapply first_bind; [exact T|]. apply first_ret.
Qed.

Lemma stops_after n v : calm v -> after n v.
Proof.
  intro H. split; [now apply calm_digit|]. intros _. split; [|split; auto using calm_slash, calm_dot].
  apply none_bind', none_cls, calm_expchar, H.
Qed.

(** * A number alone *)

(** [r] tried on [s] yields value [a] and rest [t] after matches whose rests
    are not bases. *)
Definition later {A} (r : rx A) (s : str) (a : A) (t : str) : Prop :=
  exists l1 l2, r s = l1 ++ (a, t) :: l2 /\ forall x u, In (x, u) l1 -> head_ok is_base_chr u.

Lemma later_bind {A B} (m : rx A) (f : A -> rx B) s a t b u :
  first m s a t -> later (f a) t b u -> later (rx_bind m f) s b u.
Proof.
  intros [tl E] [l1 [l2 [E' H]]]. unfold later, rx_bind. rewrite E. cbn [flat_map fst snd]. rewrite E'.
  exists l1. eexists. split; [rewrite <- app_assoc; reflexivity|exact H].
Qed.

Lemma later_ret {A B} (m : rx A) (g : A -> B) s a t :
  later m s a t -> later (rx_bind m (fun x => rx_ret (g x))) s (g a) t.
Proof.
  intros [l1 [l2 [E H]]]. unfold later, rx_bind, rx_ret. rewrite E, flat_map_app.
  exists (flat_map (fun p => [(g (fst p), snd p)]) l1). eexists. split; [reflexivity|].
  intros x u I. apply in_flat_map in I as [[y w] [I [J|[]]]]. injection J as _ <-. eauto.
Qed.

Lemma later_opt {A} (m : rx A) s a t : later m s a t -> later (rx_opt m) s (Some a) t.
Proof.
  intros [l1 [l2 [E H]]]. unfold later, rx_opt. rewrite E, map_app. cbn [map fst snd].
  exists (map (fun p => (Some (fst p), snd p)) l1). eexists. rewrite <- app_assoc. split; [reflexivity|].
  intros x u I. apply in_map_iff in I as [[y w] [J I]]. injection J as _ <-. eauto.
Qed.

Lemma later_opt_none {A} (m : rx A) s :
  (forall x u, In (x, u) (m s) -> head_ok is_base_chr u) -> later (rx_opt m) s None s.
Proof.
  intro H. exists (map (fun p => (Some (fst p), snd p)) (m s)), []. split; [reflexivity|].
  intros x u I. apply in_map_iff in I as [[y w] [J I]]. injection J as _ <-. eauto.
Qed.

Lemma later_alt {A} (m n : rx A) s a t : m s = [] -> later n s a t -> later (rx_alt m n) s a t.
Proof. intros E H. unfold later, rx_alt. now rewrite E. Qed.

(** Once the earlier matches fail, the next pattern decides. *)
Lemma first_later {A B} (m : rx A) (f : A -> rx B) s a t b u :
  later m s a t -> (forall x w, head_ok is_base_chr w -> f x w = []) ->
  first (f a) t b u -> first (rx_bind m f) s b u.
Proof.
  intros [l1 [l2 [E H]]] N [tl E']. unfold first, rx_bind. rewrite E, flat_map_app.
  assert (flat_map (fun p => f (fst p) (snd p)) l1 = []) as ->.
  { clear E. induction l1 as [|[x w] l1 IH]; auto. cbn [flat_map fst snd]. rewrite N, IH; auto.
    - intros y z I. apply (H y). right. exact I.
    - apply (H x). left. reflexivity. }
  cbn [app flat_map fst snd]. rewrite E'. cbn. eauto.
Qed.

(** The power of ten read as a base. *)
Lemma power_base c d : (c = "e"%char \/ c = "E"%char) -> Forall digit d -> legal_base (c :: d).
Proof.
  intros Hc Hd. exists [c], d. split; [reflexivity|]. split; [discriminate|]. split; auto.
  constructor; [|constructor]. destruct Hc as [->| ->]; unfold letter; cbn; lia.
Qed.

Lemma digits_rest d r x u :
  Forall digit d -> calm r -> In (x, u) (rx_plus is_digit (d ++ r)) -> head_ok is_base_chr u.
Proof.
  intros Hd Hr I.
  assert (consumes (rx_plus is_digit) (fun c => is_digit c = true)) as C by (apply consumes_plus; auto).
  apply C in I as [w [E Fw]]. symmetry in E.
  destruct (split_prefix _ _ _ _ _ E Fw) as [y [-> ->]].
  { apply calm_digit in Hr. destruct r; cbn in *; auto. congruence. }
  apply Forall_app in Hd as [_ Hd]. destruct y as [|k y]; cbn.
  - now apply calm_base.
  - inversion Hd; subst. now apply digit_not_base, digit_digit.
Qed.

Lemma rational_later n c s d r :
  legal_numeral n -> n_power n = Some (c, s, d) -> calm r ->
  later rx_rational (numeral_text n ++ r)
    (mkRat (n_sign n) (n_whole n) (RDec (n_part n) None)) (c :: opt_text s ++ d ++ r).
Proof.
  intros L E Hr. assert (L' := L). destruct L' as [Hs [Hw [Hp [_ Hx]]]].
  destruct (Hx _ _ _ E) as [Hc [Hsg [Nd Hd]]].
  rewrite numeral_app, E. cbn [power_text app]. rewrite <- (app_assoc (opt_text s)).
  assert (is_chr "/" c = false /\ is_chr "." c = false /\ is_digit c = false /\ is_expchar c = true) as [C1 [C2 [C3 C4]]]
    by (destruct Hc as [->| ->]; repeat split; reflexivity).
  unfold rx_rational.
  eapply later_bind with (a := n_sign n).
  { destruct (n_sign n) as [k|] eqn:Es; cbn [opt_text app].
    - apply first_opt, first_cls. now apply (sign_chr (Some k)).
    - apply first_opt_none, none_cls. now apply unsigned_head. }
  eapply later_bind; [apply first_look; now apply starts_digits|].
  eapply later_bind.
  { apply first_star; [now apply digits_all|]. destruct (n_part n); cbn; auto. }
  apply (later_ret rx_tail (fun t => mkRat (n_sign n) (n_whole n) t)).
  unfold rx_tail. apply later_alt.
  { apply none_bind', none_cls. destruct (n_part n); cbn; auto. }
  eapply later_bind with (a := n_part n) (t := c :: opt_text s ++ d ++ r).
  { unfold part_of in Hp. destruct (n_part n) as [f|]; cbn [part_text app].
    - apply first_opt. eapply first_bind; [apply first_cls; reflexivity|].
      apply first_star; [now apply digits_all|exact C3].
    - apply first_opt_none, none_bind', none_cls. exact C2. }
  apply (later_ret _ (fun x => RDec (n_part n) x)). apply later_opt_none.
  intros x u I. apply In_bind in I as [k [t [I J]]]. unfold rx_cls in I. rewrite C4 in I.
  destruct I as [I|[]]. injection I as _ <-.
  apply In_bind in J as [sg [t [J K]]].
  apply In_bind in K as [z [t' [K M]]]. destruct M as [M|[]]. injection M as _ <-.
  assert (t = d ++ r \/ exists k s', s = Some k /\ t = k :: s') as [->|[k' [s' [-> ->]]]].
  { unfold rx_opt in J. destruct s as [k'|]; cbn [opt_text app] in J.
    - unfold rx_cls in J. destruct (is_sign k'); cbn in J; destruct J as [J|J]; [|destruct J as [J|[]]|
        |destruct J]; injection J as _ <-; eauto.
    - rewrite none_cls in J by (apply digit_head; auto using digit_not_sign, digits_all).
      destruct J as [J|[]]. injection J as _ <-. auto. }
  - eapply digits_rest; eauto.
  - exfalso. rewrite none_plus in K; [destruct K|]. cbn. now apply (sign_chr (Some k')).
Qed.

Lemma sign_stop k u : a_sign (Some k) -> head_ok is_digit (k :: u) /\ head_ok is_base_chr (k :: u) /\ head_ok (is_chr "^") (k :: u).
Proof. intros [E|[E|E]]; try discriminate; injection E as ->; repeat split. Qed.

Lemma variable_later n c s d r :
  legal_numeral n -> n_power n = Some (c, s, d) -> calm r ->
  let m := mkRat (n_sign n) (n_whole n) (RDec (n_part n) None) in
  match s with
  | None => first rx_variable (numeral_text n ++ r) (Some m, c :: d, None) r
  | Some k => first rx_variable (numeral_text n ++ r) (Some m, [c], None) (k :: d ++ r)
  end.
Proof.
  intros L E Hr m. assert (L' := L). destruct L' as [_ [_ [_ [_ Hx]]]]. destruct (Hx _ _ _ E) as [Hc [Hsg [_ Hd]]].
  assert (forall x w, head_ok is_base_chr w ->
    rx_bind rx_base (fun b => rx_bind (rx_opt rx_exponent) (fun e => rx_ret ((x : option rat), b, e))) w = []) as NB.
  { intros x w H. now apply none_bind', none_bind', none_plus. }
  destruct s as [k|].
  - destruct (sign_stop k (d ++ r) Hsg) as [S1 [S2 S3]].
    unfold rx_variable. eapply first_later; [apply later_opt, rational_later; eauto|exact NB|]. cbn [opt_text app].
    eapply first_bind.
    { change (c :: k :: d ++ r) with ([c] ++ (k :: d ++ r)). apply first_base; auto.
      apply power_base; auto. }
    eapply first_bind; [apply first_opt_none, none_bind', none_cls; exact S3|apply first_ret].
  - unfold rx_variable. eapply first_later; [apply later_opt, rational_later; eauto|exact NB|]. cbn [opt_text app].
    eapply first_bind.
    { change (c :: d ++ r) with ((c :: d) ++ r). apply first_base; auto using calm_digit.
      - apply power_base; auto.
      - now apply calm_base. }
    eapply first_bind; [apply first_opt_none, calm_exponent, Hr|apply first_ret].
Qed.

Lemma variable_power n c d r :
  legal_numeral n -> n_power n = Some (c, None, d) -> calm r ->
  exists m, rx_run Match rx_variable (numeral_text n ++ r) = Some (m, r).
Proof. intros L E Hr. eexists. apply first_run. apply (variable_later n c None d r L E Hr). Qed.

Lemma numeral_no_base n : legal_numeral n -> n_power n = None -> no_base (numeral_text n).
Proof.
  intros [Hs [Hw [Hp _]]] E. unfold numeral_text. rewrite E, app_nil_r. apply Forall_app. split.
  - destruct Hs as [->|[->| ->]]; repeat constructor.
  - apply Forall_app. split; [now apply digits_no_base, digits_all|].
    unfold part_of in Hp. destruct (n_part n); cbn; constructor; [reflexivity|]. now apply digits_no_base, digits_all.
Qed.

(** What a number consumes: a stroke is followed by digits. *)
Lemma rational_stroke s x u :
  In (x, u) (rx_rational s) ->
  (exists w, s = w ++ u /\ ~ In "/"%char w)
  \/ exists w c d, s = w ++ "/"%char :: c :: d ++ u /\ is_digit c = true /\ ~ In "/"%char w /\ Forall (fun k => is_digit k = true) d.
Proof.
  assert (forall (A : Type) (r : rx A) z y t, consumes r (fun c => c <> "/"%char) -> In (y, t) (r z) ->
            exists w, z = w ++ t /\ ~ In "/"%char w) as C.
  { intros A r z y t H I. apply H in I as [w [-> Fw]]. exists w. split; auto. intro J. rewrite Forall_forall in Fw.
    now apply Fw in J. }
  assert (forall c, is_digit c = true -> c <> "/"%char) as D by (intros c H ->; discriminate H).
  assert (forall c, is_sign c = true -> c <> "/"%char) as S by (intros c H ->; discriminate H).
  assert (forall c, is_expchar c = true -> c <> "/"%char) as X by (intros c H ->; discriminate H).
  assert (forall c, is_chr "." c = true -> c <> "/"%char) as P by (intros c H ->; discriminate H).
  intro I. unfold rx_rational in I.
  apply In_bind in I as [sg [t1 [I1 I]]]. apply (C _ (rx_opt (rx_cls is_sign))) in I1 as [w1 [-> N1]]; [|consume; auto].
  apply In_bind in I as [[] [t2 [I2 I]]]. unfold rx_look in I2. destruct (starts_number t1); [|destruct I2].
  destruct I2 as [I2|[]]. injection I2 as <-.
  apply In_bind in I as [n [t3 [I3 I]]]. apply (C _ (rx_star is_digit)) in I3 as [w3 [-> N3]]; [|consume; auto].
  apply In_bind in I as [tl [t4 [I4 I]]]. destruct I as [I|[]]. injection I as _ <-.
  unfold rx_tail in I4. apply in_app_or in I4 as [I4|I4].
  - right. apply In_bind in I4 as [c [t5 [I5 I4]]]. destruct t3 as [|c' t3]; [destruct I5|]. unfold rx_cls in I5.
    destruct (is_chr "/" c') eqn:E; [|destruct I5]. destruct I5 as [I5|[]]. injection I5 as <- <-.
    apply Ascii.eqb_eq in E as <-.
    apply In_bind in I4 as [d [t6 [I6 I4]]]. destruct I4 as [I4|[]]. injection I4 as _ <-.
    unfold rx_plus_lazy in I6. apply In_bind in I6 as [c [t7 [I7 I6]]]. destruct t3 as [|c' t3]; [destruct I7|]. unfold rx_cls in I7.
    destruct (is_digit c') eqn:E; [|destruct I7]. destruct I7 as [I7|[]]. injection I7 as <- <-.
    apply In_bind in I6 as [d' [t8 [I8 I6]]]. destruct I6 as [I6|[]]. injection I6 as _ <-.
    apply (consumes_star_lazy is_digit (fun k => is_digit k = true)) in I8 as [w8 [-> F8]]; auto.
    exists (w1 ++ w3), c', w8. rewrite <- app_assoc. split; auto. split; auto. split; auto. intro J. apply in_app_or in J as [J|J]; auto.
  - left. apply (C _ (rx_bind (rx_opt (rx_bind (rx_cls (is_chr ".")) (fun _ => rx_star is_digit))) _)) in I4 as [w4 [-> N4]].
    + exists (w1 ++ w3 ++ w4). rewrite <- !app_assoc. split; auto. intro J. apply in_app_or in J as [J|J]; auto.
      apply in_app_or in J as [J|J]; auto.
    + consume; auto.
Qed.

Lemma no_stroke n : legal_numeral n -> ~ In "/"%char (numeral_text n).
Proof.
  intros [Hs [Hw [Hp [_ Hx]]]] I.
  assert (forall d, Forall digit d -> ~ In "/"%char d) as D.
  { intros d H J. rewrite Forall_forall in H. apply H in J. unfold digit in J. cbn in J. lia. }
  assert (forall o, a_sign o -> ~ In "/"%char (opt_text o)) as S.
  { intros o [->|[->| ->]] J; cbn in J; intuition congruence. }
  unfold numeral_text in I. unfold part_of in Hp.
  apply in_app_or in I as [I|I]; [now apply S in I|]. apply in_app_or in I as [I|I]; [now apply D in I|].
  apply in_app_or in I as [I|I].
  - destruct (n_part n) as [f|]; cbn in I; [|tauto]. destruct I as [I|I]; [discriminate|now apply D in I].
  - destruct (n_power n) as [[[c s] d]|]; cbn [power_text] in I; [|destruct I].
    destruct (Hx _ _ _ eq_refl) as [Hc [Hsg [_ Hd]]]. destruct I as [I|I].
    + destruct Hc; congruence.
    + apply in_app_or in I as [I|I]; [now apply S in I|now apply D in I].
Qed.

Lemma app_mid (a b c d : str) k : a ++ k :: b = c ++ d -> ~ In k c -> exists e, a = c ++ e /\ d = e ++ k :: b.
Proof.
  revert c; induction a as [|x a IH]; intros c E N1; destruct c as [|y c]; cbn in *.
  - exists []. auto.
  - injection E as -> E. exfalso. apply N1. auto.
  - exists (x :: a). auto.
  - injection E as -> E. destruct (IH c E) as [e [-> ->]]; eauto.
Qed.

(** No variable starts at a number without power. *)
Lemma variable_none_calm n r :
  legal_numeral n -> n_power n = None -> calm r -> rx_variable (numeral_text n ++ r) = [].
Proof.
  intros L E [Hr|[v [-> Hv]]]; [apply variable_none_number; auto using numeral_no_base|].
  assert (NB := numeral_no_base n L E). assert (NS := no_stroke n L).
  unfold rx_variable. apply none_bind. intros a u I. apply none_bind', none_bind', none_plus.
  unfold rx_opt in I. apply in_app_or in I as [I|I].
  - apply in_map_iff in I as [[x u'] [J I]]. injection J as _ <-. cbn [snd].
    apply rational_stroke in I as [[w [Ew Nw]]|[w [c [d [Ew [Hc [Nw _]]]]]]].
    + destruct (app_mid _ _ _ _ _ Ew Nw) as [e [Ee ->]]. rewrite Ee in NB. apply Forall_app in NB as [_ NB].
      destruct e as [|k e]; [reflexivity|]. now inversion NB.
    + exfalso. symmetry in Ew. destruct (app_mid _ _ _ _ _ Ew NS) as [e [-> Ee]].
      destruct e as [|k e]; cbn in Ee; [injection Ee as E2|injection Ee as E1 E2].
      * subst v. cbn in Hv. congruence.
      * subst k. apply Nw, in_or_app. right. left. reflexivity.
  - destruct I as [I|[]]. injection I as _ <-. destruct (numeral_text n) as [|k t] eqn:Et; [reflexivity|].
    now inversion NB.
Qed.

Lemma simplex_numeral F n r :
  legal_numeral n -> unsigned_power n -> calm r ->
  match_simplex F Match (numeral_text n ++ r)
  = Ok (Some (init (fl F (numeral_value n)) [] 1, r)).
Proof.
  intros L U Hr. unfold match_simplex.
  assert (first rx_constant (numeral_text n ++ r) (rat_of n, None) r) as C.
  { eapply first_bind; [apply numeral_first; auto using stops_after|].
    eapply first_bind; [apply first_opt_none, calm_exponent, Hr|apply first_ret]. }
  rewrite (first_run _ _ _ _ C).
  assert (with_rest (build_constant F (rat_of n, None)) r
          = Ok (Some (init (fl F (numeral_value n)) [] 1, r))) as B.
  { unfold build_constant. rewrite numeral_rat by auto. cbn [bind std]. unfold frac_pow.
    change (Qc_is_int 1) with true. cbv iota. change (Qc_ltb 1 0) with false. rewrite andb_false_r.
    change (Qc_num 1) with 1%Z. rewrite Qc_zpow_1_r. reflexivity. }
  destruct (n_power n) as [[[c s] d]|] eqn:E.
  - assert (s = None) as -> by eauto. destruct (variable_power n c d r L E Hr) as [m ->].
    now rewrite Nat.eqb_refl.
  - rewrite none_run; [exact B|]. now apply variable_none_calm.
Qed.

(** The first and last characters of a numeral. *)
Definition numeral_chr (c : ascii) : Prop := is_sign c = true \/ is_digit c = true \/ c = "."%char \/ is_expchar c = true.

Lemma chr_facts c : numeral_chr c -> is_space c = false /\ is_chr "*" c = false /\ is_chr "/" c = false /\ c <> "s"%char.
Proof. unfold numeral_chr. destruct c as [[] [] [] [] [] [] [] []]; vm_compute; intros; repeat split; intuition congruence. Qed.

Lemma numeral_chrs n : legal_numeral n -> Forall numeral_chr (numeral_text n) /\ numeral_text n <> [].
Proof.
  intros [Hs [Hw [Hp [N1 Hx]]]].
  assert (forall d, Forall digit d -> Forall numeral_chr d) as D.
  { intros d H. eapply Forall_impl; [|exact H]. intros c Hc. right; left. now apply digit_digit. }
  assert (forall o, a_sign o -> Forall numeral_chr (opt_text o)) as S.
  { intros o [->|[->| ->]]; repeat constructor. }
  unfold part_of in *. split.
  - unfold numeral_text. repeat (apply Forall_app; split); auto.
    + destruct (n_part n); cbn; auto. constructor; auto. right; right; left. reflexivity.
    + destruct (n_power n) as [[[c s] d]|]; cbn [power_text]; auto.
      destruct (Hx _ _ _ eq_refl) as [Hc [Hsg [_ Hd]]]. constructor.
      * right; right; right. destruct Hc as [->| ->]; reflexivity.
      * apply Forall_app; auto.
  - unfold numeral_text. intro E. apply app_eq_nil in E as [_ E]. apply app_eq_nil in E as [E1 E].
    apply app_eq_nil in E as [E2 _]. destruct (n_part n); [discriminate|]. destruct N1; congruence.
Qed.

Lemma numeral_ends n : legal_numeral n ->
  (exists c s, numeral_text n = c :: s /\ numeral_chr c) /\ head_ok is_space (rev (numeral_text n)).
Proof.
  intro L. destruct (numeral_chrs n L) as [H N1]. split.
  - destruct (numeral_text n) as [|c s]; [congruence|]. inversion H; subst. eauto.
  - apply Forall_rev in H. destruct (rev (numeral_text n)); cbn; auto. inversion H; subst. now apply chr_facts.
Qed.

(** Text [t] reads as operand [o] before anything that cannot continue it. *)
Definition okafter (r : str) : Prop := calm r /\ head_ok is_space (rev r).
Definition reads_any (F : flops) (t : str) (o : operand) : Prop :=
  t <> []
  /\ (head_ok is_space t /\ head_ok (is_chr "*") t /\ head_ok (is_chr "/") t)
  /\ head_ok is_space (rev t)
  /\ forall r, okafter r ->
       ~ starts_with (lit "sqrt") (t ++ r) /\ search F Match (t ++ r) = Ok (Some (o, r)).

Lemma reads_any_reads F t o : reads_any F t o -> reads F t o.
Proof.
  intros [H1 [H2 [H3 H4]]]. split; [auto|split; [auto|split; [auto|]]]. intros r H. apply H4.
  split; [left; now apply okrest_stops|apply H].
Qed.

Lemma reads_numeral F n :
  legal_numeral n -> unsigned_power n -> fl F (numeral_value n) <> 0%Qc ->
  reads_any F (numeral_text n) (Simple (mkTerm (fl F (numeral_value n)) (lit "1") 1)).
Proof.
  intros L U N1. destruct (numeral_ends n L) as [[c [s [E Hc]]] Hl].
  destruct (chr_facts c Hc) as [H1 [H2 [H3 H4]]].
  split; [rewrite E; discriminate|]. split; [rewrite E; auto|]. split; [exact Hl|].
  intros r Hr. split.
  - rewrite E. intros [w Ew]. injection Ew as -> _. tauto.
  - destruct Hr as [Hr _]. unfold search. rewrite simplex_numeral by auto. cbn [bind].
    unfold init. now rewrite (Qc_eqb_neq _ 0) by auto.
Qed.

(** * A base with a coefficient and an exponent *)

Lemma expchar_cases c : is_expchar c = true -> c = "e"%char \/ c = "E"%char.
Proof.
  unfold is_expchar, is_chr. intro H. apply orb_true_iff in H as [H|H]; apply Ascii.eqb_eq in H; auto.
Qed.

Lemma base_no_power b v :
  legal_base b -> ~ like_power b -> head_ok is_digit v -> head_ok is_sign v -> no_power (b ++ v).
Proof.
  intros L N1 Dv Sv. destruct L as [l [d [-> [Nl [Fl Fd]]]]]. destruct l as [|c l]; [congruence|].
  inversion Fl as [|? ? Hc Hl]; subst. unfold no_power. cbn [app].
  destruct (is_expchar c) eqn:Ec; [|apply none_bind', none_cls; exact Ec].
  apply none_bind. intros k t I. unfold rx_cls in I. rewrite Ec in I. destruct I as [I|[]]. injection I as _ <-.
  assert (head_ok is_sign ((l ++ d) ++ v) /\ head_ok is_digit ((l ++ d) ++ v)) as [HS HD].
  { destruct l as [|j l].
    - destruct d as [|k' d]; [now split|]. exfalso. apply N1. exists (k' :: d).
      split; [|split; [discriminate|auto]]. apply expchar_cases in Ec as [->| ->]; auto.
    - inversion Hl; subst. cbn. assert (is_base_chr j = true) by now apply letter_chr.
      split; [now apply base_not_sign|now apply base_not_digit]. }
  apply none_bind. intros sg t I. unfold rx_opt in I. rewrite none_cls in I by auto.
  destruct I as [I|[]]. injection I as _ <-. now apply none_bind', none_plus.
Qed.

Definition expo_text (p : option numeral) : str :=
  match p with Some p => "^"%char :: numeral_text p | None => [] end.
Definition coef_text (n : option numeral) : str :=
  match n with Some n => numeral_text n | None => [] end.
Definition rat_opt (n : option numeral) : option rat :=
  match n with Some n => Some (rat_of n) | None => None end.
Definition value_opt (n : option numeral) : Qc :=
  match n with Some n => numeral_value n | None => 1%Qc end.

Lemma expo_head p r (q : ascii -> bool) :
  calm r -> q "^"%char = false -> head_ok q r -> head_ok q (expo_text p ++ r).
Proof. intros Hr Hq H. destruct p; cbn; auto. Qed.

Lemma base_head_ok b v (q : ascii -> bool) :
  legal_base b -> (forall c, is_base_chr c = true -> q c = false) -> head_ok q (b ++ v).
Proof. intros L H. destruct (legal_head b L) as [c [s [-> Hc]]]. cbn. auto. Qed.

Lemma std_opt n : (forall c, n = Some c -> legal_numeral c) -> std (rat_opt n) = Ok (value_opt n).
Proof. intro H. destruct n as [n|]; cbn; auto. apply numeral_rat. auto. Qed.

Lemma variable_multiple n b p r :
  legal_base b ->
  (forall c, n = Some c -> legal_numeral c /\ (n_power c = None -> ~ like_power b)) ->
  (forall c, p = Some c -> legal_numeral c) -> calm r ->
  first rx_variable (coef_text n ++ b ++ expo_text p ++ r) (rat_opt n, b, rat_opt p) r
  /\ match rx_run Match rx_constant (coef_text n ++ b ++ expo_text p ++ r) with
     | Some (_, rc) => length rc <> length r
     | None => True
     end.
Proof.
  intros L Hn Hp Hr.
  assert (head_ok is_digit (expo_text p ++ r)) as E1 by (apply expo_head; auto using calm_digit).
  assert (head_ok is_sign (expo_text p ++ r)) as E2 by (apply expo_head; auto using calm_sign).
  assert (head_ok is_base_chr (expo_text p ++ r)) as E3 by (apply expo_head; auto using calm_base).
  assert (forall c, n = Some c -> first rx_rational (coef_text n ++ b ++ expo_text p ++ r) (rat_of c) (b ++ expo_text p ++ r)) as R.
  { intros c ->. destruct (Hn c eq_refl) as [Lc Nc]. cbn [coef_text]. apply numeral_first; auto. split.
    - apply base_head_ok; auto using base_not_digit.
    - intro E. split; [apply base_no_power; auto|].
      split; [apply head_no_slash|]; apply base_head_ok; auto; intros k Hk; apply base_not_chr; auto. }
  split.
  - unfold rx_variable. eapply first_bind with (a := rat_opt n) (t := b ++ expo_text p ++ r).
    { destruct n as [c|]; cbn [rat_opt].
      - apply first_opt. apply (R c eq_refl).
      - apply first_opt_none. cbn [coef_text app]. apply rational_none_base, legal_head, L. }
    eapply first_bind.
    { apply first_base; auto. }
    eapply first_bind with (a := rat_opt p) (t := r); [|apply first_ret].
    destruct p as [q|]; cbn [expo_text rat_opt app].
    + apply first_opt. eapply first_bind; [apply first_cls; reflexivity|].
      apply numeral_first; auto using stops_after.
    + apply first_opt_none, calm_exponent, Hr.
  - destruct n as [c|].
    + assert (first rx_constant (coef_text (Some c) ++ b ++ expo_text p ++ r) (rat_of c, None) (b ++ expo_text p ++ r)) as C.
      { eapply first_bind; [apply (R c eq_refl)|].
        eapply first_bind; [apply first_opt_none|apply first_ret].
        apply none_bind', none_cls, base_head_ok; auto. intros k Hk. now apply base_not_chr. }
      rewrite (first_run _ _ _ _ C). rewrite !app_length. apply legal_nonempty in L.
      destruct b; [congruence|]. cbn [length]. lia.
    + cbn [coef_text app]. rewrite none_run; auto. apply constant_none_base, legal_head, L.
Qed.

Lemma reads_multiple F n b p :
  legal_factor F (Multiple n b p) ->
  reads_any F (factor_text (Multiple n b p)) (Simple (factor_term F (Multiple n b p))).
Proof.
  intros [L [NS [Hn Hp]]]. cbn [factor_text factor_term].
  fold (coef_text n) (expo_text p) (value_opt n) (value_opt p).
  assert (value_opt n <> 0%Qc) as N1 by (destruct n as [c|]; [now apply Hn|discriminate]).
  assert (value_opt p <> 0%Qc) as N2 by (destruct p as [c|]; [now apply Hp|discriminate]).
  assert (Nb := legal_nonempty b L).
  destruct (legal_head b L) as [k [s [Eb Hk]]].
  split; [|split; [|split; [|intros r Hr; split]]].
  - intro E. apply app_eq_nil in E as [_ E]. apply app_eq_nil in E as [E _]. congruence.
  - destruct n as [c|]; cbn [coef_text].
    + destruct (Hn c eq_refl) as [Lc _]. destruct (numeral_ends c Lc) as [[x [y [-> Hx]]] _].
      destruct (chr_facts x Hx) as [H1 [H2 [H3 _]]]. cbn. auto.
    + rewrite Eb. cbn [app head_ok]. split; [now apply base_not_space|]. split; now apply base_not_chr.
  - apply rev_app_head.
    + intro E. apply app_eq_nil in E as [E _]. congruence.
    + destruct p as [q|]; cbn [expo_text].
      * destruct (Hp q eq_refl) as [Lq _]. apply rev_app_head; [discriminate|].
        apply (rev_app_head _ ["^"%char]); [apply numeral_chrs, Lq|apply numeral_ends, Lq].
      * rewrite app_nil_r. now apply base_last.
  - rewrite <- !app_assoc. destruct n as [c|]; cbn [coef_text].
    + destruct (Hn c eq_refl) as [Lc _]. destruct (numeral_ends c Lc) as [[x [y [-> Hx]]] _].
      destruct (chr_facts x Hx) as [_ [_ [_ H4]]]. intros [w E]. injection E as -> _. tauto.
    + cbn [app]; apply (no_sqrt b); auto. destruct Hr as [Hr _]. apply expo_head; auto using calm_base.
  - destruct Hr as [Hr _]. rewrite <- !app_assoc. unfold search, match_simplex.
    destruct (variable_multiple n b p r) as [V C]; auto.
    { intros c E. destruct (Hn c E) as [A [_ B]]. auto. }
    { intros c E. now apply Hp. }
    rewrite (first_run _ _ _ _ V).
    assert (with_rest (build_variable (rat_opt n, b, rat_opt p)) r
            = Ok (Some (mkTerm (value_opt n) b (value_opt p), r))) as B.
    { unfold build_variable. rewrite !std_opt; [|intros c E; now apply Hp|intros c E; now apply Hn].
      cbn [bind with_rest]. unfold with_rest. cbn [bind]. rewrite init_id; auto. }
    destruct (rx_run Match rx_constant _) as [[c rc]|]; [|now rewrite B].
    destruct (Nat.eqb_spec (length r) (length rc)); [congruence|]. now rewrite B.
Qed.

Lemma reads_any_factor F x :
  legal_factor F x -> reads_any F (factor_text x) (Simple (factor_term F x)) /\ wf (factor_term F x).
Proof.
  destruct x as [n|n b p]; intro H.
  - destruct H as [L [U N1]]. split; [now apply reads_numeral|]. split; [exact N1|]. split; discriminate.
  - split; [now apply reads_multiple|]. destruct H as [L [_ [Hn Hp]]]. split; [|split]; cbn.
    + destruct n as [c|]; [now apply Hn|discriminate].
    + destruct p as [c|]; [now apply Hp|discriminate].
    + now apply legal_nonempty.
Qed.

Lemma reads_factor F x :
  legal_factor F x -> reads F (factor_text x) (Simple (factor_term F x)) /\ wf (factor_term F x).
Proof. intro H. apply reads_any_factor in H as [R W]. auto using reads_any_reads. Qed.

(** * Chains of factors *)

Definition ftoks (F : flops) (l : list (option operator * factor)) : list tok :=
  map (fun p => (fst p, (factor_text (snd p), Simple (factor_term F (snd p))))) l.
Definition fraised (F : flops) (p : option operator * factor) : term :=
  raise_t (sgn (fst p)) (factor_term F (snd p)).

Lemma loop_factors F strict l :
  Forall (fun p => plain_op (fst p) /\ legal_factor F (snd p)) l ->
  forall prev,
  loop_spec F strict 1 prev (ftoks F l)
  = match (if strict then violation prev (map fst l) else None) with
    | Some e => Err e
    | None => Ok (map (fun p => Simple (fraised F p)) l)
    end.
Proof.
  induction 1 as [|[op x] l [Hp Hx] _ IH]; intro prev.
  - destruct strict; reflexivity.
  - cbn [fst snd] in *. cbn [ftoks map loop_spec fst snd]. fold (ftoks F l).
    destruct (reads_factor F x Hx) as [_ W].
    assert (R := raise_step F (Simple (factor_term F x)) 1 op W ltac:(discriminate) Hp).
    rewrite Z.mul_1_l in R. change (Qc_of_Z 1) with 1%Qc in R.
    assert (forall K : operand -> res (list operand),
      (do o1 <- lift_pow (fun t => term_pow F t 1) (Simple (factor_term F x));
       do o2 <- evaluate F op o1; K o2) = K (Simple (fraised F (op, x)))) as R'.
    { intro K. destruct (lift_pow _ _); [|discriminate R]. cbn [bind] in *. now rewrite R. }
    rewrite (R' (fun o2 => do more <- loop_spec F strict 1 op (ftoks F l); Ok (o2 :: more))).
    rewrite (IH op). unfold operator_error. destruct strict; [|reflexivity].
    cbn [violation]. destruct prev as [[]|], op as [[]|]; auto;
      destruct (violation _ _); reflexivity.
Qed.

Lemma ftail_text F l :
  tail_text (ftoks F l) = concat (map (fun p => sep (fst p) ++ factor_text (snd p)) l).
Proof. unfold tail_text, ftoks. rewrite map_map. reflexivity. Qed.

Lemma ftail_length F l : length l <= length (tail_text (ftoks F l)).
Proof.
  rewrite ftail_text. induction l as [|p l IH]; simpl; auto.
  rewrite !app_length. destruct (sep_head (fst p)) as [s ->]. simpl. lia.
Qed.

Lemma fraised_apply F l :
  concat (map (fun p => apply_op (fst p) [factor_term F (snd p)]) l) = map (fraised F) l
  \/ Exists (fun p => fst p = Some Sqrt) l.
Proof.
  induction l as [|[op x] l [IH|IH]]; [left; reflexivity| |right; now apply Exists_cons_tl].
  left. cbn [map concat fst snd]. rewrite IH. unfold fraised. cbn [fst snd].
  destruct op as [[]|]; cbn [apply_op sgn inverse map app]; f_equal; try (now rewrite raise_1).
  unfold raise_t. f_equal. change (Qc_of_Z (-1)) with (- (1))%Qc. ring.
Qed.

Theorem factors_parse F strict x0 l :
  legal_factor F x0 -> Forall (fun p => plain_op (fst p) /\ legal_factor F (snd p)) l ->
  parse F strict (factors_text x0 l)
  = match (if strict then violation None (map fst l) else None) with
    | Some e => Err e
    | None => Ok (factors_terms F x0 l ++ [mkTerm 1 (lit "1") 1])
    end.
Proof.
  intros H0 Hl. destruct (reads_factor F x0 H0) as [R W]. assert (Nr := reads_nonempty _ _ _ R).
  assert (factors_text x0 l <> []) as Nt.
  { unfold factors_text. destruct (factor_text x0); [congruence|discriminate]. }
  unfold parse. rewrite init_id by (auto; discriminate). cbn [base coef expo resolve].
  unfold factors_text at 1 2. rewrite <- (ftail_text F).
  rewrite (loop_chain F strict _ _ (Simple (factor_term F x0))); auto.
  2: { unfold ftoks. apply Forall_forall. intros p I. apply in_map_iff in I as [q [<- I]].
       rewrite Forall_forall in Hl. apply Hl in I as [Hp Hq]. split; auto. now apply reads_factor. }
  2: { assert (L := ftail_length F l). unfold ftoks at 1. rewrite map_length, app_length.
       destruct (factor_text x0); [congruence|]. cbn [length]. lia. }
  change ((None, (factor_text x0, Simple (factor_term F x0))) :: ftoks F l) with (ftoks F ((None, x0) :: l)).
  rewrite loop_factors by (constructor; auto; split; [discriminate|auto]).
  assert (violation None (map fst ((None : option operator, x0) :: l)) = violation None (map fst l)) as -> by reflexivity.
  destruct (if strict then violation None (map fst l) else None); [reflexivity|]. cbn [bind].
  assert (forall k, mapM (fun o => match o with Simple t => Ok [t] | Group g => resolve F strict (length (factors_text x0 l)) g end)
            (map (fun p => Simple (fraised F p)) k) = Ok (map (fun p => [fraised F p]) k)) as M.
  { induction k as [|p k IH]; auto. cbn [map mapM]. rewrite IH. reflexivity. }
  rewrite M. cbn [bind]. f_equal. change (init 1 [] 1) with (mkTerm 1 (lit "1") 1). f_equal. unfold factors_terms.
  cbn [map concat app]. unfold fraised at 1. cbn [fst snd sgn]. rewrite raise_1. f_equal.
  destruct (fraised_apply F l) as [->|X].
  - clear. induction l; cbn; congruence.
  - exfalso. apply Exists_exists in X as [p [I E]]. rewrite Forall_forall in Hl. apply Hl in I as [Hp _]. auto.
Qed.

(** * A number with a signed power of ten *)


Lemma mantissa_legal n : legal_numeral n -> legal_numeral (mantissa n).
Proof. intros [H1 [H2 [H3 [H4 _]]]]. repeat split; auto; discriminate. Qed.

Lemma integer_legal s d : a_sign s -> d <> [] -> Forall digit d -> legal_numeral (integer s d).
Proof. intros Hs Nd Hd. repeat split; auto; try discriminate. constructor. Qed.

Lemma signed_parse F strict n c k d :
  legal_numeral n -> n_power n = Some (c, Some k, d) ->
  numeral_value (mantissa n) <> 0%Qc -> fl F (numeral_value (integer (Some k) d)) <> 0%Qc ->
  parse F strict (numeral_text n)
  = Ok [mkTerm (numeral_value (mantissa n)) [c] 1;
        mkTerm (fl F (numeral_value (integer (Some k) d))) (lit "1") 1; mkTerm 1 (lit "1") 1].
Proof.
  intros L E N1 N2. assert (L' := L). destruct L' as [_ [_ [_ [_ Hx]]]]. destruct (Hx _ _ _ E) as [Hc [Hsg [Nd Hd]]].
  destruct (numeral_ends n L) as [[h [t [Eh Hh]]] Hl]. destruct (chr_facts h Hh) as [F1 [F2 [F3 F4]]].
  assert (numeral_text n <> []) as Nt by (rewrite Eh; discriminate).
  set (i := integer (Some k) d) in *.
  assert (legal_numeral i) as Li by now apply integer_legal.
  assert (numeral_text i = k :: d) as Ti by (unfold i, numeral_text; cbn; now rewrite !app_nil_r).
  assert (unsigned_power i) as Ui by (intros ? ? ? X; discriminate X).
  destruct (numeral_ends i Li) as [[h' [t' [Eh' Hh']]] Hl']. destruct (chr_facts h' Hh') as [G1 [G2 [G3 G4]]].
  unfold parse. rewrite init_id by (auto; discriminate). cbn [base coef expo resolve].
  assert (search F Match (numeral_text n) = Ok (Some (Simple (mkTerm (numeral_value (mantissa n)) [c] 1), k :: d))) as S1.
  { unfold search, match_simplex. assert (V := variable_later n c (Some k) d [] L E (or_introl I)).
    cbn beta iota zeta in V. rewrite !app_nil_r in V. rewrite (first_run _ _ _ _ V).
    assert (first rx_constant (numeral_text n ++ []) (rat_of n, None) []) as C.
    { eapply first_bind; [apply numeral_first; auto; now apply stops_after; left|].
      eapply first_bind; [apply first_opt_none; reflexivity|apply first_ret]. }
    rewrite app_nil_r in C. rewrite (first_run _ _ _ _ C). cbn [length Nat.eqb].
    unfold build_variable, with_rest. cbn [std].
    assert (rat_value (mkRat (n_sign n) (n_whole n) (RDec (n_part n) None)) = Ok (numeral_value (mantissa n))) as ->
      by (apply (numeral_rat (mantissa n)); now apply mantissa_legal).
    cbn [bind]. rewrite init_id; auto; discriminate. }
  assert (reads F (numeral_text i) (Simple (mkTerm (fl F (numeral_value i)) (lit "1") 1))) as R by now apply reads_any_reads, reads_numeral.
  assert (okrest []) as O0 by (split; exact I).
  destruct (length (numeral_text n)) as [|m] eqn:Em.
  { destruct (numeral_text n); [congruence|discriminate]. }
  assert (exists m', m = S m') as [m' ->].
  { destruct m as [|m']; eauto. exfalso. unfold numeral_text in Em. rewrite E in Em. cbn [power_text] in Em.
    rewrite !app_length in Em. cbn [length opt_text app] in Em. destruct d; [congruence|]. cbn [length] in Em. lia. }
  rewrite parse_loop_S by auto.
  rewrite operator_none.
  2-4: rewrite Eh; auto.
  2: { rewrite Eh. intros [w Ew]. injection Ew as -> _. tauto. }
  cbn beta iota zeta. assert (operator_error strict None None = None) as -> by (destruct strict; reflexivity).
  unfold operand_parse at 1. rewrite strip_id; [|rewrite Eh; exact F1|exact Hl]. rewrite S1. cbn [bind].
  assert (wf (mkTerm (numeral_value (mantissa n)) [c] 1)) as W1 by (split; [exact N1|split; discriminate]).
  assert (wf (mkTerm (fl F (numeral_value i)) (lit "1") 1)) as W2 by (split; [exact N2|split; discriminate]).
  change 1%Qc with (Qc_of_Z 1). rewrite raise_lift by (auto; discriminate). cbn [bind evaluate].
  rewrite parse_loop_S by discriminate. rewrite <- Ti.
  rewrite operator_none.
  2-4: rewrite Eh'; auto.
  2: { rewrite Eh'. intros [w Ew]. injection Ew as -> _. tauto. }
  cbn beta iota zeta. assert (operator_error strict None None = None) as -> by (destruct strict; reflexivity).
  assert (P := reads_parse F _ _ [] R O0). rewrite app_nil_r in P. change (Qc_of_Z 1) with 1%Qc in *. rewrite P. cbn [bind].
  change 1%Qc with (Qc_of_Z 1). rewrite raise_lift by (auto; discriminate). cbn [bind evaluate parse_loop raise mapM concat app].
  rewrite !raise_1. reflexivity.
Qed.
