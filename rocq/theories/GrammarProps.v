(** Properties of expressions as users write them. *)

From Coq Require Import String Ascii List Bool ZArith NArith QArith Qcanon Lia.
From Verif Require Import Py PyFacts SymbolicModel SymbolicSpec SymbolicReduceProofs SymbolicRx.
From Verif Require Import SymbolicParseProofs SymbolicChainProofs SymbolicExprProofs SymbolicLawProofs DecimalSpec DecimalProofs DecimalProps GrammarSpec GrammarProofs.
Import ListNotations.
Open Scope list_scope.
Open Scope py_scope.

Lemma phrases_standard F i k x0 l : spelled F x0 -> standard_str (phrases_text i k x0 l) = phrases_text i k x0 l.
Proof.
  intro H. assert (N1 := phrases_nonempty F i k x0 l H). destruct (phrases_text i k x0 l); [congruence|reflexivity].
Qed.

(** ** C339: every expression of the grammar is read as written *)

(** Factors and nested brackets, joined with any blanks, stand for the product
    in which a stroke inverts the next phrase. *)
Theorem C339_reads : forall F strict i k x0 l,
  proper_chain F x0 l -> (strict = true -> chain_in_order x0 l) ->
  exists x, expression_of_str F strict (phrases_text i k x0 l) = Ok x
    /\ canonical x /\ same_monomial x (phrases_meaning F x0 l).
Proof.
  intros F strict i k x0 l L V. unfold expression_of_str. rewrite (phrases_standard F) by (apply proper_spelled; apply L).
  destruct (parse_phrases F strict i k x0 l L) as [[ts [E [W [S O]]]]|[Hs [NO _]]].
  - rewrite E. cbn [bind].
    assert (ts <> []) as N1.
    { intros ->. unfold parse in E. cbn [resolve] in E. destruct (parse_loop _ _ _ _ _ _); [|discriminate].
      cbn [bind] in E. destruct (mapM _ _); [|discriminate]. cbn [bind] in E. injection E as E.
      now apply app_eq_nil in E as [_ E]. }
    destruct (reduce_to_canonical ts W N1) as [x [R C]]. exists x. split; auto. split; auto.
    eapply same_monomial_trans; [apply reduce_same; eauto|exact S].
  - exfalso. auto.
Qed.
Print Assumptions C339_reads.

(** In strict mode a chain or a bracket, at any depth, with a quotient followed
    by a quotient or a product is refused. *)
Theorem C339_order : forall F i k x0 l,
  proper_chain F x0 l -> ~ chain_in_order x0 l ->
  expression_of_str F true (phrases_text i k x0 l) = Err RatioError
  \/ expression_of_str F true (phrases_text i k x0 l) = Err ProductError.
Proof.
  intros F i k x0 l L V. unfold expression_of_str. rewrite (phrases_standard F) by (apply proper_spelled; apply L).
  destruct (parse_phrases F true i k x0 l L) as [[ts [E [W [S O]]]]|[_ [_ [e [He E]]]]].
  - exfalso. auto.
  - rewrite E. cbn [bind]. destruct He as [->| ->]; auto.
Qed.
Print Assumptions C339_order.

Definition int_of (d : string) : numeral := num None d None None.
Definition base_of (b : string) : phrase := Simply (Raised Unwritten (lit b) Unwritten).
Definition raised_of (b : string) (p : amount) : phrase := Simply (Raised Unwritten (lit b) p).
Definition decimal_of (d : string) : amount := Decimal (int_of d).
Definition fraction_of (n : string) (d : ascii) : amount := Fraction (mkFraction None (lit n) d).

Lemma int_legal d : d <> EmptyString -> Forall digit (lit d) -> legal_numeral (int_of d).
Proof.
  intros N1 D. split; [unfold a_sign; auto|]. split; [exact D|]. split; [constructor|]. split; [left|intros ? ? ? X; discriminate X].
  intro E. destruct d; [auto|discriminate E].
Qed.

Ltac sound_amount :=
  match goal with
  | |- sound Unwritten => split; [discriminate|exact I]
  | |- sound (decimal_of _) => split; [vm_compute; discriminate|apply int_legal; [discriminate|digits]]
  | |- sound (Decimal _) => split; [vm_compute; discriminate|legal_num]
  | |- sound (fraction_of _ _) =>
      split; [vm_compute; discriminate|split; [unfold a_sign; auto|split; [discriminate|split; [digits|split; [unfold digit; cbn; lia|discriminate]]]]]
  end.
Ltac legal_base :=
  match goal with |- legal_simple _ (Raised _ (lit ?b) _) =>
    split; [exists (lit b), []; repeat split; try discriminate; [repeat (apply Forall_cons; [first [left; cbn; lia|right; cbn; lia|right; left; cbn; lia]|]); constructor|constructor]|];
    split; [intros [? X]; discriminate X|]; split; [sound_amount|split; [sound_amount|]];
    let n := fresh in let X := fresh in let Y := fresh in intros n X Y; first [discriminate X|injection X as <-; first [discriminate Y|intros [? [[Z|Z] _]]; discriminate Z]]
  end.
Ltac whole_amount z :=
  split; [sound_amount|exists z; apply Qc_is_canon; vm_compute; reflexivity].

(** " 10^3*1/2km/( s  A)^2 (kg^.5/m)" is 500 km s^-2 A^-2 kg^1/2 m^-1. *)
Example C339_meets :
  let x0 := Simply (Number (int_of "10") (decimal_of "3")) in
  let l := [(Times 0 0, Simply (Raised (fraction_of "1" "2") (lit "km") Unwritten));
            (Over 0 0, Bracket 1 0 (base_of "s") [(Blanks 1, base_of "A")] (decimal_of "2"));
            (Blanks 0, Bracket 0 0 (raised_of "kg" (Decimal (num None "" (Some "5")%string None))) [(Over 0 0, base_of "m")] Unwritten)] in
  phrases_text 1 0 x0 l = lit " 10^3*1/2km/( s  A)^2 (kg^.5/m)"
  /\ proper_chain F64 x0 l /\ chain_in_order x0 l
  /\ phrases_meaning F64 x0 l = [mkTerm (Q2Qc 1000) (lit "1") 1; mkTerm (Q2Qc (1 # 2)) (lit "km") 1; mkTerm 1 (lit "s") (Q2Qc (-2 # 1));
                                 mkTerm 1 (lit "A") (Q2Qc (-2 # 1)); mkTerm 1 (lit "kg") (Q2Qc (1 # 2)); mkTerm 1 (lit "m") (Q2Qc (-1 # 1))].
Proof.
  cbv zeta. split; [reflexivity|]. split; [|split].
  - split.
    + cbn [proper]. split; [apply int_legal; [discriminate|digits]|]. split; [reflexivity|]. split; [vm_compute; discriminate|].
      split; [discriminate|]. split; [whole_amount 3%Z|]. vm_compute. discriminate.
    + constructor; [|constructor; [|constructor; [|constructor]]]; cbn [fst snd].
      * split; [exact I|]. cbn [proper]. legal_base.
      * split; [intros c s X; injection X as <- _; unfold digit; cbn; lia|]. split; [|split; [|split; [|exact I]]].
        -- whole_amount 2%Z.
        -- cbn [proper base_of]. legal_base.
        -- split; [exact I|]. cbn [snd proper base_of]. legal_base.
      * split; [exact I|]. split; [whole_amount 1%Z|]. split; [|split; [|exact I]].
        -- cbn [proper raised_of]. legal_base.
        -- split; [intros c s X; injection X as <- _; unfold digit; cbn; lia|]. cbn [snd proper base_of]. legal_base.
  - split; [reflexivity|]. split; [exact I|]. repeat (apply Forall_cons || apply Forall_nil); cbn; tauto.
  - assert (forall a b : list term, Ok a = Ok b -> a = b) as H by congruence. apply H. compute_eq.
Qed.

(** ** C340: a number written directly before a bracket

    The claim "in [a / 2(b c)] the stroke divides by the bracket and its
    coefficient" fails: the stroke inverts only the number. *)

(** A number, or a base, directly before a bracket multiplies it.  Missing: after a stroke. *)
Theorem C340_coefficient_partial : forall F strict c i k x0 l p,
  legal_simple F c -> proper F (Bracket i k x0 l p) -> (strict = true -> chain_in_order x0 l) ->
  exists x, expression_of_str F strict (simple_text c ++ phrase_text (Bracket i k x0 l p)) = Ok x
    /\ canonical x /\ same_monomial x (simple_term F c :: power (exponent_of p) (phrases_meaning F x0 l)).
Proof.
  intros F strict c i k x0 l p Hc Hb V.
  destruct (C339_reads F strict 0 0 (Simply c) [(Glued, Bracket i k x0 l p)]) as [x [E [C S]]].
  - split; [exact Hc|]. constructor; [|constructor]. split; [|exact Hb]. repeat eexists.
  - intro Hs. split; [reflexivity|]. split; [exact I|]. constructor; [|constructor].
    apply order_bracket. auto.
  - exists x. split; [|split; [exact C|]].
    + rewrite <- E. f_equal. unfold phrases_text. cbn [map concat fst snd joint_text blanks repeat app]. now rewrite !app_nil_r.
    + unfold phrases_meaning in S at 1. cbn [map concat fst snd joined] in S. rewrite app_nil_r in S. exact S.
Qed.
Print Assumptions C340_coefficient_partial.

(** After a stroke only the factor is inverted, whatever it is and whatever is
    in the bracket. *)
Theorem C340_quotient : forall F strict y c i k x0 l p,
  proper F y -> legal_simple F c -> proper F (Bracket i k x0 l p) ->
  (strict = true -> in_order y /\ chain_in_order x0 l) ->
  exists x, expression_of_str F strict (phrase_text y ++ lit " / " ++ simple_text c ++ phrase_text (Bracket i k x0 l p)) = Ok x
    /\ canonical x
    /\ same_monomial x (meaning F y ++ inverse [simple_term F c] ++ power (exponent_of p) (phrases_meaning F x0 l)).
Proof.
  intros F strict y c i k x0 l p Hy Hc Hb V.
  destruct (C339_reads F strict 0 0 y [(Over 1 1, Simply c); (Glued, Bracket i k x0 l p)]) as [x [E [C S]]].
  - split; [exact Hy|]. constructor; [|constructor; [|constructor]].
    + split; [exact I|exact Hc].
    + split; [|exact Hb]. repeat eexists.
  - intro Hs. destruct (V Hs) as [V1 V2]. split; [reflexivity|]. split; [exact V1|]. constructor; [exact I|]. constructor; [|constructor].
    apply order_bracket. auto.
  - exists x. split; [|split; [exact C|]].
    + rewrite <- E. f_equal. unfold phrases_text. cbn [map concat fst snd joint_text blanks repeat app]. rewrite !app_nil_r. reflexivity.
    + unfold phrases_meaning in S at 1. cbn [map concat fst snd joined] in S. rewrite app_nil_r in S. exact S.
Qed.
Print Assumptions C340_quotient.

(** "a / 2(b c)" is a b c / 2 and not a / (2 b c). *)
Theorem C340_quotient_refuted :
  expression_of_str F64 true (lit "a / 2(b c)")
    = Ok [mkTerm (Q2Qc (1 # 2)) (lit "1") 1; mkTerm 1 (lit "a") 1; mkTerm 1 (lit "b") 1; mkTerm 1 (lit "c") 1]
  /\ expression_of_str F64 true (lit "a / (2 b c)")
    = Ok [mkTerm (Q2Qc (1 # 2)) (lit "1") 1; mkTerm 1 (lit "a") 1; mkTerm 1 (lit "b") (Q2Qc (-1 # 1)); mkTerm 1 (lit "c") (Q2Qc (-1 # 1))].
Proof. split; compute_eq. Qed.
Print Assumptions C340_quotient_refuted.

(** "2.5(m / s)^3". *)
Example C340_meets :
  let c := Plain (Numeral (num None "2" (Some "5")%string None)) in
  let b := Bracket 0 0 (base_of "m") [(Over 1 1, base_of "s")] (decimal_of "3") in
  simple_text c ++ phrase_text b = lit "2.5(m / s)^3"
  /\ legal_simple F64 c /\ proper F64 b /\ in_order b.
Proof.
  cbv zeta. split; [reflexivity|]. split; [|split].
  - split; [legal_num|]. split; [intros ? ? ? X; discriminate X|]. vm_compute. discriminate.
  - split; [|split; [|split; [|exact I]]].
    + whole_amount 3%Z.
    + cbn [proper base_of]. legal_base.
    + split; [exact I|]. cbn [snd proper base_of]. legal_base.
  - cbn. tauto.
Qed.

(** ** C341: blanks do not matter *)

Lemma tidy_op j : joint_op (tidy_joint j) = joint_op j.
Proof. destruct j; reflexivity. Qed.
Lemma tidy_joined j ts : joined (tidy_joint j) ts = joined j ts.
Proof. destruct j; reflexivity. Qed.
Lemma tidy_joints l : joints (tidy_tail l) = joints l.
Proof. unfold joints, tidy_tail. rewrite map_map. apply map_ext. intro. apply tidy_op. Qed.

Lemma tidy_meaning F x : meaning F (tidy x) = meaning F x.
Proof.
  induction x as [x|i k x0 l p IH0 IH] using phrase_ind'; [reflexivity|]. cbn [tidy meaning]. rewrite IH0. f_equal. f_equal.
  rewrite map_map. f_equal. apply map_ext_in. intros q I. rewrite Forall_forall in IH. cbn [fst snd].
  rewrite tidy_joined, IH; auto.
Qed.
Lemma tidy_order x : in_order (tidy x) <-> in_order x.
Proof.
  induction x as [x|i k x0 l p IH0 IH] using phrase_ind'; [reflexivity|].
  change (tidy (Bracket i k x0 l p)) with (Bracket 0 0 (tidy x0) (tidy_tail l) p).
  rewrite !order_bracket. unfold chain_in_order. rewrite tidy_joints, IH0.
  assert (Forall (fun p => in_order (snd p)) (tidy_tail l) <-> Forall (fun p => in_order (snd p)) l) as ->; [|reflexivity].
  unfold tidy_tail. rewrite !Forall_forall in *. split; intros H q I.
  - apply IH; auto. apply (H (tidy_joint (fst q), tidy (snd q))). apply in_map_iff. eauto.
  - apply in_map_iff in I as [r [<- I]]. cbn [snd]. apply IH; auto.
Qed.
Lemma tidy_chain_meaning F x0 l : phrases_meaning F (tidy x0) (tidy_tail l) = phrases_meaning F x0 l.
Proof.
  unfold phrases_meaning. rewrite tidy_meaning. f_equal. unfold tidy_tail. rewrite map_map. f_equal.
  apply map_ext. intro. cbn [fst snd]. now rewrite tidy_joined, tidy_meaning.
Qed.
Lemma tidy_chain_order x0 l : chain_in_order (tidy x0) (tidy_tail l) <-> chain_in_order x0 l.
Proof.
  rewrite <- !(order_bracket 0 0 _ _ Unwritten). apply (tidy_order (Bracket 0 0 x0 l Unwritten)).
Qed.

(** Two texts with the same phrases and signs, whatever blanks they have around
    them, give equal expressions. *)
Theorem C341_blanks : forall F strict i k x0 l i' k' x0' l',
  proper_chain F x0 l -> proper_chain F x0' l' ->
  tidy x0 = tidy x0' -> tidy_tail l = tidy_tail l' ->
  (strict = true -> chain_in_order x0 l) ->
  exists x, expression_of_str F strict (phrases_text i k x0 l) = Ok x
    /\ expression_of_str F strict (phrases_text i' k' x0' l') = Ok x.
Proof.
  intros F strict i k x0 l i' k' x0' l' H H' E0 E V.
  destruct (C339_reads F strict i k x0 l H V) as [x [X [C S]]].
  destruct (C339_reads F strict i' k' x0' l' H') as [y [Y [D T]]].
  { intro Hs. apply tidy_chain_order. rewrite <- E0, <- E. apply tidy_chain_order. auto. }
  exists x. split; auto. rewrite Y. f_equal. apply canonical_unique; auto.
  eapply same_monomial_trans; [exact T|]. rewrite <- tidy_chain_meaning, <- E0, <- E, tidy_chain_meaning.
  now apply same_monomial_sym.
Qed.
Print Assumptions C341_blanks.

(** In strict mode both are refused or none is. *)
Theorem C341_order : forall F i k x0 l i' k' x0' l',
  proper_chain F x0 l -> proper_chain F x0' l' ->
  tidy x0 = tidy x0' -> tidy_tail l = tidy_tail l' -> ~ chain_in_order x0 l ->
  (forall x, expression_of_str F true (phrases_text i k x0 l) <> Ok x)
  /\ (forall x, expression_of_str F true (phrases_text i' k' x0' l') <> Ok x).
Proof.
  intros F i k x0 l i' k' x0' l' H H' E0 E V.
  assert (~ chain_in_order x0' l') as V'.
  { intro O. apply V, tidy_chain_order. rewrite E0, E. now apply tidy_chain_order. }
  split; intros x X.
  - destruct (C339_order F i k x0 l H V); congruence.
  - destruct (C339_order F i' k' x0' l' H' V'); congruence.
Qed.
Print Assumptions C341_order.

(** "m/s" and " m  /s ". *)
Example C341_meets :
  phrases_text 0 0 (base_of "m") [(Over 0 0, base_of "s")] = lit "m/s"
  /\ phrases_text 1 1 (base_of "m") [(Over 2 0, base_of "s")] = lit " m  /s "
  /\ proper_chain F64 (base_of "m") [(Over 0 0, base_of "s")]
  /\ proper_chain F64 (base_of "m") [(Over 2 0, base_of "s")]
  /\ tidy_tail [(Over 0 0, base_of "s")] = tidy_tail [(Over 2 0, base_of "s")]
  /\ chain_in_order (base_of "m") [(Over 0 0, base_of "s")]
  /\ expression_of_str F64 true (lit "m/s") = Ok [mkTerm 1 (lit "m") 1; mkTerm 1 (lit "s") (Q2Qc (-1 # 1))].
Proof.
  assert (forall b, b = "m"%string \/ b = "s"%string -> proper F64 (base_of b)) as P.
  { intros b [-> | ->]; cbn [proper base_of]; legal_base. }
  split; [reflexivity|]. split; [reflexivity|]. split; [|split; [|split; [reflexivity|split]]].
  - split; auto. constructor; [|constructor]. split; [|cbn [snd]; auto].
    intros c s X; injection X as <- _; unfold digit; cbn; lia.
  - split; auto. constructor; [|constructor]. split; [exact I|cbn [snd]; auto].
  - split; [reflexivity|]. split; [exact I|]. repeat constructor.
  - compute_eq.
Qed.

(** ** C342: rational exponents of brackets *)

(** A bracket of bases and brackets without numbers may have any exponent. *)
Theorem C342_exponents : forall F strict i k x0 l,
  powers_of_one F -> spelled_chain F x0 l -> bare_chain x0 l -> (strict = true -> chain_in_order x0 l) ->
  exists x, expression_of_str F strict (phrases_text i k x0 l) = Ok x
    /\ canonical x /\ same_monomial x (phrases_bases F x0 l).
Proof.
  intros F strict i k x0 l P L B V. unfold expression_of_str. rewrite (phrases_standard F) by apply L.
  destruct (parse_bare F strict i k x0 l P L B) as [[ts [E [W [S O]]]]|[Hs [NO _]]].
  - rewrite E. cbn [bind].
    assert (ts <> []) as N1.
    { intros ->. unfold parse in E. cbn [resolve] in E. destruct (parse_loop _ _ _ _ _ _); [|discriminate].
      cbn [bind] in E. destruct (mapM _ _); [|discriminate]. cbn [bind] in E. injection E as E.
      now apply app_eq_nil in E as [_ E]. }
    destruct (reduce_to_canonical ts W N1) as [x [R C]]. exists x. split; auto. split; auto.
    eapply same_monomial_trans; [apply reduce_same; eauto|exact S].
  - exfalso. auto.
Qed.
Print Assumptions C342_exponents.

Lemma F64_powers_of_one : powers_of_one F64.
Proof.
  intro q. cbn [fpow F64]. change (Qc_eqb 1 1) with true. destruct (Qc_is_int q); auto.
  assert (round64 1 = 1%Qc) as E by compute_eq. now rewrite E, Qc_zpow_1_l, E.
Qed.

(** "(m^3/(kg s^2)^1/2)^.25" is m^3/4 kg^-1/8 s^-1/4. *)
Example C342_meets :
  let x0 := Bracket 0 0 (raised_of "m" (decimal_of "3"))
      [(Over 0 0, Bracket 0 0 (base_of "kg") [(Blanks 0, raised_of "s" (decimal_of "2"))] (fraction_of "1" "2"))]
      (Decimal (num None "" (Some "25")%string None)) in
  phrases_text 0 0 x0 [] = lit "(m^3/(kg s^2)^1/2)^.25"
  /\ powers_of_one F64 /\ spelled_chain F64 x0 [] /\ bare_chain x0 [] /\ chain_in_order x0 []
  /\ phrases_bases F64 x0 [] = [mkTerm 1 (lit "m") (Q2Qc (3 # 4)); mkTerm 1 (lit "kg") (Q2Qc (-1 # 8)); mkTerm 1 (lit "s") (Q2Qc (-1 # 4))].
Proof.
  cbv zeta. split; [reflexivity|]. split; [exact F64_powers_of_one|]. split; [|split; [|split]].
  - split; [|constructor]. split; [|split; [|split; [|exact I]]].
    + sound_amount.
    + cbn [spelled raised_of]. legal_base.
    + split; [intros c s X; injection X as <- _; unfold digit; cbn; lia|]. split; [|split; [|split; [|exact I]]].
      * sound_amount.
      * cbn [spelled base_of]. legal_base.
      * split; [exact I|]. cbn [snd spelled raised_of]. legal_base.
  - split; [|constructor]. cbn. split; [|split; [split; [|split]|exact I]]; try exact I; do 2 eexists; left; reflexivity.
  - split; [reflexivity|]. split; [cbn; tauto|constructor].
  - assert (forall a b : list term, Ok a = Ok b -> a = b) as H by congruence. apply H. compute_eq.
Qed.

(** ** C343: square roots *)

Lemma rooted_standard F lead i k x0 l : spelled F x0 -> standard_str (rooted_text lead i k x0 l) = rooted_text lead i k x0 l.
Proof.
  intro H. destruct (phrase_ok F x0 H) as [[N1 _] _].
  assert (rooted_text lead i k x0 l <> []) as N2.
  { unfold rooted_text. intro E. apply app_eq_nil in E as [_ E]. apply app_eq_nil in E as [E _]. auto. }
  destruct (rooted_text lead i k x0 l); [congruence|reflexivity].
Qed.

(** "sqrt" at the start of an expression, or after a blank, halves the
    exponents of the next factor or bracket, whatever its depth, and leaves the
    rest of the expression as without it.  Missing from the full claim: "sqrt"
    after a sign, and exponents whose half is no float (see below). *)
Theorem C343_root_partial : forall F strict lead i k x0 l,
  powers_of_one F -> rooted_chain F lead x0 l -> (strict = true -> rooted_in_order x0 l) ->
  exists x, expression_of_str F strict (rooted_text lead i k x0 l) = Ok x
    /\ canonical x /\ same_monomial x (rooted_bases F lead x0 l).
Proof.
  intros F strict lead i k x0 l P L V. unfold expression_of_str. rewrite (rooted_standard F) by apply L.
  destruct (parse_rooted F strict lead i k x0 l P L) as [[ts [E [W [S O]]]]|[Hs [NO _]]].
  - rewrite E. cbn [bind].
    assert (ts <> []) as N1.
    { intros ->. unfold parse in E. cbn [resolve] in E. destruct (parse_loop _ _ _ _ _ _); [|discriminate].
      cbn [bind] in E. destruct (mapM _ _); [|discriminate]. cbn [bind] in E. injection E as E.
      now apply app_eq_nil in E as [_ E]. }
    destruct (reduce_to_canonical ts W N1) as [x [R C]]. exists x. split; auto. split; auto.
    eapply same_monomial_trans; [apply reduce_same; eauto|exact S].
  - exfalso. auto.
Qed.
Print Assumptions C343_root_partial.

(** A root does not lift the rule on repeated quotients elsewhere. *)
Theorem C343_order : forall F lead i k x0 l,
  powers_of_one F -> rooted_chain F lead x0 l -> ~ rooted_in_order x0 l ->
  expression_of_str F true (rooted_text lead i k x0 l) = Err RatioError
  \/ expression_of_str F true (rooted_text lead i k x0 l) = Err ProductError.
Proof.
  intros F lead i k x0 l P L V. unfold expression_of_str. rewrite (rooted_standard F) by apply L.
  destruct (parse_rooted F true lead i k x0 l P L) as [[ts [E [W [S O]]]]|[_ [_ [e [He E]]]]].
  - exfalso. auto.
  - rewrite E. cbn [bind]. destruct He as [->| ->]; auto.
Qed.
Print Assumptions C343_order.

(** After a star or a stroke "sqrt" is taken for the name of a base. *)
Theorem C343_sign_refuted :
  expression_of_str F64 true (lit "a / sqrt(b)")
    = Ok [mkTerm 1 (lit "a") 1; mkTerm 1 (lit "b") 1; mkTerm 1 (lit "sqrt") (Q2Qc (-1 # 1))]
  /\ expression_of_str F64 true (lit "a * sqrt(b)")
    = Ok [mkTerm 1 (lit "a") 1; mkTerm 1 (lit "b") 1; mkTerm 1 (lit "sqrt") 1].
Proof. split; compute_eq. Qed.
Print Assumptions C343_sign_refuted.

(** A root goes through a float: one sixth is not reached. *)
Theorem C343_exact_refuted :
  expression_of_str F64 true (lit "sqrt(a)^1/3")
    = Ok [mkTerm 1 (lit "a") (Q2Qc (6004799503160661 # 36028797018963968))]
  /\ expression_of_str F64 true (lit "a^1/6") = Ok [mkTerm 1 (lit "a") (Q2Qc (1 # 6))].
Proof. split; compute_eq. Qed.
Print Assumptions C343_exact_refuted.

(** "sqrt(m / kg)^3 sqrt s": m^3/2 kg^-3/2 s^1/2. *)
Example C343_meets :
  let x0 := Bracket 0 0 (base_of "m") [(Over 1 1, base_of "kg")] (decimal_of "3") in
  let l := [(Rooted 0 1, base_of "s")] in
  rooted_text (Some 0) 0 0 x0 l = lit "sqrt(m / kg)^3 sqrt s"
  /\ powers_of_one F64 /\ rooted_chain F64 (Some 0) x0 l /\ rooted_in_order x0 l
  /\ rooted_bases F64 (Some 0) x0 l
     = [mkTerm 1 (lit "m") (Q2Qc (3 # 2)); mkTerm 1 (lit "kg") (Q2Qc (-3 # 2)); mkTerm 1 (lit "s") (Q2Qc (1 # 2))].
Proof.
  cbv zeta. split; [reflexivity|]. split; [exact F64_powers_of_one|]. split; [|split].
  - split; [|split; [|split]].
    + split; [|split; [|split; [|exact I]]].
      * sound_amount.
      * cbn [spelled base_of]. legal_base.
      * split; [exact I|]. cbn [snd spelled base_of]. legal_base.
    + cbn. split; [|split]; try exact I; do 2 eexists; left; reflexivity.
    + intros _. split; compute_eq.
    + constructor; [|constructor]. cbn [fst snd]. split; [split; compute_eq|]. split.
      * cbn [spelled base_of]. legal_base.
      * cbn. do 2 eexists. left. reflexivity.
  - split; [reflexivity|]. split; [cbn; tauto|]. constructor; [cbn; tauto|constructor].
  - assert (forall a b : list term, Ok a = Ok b -> a = b) as H by congruence. apply H. compute_eq.
Qed.
