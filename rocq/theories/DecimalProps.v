(** Properties of numbers written in expressions. *)

From Coq Require Import String Ascii List Bool ZArith NArith QArith Qcanon Lia.
From Verif Require Import Py PyFacts SymbolicModel SymbolicSpec SymbolicReduceProofs SymbolicRx.
From Verif Require Import SymbolicParseProofs SymbolicChainProofs SymbolicExprProofs SymbolicLawProofs DecimalSpec DecimalProofs.
Import ListNotations.
Open Scope list_scope.
Open Scope py_scope.

(** Reading a text and reducing its terms. *)
Lemma text_reduced F strict s ts :
  s <> [] -> parse F strict s = Ok (ts ++ [mkTerm 1 (lit "1") 1]) -> Forall wf ts ->
  exists x, expression_of_str F strict s = Ok x /\ canonical x /\ same_monomial x ts.
Proof.
  intros N1 E W. unfold expression_of_str.
  assert (standard_str s = s) as -> by (destruct s; [congruence|reflexivity]). rewrite E. cbn [bind].
  assert (Forall wf (ts ++ [mkTerm 1 (lit "1") 1])) as W'.
  { apply Forall_app. split; auto. constructor; [|constructor]. repeat split; discriminate. }
  destruct (reduce_to_canonical (ts ++ [mkTerm 1 (lit "1") 1]) W') as [x [R C]].
  { destruct ts; discriminate. }
  exists x. split; auto. split; auto. eapply same_monomial_trans; [apply reduce_same; eauto|apply same_neutral, same_monomial_refl].
Qed.

Lemma factors_wf F x0 l :
  legal_factor F x0 -> Forall (fun p => plain_op (fst p) /\ legal_factor F (snd p)) l ->
  Forall wf (factors_terms F x0 l).
Proof.
  intros H0 Hl. constructor; [now apply reads_factor|]. apply Forall_forall. intros t I.
  apply in_concat in I as [ts [I J]]. apply in_map_iff in I as [p [<- I]].
  rewrite Forall_forall in Hl. apply Hl in I as [_ H]. destruct (reads_factor F _ H) as [_ W].
  destruct (fst p) as [[]|]; cbn [apply_op] in J; try (destruct J as [<-|[]]; exact W).
  cbn in J. destruct J as [<-|[]]. destruct W as [W1 [W2 W3]]. split; [|split]; cbn; auto.
  - intro E. apply W1. rewrite <- (Qcmult_1_l (coef _)). rewrite <- (Qcmult_inv_r _ W1), <- Qcmult_assoc.
    rewrite E at 1. ring.
  - intro E. apply W2. rewrite <- (Qcopp_involutive (expo _)), E. reflexivity.
Qed.

Lemma factors_nonempty F x0 l : legal_factor F x0 -> factors_text x0 l <> [].
Proof.
  intro H. destruct (reads_factor F x0 H) as [R _]. apply reads_nonempty in R. unfold factors_text.
  destruct (factor_text x0); [congruence|discriminate].
Qed.

(** ** C337: numbers in an expression are decimals *)

(** A chain of decimal numbers and of bases with decimal coefficients and
    exponents denotes the product of what is written. *)
Theorem C337_chain : forall F strict x0 l,
  legal_factor F x0 -> Forall (fun p => plain_op (fst p) /\ legal_factor F (snd p)) l ->
  (strict = true -> violation None (map fst l) = None) ->
  exists x, expression_of_str F strict (factors_text x0 l) = Ok x
    /\ canonical x /\ same_monomial x (factors_terms F x0 l).
Proof.
  intros F strict x0 l H0 Hl V. apply text_reduced; eauto using factors_nonempty, factors_wf.
  rewrite factors_parse by auto. destruct strict; [now rewrite V|reflexivity].
Qed.
Print Assumptions C337_chain.

(** In strict mode a quotient followed by a quotient or a product is refused. *)
Theorem C337_order : forall F x0 l e,
  legal_factor F x0 -> Forall (fun p => plain_op (fst p) /\ legal_factor F (snd p)) l ->
  violation None (map fst l) = Some e ->
  expression_of_str F true (factors_text x0 l) = Err e.
Proof.
  intros F x0 l e H0 Hl V. unfold expression_of_str.
  assert (N1 := factors_nonempty F x0 l H0).
  assert (standard_str (factors_text x0 l) = factors_text x0 l) as -> by (destruct (factors_text x0 l); [congruence|reflexivity]).
  rewrite factors_parse by auto. now rewrite V.
Qed.
Print Assumptions C337_order.

(** A number alone is the constant with its value, rounded to a float. *)
Theorem C337_number : forall F strict n,
  legal_numeral n -> unsigned_power n -> fl F (numeral_value n) <> 0%Qc ->
  expression_of_str F strict (numeral_text n) = Ok [mkTerm (fl F (numeral_value n)) (lit "1") 1].
Proof.
  intros F strict n L U N1.
  destruct (C337_chain F strict (Numeral n) []) as [x [E [C S]]]; cbn; auto.
  unfold factors_text in E. cbn [factor_text map concat] in E. rewrite app_nil_r in E. rewrite E. f_equal.
  apply canonical_unique; auto.
  exists [mkTerm (fl F (numeral_value n)) (lit "1") 1], []. split; [reflexivity|]. split; [discriminate|].
  split; [right; eexists; repeat split|]. repeat constructor.
Qed.
Print Assumptions C337_number.

Definition num (sg : option ascii) (w : string) (p : option string) (x : option (ascii * option ascii * string)) : numeral :=
  mkNumeral sg (lit w) (match p with Some p => Some (lit p) | None => None end)
    (match x with Some (c, s, d) => Some (c, s, lit d) | None => None end).

Ltac digits := cbn; repeat (apply Forall_cons; [unfold digit; cbn; lia|]); apply Forall_nil.
Ltac legal_num :=
  split; [unfold a_sign; auto|split; [digits|split; [digits|split;
    [first [left; discriminate|right; discriminate]
    |intros ? ? ? X; first [discriminate X|injection X as <- <- <-; split; [auto|split; [unfold a_sign; auto|split; [discriminate|digits]]]]]]]].

(** "1.5e3 * 2.5e-3m^-.5 / s^2.0" is 3.75 m^-1/2 s^-2. *)
Example C337_meets :
  let x0 := Numeral (num None "1" (Some "5") (Some ("e"%char, None, "3")))%string in
  let x1 := Multiple (Some (num None "2" (Some "5") (Some ("e"%char, Some "-"%char, "3")))%string) (lit "m") (Some (num (Some "-"%char) "" (Some "5") None)%string) in
  let x2 := Multiple None (lit "s") (Some (num None "2" (Some "0") None)%string) in
  let l := [(Some Multiply, x1); (Some Divide, x2)] in
  factors_text x0 l = lit "1.5e3 * 2.5e-3m^-.5 / s^2.0"
  /\ legal_factor F64 x0 /\ Forall (fun p => plain_op (fst p) /\ legal_factor F64 (snd p)) l
  /\ violation None (map fst l) = None
  /\ factors_terms F64 x0 l = [mkTerm (Q2Qc 1500) (lit "1") 1; mkTerm (Q2Qc (1 # 400)) (lit "m") (Q2Qc (-1 # 2)); mkTerm 1 (lit "s") (Q2Qc (-2 # 1))].
Proof.
  cbv zeta. split; [reflexivity|]. split; [|split; [|split; [reflexivity|]]].
  - split; [legal_num|]. split; [intros ? ? ? X; now injection X|]. vm_compute. discriminate.
  - constructor; [split; [discriminate|]|constructor; [split; [discriminate|]|constructor]]; cbn [fst snd legal_factor].
    + split; [exists (lit "m"), []; repeat split; try discriminate; [constructor; [left; cbn; lia|constructor]|constructor]|].
      split; [intros [r E]; discriminate E|]. split.
      * intros c X. injection X as <-. split; [legal_num|]. split; [vm_compute; discriminate|discriminate].
      * intros c X. injection X as <-. split; [legal_num|vm_compute; discriminate].
    + split; [exists (lit "s"), []; repeat split; try discriminate; [constructor; [left; cbn; lia|constructor]|constructor]|].
      split; [intros [r E]; discriminate E|]. split; [discriminate|].
      intros c X. injection X as <-. split; [legal_num|vm_compute; discriminate].
  - assert (forall a b : list term, Ok a = Ok b -> a = b) as H by congruence. apply H. compute_eq.
Qed.

(** ** C338: a signed power of ten

    Full statement: a number in scientific notation denotes that number
    whatever the sign of its power.  True directly before a base (and in
    exponents), false of a number alone. *)

Theorem C338_attached_partial : forall F strict n b,
  legal_numeral n -> numeral_value n <> 0%Qc -> n_power n <> None ->
  legal_base b -> ~ starts_with (lit "sqrt") b ->
  exists x, expression_of_str F strict (numeral_text n ++ b) = Ok x
    /\ canonical x /\ same_monomial x [mkTerm (numeral_value n) b 1].
Proof.
  intros F strict n b L N1 P B S.
  destruct (C337_chain F strict (Multiple (Some n) b None) []) as [x [E H]]; cbn; auto.
  - split; auto. split; auto. split; [|discriminate]. intros c X. injection X as <-. tauto.
  - unfold factors_text in E. cbn [factor_text map concat] in E. rewrite !app_nil_r in E. eauto.
Qed.
Print Assumptions C338_attached_partial.

(** Alone, it is the product of the number before the letter, the unknown
    called by that letter, and the signed power as a number. *)
Theorem C338_alone_refuted : forall F strict n c k d,
  legal_numeral n -> n_power n = Some (c, Some k, d) ->
  numeral_value (mantissa n) <> 0%Qc -> fl F (numeral_value (integer (Some k) d)) <> 0%Qc ->
  exists x, expression_of_str F strict (numeral_text n) = Ok x /\ canonical x
    /\ same_monomial x [mkTerm (numeral_value (mantissa n)) [c] 1;
                        mkTerm (fl F (numeral_value (integer (Some k) d))) (lit "1") 1]
    /\ forall v, x <> [mkTerm v (lit "1") 1].
Proof.
  intros F strict n c k d L E N1 N2.
  destruct (text_reduced F strict (numeral_text n)
    [mkTerm (numeral_value (mantissa n)) [c] 1; mkTerm (fl F (numeral_value (integer (Some k) d))) (lit "1") 1])
    as [x [R [C S]]].
  - apply numeral_chrs, L.
  - now rewrite (signed_parse F strict n c k d).
  - repeat constructor; cbn; auto; discriminate.
  - exists x. repeat split; auto; try apply S. intros v ->. destruct S as [_ S].
    destruct L as [_ [_ [_ [_ H]]]]. destruct (H _ _ _ E) as [Hc _].
    assert ([c] <> lit "1") as Nc by (destruct Hc as [->| ->]; discriminate).
    specialize (S [c] Nc). unfold total_expo in S. cbn [filter base] in S.
    rewrite str_eqb_neq in S by auto. rewrite str_eqb_refl in S. cbn in S.
    apply (f_equal this) in S. vm_compute in S. discriminate S.
Qed.
Print Assumptions C338_alone_refuted.

(** "2e-3" is -6 e, although the number it writes is 1/500. *)
Example C338_meets :
  let n := num None "2" None (Some ("e"%char, Some "-"%char, "3"))%string in
  legal_numeral n /\ numeral_text n = lit "2e-3" /\ numeral_value n = Q2Qc (1 # 500)
  /\ numeral_value (mantissa n) = Q2Qc 2 /\ fl F64 (numeral_value (integer (Some "-"%char) (lit "3"))) = Q2Qc (-3 # 1)
  /\ expression_of_str F64 true (lit "2e-3") = Ok [mkTerm (Q2Qc (-6 # 1)) (lit "1") 1; mkTerm 1 (lit "e") 1].
Proof.
  cbv zeta. split; [legal_num|]. split; [reflexivity|]. split; [compute_eq|]. split; [compute_eq|].
  split; [compute_eq|]. compute_eq.
Qed.
