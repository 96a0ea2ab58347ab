(** Properties of further operations on terms and expressions (C290-C296). *)

From Coq Require Import String Ascii List Bool ZArith NArith QArith Qpower Qcanon Lia Permutation.
From Verif Require Import Py PyFacts SymbolicModel SymbolicSpec SymbolicReduceProofs SymbolicExprProofs SymbolicLawProofs TermsModel TermsSpec TermsProofs.
Import ListNotations.
Open Scope list_scope.
Open Scope nat_scope.

(** ** C290: every expression is in canonical form *)

Theorem C290_always_canonical : forall F x, reachable F x -> canonical x /\ Forall wf x.
Proof. exact reachable_canonical. Qed.
Print Assumptions C290_always_canonical.

Definition ex_ab : expression := [mkTerm 1 (lit "b") (Q2Qc 2); mkTerm 1 (lit "a") 1].
Example C290_meets : reachable F64 ex_ab /\ reachable F64 [mkTerm (Q2Qc 3) (lit "1") 1; mkTerm 1 (lit "a") 1].
Proof.
  split; [apply (r_text F64 (lit "b (a b)") false)|apply (r_text F64 (lit "6 a / 2") false)]; apply computes; vm_compute; reflexivity.
Qed.

(** ** C291: operands given as text *)

(** An operator gives the same with the operand on either side, whether it is
    an expression or a text (which is converted, or raises). *)
Theorem C291_either_side : forall F x a, reachable F x -> valid F a -> rmul_any F a x = mul_any F x a.
Proof.
  intros F x a R V. unfold rmul_any, mul_any. destruct (as_expression F a) as [y|e] eqn:E; [|reflexivity]. cbn [bind].
  destruct (valid_canonical F a y V E) as [_ Wy]. destruct (reachable_canonical F x R) as [_ Wx]. now apply product_comm.
Qed.
Print Assumptions C291_either_side.

(** The functions [product], [ratio] and [equality] are the operators on the
    converted operands: products commute, a ratio of equal operands is 1, and
    equality is an equivalence on all operands that can be converted. *)
Theorem C291_functions : forall F a b c x y z, valid F a -> valid F b -> valid F c ->
  as_expression F a = Ok x -> as_expression F b = Ok y -> as_expression F c = Ok z ->
  product F a b = product F b a
  /\ product F a b = mul_any F x b /\ ratio F a b = div_any F x b /\ rdiv_any F a y = ratio F a b /\ equality F a b = eq_any F x b
  /\ (fl F 1%Qc = 1%Qc -> ratio F a a = Ok [mkTerm 1 (lit "1") 1])
  /\ equality F a a = Ok true /\ equality F a b = equality F b a
  /\ (equality F a b = Ok true -> equality F b c = Ok true -> equality F a c = Ok true).
Proof.
  intros F a b c x y z Va Vb Vc Ea Eb Ec. destruct (valid_canonical F a x Va Ea) as [Cx Wx]. destruct (valid_canonical F b y Vb Eb) as [_ Wy].
  unfold product, ratio, equality, mul_any, div_any, eq_any, rdiv_any. rewrite Ea, Eb, Ec. cbn [bind]. repeat split.
  - now apply product_comm.
  - intro H1. apply self_quotient; auto. now apply canonical_wf_nonempty.
  - f_equal. destruct (equality_equivalence F) as [Rf _ _]. apply Rf.
  - f_equal. destruct (expr_eqb F x y) eqn:E, (expr_eqb F y x) eqn:E'; auto; [apply equality_sym in E|apply equality_sym in E']; congruence.
  - intros H1 H2. injection H1 as H1. injection H2 as H2. f_equal. now apply (equality_trans F x y z).
Qed.
Print Assumptions C291_functions.

(** Text that cannot be read raises the same exception in every operator and
    function. *)
Theorem C291_unreadable : forall F s e x a, expression_of_str F false s = Err e ->
  mul_any F x (Text s) = Err e /\ div_any F x (Text s) = Err e /\ eq_any F x (Text s) = Err e
  /\ rmul_any F (Text s) x = Err e /\ rdiv_any F (Text s) x = Err e
  /\ product F (Text s) a = Err e /\ ratio F (Text s) a = Err e /\ equality F (Text s) a = Err e.
Proof.
  intros F s e x a H. unfold product, ratio, equality, mul_any, div_any, eq_any, rmul_any, rdiv_any. cbn [as_expression].
  rewrite H. repeat split.
Qed.
Print Assumptions C291_unreadable.

Example C291_meets : as_expression F64 (Text (lit "a b^2")) = Ok ex_ab /\ (exists e, expression_of_str F64 false (lit "a ^ $") = Err e)
  /\ rmul_any F64 (Text (lit "b / a")) ex_ab = Ok [mkTerm 1 (lit "b") (Q2Qc 3)] /\ fl F64 1%Qc = 1%Qc.
Proof.
  split; [apply computes; vm_compute; reflexivity|]. split; [|split; [apply computes; vm_compute; reflexivity|apply Qc_is_canon; reflexivity]].
  destruct (expression_of_str F64 false (lit "a ^ $")) as [x|e] eqn:E; [|now exists e]. exfalso.
  assert (match expression_of_str F64 false (lit "a ^ $") with Ok _ => false | Err _ => true end = true) as K by (vm_compute; reflexivity).
  rewrite E in K. discriminate.
Qed.

(** ** C292: differences of expressions *)

(** The one-sided difference has the terms of the first expression that are not
    in the second, the symmetric difference those in exactly one, the split
    difference both one-sided ones; no term occurs twice. *)
Theorem C292_difference : forall F x a y, reachable F x -> valid F a -> as_expression F a = Ok y ->
  exists d s l r, difference F x a = Ok d /\ difference_symmetric F x a = Ok s /\ difference_split F x a = Ok (l, r)
  /\ (forall t, In t d <-> In t x /\ ~ In t y) /\ l = d /\ (forall t, In t r <-> In t y /\ ~ In t x)
  /\ (forall t, In t s <-> In t l \/ In t r) /\ NoDup d /\ NoDup s /\ NoDup r.
Proof.
  intros F x a y R V E. destruct (reachable_canonical F x R) as [Cx _]. destruct (valid_canonical F a y V E) as [Cy _].
  exists (expr_difference x y), (expr_difference x y ++ expr_difference y x), (expr_difference x y), (expr_difference y x).
  unfold difference, difference_symmetric, difference_split. rewrite E. cbn [bind]. pose proof (canonical_NoDup x Cx) as Nx. pose proof (canonical_NoDup y Cy) as Ny.
  assert (NoDup (expr_difference x y)) as N1 by now apply NoDup_filter. assert (NoDup (expr_difference y x)) as N2 by now apply NoDup_filter.
  repeat (split; [reflexivity|]). split; [intro t; apply difference_in|]. split; [reflexivity|]. split; [intro t; apply difference_in|].
  split; [intro t; apply in_app_iff|]. split; [exact N1|]. split; [|exact N2]. apply NoDup_app_intro; auto.
  intros t I J. apply difference_in in I as [I _]. apply difference_in in J as [_ J]. contradiction.
Qed.
Print Assumptions C292_difference.

(** Two expressions have no differences exactly if they denote the same
    monomial; then they are the same. *)
Theorem C292_no_difference : forall F x y, reachable F x -> reachable F y ->
  (difference_symmetric F x (Built y) = Ok [] <-> same_monomial x y) /\ (difference_symmetric F x (Built y) = Ok [] -> expr_eqb F x y = true).
Proof.
  intros F x y Rx Ry. destruct (reachable_canonical F x Rx) as [Cx Wx]. destruct (reachable_canonical F y Ry) as [Cy Wy].
  assert (difference_symmetric F x (Built y) = Ok [] <-> x = y) as K.
  { unfold difference_symmetric. cbn [as_expression bind]. split.
    - intro H. injection H as H. apply app_eq_nil in H as [H1 H2]. apply difference_nil in H1. apply difference_nil in H2.
      apply canonical_unique; auto. apply same_monomial_perm. apply NoDup_Permutation; auto using canonical_NoDup. split; [apply H1|apply H2].
    - intros ->. assert (expr_difference y y = []) as -> by (apply difference_nil, incl_refl). reflexivity. }
  split.
  - rewrite K. split; [intros ->; apply same_monomial_refl|now apply canonical_unique].
  - rewrite K. intros ->. destruct (equality_equivalence F) as [Rf _ _]. apply Rf.
Qed.
Print Assumptions C292_no_difference.

Example C292_meets : let t b := mkTerm 1 b 1 in
  as_expression F64 (Text (lit "a c")) = Ok [t (lit "a"); t (lit "c")]
  /\ difference_split F64 [t (lit "a"); t (lit "b")] (Built [t (lit "a"); t (lit "c")]) = Ok ([t (lit "b")], [t (lit "c")]).
Proof. split; [apply computes; vm_compute; reflexivity|reflexivity]. Qed.

(** ** C293: evaluating terms *)

(** The number of a variable term at a value other than 0 is its coefficient
    times the power of the value; missing: fractional powers, which are floats,
    and 0. *)
Theorem C293_evaluate_partial : forall F t v z, wf t -> base t <> lit "1" -> expo t = Qc_of_Z z -> v <> 0%Qc ->
  exists u, term_call F t v = Ok u /\ term_number u = Ok (coef t * Qc_zpow v z)%Qc.
Proof.
  intros F t v z (Wc & We & _) B Ez NZ. exists (mkTerm (coef t * Qc_zpow v z)%Qc (lit "1") 1).
  unfold term_call. rewrite (str_eqb_neq _ _ B). unfold frac_pow. rewrite Ez, Qc_is_int_of_Z, Qc_num_of_Z, (Qc_eqb_neq _ _ NZ). cbn [andb bind].
  unfold init. rewrite Qc_eqb_neq; [split; reflexivity|]. intro K. apply Qcmult_integral in K as [K|K]; [contradiction|]. now apply (Qc_zpow_neq_0 v z).
Qed.
Print Assumptions C293_evaluate_partial.

(** Evaluating all terms of an expression and multiplying the numbers gives the
    value of the expression. *)
Theorem C293_expression_partial : forall F x rho, Forall wf x -> integral x -> rho (lit "1") = 1%Qc -> (forall b, rho b <> 0%Qc) ->
  exists l, mapM (fun t => (do u <- (if str_eqb (base t) (lit "1") then Ok t else term_call F t (rho (base t))); term_number u)%py) x = Ok l
    /\ prodQc l = value rho x.
Proof. intros F x rho W I O NZ. eexists. split; [now apply prod_values|reflexivity]. Qed.
Print Assumptions C293_expression_partial.

(** Constants cannot be evaluated; a negative power of 0 raises. *)
Theorem C293_errors : forall F t v, (base t = lit "1" -> term_call F t v = Err TypeError)
  /\ (base t <> lit "1" -> (expo t < 0)%Qc -> term_call F t 0 = Err ZeroDivisionError).
Proof.
  intros F t v. split; unfold term_call.
  - intros ->. reflexivity.
  - intros B L. rewrite (str_eqb_neq _ _ B). unfold frac_pow. rewrite Qc_eqb_refl.
    assert (Qc_ltb (expo t) 0 = true) as -> by (destruct (Qc_ltb_spec (expo t) 0); auto; contradiction).
    cbn [andb]. now destruct (Qc_is_int (expo t)).
Qed.
Print Assumptions C293_errors.

(** At 0, every variable with a positive exponent has the value 1. *)
Theorem C293_zero_refuted : forall F t, base t <> lit "1" -> (0 < expo t)%Qc ->
  exists u, term_call F t 0 = Ok u /\ term_number u = Ok 1%Qc.
Proof.
  intros F t B L. exists (mkTerm 1 (lit "1") 1). unfold term_call. rewrite (str_eqb_neq _ _ B). unfold frac_pow. rewrite Qc_eqb_refl.
  assert (Qc_ltb (expo t) 0 = false) as ->.
  { destruct (Qc_ltb_spec (expo t) 0) as [K|]; [|reflexivity]. exfalso. apply (Qclt_not_le _ _ L). now apply Qclt_le_weak. }
  cbn [andb]. destruct (Qc_is_int (expo t)) eqn:I.
  - assert (Qc_zpow 0 (Qc_num (expo t)) = 0%Qc) as ->.
    { apply Qc_int_eq in I. set (z := Qc_num (expo t)) in *. assert (0 < z)%Z as P.
      { rewrite I in L. unfold Qclt, Qc_of_Z in L. cbn [this Q2Qc] in L. rewrite Qred_correct in L. rewrite Qred_correct in L. change 0%Q with (inject_Z 0) in L. now rewrite <- Zlt_Qlt in L. }
      apply Qc_is_canon. unfold Qc_zpow. cbn [this Q2Qc]. rewrite Qred_correct. change (Qred 0) with 0%Q. destruct z as [|p|p]; try discriminate P. cbn [Qpower]. apply Qpower_positive_0. }
    cbn [bind]. unfold init. rewrite Qcmult_0_r, Qc_eqb_refl. split; reflexivity.
  - cbn [bind]. unfold init. rewrite Qcmult_0_r, Qc_eqb_refl. split; reflexivity.
Qed.
Print Assumptions C293_zero_refuted.

Example C293_meets : let t := mkTerm (Q2Qc 3) (lit "a") (Q2Qc 2) in
  wf t /\ (exists u, term_call F64 t (Q2Qc 2) = Ok u /\ term_number u = Ok (Q2Qc 12)) /\ (exists u, term_call F64 t 0 = Ok u /\ term_number u = Ok 1%Qc).
Proof.
  assert (wf (mkTerm (Q2Qc 3) (lit "a") (Q2Qc 2))) as W by (repeat split; discriminate).
  assert (base (mkTerm (Q2Qc 3) (lit "a") (Q2Qc 2)) <> lit "1") as B by discriminate.
  assert (Q2Qc 2 <> 0%Qc) as N by discriminate.
  assert (expo (mkTerm (Q2Qc 3) (lit "a") (Q2Qc 2)) = Qc_of_Z 2) as E by (apply Qc_is_canon; reflexivity).
  split; [exact W|]. split.
  - destruct (C293_evaluate_partial F64 _ (Q2Qc 2) 2 W B E N) as (u & A & B').
    exists u. split; [exact A|]. rewrite B'. f_equal; apply Qc_is_canon; reflexivity.
  - apply C293_zero_refuted; [exact B|reflexivity].
Qed.

(** ** C294: comparing terms with numbers *)

(** A constant term equals exactly the numbers with the same float. *)
Theorem C294_number_partial : forall F t x, base t = lit "1" ->
  exists b, term_eq_number F t x = Ok b /\ (b = true <-> fl F (coef t) = fl F x).
Proof.
  intros F t x B. unfold term_eq_number, term_number. rewrite B. cbn [str_eqb]. rewrite str_eqb_refl. cbn [bind]. eexists. split; [reflexivity|].
  destruct (Qc_eqb_spec (fl F (coef t)) (fl F x)); split; congruence.
Qed.
Print Assumptions C294_number_partial.

(** Comparing a variable with any number raises instead of being false. *)
Theorem C294_number_refuted : forall F t x, base t <> lit "1" -> term_eq_number F t x = Err TypeError.
Proof. intros F t x B. unfold term_eq_number, term_number. now rewrite (str_eqb_neq _ _ B). Qed.
Print Assumptions C294_number_refuted.

Example C294_meets : base (mkTerm (Q2Qc 3) (lit "1") 1) = lit "1" /\ base (mkTerm 1 (lit "a") 1) <> lit "1".
Proof. split; [reflexivity|discriminate]. Qed.

(** ** C295: styles of text *)

(** Without a style, exponents are printed after a caret; with one that
    mentions TeX they are in braces as well; any other style raises for an
    expression that has an exponent to print, and is ignored otherwise. *)
Theorem C295_styles : forall F sep x, Forall (fun t => fl F (coef t) = coef t) x ->
  styled_format F sep None x = Ok (join sep (map (term_text (lit "^") []) x))
  /\ styled_format F sep (Some []) x = Ok (join sep (map (term_text (lit "^") []) x))
  /\ expr_format F x = join (lit " ") (map (term_text (lit "^") []) x)
  /\ (forall s, mentions_tex s -> styled_format F sep (Some s) x = Ok (join sep (map (term_text (lit "^{") (lit "}")) x)))
  /\ (forall s, s <> [] -> ~ mentions_tex s ->
       ((exists t, In t x /\ base t <> lit "1" /\ expo t <> 1%Qc) -> styled_format F sep (Some s) x = Err ValueError)
       /\ ((forall t, In t x -> base t = lit "1" \/ expo t = 1%Qc) -> styled_format F sep (Some s) x = Ok (join sep (map (term_text (lit "^") []) x)))).
Proof.
  intros F sep x X. rewrite Forall_forall in X. unfold styled_format. split; [|split; [|split; [|split]]].
  - rewrite (mapM_ok _ (term_text (lit "^") [])); [reflexivity|]. intros t I. apply styled_plain; auto.
  - rewrite (mapM_ok _ (term_text (lit "^") [])); [reflexivity|]. intros t I. apply styled_plain; auto.
  - unfold expr_format. f_equal. apply map_ext_in. intros t I. apply styled_plain; auto.
  - intros s O. apply tex_spec in O. rewrite (mapM_ok _ (term_text (lit "^{") (lit "}"))); [reflexivity|]. intros t I. apply styled_tex; auto.
  - intros s N O. assert (occurs (lit "tex") (map lower s) = false) as O'.
    { destruct (occurs (lit "tex") (map lower s)) eqn:Q; [|reflexivity]. exfalso. apply O. now apply tex_spec. }
    split.
    + intros (t & I & B & Ne). assert (mapM (styled_term F (Some s)) x = Err ValueError) as ->; [|reflexivity].
      induction x as [|t' x IH]; [destruct I|]. cbn [mapM]. rewrite (styled_other F s t') by (auto; apply X; now left).
      destruct (str_eqb_spec (base t') (lit "1")) as [B1|B1]; cbn [negb andb].
      * destruct I as [->|I]; [congruence|]. cbn [bind]. rewrite IH; auto. intros u J. apply X. now right.
      * destruct (Qc_eqb_spec (expo t') 1) as [E1|E1]; cbn [negb]; [|reflexivity].
        destruct I as [->|I]; [congruence|]. cbn [bind]. rewrite IH; auto. intros u J. apply X. now right.
    + intro A. rewrite (mapM_ok _ (term_text (lit "^") [])); [reflexivity|]. intros t I. rewrite (styled_other F s t) by auto.
      destruct (A t I) as [-> | ->]; [reflexivity|]. rewrite Qc_eqb_refl. cbn [negb]. now rewrite andb_false_r.
Qed.
Print Assumptions C295_styles.

Example C295_meets : styled_format F64 (lit " ") (Some (lit "LaTeX")) [mkTerm (Q2Qc (3#2)) (lit "1") 1; mkTerm 1 (lit "a") (Q2Qc (1#2))] = Ok (lit "3/2 a^{1/2}")
  /\ mentions_tex (lit "LaTeX")
  /\ Forall (fun t => fl F64 (coef t) = coef t) [mkTerm (Q2Qc (3#2)) (lit "1") 1; mkTerm 1 (lit "a") (Q2Qc (1#2))].
Proof.
  split; [vm_compute; reflexivity|]. split; [exists (lit "La"), "T"%char, "e"%char, "X"%char, []; repeat split; tauto|]. repeat constructor; apply Qc_is_canon; reflexivity.
Qed.

(** ** C296: applying a function to the bases *)

(** [x.apply(f)] is the product of [f(base) ** exponent] over the terms, in
    every commutative monoid with powers; and it is multiplicative, when [f]
    takes '1' to the unit and the product survives being written as text (C04).
    Missing: coefficients, which are dropped. *)
Theorem C296_apply_partial : forall (M : Type) (op : M -> M -> M) (e : M) (pw : M -> Qc -> M) (f : str -> M),
  (forall x y z, op x (op y z) = op (op x y) z) -> (forall x y, op x y = op y x) -> (forall x, op e x = x) ->
  let ap := apply (fun m p => Ok (pw m p)) (fun a b => Ok (op a b)) (fun b => Ok (f b)) in
  (forall x, x <> [] -> ap x = Ok (fold_right (fun t acc => op (pw (f (base t)) (expo t)) acc) e x))
  /\ ((forall b, pw (f b) 0%Qc = e) -> (forall b p q, pw (f b) (p + q)%Qc = op (pw (f b) p) (pw (f b) q)) -> (forall p, pw (f (lit "1")) p = e) ->
      forall F x y z, reachable F x -> reachable F y -> canonical z -> same_monomial z (x ++ y) -> Forall (printable F) z ->
      expr_mul F x y = Ok z /\ exists u v, ap x = Ok u /\ ap y = Ok v /\ ap z = Ok (op u v)).
Proof.
  intros M op e pw f As Co Un ap. assert (forall x, x <> [] -> ap x = Ok (value_in op e (fun _ => e) (fun b p => pw (f b) p) x)) as A.
  { intros x N. now apply apply_value. }
  split.
  - intros x N. rewrite (A x N). f_equal. clear N. induction x as [|t x IH]; [reflexivity|]. cbn. now rewrite Un, <- IH.
  - intros P0 Pa P1 F x y z Rx Ry Cz S Pz. destruct (reachable_canonical F x Rx) as [Cx Wx]. destruct (reachable_canonical F y Ry) as [Cy Wy].
    destruct (V_product op e pw f As Co Un P0 Pa P1 F x y z Wx Wy) as [K1 K2]; auto; [apply app_not_nil; now apply canonical_wf_nonempty|].
    split; [exact K1|]. exists (value_in op e (fun _ => e) (fun b p => pw (f b) p) x), (value_in op e (fun _ => e) (fun b p => pw (f b) p) y).
    split; [apply A; now apply canonical_wf_nonempty|]. split; [apply A; now apply canonical_wf_nonempty|].
    rewrite <- K2. apply A. now apply canonical_wf_nonempty.
Qed.
Print Assumptions C296_apply_partial.

(** (The degree of an expression, with sums for products, is an instance.)
    Coefficients are dropped: '2 a' with every base replaced by itself is 'a'. *)
Theorem C296_coefficient_refuted : exists x y, expression_of_str F64 false (lit "2 a") = Ok x
  /\ apply_expression F64 x = Ok y /\ y = [mkTerm 1 (lit "a") 1] /\ ~ same_monomial x y.
Proof.
  exists [mkTerm (Q2Qc 2) (lit "1") 1; mkTerm 1 (lit "a") 1], [mkTerm 1 (lit "a") 1].
  split; [apply computes; vm_compute; reflexivity|]. split; [apply computes; vm_compute; reflexivity|]. split; [reflexivity|].
  intros [K _]. vm_compute in K. discriminate K.
Qed.
Print Assumptions C296_coefficient_refuted.

Example C296_meets : apply_expression F64 ex_ab = Ok ex_ab /\ Forall (printable F64) [mkTerm 1 (lit "a") 1]
  /\ (let pw (m p : Qc) := (m * p)%Qc in let f (b : str) := if str_eqb b (lit "1") then 0%Qc else 1%Qc in
      (forall b, pw (f b) 0%Qc = 0%Qc) /\ (forall b p q, pw (f b) (p + q)%Qc = (pw (f b) p + pw (f b) q)%Qc) /\ (forall p, pw (f (lit "1")) p = 0%Qc)).
Proof.
  split; [apply computes; vm_compute; reflexivity|]. split; [|cbn zeta; repeat split; intros; cbn [str_eqb]; try rewrite str_eqb_refl; ring]. constructor; [|constructor].
  split; [reflexivity|]. split; [reflexivity|]. split; [apply Qc_is_canon; reflexivity|]. right. split; [reflexivity|]. split.
  - exists (lit "a"), []. split; [reflexivity|]. split; [discriminate|]. split; [|constructor]. constructor; [|constructor]. left. split; vm_compute; discriminate.
  - apply not_starts. reflexivity.
Qed.

(** ** C344: removing separators *)

(** A text in which the first bracket is closed by the last character loses
    this pair, and nothing else; what is left is balanced. *)
Theorem C344_enclosed_partial : forall s, first_group s 0 (length s) ->
  exists t, s = lit "(" ++ t ++ lit ")" /\ strip_separators s = Ok t /\ depth t = 0%Z.
Proof.
  intros s H. destruct (enclosed s H) as [t [-> D]]. exists t. split; [reflexivity|]. split; [apply strips|exact D].
Qed.
Print Assumptions C344_enclosed_partial.
(** A text that does not start with an opening and end with a closing bracket
    stays as it is.  Missing: texts that do, with two pairs. *)
Theorem C344_other_partial : forall s, s <> [] -> (forall t, s <> lit "(" ++ t ++ lit ")") -> strip_separators s = Ok s.
Proof. exact keeps. Qed.
Print Assumptions C344_other_partial.
(** Refuted: two pairs side by side are taken apart, and the empty text raises
    IndexError. *)
Theorem C344_pairs_refuted :
  (forall a b, ~ In "("%char a -> ~ In ")"%char a ->
     let s := lit "(" ++ a ++ lit ")(" ++ b ++ lit ")" in
     ~ first_group s 0 (length s) /\ strip_separators s = Ok (a ++ lit ")(" ++ b))
  /\ strip_separators [] = Err IndexError.
Proof.
  split; [|reflexivity]. intros a b A1 A2 s. split.
  - intros (_ & _ & _ & _ & H). apply (H (S (S (length a)))).
    + unfold s. rewrite !app_length. cbn. lia.
    + assert (depth a = 0%Z) as D.
      { clear H s b. induction a as [|c a IH]; [reflexivity|]. cbn [depth].
        destruct (Ascii.eqb_spec c "("); [subst; contradiction A1; now left|].
        destruct (Ascii.eqb_spec c ")"); [subst; contradiction A2; now left|].
        rewrite IH; [reflexivity| |]; intro I; [apply A1|apply A2]; now right. }
      unfold substr, s. rewrite Nat.sub_0_r. cbn [skipn].
      change (lit "(" ++ a ++ lit ")(" ++ b ++ lit ")") with ("("%char :: a ++ ")"%char :: lit "(" ++ b ++ lit ")").
      rewrite firstn_cons. replace (S (length a)) with (length a + 1) by lia.
      rewrite firstn_app_2, firstn_cons, firstn_O.
      cbn [depth]. rewrite depth_app, D. reflexivity.
  - unfold s. rewrite <- strips. f_equal. now rewrite <- !app_assoc.
Qed.
Print Assumptions C344_pairs_refuted.

Example C344_meets : let s := lit "((a^2 / b) / c)" in first_group s 0 (length s) /\ strip_separators s = Ok (lit "(a^2 / b) / c").
Proof.
  cbv zeta. split; [|reflexivity]. split; [reflexivity|]. split; [intros; lia|]. split; [cbn; lia|]. split; [reflexivity|].
  intros k K. cbn in K. do 16 (destruct k as [|k]; [try lia; vm_compute; discriminate|]). lia.
Qed.
