(** The property theorems about /repo/src/goats/core/symbolic.py. *)

From Coq Require Import String Ascii List Bool ZArith NArith QArith Qcanon Permutation Relations.
From Verif Require Import Py PyFacts SymbolicModel SymbolicSpec SymbolicReduceProofs.
From Verif Require Import SymbolicRx SymbolicParseProofs SymbolicChainProofs SymbolicTermProofs.
From Verif Require Import SymbolicExprProofs SymbolicLawProofs.
Import ListNotations.
Open Scope list_scope.
Open Scope py_scope.

(** Shorthand for the examples. *)
Definition T (c : Q) (b : string) (e : Q) : term := mkTerm (Q2Qc c) (lit b) (Q2Qc e).
Definition ok_str (s : string) : res expression := expression_of_str F64 false (lit s).

(** ** C01: canonical form *)

Theorem C01_reduce_canonical : forall ts,
  Forall wf ts -> ts <> [] -> exists x, reduce ts = Ok x /\ canonical x.
Proof. exact reduce_to_canonical. Qed.
Print Assumptions C01_reduce_canonical.

(** Every term object satisfies [wf]. *)
Theorem C01_terms_are_wf : forall c b e, wf (init c b e).
Proof. exact wf_init. Qed.
Print Assumptions C01_terms_are_wf.

Example C01_example :
  let ts := [T 2 "b" (1#2); T 3 "1" 1; T 1 "a" (1#2); T 1 "c" 2; T 1 "c" (-2#1)] in
  Forall wf ts /\ ts <> [] /\ reduce ts = Ok [T 6 "1" 1; T 1 "a" (1#2); T 1 "b" (1#2)].
Proof.
  split; [repeat constructor; discriminate|]. split; [discriminate|]. compute_eq.
Qed.

(** ** C02: reduction preserves the denoted monomial *)

Theorem C02_reduce_same_monomial : forall ts x,
  Forall wf ts -> reduce ts = Ok x -> same_monomial x ts.
Proof. exact reduce_same. Qed.
Print Assumptions C02_reduce_same_monomial.

(** ... hence its value for integral exponents and non-zero rational values. *)
Theorem C02_reduce_value : forall rho ts x,
  Forall wf ts -> integral ts -> rho (lit "1") = 1%Qc -> (forall b, rho b <> 0%Qc) ->
  reduce ts = Ok x -> value rho x = value rho ts.
Proof. exact value_reduce. Qed.
Print Assumptions C02_reduce_value.

(** ... and its value in any commutative monoid in which bases have powers
    with exponents from a set [P] closed under addition (for example positive
    reals with all rational exponents). *)
Theorem C02_reduce_value_in :
  forall (M : Type) (op : M -> M -> M) (e : M),
  (forall x y z, op x (op y z) = op (op x y) z) -> (forall x y, op x y = op y x) ->
  (forall x, op e x = x) ->
  forall (C : Qc -> M) (E : str -> Qc -> M) (P : Qc -> Prop),
  C 1%Qc = e -> (forall a b, C (a * b)%Qc = op (C a) (C b)) ->
  P 0%Qc -> P 1%Qc -> (forall p q, P p -> P q -> P (p + q)%Qc) ->
  (forall b, E b 0%Qc = e) ->
  (forall b p q, P p -> P q -> E b (p + q)%Qc = op (E b p) (E b q)) ->
  (forall p, E (lit "1") p = e) ->
  forall ts x, Forall wf ts -> Forall (fun t => P (expo t)) ts -> reduce ts = Ok x ->
  value_in op e C E x = value_in op e C E ts.
Proof. exact reduce_value_in. Qed.
Print Assumptions C02_reduce_value_in.

Example C02_example :
  let ts := [T 2 "b" 3; T 3 "1" 1; T 1 "a" (-1#1); T 5 "b" (-1#1)] in
  let rho := fun b => if str_eqb b (lit "a") then Q2Qc 7 else if str_eqb b (lit "b") then Q2Qc (2#3) else 1%Qc in
  Forall wf ts /\ integral ts /\ (forall b, rho b <> 0%Qc)
  /\ exists x, reduce ts = Ok x /\ length x = 3%nat /\ value rho x = Q2Qc (40#21).
Proof.
  split; [repeat constructor; discriminate|]. split.
  { repeat constructor; [exists 3%Z|exists 1%Z|exists (-1)%Z|exists (-1)%Z]; apply Qc_is_canon; reflexivity. }
  split. { intro b. destruct (str_eqb b (lit "a")), (str_eqb b (lit "b")); discriminate. }
  eexists. split; [vm_compute; reflexivity|]. split; compute_eq.
Qed.

(** ** C03: equality is algebraic identity.

    Full statement: without [exact_on].  Missing: expressions with numbers
    that [float] conflates, for which it is false (below). *)
Theorem C03_equality_partial : forall F xs ys x y,
  Forall wf xs -> Forall wf ys -> reduce xs = Ok x -> reduce ys = Ok y ->
  exact_on F (x ++ y) ->
  (expr_eqb F x y = true <-> same_monomial xs ys).
Proof. exact equality_of_reduced. Qed.
Print Assumptions C03_equality_partial.

(** Algebraically identical expressions always compare equal. *)
Theorem C228_identical_are_equal : forall F xs ys x y,
  Forall wf xs -> Forall wf ys -> reduce xs = Ok x -> reduce ys = Ok y ->
  same_monomial xs ys -> expr_eqb F x y = true.
Proof. exact identical_equal. Qed.
Print Assumptions C228_identical_are_equal.

Theorem C228_equality_equivalence : forall F,
  equivalence expression (fun x y => expr_eqb F x y = true).
Proof. exact equality_equivalence. Qed.
Print Assumptions C228_equality_equivalence.

(** In particular the order of the terms is irrelevant. *)
Theorem C228_order_irrelevant : forall xs ys,
  Forall wf xs -> Permutation xs ys -> reduce xs = reduce ys.
Proof. exact reduce_permutation. Qed.
Print Assumptions C228_order_irrelevant.

(** Two expressions with different coefficients compare equal. *)
Theorem C03_equality_refuted : exists x y,
  canonical x /\ canonical y /\ expr_eqb F64 x y = true /\ ~ same_monomial x y.
Proof. exact equality_refuted. Qed.
Print Assumptions C03_equality_refuted.

Example C03_example :
  exact_on F64 [T 6 "1" 1; T 1 "a" (1#2); T 6 "1" 1; T 1 "a" (1#2)]
  /\ reduce [T 2 "a" 1; T 3 "a" (-1#2)] = Ok [T 6 "1" 1; T 1 "a" (1#2)].
Proof.
  split; [|compute_eq].
  intros s t Hs Ht. simpl in Hs, Ht. repeat (destruct Hs as [Hs|Hs]); try contradiction; subst s;
  repeat (destruct Ht as [Ht|Ht]); try contradiction; subst t; split; intro H; try reflexivity; vm_compute in H; discriminate H.
Qed.

(** ** C04: group laws *)

(** The product is the canonical form of the concatenation, whenever that
    form survives being written as text (the implementation re-parses it).
    Missing: the results that do not survive, for which the laws fail. *)
Theorem C04_product_partial : forall F x y z,
  Forall wf x -> Forall wf y -> x ++ y <> [] ->
  canonical z -> same_monomial z (x ++ y) -> Forall (printable F) z ->
  expr_mul F x y = Ok z.
Proof. exact product_ok. Qed.
Print Assumptions C04_product_partial.

Theorem C04_quotient_partial : forall F x y z,
  Forall wf x -> Forall wf y -> x ++ y <> [] ->
  canonical z -> same_monomial z (x ++ inverse y) -> Forall (printable F) z ->
  expr_div F x y = Ok z.
Proof. exact quotient_ok. Qed.
Print Assumptions C04_quotient_partial.

Theorem C04_power_partial : forall F x n z,
  Forall wf x -> x <> [] -> n <> 0%Z ->
  Forall (fun t => fpow F (coef t) (Qc_of_Z n) = Some (Qc_zpow (coef t) n)
                   /\ fl F (expo t) = expo t
                   /\ fl F (expo t * Qc_of_Z n)%Qc = (expo t * Qc_of_Z n)%Qc) x ->
  canonical z -> same_monomial z (power n x) -> Forall (printable F) z ->
  expr_pow F x (Qc_of_Z n) = Ok z.
Proof. exact power_ok. Qed.
Print Assumptions C04_power_partial.

(** Commutativity needs no condition. *)
Theorem C229_product_comm : forall F x y,
  Forall wf x -> Forall wf y -> expr_mul F x y = expr_mul F y x.
Proof. exact product_comm. Qed.
Print Assumptions C229_product_comm.

Theorem C04_product_assoc_partial : forall F x y z a b,
  Forall wf x -> Forall wf y -> Forall wf z -> x <> [] -> y <> [] -> z <> [] ->
  canonical a -> same_monomial a (x ++ y) -> Forall (printable F) a ->
  canonical b -> same_monomial b (y ++ z) -> Forall (printable F) b ->
  expr_mul F x y = Ok a /\ expr_mul F y z = Ok b /\ expr_mul F a z = expr_mul F x b.
Proof. exact product_assoc. Qed.
Print Assumptions C04_product_assoc_partial.

Theorem C04_identity_partial : forall F x,
  canonical x -> Forall wf x -> Forall (printable F) x ->
  expr_mul F x [mkTerm 1 (lit "1") 1] = Ok x /\ expr_mul F [mkTerm 1 (lit "1") 1] x = Ok x.
Proof. exact product_identity. Qed.
Print Assumptions C04_identity_partial.

Theorem C229_self_quotient : forall F x,
  fl F 1%Qc = 1%Qc -> Forall wf x -> x <> [] -> expr_div F x x = Ok [mkTerm 1 (lit "1") 1].
Proof. exact self_quotient. Qed.
Print Assumptions C229_self_quotient.

Theorem C04_cancel_partial : forall F x y a,
  canonical x -> Forall wf x -> Forall wf y -> y <> [] -> Forall (printable F) x ->
  canonical a -> same_monomial a (x ++ y) -> Forall (printable F) a ->
  expr_mul F x y = Ok a /\ expr_div F a y = Ok x.
Proof. exact product_cancel. Qed.
Print Assumptions C04_cancel_partial.

(** Powers of exact expressions distribute over products, and nested powers
    multiply: both follow from the algebra of [power] and C04_power_partial. *)
Theorem C229_power_algebra : forall m n xs ys,
  power n (xs ++ ys) = power n xs ++ power n ys /\ power n (power m xs) = power (m * n) xs.
Proof. exact power_algebra. Qed.
Print Assumptions C229_power_algebra.

(** A product whose factors are both read from text has a wrong coefficient:
    [Expression('a / 5') * 'b']. *)
Theorem C04_product_refuted : exists x y z,
  expression_of_str F64 false (lit "a / 5") = Ok x /\ expression_of_str F64 false (lit "b") = Ok y
  /\ expr_mul F64 x y = Ok z /\ ~ same_monomial z (x ++ y).
Proof. exact product_refuted. Qed.
Print Assumptions C04_product_refuted.

Example C04_example :
  let x := [T (3#2) "1" 1; T 1 "a" (1#2)] in
  canonical x /\ Forall wf x /\ Forall (printable F64) x
  /\ expr_mul F64 x x = Ok [T (9#4) "1" 1; T 1 "a" 1]
  /\ expr_pow F64 x (Qc_of_Z 2) = Ok [T (9#4) "1" 1; T 1 "a" 1]
  /\ Forall (fun t => fpow F64 (coef t) (Qc_of_Z 2) = Some (Qc_zpow (coef t) 2)
                   /\ fl F64 (expo t) = expo t
                   /\ fl F64 (expo t * Qc_of_Z 2)%Qc = (expo t * Qc_of_Z 2)%Qc) x.
Proof. exact example_power. Qed.

(** ** C05: powers of terms *)

(** Missing: [p = 0], for which it is false. *)
Theorem C05_term_power_partial : forall F t n,
  wf t -> n <> 0%Z ->
  term_pow F t (Qc_of_Z n) = Ok (mkTerm (Qc_zpow (coef t) n) (base t) (expo t * Qc_of_Z n)%Qc).
Proof. exact term_pow_int. Qed.
Print Assumptions C05_term_power_partial.

(** Fractional powers of a term with unit coefficient, which is what every
    variable of a reduced expression is. *)
Theorem C05_fractional_power_partial : forall F t p,
  wf t -> coef t = 1%Qc -> p <> 0%Qc -> (forall q, fpow F 1 q = Some 1%Qc) ->
  term_pow F t p = Ok (mkTerm 1 (base t) (expo t * p)%Qc).
Proof. exact term_pow_frac. Qed.
Print Assumptions C05_fractional_power_partial.

(** The zeroth power of [a^2] is [a], not 1. *)
Theorem C05_zeroth_power_refuted : exists t,
  wf t /\ base t = lit "a" /\ expo t = Qc_of_Z 2 /\ forall F,
  exists u, term_pow F t 0 = Ok u /\ base u = lit "a" /\ expo u = 1%Qc.
Proof. exact zeroth_power_refuted. Qed.
Print Assumptions C05_zeroth_power_refuted.

Example C05_example : wf (T 3 "a" (1#2)) /\ wf (T 1 "a" (1#2)) /\ forall q, fpow F64 1 q = Some 1%Qc.
Proof. exact example_wf. Qed.

(** ** C06: printing and reading back *)

(** Missing: expressions with a coefficient that is not an exact float, a
    denominator of two or more digits, or a base starting with "sqrt". *)
Theorem C06_round_trip_partial : forall F strict x,
  canonical x -> Forall wf x -> Forall (printable F) x ->
  expression_of_str F strict (expr_format F x) = Ok x.
Proof. exact format_read. Qed.
Print Assumptions C06_round_trip_partial.

Theorem C06_terms_partial : forall F r z,
  Forall wf r -> Forall (printable F) r -> r <> [] -> canonical z -> same_monomial z r ->
  expression_of_terms F r = Ok z.
Proof. exact terms_read. Qed.
Print Assumptions C06_terms_partial.

(** [a^1/12] is read as [2 a]. *)
Theorem C06_round_trip_refuted : exists x y,
  canonical x /\ Forall wf x
  /\ expression_of_str F64 false (expr_format F64 x) = Ok y /\ ~ same_monomial x y.
Proof. exact round_trip_refuted. Qed.
Print Assumptions C06_round_trip_refuted.

Example C06_example :
  let x := [T (5#2) "1" 1; T 1 "m" 2; T 1 "kg" (2#3); T 1 "s" (-2#1)] in
  canonical x /\ Forall wf x /\ Forall (printable F64) x
  /\ expr_format F64 x = lit "5/2 m^2 kg^2/3 s^-2".
Proof. exact example_print. Qed.

(** ** C07: bracket matching *)

Theorem C07_find_bounds_none : forall s, ~ In "("%char s -> find_bounds s = None.
Proof. exact find_bounds_none. Qed.
Print Assumptions C07_find_bounds_none.

(** Missing: strings with a closing bracket before the first opening one. *)
Theorem C07_find_bounds_partial : forall s i j,
  no_early_close s -> (find_bounds s = Some (i, j) <-> first_group s i j).
Proof. exact find_bounds_correct. Qed.
Print Assumptions C07_find_bounds_partial.

Theorem C07_find_bounds_refuted : exists s i j,
  find_bounds s = Some (i, j) /\ ~ first_group s i j.
Proof. exact find_bounds_refuted. Qed.
Print Assumptions C07_find_bounds_refuted.

Example C07_example :
  no_early_close (lit "ab((c) d)(e)") /\ find_bounds (lit "ab((c) d)(e)") = Some (2, 9)%nat.
Proof. exact example_bounds. Qed.

(** ** C08: operators in chains *)

(** In both modes the outcome on every written expression is determined. *)
Theorem C08_default_accepts : forall F x0 l,
  legal_chain F x0 l ->
  exists ts, parse F false (chain_text x0 l) = Ok ts /\ Forall wf ts
             /\ same_monomial ts (chain_denote x0 l).
Proof. exact default_accepts. Qed.
Print Assumptions C08_default_accepts.

Theorem C08_strict_accepts : forall F x0 l,
  legal_chain F x0 l -> orderly_chain x0 l ->
  exists ts, parse F true (chain_text x0 l) = Ok ts /\ Forall wf ts
             /\ same_monomial ts (chain_denote x0 l).
Proof. exact strict_accepts. Qed.
Print Assumptions C08_strict_accepts.

Theorem C08_strict_rejects : forall F x0 l,
  legal_chain F x0 l -> ~ orderly_chain x0 l ->
  exists e, (e = RatioError \/ e = ProductError) /\ parse F true (chain_text x0 l) = Err e.
Proof. exact strict_rejects. Qed.
Print Assumptions C08_strict_rejects.

(** The error raised is the one of the first offending operator. *)
Theorem C08_strict_first_error : forall F x0 l e,
  legal_chain F x0 l -> violation None (map fst l) = Some e ->
  parse F true (chain_text x0 l) = Err e.
Proof. exact strict_first_error. Qed.
Print Assumptions C08_strict_first_error.

Example C08_example :
  let x0 := WVar (lit "a") 1 in
  let g := WGroup (WVar (lit "b") (Q2Qc (1#2))) [(Some Divide, WNum (Q2Qc (5#2)))] (-2) in
  let l := [(Some Divide, g); (None, WVar (lit "c2") (Q2Qc (-3#1)))] in
  legal_chain F64 x0 l /\ chain_text x0 l = lit "a / (b^1/2 / 5/2)^-2 c2^-3"
  /\ orderly_chain x0 l /\ ~ orderly_chain x0 (l ++ [(Some Divide, x0); (Some Multiply, x0)]).
Proof. exact example_chain. Qed.

(** ** C09: indexing *)

Theorem C09_getitem_partial : forall x i,
  (0 <= i < Z.of_nat (length x) -> forall t,
     expr_getitem x i = Ok t <-> nth_error x (Z.to_nat i) = Some t)%Z
  /\ (- Z.of_nat (length x) <= i < 0 -> forall t,
     expr_getitem x i = Ok t <-> nth_error x (Z.to_nat (i + Z.of_nat (length x))) = Some t)%Z
  /\ (Z.of_nat (length x) <= i \/ i < - 2 * Z.of_nat (length x) ->
     expr_getitem x i = Err IndexError)%Z.
Proof. exact getitem_correct. Qed.
Print Assumptions C09_getitem_partial.

(** Indices below [-len] down to [-2*len] wrap around a second time. *)
Theorem C09_getitem_wraps_refuted : forall x i t,
  (- 2 * Z.of_nat (length x) <= i < - Z.of_nat (length x))%Z ->
  (expr_getitem x i = Ok t <-> nth_error x (Z.to_nat (i + 2 * Z.of_nat (length x))) = Some t).
Proof. exact getitem_wraps. Qed.
Print Assumptions C09_getitem_wraps_refuted.

Example C09_example :
  let x := [T 3 "1" 1; T 1 "a" 1] in
  expr_getitem x (-2) = Ok (T 3 "1" 1) /\ expr_getitem x 1 = Ok (T 1 "a" 1)
  /\ expr_getitem x 2 = Err IndexError /\ expr_getitem x (-3) = Ok (T 1 "a" 1).
Proof. repeat split; compute_eq. Qed.

(** ** C10: hashes *)

(** Missing: expressions with numbers that [float] conflates. *)
Theorem C10_hash_partial : forall F (V : Type) (H : list (Qc * str * Qc) -> V) x y,
  canonical x -> canonical y -> exact_on F (x ++ y) ->
  expr_eqb F x y = true -> expr_hash H x = expr_hash H y.
Proof. exact hash_ok. Qed.
Print Assumptions C10_hash_partial.

(** [Expression('a / 3') == Expression('1/3 a')] but the hashed data differ. *)
Theorem C10_hash_refuted : exists x y,
  ok_str "a / 3" = Ok x /\ ok_str "1/3 a" = Ok y /\ expr_eqb F64 x y = true
  /\ expr_hash (fun d => d) x <> expr_hash (fun d => d) y.
Proof. exact hash_refuted. Qed.
Print Assumptions C10_hash_refuted.

Example C10_example : canonical [T 6 "1" 1; T 1 "a" (1#2)].
Proof. exact example_canonical. Qed.

(** ** C61: the parser terminates on every string *)

Theorem C61_parse_terminates : forall F strict s, parse F strict s <> Err OutOfFuel.
Proof. exact parse_halts. Qed.
Print Assumptions C61_parse_terminates.

Theorem C61_create_terminates : forall F s, create_str F s <> Err OutOfFuel.
Proof. exact create_str_halts. Qed.
Print Assumptions C61_create_terminates.

Example C61_example : exists e, ok_str "((a" = Err e /\ exists x, ok_str ")(a)" = x.
Proof. exact example_halts. Qed.
