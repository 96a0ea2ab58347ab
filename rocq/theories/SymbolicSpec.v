(** Specification vocabulary for the symbolic module, independent of the
    model's helper functions (only the record of terms is shared). *)

From Coq Require Import String Ascii List Bool ZArith NArith QArith Qcanon.
From Coq Require Import Sorted.
From Verif Require Import Py SymbolicModel.
Import ListNotations.
Open Scope list_scope.

(** Every [Term] object satisfies this: the constructor replaces 0 by 1 and
    the empty base by '1' (proved as [wf_init]). *)
Definition wf (t : term) : Prop :=
  coef t <> 0%Qc /\ expo t <> 0%Qc /\ base t <> [].

(** The algebraic content of a list of terms: the product of the coefficients
    and, for each base, the sum of the exponents. *)
Definition total_coef (ts : list term) : Qc := prodQc (map coef ts).
Definition total_expo (b : str) (ts : list term) : Qc :=
  sumQc (map expo (filter (fun t => str_eqb b (base t)) ts)).

(** Two lists of terms denote the same monomial. *)
Definition same_monomial (xs ys : list term) : Prop :=
  total_coef xs = total_coef ys
  /\ forall b, b <> lit "1" -> total_expo b xs = total_expo b ys.

(** Strict code-point order on strings. *)
Definition str_lt (a b : str) : Prop := str_leb a b = true /\ a <> b.

(** [s] is printed before [t]. *)
Definition before (s t : term) : Prop :=
  (expo t < expo s)%Qc \/ (expo s = expo t /\ str_lt (base s) (base t)).

(** The canonical form promised by the documentation of [reduce]. *)
Definition canonical (x : list term) : Prop :=
  exists consts vars,
    x = consts ++ vars /\ x <> []
    /\ (consts = []
        \/ exists c, consts = [c] /\ base c = lit "1" /\ expo c = 1%Qc
                     /\ (coef c = 1%Qc -> vars = []))
    /\ Forall (fun t => base t <> lit "1" /\ coef t = 1%Qc /\ expo t <> 0%Qc) vars
    /\ NoDup (map base vars)
    /\ StronglySorted before vars.

(** The numerical value of a list of terms with integral exponents under an
    assignment of rational numbers to the bases. *)
Definition integral (ts : list term) : Prop :=
  Forall (fun t => exists z, expo t = Qc_of_Z z) ts.
Definition value (rho : str -> Qc) (ts : list term) : Qc :=
  prodQc (map (fun t => (coef t * Qc_zpow (rho (base t)) (Qc_num (expo t)))%Qc) ts).

(** The value of a list of terms in any commutative monoid: [C] interprets
    coefficients and [E b p] interprets the base [b] raised to [p]. *)
Definition value_in {M : Type} (op : M -> M -> M) (e : M) (C : Qc -> M) (E : str -> Qc -> M)
  (ts : list term) : M :=
  fold_right (fun t acc => op (op (C (coef t)) (E (base t) (expo t))) acc) e ts.

(** Exact powers of a list of terms. *)
Definition inverse (ts : list term) : list term :=
  map (fun t => mkTerm (/ coef t)%Qc (base t) (- expo t)%Qc) ts.
Definition power (n : Z) (ts : list term) : list term :=
  map (fun t => mkTerm (Qc_zpow (coef t) n) (base t) (expo t * Qc_of_Z n)%Qc) ts.

(** A base as users write it: letters, '#' or '_', then digits; a base that
    starts with "sqrt" is read as the square-root operator. *)
Definition letter (c : ascii) : Prop :=
  (97 <= N_of_ascii c <= 122)%N \/ (65 <= N_of_ascii c <= 90)%N
  \/ c = "#"%char \/ c = "_"%char.
Definition digit (c : ascii) : Prop := (48 <= N_of_ascii c <= 57)%N.
Definition legal_base (b : str) : Prop :=
  exists l d, b = l ++ d /\ l <> [] /\ Forall letter l /\ Forall digit d.
Definition starts_with (p s : str) : Prop := exists r, s = p ++ r.

(** Terms of a reduced expression that survive being written as text and read
    again: a fraction is read with one digit of denominator, and a constant is
    converted to float. *)
Definition printable (F : flops) (t : term) : Prop :=
  (Zpos (Qc_den (expo t)) < 10)%Z /\ (Zpos (Qc_den (coef t)) < 10)%Z
  /\ fl F (coef t) = coef t
  /\ ((base t = lit "1" /\ expo t = 1%Qc)
      \/ (coef t = 1%Qc /\ legal_base (base t) /\ ~ starts_with (lit "sqrt") (base t))).

(** * Brackets *)

(** The number of opening minus the number of closing brackets. *)
Fixpoint depth (s : str) : Z :=
  match s with
  | [] => 0
  | c :: s' =>
      ((if Ascii.eqb c "(" then 1 else if Ascii.eqb c ")" then -1 else 0) + depth s')%Z
  end.

(** [s[i:j]] starts at the first opening bracket of [s] and ends at the
    closing bracket that matches it. *)
Definition first_group (s : str) (i j : nat) : Prop :=
  nth_error s i = Some "("%char
  /\ (forall k, (k < i)%nat -> nth_error s k <> Some "("%char)
  /\ (i < j <= length s)%nat
  /\ depth (substr i j s) = 0%Z
  /\ (forall k, (i < k < j)%nat -> depth (substr i k s) <> 0%Z).

(** No closing bracket comes before the first opening bracket. *)
Definition no_early_close (s : str) : Prop :=
  forall p q, s = p ++ ")"%char :: q -> In "("%char p.

(** * Chains of operands *)

(** The text of a separator: juxtaposition, product or quotient. *)
Definition sep (o : option operator) : str :=
  match o with
  | None => lit " "
  | Some Multiply => lit " * "
  | Some Divide => lit " / "
  | Some Sqrt => lit " "
  end.
(** Expressions as users write them: variables with an exponent, numbers, and
    bracketed chains of operands with an integral exponent. *)
Inductive written : Type :=
| WVar (b : str) (e : Qc)
| WNum (q : Qc)
| WGroup (x0 : written) (l : list (option operator * written)) (n : Z).

(** The text of an exponent; an exponent 1 is not written. *)
Definition sup (e : Qc) : str := if Qc_eqb e 1 then [] else lit "^" ++ dec_of_Qc e.

Fixpoint text (x : written) : str :=
  match x with
  | WVar b e => b ++ sup e
  | WNum q => dec_of_Qc q
  | WGroup x0 l n =>
      lit "(" ++ (text x0 ++ concat (map (fun p => sep (fst p) ++ text (snd p)) l))
      ++ lit ")" ++ sup (Qc_of_Z n)
  end.
(** The text [x0 sep x1 sep x2 ...]. *)
Definition chain_text (x0 : written) (l : list (option operator * written)) : str :=
  text x0 ++ concat (map (fun p => sep (fst p) ++ text (snd p)) l).

(** What the text denotes: each operator applies to its right operand. *)
Definition apply_op (o : option operator) (ts : list term) : list term :=
  match o with Some Divide => inverse ts | _ => ts end.
Fixpoint denote (x : written) : list term :=
  match x with
  | WVar b e => [mkTerm 1 b e]
  | WNum q => [mkTerm q (lit "1") 1]
  | WGroup x0 l n =>
      power n (denote x0 ++ concat (map (fun p => apply_op (fst p) (denote (snd p))) l))
  end.
Definition chain_denote (x0 : written) (l : list (option operator * written)) : list term :=
  denote x0 ++ concat (map (fun p => apply_op (fst p) (denote (snd p))) l).

(** The restrictions on what can be written: bases are legal and do not start
    with "sqrt", exponents and numbers are non-zero with a one-digit
    denominator, numbers are exact floats. *)
Definition plain_op (o : option operator) : Prop := o <> Some Sqrt.
Fixpoint legal (F : flops) (x : written) : Prop :=
  match x with
  | WVar b e =>
      legal_base b /\ ~ starts_with (lit "sqrt") b /\ e <> 0%Qc /\ (Zpos (Qc_den e) < 10)%Z
  | WNum q => q <> 0%Qc /\ fl F q = q /\ (Zpos (Qc_den q) < 10)%Z
  | WGroup x0 l n =>
      n <> 0%Z /\ legal F x0
      /\ (fix go l := match l with
                      | [] => True
                      | p :: l' => (plain_op (fst p) /\ legal F (snd p)) /\ go l'
                      end) l
  end.
Definition legal_chain (F : flops) (x0 : written) (l : list (option operator * written)) : Prop :=
  legal F x0 /\ Forall (fun p => plain_op (fst p) /\ legal F (snd p)) l.

(** The first offending operator of a chain, if any: a quotient must not be
    followed by another quotient or a product. *)
Fixpoint violation (prev : option operator) (l : list (option operator)) : option exn :=
  match l with
  | [] => None
  | o :: l' =>
      match prev, o with
      | Some Divide, Some Divide => Some RatioError
      | Some Divide, Some Multiply => Some ProductError
      | _, _ => violation o l'
      end
  end.
(** No chain of the expression has an offending operator. *)
Fixpoint orderly (x : written) : Prop :=
  match x with
  | WVar _ _ | WNum _ => True
  | WGroup x0 l _ =>
      violation None (map fst l) = None /\ orderly x0
      /\ (fix go l := match l with [] => True | p :: l' => orderly (snd p) /\ go l' end) l
  end.
Definition orderly_chain (x0 : written) (l : list (option operator * written)) : Prop :=
  violation None (map fst l) = None /\ orderly x0 /\ Forall (fun p => orderly (snd p)) l.

(** * Equality *)

Definition exact_on (F : flops) (xs : list term) : Prop :=
  forall s t, In s xs -> In t xs ->
    (fl F (coef s) = fl F (coef t) -> coef s = coef t)
    /\ (fl F (expo s) = fl F (expo t) -> expo s = expo t).

