(** Expressions as users write them: numbers, bases and nested brackets joined
    by blanks, '*', '/' with or without blanks around them, or by nothing at
    all before a bracket. *)

From Coq Require Import String Ascii List Bool ZArith NArith QArith Qcanon.
From Verif Require Import Py SymbolicModel SymbolicSpec DecimalSpec.
Import ListNotations.
Open Scope list_scope.

(** What joins two phrases: blanks, a product or quotient sign with blanks
    before and after it, or nothing. *)
Inductive joint : Type :=
| Blanks (n : nat)
| Times (i j : nat)
| Over (i j : nat)
| Glued.

Definition blanks (n : nat) : str := repeat " "%char n.
Definition joint_text (j : joint) : str :=
  match j with
  | Blanks n => blanks (S n)
  | Times i j => blanks i ++ lit "*" ++ blanks j
  | Over i j => blanks i ++ lit "/" ++ blanks j
  | Glued => []
  end.
Definition joint_op (j : joint) : option operator :=
  match j with Times _ _ => Some Multiply | Over _ _ => Some Divide | _ => None end.

(** A fraction with one digit in the denominator: "-3/4". *)
Record fraction : Type := mkFraction { f_sign : option ascii; f_over : str; f_under : ascii }.
Definition fraction_text (f : fraction) : str := opt_text (f_sign f) ++ f_over f ++ lit "/" ++ [f_under f].
Definition fraction_value (f : fraction) : Qc :=
  Q2Qc (inject_Z (sign_of (f_sign f) * number (f_over f)) / inject_Z (number [f_under f]))%Q.
Definition legal_fraction (f : fraction) : Prop :=
  a_sign (f_sign f) /\ f_over f <> [] /\ Forall digit (f_over f) /\ digit (f_under f)
  /\ number [f_under f] <> 0%Z.

(** A coefficient or exponent: not written, a decimal or a fraction. *)
Inductive amount : Type :=
| Unwritten
| Decimal (n : numeral)
| Fraction (f : fraction).
Definition amount_text (a : amount) : str :=
  match a with Unwritten => [] | Decimal n => numeral_text n | Fraction f => fraction_text f end.
Definition value_of (a : amount) : Qc :=
  match a with Unwritten => 1%Qc | Decimal n => numeral_value n | Fraction f => fraction_value f end.
(** Not zero (a zero is read as 1). *)
Definition sound (a : amount) : Prop :=
  value_of a <> 0%Qc
  /\ match a with Unwritten => True | Decimal n => legal_numeral n | Fraction f => legal_fraction f end.
Definition exponent_text (p : amount) : str :=
  match p with Unwritten => [] | _ => "^"%char :: amount_text p end.
(** The exponent is a whole number. *)
Definition exponent_of (p : amount) : Z := Qc_num (value_of p).
Definition whole (p : amount) : Prop := sound p /\ exists z, value_of p = Qc_of_Z z.

(** Simple phrases: a factor as in [DecimalSpec], a fraction, a number with a
    whole exponent, and a base with any coefficient and exponent. *)
Inductive simple : Type :=
| Plain (x : factor)
| Part (f : fraction)
| Number (n : numeral) (p : amount)
| Raised (c : amount) (b : str) (p : amount).
Definition simple_text (x : simple) : str :=
  match x with
  | Plain x => factor_text x
  | Part f => fraction_text f
  | Number n p => numeral_text n ++ exponent_text p
  | Raised c b p => amount_text c ++ b ++ exponent_text p
  end.
Definition simple_term (F : flops) (x : simple) : term :=
  match x with
  | Plain x => factor_term F x
  | Part f => mkTerm (fl F (fraction_value f)) (lit "1") 1
  | Number n p => mkTerm (fl F (Qc_zpow (numeral_value n) (exponent_of p))) (lit "1") 1
  | Raised c b p => mkTerm (value_of c) b (value_of p)
  end.
Definition legal_simple (F : flops) (x : simple) : Prop :=
  match x with
  | Plain x => legal_factor F x
  | Part f => legal_fraction f /\ fl F (fraction_value f) <> 0%Qc
  | Number n p =>
      legal_numeral n /\ n_power n = None /\ numeral_value n <> 0%Qc /\ p <> Unwritten /\ whole p
      /\ fl F (Qc_zpow (numeral_value n) (exponent_of p)) <> 0%Qc
  | Raised c b p =>
      legal_base b /\ ~ starts_with (lit "sqrt") b /\ sound c /\ sound p
      /\ (forall n, c = Decimal n -> n_power n = None -> ~ like_power b)
  end.

(** A simple phrase, or a bracketed chain of phrases, with [i] blanks after the opening
    and [k] before the closing bracket, and an exponent. *)
Inductive phrase : Type :=
| Simply (x : simple)
| Bracket (i k : nat) (x0 : phrase) (l : list (joint * phrase)) (p : amount).

Fixpoint phrase_text (x : phrase) : str :=
  match x with
  | Simply x => simple_text x
  | Bracket i k x0 l p =>
      lit "("
      ++ (blanks i ++ phrase_text x0
          ++ concat (map (fun p => joint_text (fst p) ++ phrase_text (snd p)) l) ++ blanks k)
      ++ lit ")" ++ exponent_text p
  end.
(** A whole expression, with blanks before and after it. *)
Definition phrases_text (i k : nat) (x0 : phrase) (l : list (joint * phrase)) : str :=
  blanks i ++ phrase_text x0
  ++ concat (map (fun p => joint_text (fst p) ++ phrase_text (snd p)) l) ++ blanks k.

(** What it stands for: a stroke inverts the next phrase and nothing else. *)
Definition joined (j : joint) (ts : list term) : list term :=
  match j with Over _ _ => inverse ts | _ => ts end.
Fixpoint meaning (F : flops) (x : phrase) : list term :=
  match x with
  | Simply x => [simple_term F x]
  | Bracket _ _ x0 l p =>
      power (exponent_of p)
        (meaning F x0 ++ concat (map (fun p => joined (fst p) (meaning F (snd p))) l))
  end.
Definition phrases_meaning (F : flops) (x0 : phrase) (l : list (joint * phrase)) : list term :=
  meaning F x0 ++ concat (map (fun p => joined (fst p) (meaning F (snd p))) l).

(** Only a bracket can follow without anything in between, and a stroke
    without blanks must not be followed by a digit ("2/3" is one number). *)
Definition fits (j : joint) (x : phrase) : Prop :=
  match j with
  | Glued => exists i k x0 l p, x = Bracket i k x0 l p
  | Over O O => forall c s, phrase_text x = c :: s -> ~ digit c
  | _ => True
  end.
(** Exponents of brackets are whole and not zero. *)
Fixpoint proper (F : flops) (x : phrase) : Prop :=
  match x with
  | Simply x => legal_simple F x
  | Bracket _ _ x0 l p =>
      whole p /\ proper F x0
      /\ (fix go l := match l with
                      | [] => True
                      | p :: l' => (fits (fst p) (snd p) /\ proper F (snd p)) /\ go l'
                      end) l
  end.
Definition proper_chain (F : flops) (x0 : phrase) (l : list (joint * phrase)) : Prop :=
  proper F x0 /\ Forall (fun p => fits (fst p) (snd p) /\ proper F (snd p)) l.

(** No chain has a quotient followed by a quotient or a product. *)
Definition joints (l : list (joint * phrase)) : list (option operator) :=
  map (fun p => joint_op (fst p)) l.
Fixpoint in_order (x : phrase) : Prop :=
  match x with
  | Simply _ => True
  | Bracket _ _ x0 l _ =>
      violation None (joints l) = None /\ in_order x0
      /\ (fix go l := match l with [] => True | p :: l' => in_order (snd p) /\ go l' end) l
  end.
Definition chain_in_order (x0 : phrase) (l : list (joint * phrase)) : Prop :=
  violation None (joints l) = None /\ in_order x0 /\ Forall (fun p => in_order (snd p)) l.

(** The same phrases with the blanks of a tidy text: one on each side of a sign
    and one between phrases, none next to brackets. *)
Definition tidy_joint (j : joint) : joint :=
  match j with Blanks _ | Glued => Blanks 0 | Times _ _ => Times 1 1 | Over _ _ => Over 1 1 end.
Fixpoint tidy (x : phrase) : phrase :=
  match x with
  | Simply x => Simply x
  | Bracket _ _ x0 l p => Bracket 0 0 (tidy x0) (map (fun p => (tidy_joint (fst p), tidy (snd p))) l) p
  end.
Definition tidy_tail (l : list (joint * phrase)) : list (joint * phrase) :=
  map (fun p => (tidy_joint (fst p), tidy (snd p))) l.

(** * Rational exponents

    A bracket of bases without numbers may have any exponent that is not zero,
    which multiplies the exponents of the bases. *)
Definition times_exponent (e : Qc) (ts : list term) : list term :=
  map (fun t => mkTerm (coef t) (base t) (expo t * e)) ts.
Fixpoint bases (F : flops) (x : phrase) : list term :=
  match x with
  | Simply x => [simple_term F x]
  | Bracket _ _ x0 l p =>
      times_exponent (value_of p)
        (bases F x0 ++ concat (map (fun p => joined (fst p) (bases F (snd p))) l))
  end.
Definition phrases_bases (F : flops) (x0 : phrase) (l : list (joint * phrase)) : list term :=
  bases F x0 ++ concat (map (fun p => joined (fst p) (bases F (snd p))) l).

(** As [proper], with any exponents. *)
Fixpoint spelled (F : flops) (x : phrase) : Prop :=
  match x with
  | Simply x => legal_simple F x
  | Bracket _ _ x0 l p =>
      sound p /\ spelled F x0
      /\ (fix go l := match l with
                      | [] => True
                      | p :: l' => (fits (fst p) (snd p) /\ spelled F (snd p)) /\ go l'
                      end) l
  end.
Definition spelled_chain (F : flops) (x0 : phrase) (l : list (joint * phrase)) : Prop :=
  spelled F x0 /\ Forall (fun p => fits (fst p) (snd p) /\ spelled F (snd p)) l.
(** No numbers but exponents. *)
Fixpoint bare (x : phrase) : Prop :=
  match x with
  | Simply x => exists b p, x = Raised Unwritten b p \/ exists q, x = Plain (Multiple None b q)
  | Bracket _ _ x0 l _ =>
      bare x0 /\ (fix go l := match l with [] => True | p :: l' => bare (snd p) /\ go l' end) l
  end.
Definition bare_chain (x0 : phrase) (l : list (joint * phrase)) : Prop :=
  bare x0 /\ Forall (fun p => bare (snd p)) l.
(** Powers of the float 1.0 are 1.0. *)
Definition powers_of_one (F : flops) : Prop := forall q, fpow F 1 q = Some 1%Qc.

(** * Square roots

    "sqrt" may stand before the first phrase, and between two phrases after at
    least one blank; it halves the exponents of the next phrase. *)
Inductive link : Type :=
| Join (j : joint)
| Rooted (i j : nat).
Definition root_text (i j : nat) : str := blanks i ++ lit "sqrt" ++ blanks j.
Definition link_text (k : link) : str :=
  match k with Join j => joint_text j | Rooted i j => root_text (S i) j end.
Definition link_op (k : link) : option operator :=
  match k with Join j => joint_op j | Rooted _ _ => Some Sqrt end.
Definition linked (k : link) (ts : list term) : list term :=
  match k with Join j => joined j ts | Rooted _ _ => times_exponent (Q2Qc (1 # 2)) ts end.

(** A text that starts with [i] blanks and, if [lead] is [Some j], "sqrt" and
    [j] blanks. *)
Definition rooted_text (lead : option nat) (i k : nat) (x0 : phrase) (l : list (link * phrase)) : str :=
  match lead with Some j => root_text i j | None => blanks i end
  ++ phrase_text x0 ++ concat (map (fun p => link_text (fst p) ++ phrase_text (snd p)) l) ++ blanks k.
Definition rooted_bases (F : flops) (lead : option nat) (x0 : phrase) (l : list (link * phrase)) : list term :=
  match lead with Some _ => times_exponent (Q2Qc (1 # 2)) (bases F x0) | None => bases F x0 end
  ++ concat (map (fun p => linked (fst p) (bases F (snd p))) l).

(** The exponent written at the end of a phrase, and its half, are floats. *)
Definition written_exponent (F : flops) (x : phrase) : Qc :=
  match x with Simply x => expo (simple_term F x) | Bracket _ _ _ _ p => value_of p end.
Definition exact_half (F : flops) (x : phrase) : Prop :=
  fl F (written_exponent F x) = written_exponent F x
  /\ fl F (written_exponent F x * Q2Qc (1 # 2)) = (written_exponent F x * Q2Qc (1 # 2))%Qc.
Definition link_fits (F : flops) (k : link) (x : phrase) : Prop :=
  match k with Join j => fits j x | Rooted _ _ => exact_half F x end.
Definition rooted_chain (F : flops) (lead : option nat) (x0 : phrase) (l : list (link * phrase)) : Prop :=
  spelled F x0 /\ bare x0 /\ (lead <> None -> exact_half F x0)
  /\ Forall (fun p => link_fits F (fst p) (snd p) /\ spelled F (snd p) /\ bare (snd p)) l.
Definition rooted_in_order (x0 : phrase) (l : list (link * phrase)) : Prop :=
  violation None (map (fun p => link_op (fst p)) l) = None
  /\ in_order x0 /\ Forall (fun p => in_order (snd p)) l.
