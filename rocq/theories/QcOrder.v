(** Order and field reasoning on canonical rationals, by linear arithmetic on
    the underlying rationals. *)

From Coq Require Import QArith Qcanon Qabs Lqa Lia Qreduction.
From Verif Require Import Py.

Lemma this_add a b : (this (a + b)%Qc == this a + this b)%Q.
Proof. apply Qred_correct. Qed.
Lemma this_mul a b : (this (a * b)%Qc == this a * this b)%Q.
Proof. apply Qred_correct. Qed.
Lemma this_opp a : (this (- a)%Qc == - this a)%Q.
Proof. apply Qred_correct. Qed.
Lemma this_sub a b : (this (a - b)%Qc == this a - this b)%Q.
Proof. unfold Qcminus. rewrite this_add, this_opp. reflexivity. Qed.
Lemma this_inv a : (this (/ a)%Qc == / this a)%Q.
Proof. apply Qred_correct. Qed.
Lemma this_q q : (this (Q2Qc q) == q)%Q.
Proof. apply Qred_correct. Qed.
Lemma this_abs a : (this (Qc_abs a) == Qabs (this a))%Q.
Proof. apply Qred_correct. Qed.
Lemma this_of_Z z : (this (Qc_of_Z z) == inject_Z z)%Q.
Proof. apply Qred_correct. Qed.
Lemma Qc_eq_this a b : a = b <-> (this a == this b)%Q.
Proof. split; [intros ->; reflexivity|apply Qc_is_canon]. Qed.

(** Turns hypotheses and goal about [Qc] into ones about [Q]. *)
Ltac to_Q :=
  repeat match goal with
  | H : @eq Qc ?a ?b |- _ => rewrite Qc_eq_this in H
  | H : ~ (@eq Qc ?a ?b) |- _ => rewrite Qc_eq_this in H
  | |- @eq Qc ?a ?b => rewrite Qc_eq_this
  | |- ~ (@eq Qc ?a ?b) => rewrite Qc_eq_this
  end;
  unfold Qcle, Qclt, Qcdiv in *;
  repeat match goal with
  | H : context [this (?a + ?b)%Qc] |- _ => rewrite (this_add a b) in H
  | H : context [this (?a - ?b)%Qc] |- _ => rewrite (this_sub a b) in H
  | H : context [this (?a * ?b)%Qc] |- _ => rewrite (this_mul a b) in H
  | H : context [this (- ?a)%Qc] |- _ => rewrite (this_opp a) in H
  | H : context [this (/ ?a)%Qc] |- _ => rewrite (this_inv a) in H
  | H : context [this (Qc_abs ?a)] |- _ => rewrite (this_abs a) in H
  | H : context [this (Qc_of_Z ?a)] |- _ => rewrite (this_of_Z a) in H
  | H : context [this (Q2Qc ?a)] |- _ => rewrite (this_q a) in H
  | |- context [this (?a + ?b)%Qc] => rewrite (this_add a b)
  | |- context [this (?a - ?b)%Qc] => rewrite (this_sub a b)
  | |- context [this (?a * ?b)%Qc] => rewrite (this_mul a b)
  | |- context [this (- ?a)%Qc] => rewrite (this_opp a)
  | |- context [this (/ ?a)%Qc] => rewrite (this_inv a)
  | |- context [this (Qc_abs ?a)] => rewrite (this_abs a)
  | |- context [this (Qc_of_Z ?a)] => rewrite (this_of_Z a)
  | |- context [this (Q2Qc ?a)] => rewrite (this_q a)
  end.
Ltac qlra := to_Q; lra.
Ltac qnra := to_Q; nra.

Lemma Qc_abs_nonneg a : (0 <= a)%Qc -> Qc_abs a = a.
Proof. intro H. to_Q. now apply Qabs_pos. Qed.
Lemma Qc_abs_neg a : (a <= 0)%Qc -> Qc_abs a = (- a)%Qc.
Proof. intro H. to_Q. now apply Qabs_neg. Qed.

Lemma Qc_total a b : (a < b)%Qc \/ a = b \/ (b < a)%Qc.
Proof. destruct (Qc_dec a b) as [[H|H]|H]; auto. Qed.
Lemma Qc_lt_le a b : (a < b)%Qc -> (a <= b)%Qc.
Proof. intro. qlra. Qed.
Lemma Qc_lt_neq a b : (a < b)%Qc -> a <> b.
Proof. intros H E. subst. qlra. Qed.
Lemma Qc_nlt a b : ~ (a < b)%Qc <-> (b <= a)%Qc.
Proof. split; [apply Qcnot_lt_le|intros H1 H2; qlra]. Qed.

Example qlra_works (a b c : Qc) : (a <= b)%Qc -> (b < c)%Qc -> (a + 1 < c - 0 + 1)%Qc.
Proof. intros. qlra. Qed.
