(** Vocabulary of the properties of conversion to [float]. *)

From Coq Require Import ZArith QArith Qabs Qcanon.
From Verif Require SymbolicModel.
Open Scope Z_scope.

(** The number m * 2^e. *)
Definition dyadic (m e : Z) : Qc := Q2Qc (inject_Z m * Qpower (2#1) e)%Q.
(** A number that a double can hold: 53 binary digits (the range of the
    exponents is not limited). *)
Definition double (x : Qc) : Prop := exists m e, Z.abs m < 2 ^ 53 /\ x = dyadic m e.
(** A double whose last binary digit is 0. *)
Definition even_double (x : Qc) : Prop := exists m e, 2 ^ 52 <= Z.abs m < 2 ^ 53 /\ Z.even m = true /\ x = dyadic m e.
Definition distance (x y : Qc) : Q := Qabs (this x - this y).
(** A fraction of numbers below 2^26 (67108864). *)
Definition small (x : Qc) : Prop := Z.abs (Qnum (this x)) < 2 ^ 26 /\ Zpos (Qden (this x)) < 2 ^ 26.
Definition small_numbers (ts : list SymbolicModel.term) : Prop :=
  List.Forall (fun t => small (SymbolicModel.coef t) /\ small (SymbolicModel.expo t)) ts.
