(** Properties of numbers in double precision. *)

From Coq Require Import String Ascii List Bool ZArith QArith Qabs Qcanon Lia.
From Verif Require Import Py SymbolicModel SymbolicSpec SymbolicProps FloatSpec FloatProofs.
Import ListNotations.
Open Scope list_scope.

(** ** C336: double precision *)

(** A number becomes the nearest double, and the even one of two. *)
Theorem C336_rounding : forall q, double (fl F64 q)
  /\ forall x, double x ->
       (distance (fl F64 q) q <= distance x q)%Q
       /\ ((distance (fl F64 q) q == distance x q)%Q -> fl F64 q <> x -> even_double (fl F64 q)).
Proof. exact round_rounded. Qed.
Print Assumptions C336_rounding.

(** What a double can hold is kept; different fractions of numbers below 2^26
    stay different. *)
Theorem C336_kept : (forall q, double q -> fl F64 q = q)
  /\ (forall p q, small p -> small q -> fl F64 p = fl F64 q -> p = q).
Proof.
  split; [exact round_exact|]. intros p q P Q E. destruct (Qc_eq_dec p q) as [H|N]; [exact H|]. now apply small_apart in N.
Qed.
Print Assumptions C336_kept.

Lemma small_exact ts : small_numbers ts -> exact_on F64 ts.
Proof.
  intros H s t S T. unfold small_numbers in H. rewrite Forall_forall in H. destruct (H s S), (H t T).
  split; now apply C336_kept.
Qed.

(** Such expressions are equal exactly if they are algebraically identical. *)
Theorem C336_equality : forall xs ys x y,
  Forall wf xs -> Forall wf ys -> reduce xs = Ok x -> reduce ys = Ok y -> small_numbers (x ++ y) ->
  (expr_eqb F64 x y = true <-> same_monomial xs ys).
Proof. intros xs ys x y Wx Wy X Y S. apply C03_equality_partial; auto. now apply small_exact. Qed.
Print Assumptions C336_equality.

(** Equal ones have the same hash. *)
Theorem C336_hash : forall (V : Type) (H : list (Qc * str * Qc) -> V) x y,
  canonical x -> canonical y -> small_numbers (x ++ y) -> expr_eqb F64 x y = true -> expr_hash H x = expr_hash H y.
Proof. intros V H x y X Y S. apply C10_hash_partial; auto. now apply small_exact. Qed.
Print Assumptions C336_hash.

(** Expressions with whole coefficients that a double can hold, or halves,
    quarters or eighths of such, and exponents with one digit of denominator
    are read back as they were. *)
Theorem C336_round_trip : forall strict x, canonical x -> Forall wf x ->
  Forall (fun t => double (coef t) /\ (Zpos (Qden (coef t)) < 10)%Z /\ (Zpos (Qden (expo t)) < 10)%Z
    /\ (base t <> lit "1" -> legal_base (base t) /\ ~ starts_with (lit "sqrt") (base t))) x ->
  expression_of_str F64 strict (expr_format F64 x) = Ok x.
Proof.
  intros strict x C W H. apply C06_round_trip_partial; auto.
  destruct C as (cs & vs & -> & _ & Cc & Cv & _). rewrite Forall_forall in H, Cv. apply Forall_forall. intros t I.
  destruct (H t I) as (D & Dc & De & B). split; [exact De|]. split; [exact Dc|]. split; [now apply round_exact|].
  apply in_app_or in I as [I|I].
  - left. destruct Cc as [->|(c & -> & Bc & Ec & _)]; [destruct I|]. destruct I as [<-|[]]. auto.
  - right. destruct (Cv t I) as (N & Co & _). split; [exact Co|]. now apply B.
Qed.
Print Assumptions C336_round_trip.

Example C336_meets :
  small (Q2Qc (-66666667 # 50000001)) /\ double (Q2Qc (5 # 2)) /\ double (Qc_of_Z (2 ^ 53 - 1))
  /\ fl F64 (Q2Qc (1 # 3)) = dyadic 6004799503160661 (-54)
  /\ fl F64 (Qc_of_Z (2 ^ 53 + 1)) = Qc_of_Z (2 ^ 53)
  /\ fl F64 (Qc_of_Z (2 ^ 53 + 3)) = Qc_of_Z (2 ^ 53 + 4)
  /\ small_numbers [T 6 "1" 1; T 1 "a" (1 # 3)].
Proof.
  split; [split; reflexivity|]. split; [exists 5%Z, (-1)%Z; split; [reflexivity|apply Qc_is_canon; reflexivity]|].
  split; [exists (2 ^ 53 - 1)%Z, 0%Z; split; [reflexivity|apply Qc_is_canon; reflexivity]|].
  repeat split; try (apply Qc_is_canon; vm_compute; reflexivity).
  repeat constructor.
Qed.
