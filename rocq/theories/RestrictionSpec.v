(** Specification side of the properties of restrictions of arrays. *)

From Coq Require Import List ZArith.
Import ListNotations.
Open Scope nat_scope.

(** An integer stands for a position among [n], counted from the start or,
    if it is negative, from the end. *)
Inductive stands_for (n : nat) : Z -> nat -> Prop :=
| from_start p : p < n -> stands_for n (Z.of_nat p) p
| from_end p : p < n -> stands_for n (Z.of_nat p - Z.of_nat n) p.

(** The axis that a call names: the last one unless it says otherwise. *)
Inductive names_axis (ndim : nat) : option Z -> nat -> Prop :=
| given_axis z k : stands_for ndim z k -> names_axis ndim (Some z) k
| last_axis k : S k = ndim -> names_axis ndim None k.
