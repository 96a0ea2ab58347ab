(** What the properties of universal functions on array-like quantities
    mean. *)

From Coq Require Import List QArith Qcanon.
From Verif Require Import Py ArrayModel ArraySpec.
Import ListNotations.
Open Scope nat_scope.

Section Amounts.
Context {D U : Type} (asarray : D -> arr) (size : U -> Qc).
(** The physical amount of an element: its number times the size of the
    quantity's unit, whatever the sizes of units are measured in. *)
Definition amount (o : object D U) (i : list nat) : Qc := (at_ (meaning asarray o) i * size (o_unit o))%Qc.
(** An array that numpy can hold and whose axes are named. *)
Definition proper (o : object D U) : Prop :=
  shaped asarray o /\ filled (meaning asarray o) /\ NoDup (o_dims o).
End Amounts.

(** The value is within a part in 100000 of the number. *)
Definition near (v x : Qc) : Prop := (Qc_abs (v - x) * Qc_of_Z 100000 <= Qc_abs x)%Qc.

(** The numbers 1 and 0 that stand for truth values. *)
Definition tells (q : Qc) (P : Prop) : Prop := q = 1%Qc /\ P \/ q = 0%Qc /\ ~ P.
