(** Specification vocabulary for the dimensions of units. *)

From Coq Require Import String Ascii List Bool ZArith QArith Qcanon.
From Verif Require Import Py PyDict SymbolicModel SymbolicSpec MetricTables MetricModel SystemSpec.
Import ListNotations.
Open Scope list_scope.

(** The exponent of the dimension [c] that a unit brings into a product of
    units in [s]: that of the dimension which the table declares for the
    quantity of the unit, in [s] if the unit is one of [s] and in the other
    system otherwise. *)
Definition brings (s : system) (c unit : str) (e : Qc) : Prop :=
  exists q d s', measures unit q /\ declared s' q d /\ total_expo c d = e
    /\ (belongs s unit /\ s' = s \/ ~ belongs s unit /\ s' <> s).

(** The exponents of [c] over all factors, each times the power of the factor,
    add up to [e]. *)
Inductive adds_up (s : system) (c : str) : list term -> Qc -> Prop :=
| adds_none : adds_up s c [] 0%Qc
| adds_one t x e f : brings s c (base t) e -> adds_up s c x f -> adds_up s c (t :: x) (expo t * e + f)%Qc.

(** The product has a unit of [s]. *)
Definition has_one_of (s : system) (x : list term) : Prop := exists t, In t x /\ belongs s (base t).
