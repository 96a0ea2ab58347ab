(** Vocabulary of the properties of the objects that axes accept. *)

From Coq Require Import String List Bool ZArith QArith Qcanon.
From Verif Require Import Py IterablesModel AxisModel PackageSpec.
Import ListNotations.
Open Scope list_scope.

(** The whole number next to [q] in the direction of zero. *)
Definition toward_zero (q : Qc) (z : Z) : Prop :=
  ((0 <= q)%Qc -> (Qc_of_Z z <= q)%Qc /\ (q < Qc_of_Z (z + 1))%Qc)
  /\ ((q < 0)%Qc -> (Qc_of_Z (z - 1) < q)%Qc /\ (q <= Qc_of_Z z)%Qc).
(** The index that an object stands for. *)
Inductive index_of : target -> Z -> Prop :=
| index_int z : index_of (PInt z) z
| index_real q z : toward_zero q z -> index_of (PReal q) z
| index_text b x a : spaces b -> spaces a -> decimal_ok x -> is_whole x ->
    index_of (PStr (b ++ decimal_text x ++ a))
      (match d_sign x with Some true => - digits_number (d_whole x) | _ => digits_number (d_whole x) end)%Z.
(** Some objects, the first of which is not a slice or range. *)
Definition listed (user : list target) : Prop :=
  exists t rest, user = t :: rest /\ (forall s, t <> PSlice s) /\ forall r, t <> PRange r.
Definition is_number (t : target) : Prop := (exists z, t = PInt z) \/ exists q, t = PReal q.
