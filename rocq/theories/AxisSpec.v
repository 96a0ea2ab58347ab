(** Vocabulary of the properties of axes. *)

From Coq Require Import String List Bool ZArith QArith Qcanon.
From Verif Require Import Py IterablesModel IterablesSpec NumericalModel NumericalSpec AxisModel.
Import ListNotations.
Open Scope list_scope.
Open Scope nat_scope.

(** The positions of an axis of [n] coordinates, in order. *)
Definition positions (n : nat) : list Z := map Z.of_nat (seq 0 n).
Definition within (n i : Z) : Prop := (0 <= i < n)%Z.

(** Each value is the axis value at the corresponding point. *)
Definition at_points {V} (axis : list V) (d : data V) : Prop :=
  Forall2 (fun p v => (0 <= p)%Z /\ nth_error axis (Z.to_nat p) = Some v) (d_points d) (d_values d).

(** Targets that are numbers. *)
Inductive number_of : target -> Qc -> Prop :=
| number_int z : number_of (PInt z) (Qc_of_Z z)
| number_real q : number_of (PReal q) q.
(** Targets that specify values, rather than indices, in the given unit:
    numbers with a unit, or numbers not all of which are integers, or numbers
    marked as dimensionless, which are in the unit of the axis. *)
Definition specify (unit : str) (targets : list target) (u : str) (values : list Qc) : Prop :=
  exists numbers, Forall2 number_of numbers values
  /\ ((targets = numbers /\ u = unit /\ exists q, In (PReal q) numbers)
      \/ (targets = numbers ++ [PStr u] /\ u <> lit "1")
      \/ (targets = numbers ++ [PStr (lit "1")] /\ u = unit)).

(** The point is the position of the coordinate nearest to the value. *)
Definition nearest_point (coordinates : list Qc) (v : Qc) (p : Z) : Prop :=
  exists i x, p = Z.of_nat i /\ nearest coordinates v i x.

(** The symbol's first position. *)
Definition first_position (s : str) (symbols : list str) (i : Z) : Prop :=
  exists before after, symbols = before ++ s :: after /\ ~ In s before /\ i = Z.of_nat (length before).

(** Conversion factors are positive and consistent with each other. *)
Definition coherent (factor : str -> str -> option Qc) : Prop :=
  (forall u, factor u u = Some 1%Qc)
  /\ (forall u v f, factor u v = Some f -> (0 < f)%Qc)
  /\ (forall u v w f g, factor u v = Some f -> factor v w = Some g -> factor u w = Some (f * g)%Qc).
