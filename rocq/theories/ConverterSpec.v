(** Specification vocabulary for conversions, quotients of units and
    collections of dimensions. *)

From Coq Require Import String Ascii List Bool ZArith QArith Qcanon.
From Verif Require Import Py SymbolicModel SymbolicSpec ParametersSpec IterablesModel MetricTables MetricModel MetricSpec SystemSpec.
Import ListNotations.
Open Scope list_scope.
Open Scope nat_scope.

(** The unit of the quantity [q] that a program means by [x]: the unit of a
    metric system by the name of the system, or the unit itself. *)
Definition stands_for (q x u : str) : Prop :=
  (exists s, x = named_as s /\ unit_text s q u) \/ ((forall s, x <> named_as s) /\ u = x).

(** Two units of the package between which there is a conversion: they differ
    in their prefixes only (which are not the empty prefix 0 of the table), or a chain of declared conversions joins them. *)
Definition comparable (u v : str) : Prop :=
  (exists m n, identified u = Some m /\ identified v = Some n /\ n_base m = n_base n
                /\ n_scale m <> 0%Qc /\ n_scale n <> 0%Qc)
  \/ (In v the_nodes /\ connected the_connections u v).

(** [order] lists both metric systems. *)
Definition both (order : list system) : Prop := In Mks order /\ In Cgs order.

(** A text or its absence: [given a t] if there is a text to use. *)
Definition given (a : option str) (t : str) : Prop := a = Some t /\ t <> [].
Definition nothing (a : option str) : Prop := a = None \/ a = Some [].

(** The unit that a system uses for the quantity of [n]. *)
Definition used_in (n : named_unit) (s : system) : Prop :=
  exists u, unit_text s (n_quantity n) u /\ (u = n_symbol n \/ u = n_name n).
(** The same up to a prefix. *)
Definition scaled_in (n : named_unit) (s : system) : Prop :=
  used_in n s \/ exists u m, unit_text s (n_quantity n) u /\ identified u = Some m /\ n_base m = n_base n.
