(** Vocabulary of the properties of distributed units. *)

From Coq Require Import String List ZArith.
From Verif Require Import Py IterablesModel MeasurableModel MeasurableSpec.
Import ListNotations.
Open Scope list_scope.

(** [spread o ps]: the object [o] is written with the numbers of [ps], in this
    order, each with its unit: it is measurable with one unit, or it contains
    objects that are themselves written so. *)
Inductive spread (is_unity : obj -> res bool) : obj -> list (Z * str) -> Prop :=
| spread_one o ns u : measured is_unity o ns u -> spread is_unity o (map (fun n => (n, u)) ns)
| spread_nested k items pss : items <> [] -> Forall container items -> Forall2 (spread is_unity) items pss ->
    spread is_unity (OSeq k items) (concat pss).
(** The pair of a value and its unit. *)
Definition pair_of (p : Z * str) : obj * obj := (ONum (fst p), OStr (snd p)).
