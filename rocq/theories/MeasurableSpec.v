(** Vocabulary of the properties of measurements and quantities. *)

From Coq Require Import String Ascii List Bool ZArith QArith Qcanon.
From Verif Require Import Py SymbolicModel SymbolicSpec IterablesModel MetricModel MeasurableModel.
Import ListNotations.
Open Scope list_scope.

(** * Measurable objects *)

(** [unit_text is_unity u t]: the unit [u] is recorded as [t]. *)
Definition unit_text (is_unity : obj -> res bool) (u t : str) : Prop :=
  (is_unity (OStr u) = Ok true /\ t = lit "1") \/ (is_unity (OStr u) = Ok false /\ t = u).

Definition container (o : obj) : Prop := exists k l, o = OSeq k l.

(** [measured o ns u]: the object [o] is written with the numbers [ns], in
    this order, and the unit [u], as the docstring of [ismeasurable] lists. *)
Inductive measured (is_unity : obj -> res bool) : obj -> list Z -> str -> Prop :=
| a_number n : measured is_unity (ONum n) [n] (lit "1")
| numbers k ns : ns <> [] -> measured is_unity (OSeq k (map ONum ns)) ns (lit "1")
| numbers_and_unit k ns u t : ns <> [] -> unit_text is_unity u t ->
    measured is_unity (OSeq k (map ONum ns ++ [OStr u])) ns t
| pair_with_unit k k' ns u t : ns <> [] -> unit_text is_unity u t ->
    measured is_unity (OSeq k [OSeq k' (map ONum ns); OStr u]) ns t
| nested k items nss u : items <> [] -> Forall container items ->
    Forall2 (fun o ns => measured is_unity o ns u) items nss ->
    measured is_unity (OSeq k items) (concat nss) u.

(** A text or [None], possibly in containers of one member each. *)
Inductive alone : obj -> Prop :=
| a_text s : alone (OStr s)
| nothing : alone ONone
| wrapped k o : alone o -> alone (OSeq k [o]).

(** All the numbers in an object, from left to right. *)
Fixpoint numbers_of (o : obj) : list Z :=
  match o with
  | ONum n => [n]
  | OSeq _ l => concat (map numbers_of l)
  | _ => []
  end.

(** The same dimension, or none for both. *)
Inductive same_dimension (F : flops) : option expression -> option expression -> Prop :=
| same_defined x y : expr_eqb F x y = true -> same_dimension F (Some x) (Some y)
| both_undefined : same_dimension F None None.

(** * Amounts *)

(** A size for every base, such that '1' has the size 1. *)
Definition sizing (rho : str -> Qc) : Prop := rho (lit "1") = 1%Qc /\ forall b, rho b <> 0%Qc.

(** The measured amount: value times size of the unit. *)
Definition amount (rho : str -> Qc) (q : quantity) : Qc := (q_data q * value rho (u_terms (q_unit q)))%Qc.

(** Expressions that survive being written as text, with integral exponents. *)
Definition plain (F : flops) (x : list term) : Prop :=
  canonical x /\ Forall wf x /\ Forall (printable F) x /\ integral x.

(** The unit of [q] decomposes into [a], and the sizes agree with the
    decomposition. *)
Definition decomposes (F : flops) (decompose : expression -> res expression) (rho : str -> Qc)
  (q : quantity) (a : expression) : Prop :=
  decompose (u_terms (q_unit q)) = Ok a /\ plain F a /\ value rho a = value rho (u_terms (q_unit q)).

(** Raising to the power [n] involves no rounding. *)
Definition exact_power (F : flops) (n : Z) (x : expression) : Prop :=
  Forall (fun t => fpow F (coef t) (Qc_of_Z n) = Some (Qc_zpow (coef t) n)
                   /\ fl F (expo t) = expo t
                   /\ fl F (expo t * Qc_of_Z n)%Qc = (expo t * Qc_of_Z n)%Qc) x.
