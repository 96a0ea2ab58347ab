(** Vocabulary of the properties of metric units.  Only the records of the
    tables and the table of declared conversions are shared with the model. *)

From Coq Require Import String Ascii List Bool ZArith QArith Qcanon Relations.
From Verif Require Import Py SymbolicModel IterablesModel MetricTables MetricModel.
Import ListNotations.
Open Scope list_scope.

(** * Where a conversion factor may come from *)

(** [x] is one end of a declared conversion. *)
Definition endpoint (conns : connections) (x : str) : Prop :=
  exists u v w, In ((u, v), w) conns /\ (x = u \/ x = v).

(** [derives named conns u v f]: one [u] is [f] times one [v], by the declared
    conversions, by the metric prefixes of units with the same base, and by
    the names of a unit. *)
Inductive derives (named : str -> option named_unit) (conns : connections) : str -> str -> Qc -> Prop :=
| by_identity u : derives named conns u u 1
| by_table u v w : In ((u, v), Some w) conns -> derives named conns u v w
| by_alias u x n : named u = Some n -> (x = n_symbol n \/ x = n_name n) -> endpoint conns x ->
    derives named conns u x 1
| by_unit u v n : named u = Some n -> named v = Some n -> derives named conns u v 1
| by_prefix u v m n : named u = Some m -> named v = Some n -> n_base m = n_base n ->
    n_scale m <> 0%Qc -> n_scale n <> 0%Qc -> derives named conns u v (n_scale m / n_scale n)
| by_inverse u v f : derives named conns u v f -> f <> 0%Qc -> derives named conns v u (/ f)
| by_steps u v w f g : derives named conns u v f -> derives named conns v w g ->
    derives named conns u w (f * g).

(** * One size for every unit *)

(** [size] assigns to every unit its magnitude, in agreement with the declared
    conversions, the prefixes and the names. *)
Record sizes (named : str -> option named_unit) (conns : connections) (size : str -> Qc) : Prop := {
  size_nonzero : forall u, size u <> 0%Qc;
  size_table : forall u v w, In ((u, v), Some w) conns -> size u = (w * size v)%Qc;
  size_alias : forall u x n, named u = Some n -> (x = n_symbol n \/ x = n_name n) ->
    endpoint conns x -> size u = size x;
  size_unit : forall u v n, named u = Some n -> named v = Some n -> size u = size v;
  size_prefix : forall u v m n, named u = Some m -> named v = Some n -> n_base m = n_base n ->
    n_scale m <> 0%Qc -> n_scale n <> 0%Qc ->
    (size u * n_scale n = size v * n_scale m)%Qc
}.

(** The size of a product of powers of units; the coefficients are left out. *)
Definition size_of (size : str -> Qc) (ts : list term) : Qc :=
  prodQc (map (fun t => Qc_zpow (size (base t)) (Qc_num (expo t))) ts).

(** * Declared conversions as a graph *)

Definition linked (conns : connections) (u v : str) : Prop := exists w, In ((u, v), w) conns.
Definition connected (conns : connections) : str -> str -> Prop := clos_refl_trans str (linked conns).

(** [nodes] lists the members of the set [CONVERSIONS.nodes]. *)
Definition enumerates (conns : connections) (nodes : list str) : Prop :=
  forall x, In x nodes <-> endpoint conns x.

(** Every declared factor is a number other than 0. *)
Definition weighted (conns : connections) : Prop :=
  forall e w, In (e, w) conns -> exists q, w = Some q /\ q <> 0%Qc.

(** Every unit called [u] has a prefix that is not 0. *)
Definition scaled_unit (named : str -> option named_unit) (u : str) : Prop :=
  forall n, named u = Some n -> n_scale n <> 0%Qc.

(** The names of a unit with a prefix: its name, its symbol and, with the
    prefix 'micro', the symbol with 'u'.  The prefix without a name is called
    'None'. *)
Inductive goes_by (p : prefix) (u : base_unit) : str -> Prop :=
| by_name n : p_name p = Some n -> goes_by p u (n ++ b_name u)
| without_name : p_name p = None -> goes_by p u (lit "None" ++ b_name u)
| by_symbol : goes_by p u (p_symbol p ++ b_symbol u)
| by_letter : p_symbol p = lit "μ" -> goes_by p u (lit "u" ++ b_symbol u).

(** No two units share a name. *)
Definition separate (ps : list prefix) (us : list base_unit) : Prop :=
  ForallOrdPairs (fun a b => forall s, goes_by (fst a) (snd a) s -> ~ goes_by (fst b) (snd b) s) (list_prod ps us).
