(** Specification vocabulary for metric systems. *)

From Coq Require Import String Ascii List Bool ZArith QArith Qcanon.
From Verif Require Import Py PyDict SymbolicModel SymbolicSpec ParametersSpec IterablesModel MetricTables MetricModel.
Import ListNotations.
Open Scope list_scope.
Open Scope nat_scope.

(** The quantity that a unit of the package measures, by the name or symbol of
    the unit. *)
Definition measures (unit : str) (q : str) : Prop :=
  exists n, identified unit = Some n /\ n_quantity n = q.
(** The unit is one of [s]: it is not particular to the other system. *)
Definition belongs (s : system) (unit : str) : Prop :=
  exists n, identified unit = Some n /\ is_allowed_in identified the_canonical n s = Ok true.

(** The rows of the package's table of quantities: the unit and the dimension
    in a system, as written there. *)
Definition unit_text (s : system) (q : str) (u : str) : Prop :=
  exists us ds, sd_get the_canonical q = Some (us, ds) /\ pick s us = u.
Definition dimension_text (s : system) (q : str) (d : str) : Prop :=
  exists us ds, sd_get the_canonical q = Some (us, ds) /\ pick s ds = d.

(** Quantities whose unit is written with the symbol of the candela, which the
    package reads as a centiday, or whose name is misspelled in the table. *)
Definition photometric : list str := [lit "luminous intensity"; lit "luminous flux"; lit "illuminance"].

(** The exponent of the unit [b] in the unit of the quantity [q] in [s]. *)
Definition share (s : system) (b q : str) (e : Qc) : Prop :=
  exists u x, unit_text s q u /\ expression_of_str F64 false u = Ok x /\ total_expo b x = e.

(** The sum of the exponents of the units that measure [q]. *)
Definition measures_b (unit q : str) : bool :=
  match identified unit with Some n => str_eqb (n_quantity n) q | None => false end.
Definition exponent_of (q : str) (x : list term) : Qc :=
  sumQc (map expo (filter (fun t => measures_b (base t) q) x)).

(** A product of units: each factor is a unit of the package that measures a
    quantity that is not photometric, to a non-zero integral power, and the
    sum of the powers is moderate. *)
Definition total_power (x : list term) : Z :=
  fold_right (fun t n => (Z.abs (Qc_num (expo t)) + n)%Z) 0%Z x.
Definition product_of_units (x : list term) : Prop :=
  x <> []
  /\ Forall (fun t => (exists q, measures (base t) q /\ ~ In q photometric)
                      /\ exists k, expo t = Qc_of_Z k /\ k <> 0%Z) x
  /\ (total_power x <= 2 ^ 40)%Z.

(** Numbers that the package keeps exactly. *)
Definition exactly (x : expression) : Prop := Forall (fun t => fl F64 (coef t) = coef t /\ fl F64 (expo t) = expo t) x.
(** [t] is a way to write the expression [x]. *)
Definition writes (t : str) (x : expression) : Prop := expression_of_str F64 false t = Ok x.
(** The unit and the dimension that the table declares for [q] in [s]. *)
Definition unit_is (s : system) (q : str) (u : expression) : Prop := exists t, unit_text s q t /\ writes t u.
Definition declared (s : system) (q : str) (d : expression) : Prop := exists t, dimension_text s q t /\ writes t d.
(** Quantities whose declared dimension is not that of their unit. *)
Definition mismatched : list str := [lit "illumunance"; lit "luminous flux"; lit "luminous intensity"; lit "permittivity"].

(** The factor by which the package converts the mks unit of [q] to its cgs
    unit. *)
Definition factor (q : str) (f : Qc) : Prop :=
  exists u v, unit_text Mks q u /\ unit_text Cgs q v /\ m_convert u v = Ok f.
(** Dimensions of mechanics and thermodynamics. *)
Definition mechanical (d : expression) : Prop :=
  forall t, In t d -> In (base t) [lit "M"; lit "L"; lit "T"; lit "K"; lit "N"; lit "1"].
(** Quantities whose units the package does not convert as their dimension
    prescribes. *)
Definition incoherent : list str := [lit "power density"; lit "radioactivity"; lit "thermal conductivity"].

(** Two texts that differ at most in capital letters. *)
Definition same_but_case (a b : str) : Prop := Forall2 (fun c d => same_letter c d \/ same_letter d c) a b.
(** The name of a system. *)
Definition named_as (s : system) : str := match s with Mks => lit "mks" | Cgs => lit "cgs" end.
(** A word of small letters that names no quantity of the package; [sqrt] is
    read as an operator. *)
Definition unknown_word (w : str) : Prop :=
  w <> [] /\ Forall (fun c => exists n, n < 26 /\ c = ascii_of_nat (97 + n)) w /\ ~ starts_with (lit "sqrt") w
  /\ ~ In w (map fst quantities).
