(** Specification vocabulary for the variables of a dataset. *)

From Coq Require Import String Ascii List Bool ZArith QArith Qcanon.
From Verif Require Import Py PyDict SymbolicModel IterablesModel MetricTables MetricModel SystemSpec ArrayModel ArraySpec.
Import ListNotations.
Open Scope list_scope.
Open Scope nat_scope.

(** The units that EPREM writes, with the unit of the same quantity in each
    metric system and the number of these in one of EPREM's.  The electron
    volt is 1.6022e-19 J. *)
Definition ten (n : Z) : Qc := Qc_zpow (Qc_of_Z 10) n.
Definition electron_volt : Qc := (Qc_of_Z 16022 * ten (-23))%Qc.
Definition eprem_units : list (str * ((str * Qc) * (str * Qc))) :=
  [(lit "shell", ((lit "1", 1%Qc), (lit "1", 1%Qc)));
   (lit "cos(mu)", ((lit "1", 1%Qc), (lit "1", 1%Qc)));
   (lit "rad", ((lit "rad", 1%Qc), (lit "rad", 1%Qc)));
   (lit "julian date", ((lit "s", Qc_of_Z 86400), (lit "s", Qc_of_Z 86400)));
   (lit "au", ((lit "m", Qc_of_Z 149597870700), (lit "cm", (Qc_of_Z 149597870700 * ten 2)%Qc)));
   (lit "MeV", ((lit "J", (ten 6 * electron_volt)%Qc), (lit "erg", (ten 13 * electron_volt)%Qc)));
   (lit "nT", ((lit "T", ten (-9)), (lit "G", ten (-5))));
   (lit "km / s", ((lit "m / s", ten 3), (lit "cm / s", ten 5)));
   (lit "cm^-3", ((lit "m^-3", ten 6), (lit "cm^-3", 1%Qc)));
   (lit "s^3 / km^6", ((lit "s^3 / m^6", ten (-18)), (lit "s^3 / cm^6", ten (-30))));
   (lit "# / cm^2 s sr MeV", ((lit "1 / (J s sr m^2)", (ten 4 * (/ (ten 6 * electron_volt)))%Qc),
                              (lit "1 / (erg s sr cm^2)", (/ (ten 13 * electron_volt))%Qc)))].
(** [t] is one of these; in [s] it is [f] times the unit [u]. *)
Definition eprem_unit (t : str) (s : system) (u : expression) (f : Qc) : Prop :=
  exists r, In (t, r) eprem_units /\ writes (fst (pick s r)) u /\ snd (pick s r) = f.

(** An array-like quantity with the elements of [a] multiplied by [f], the
    unit [u], up to the order of its factors, and the axes [dims]. *)
Definition shows {D} (asarray : D -> arr) (o : object D expression) (a : arr) (f : Qc) (u : expression) (dims : list str) : Prop :=
  meaning asarray o = scale_arr f a /\ expr_eqb F64 (o_unit o) u = true /\ o_dims o = dims.

(** Names of the variable that holds masses. *)
Definition names_mass (n : str) : Prop := n = lit "mass" \/ n = lit "m".
(** The atomic mass unit in kilograms. *)
Definition nucleon : Qc := (Qc_of_Z 16605 * ten (-31))%Qc.

(** A data object whose elements are all in memory and which has the
    attributes given: for examples. *)
Record plain_data : Type := mkPlain
  { pd_array : arr; pd_unit : option str; pd_units : option str; pd_dims : option (list str) }.
