(** Properties of the variables of a dataset. *)

From Coq Require Import String Ascii List Bool ZArith QArith Qcanon Lia.
From Verif Require Import Py PyFacts PyDict SymbolicModel IterablesModel MetricTables MetricModel SystemModel SystemSpec SystemProps SymbolicLawProofs
  MeasurableModel EpremModel ArrayModel ArraySpec ObservablesModel VariablesModel VariablesSpec VariablesProofs.
Import ListNotations.
Open Scope list_scope.
Open Scope nat_scope.

(** A dataset variable, seen through the interface in the system [s]. *)
Notation seen_in limit asarray get has_shape unit_attr units_attr dims_attr s name d :=
  (m_variable asarray get has_shape unit_attr dims_attr limit s (view_variable unit_attr dims_attr units_attr name d)).

(** ** C191 The variables of a dataset have the amounts of the file *)

(** If the file gives the unit as an attribute called 'units'. *)
Theorem C191_units_partial : forall D asarray get has_shape unit_attr units_attr dims_attr limit (d : D) dims name t s u f,
  6 <= limit -> unit_attr d = None -> units_attr d = Some t -> dims_attr d = Some dims ->
  dims <> [] -> length dims = length (shape (asarray d)) -> ~ names_mass name -> eprem_unit t s u f ->
  exists o, seen_in limit asarray get has_shape unit_attr units_attr dims_attr (Some s) name d = Ok o
    /\ shows asarray o (asarray d) f u dims.
Proof.
  intros D asarray get has_shape unit_attr units_attr dims_attr limit d dims name t s u f L A B C N Le NM E.
  destruct (row_of limit t s u f L E) as (w & R & W). unfold view_variable. rewrite A, B, C.
  now apply row_built with w; auto.
Qed.
(** Masses. *)
Theorem C191_mass_partial : forall D asarray get has_shape unit_attr units_attr dims_attr limit (d : D) dims name s,
  10 <= limit -> unit_attr d = None -> units_attr d = Some (lit "nucleon") -> dims_attr d = Some dims ->
  dims <> [] -> length dims = length (shape (asarray d)) -> names_mass name ->
  exists o u, seen_in limit asarray get has_shape unit_attr units_attr dims_attr (Some s) name d = Ok o
    /\ meaning asarray o = scale_arr (match s with Mks => nucleon | Cgs => ten 3 * nucleon end)%Qc (asarray d)
    /\ o_unit o = u /\ writes (match s with Mks => lit "kg" | Cgs => lit "g" end) u /\ o_dims o = dims.
Proof.
  intros D asarray get has_shape unit_attr units_attr dims_attr limit d dims name s L A B C N Le NM.
  assert (mass_row Mks nucleon (the "kg") = true) as R1 by (vm_cast_no_check (eq_refl true)).
  assert (mass_row Cgs (ten 3 * nucleon)%Qc (the "g") = true) as R2 by (vm_cast_no_check (eq_refl true)).
  assert (writes (lit "kg") (the "kg")) as W1 by (apply computes; vm_compute; reflexivity).
  assert (writes (lit "g") (the "g")) as W2 by (apply computes; vm_compute; reflexivity).
  unfold view_variable. rewrite A, B, C. destruct s.
  - destruct (mass_built asarray get has_shape unit_attr dims_attr limit Mks (the "kg") nucleon d dims name L) as (o & O & M & U & Dm); auto.
    + exists (lit "kg"). split; [row "mass"%string|exact W1].
    + exists o, (the "kg"). auto.
  - destruct (mass_built asarray get has_shape unit_attr dims_attr limit Cgs (the "g") (ten 3 * nucleon)%Qc d dims name L) as (o & O & M & U & Dm); auto.
    + exists (lit "g"). split; [row "mass"%string|exact W2].
    + exists o, (the "g"). auto.
Qed.
(** If the attribute is called 'unit', the values are converted but the unit
    stays that of the file. *)
Theorem C191_attribute_refuted : forall D asarray get has_shape unit_attr units_attr dims_attr limit (d : D) dims name t s u f x,
  6 <= limit -> unit_attr d = Some t -> dims_attr d = Some dims ->
  dims <> [] -> length dims = length (shape (asarray d)) -> ~ names_mass name -> eprem_unit t s u f -> f <> 1%Qc ->
  standardize t = t -> t <> [] -> writes t x ->
  exists o, seen_in limit asarray get has_shape unit_attr units_attr dims_attr (Some s) name d = Ok o
    /\ meaning asarray o = scale_arr f (asarray d) /\ o_unit o = x.
Proof.
  intros D asarray get has_shape unit_attr units_attr dims_attr limit d dims name t s u f x L A C N Le NM E F St Nt W.
  destruct (row_of limit t s u f L E) as (w & R & Wu). unfold view_variable. rewrite A, C.
  apply (row_attribute asarray get has_shape unit_attr dims_attr limit s t w f u x d dims name); auto.
Qed.
(** A charge in cgs is 100 times too large. *)
Theorem C191_charge_refuted : forall D asarray get has_shape unit_attr units_attr dims_attr limit (d : D) dims name,
  6 <= limit -> unit_attr d = None -> units_attr d = Some (lit "e-") -> dims_attr d = Some dims ->
  dims <> [] -> length dims = length (shape (asarray d)) -> ~ names_mass name ->
  exists o o' u u', writes (lit "C") u /\ writes (lit "statC") u'
    /\ seen_in limit asarray get has_shape unit_attr units_attr dims_attr (Some Mks) name d = Ok o
    /\ seen_in limit asarray get has_shape unit_attr units_attr dims_attr (Some Cgs) name d = Ok o'
    /\ shows asarray o (asarray d) electron_volt u dims
    /\ shows asarray o' (asarray d) (Qc_of_Z 100 * (electron_volt * Qc_of_Z 2997924580)) u' dims.
Proof.
  intros D asarray get has_shape unit_attr units_attr dims_attr limit d dims name L A B C N Le NM.
  assert (unit_row 6 Mks (lit "e-") (lit "C") electron_volt = true) as R1 by (vm_cast_no_check (eq_refl true)).
  assert (unit_row 6 Cgs (lit "e-") (lit "statC") (Qc_of_Z 100 * (electron_volt * Qc_of_Z 2997924580)) = true) as R2 by (vm_cast_no_check (eq_refl true)).
  unfold view_variable. rewrite A, B, C.
  destruct (row_built asarray get has_shape unit_attr dims_attr limit Mks (lit "e-") (lit "C") electron_volt (the "C") d dims name) as (o & O1 & O2);
    [now apply unit_row_mono with 6|apply computes; vm_compute; reflexivity|auto..|].
  destruct (row_built asarray get has_shape unit_attr dims_attr limit Cgs (lit "e-") (lit "statC") (Qc_of_Z 100 * (electron_volt * Qc_of_Z 2997924580)) (the "statC") d dims name) as (o' & P1 & P2);
    [now apply unit_row_mono with 6|apply computes; vm_compute; reflexivity|auto..|].
  exists o, o', (the "C"), (the "statC"). split; [apply computes; vm_compute; reflexivity|]. split; [apply computes; vm_compute; reflexivity|]. auto.
Qed.
Print Assumptions C191_units_partial.
Print Assumptions C191_mass_partial.
Print Assumptions C191_attribute_refuted.
Print Assumptions C191_charge_refuted.

Definition sample : plain_data :=
  mkPlain (mkArr [2; 1] [Qc_of_Z 3; Qc_of_Z 5]) None (Some (lit "km / s")) (Some [lit "time"; lit "shell"]).
Definition sample' : plain_data :=
  mkPlain (mkArr [2; 1] [Qc_of_Z 3; Qc_of_Z 5]) (Some (lit "au")) None (Some [lit "time"; lit "shell"]).
Example C191_example : eprem_unit (lit "km / s") Mks (the "m / s") (ten 3) /\ pd_units sample = Some (lit "km / s")
  /\ pd_unit sample = None /\ pd_dims sample = Some [lit "time"; lit "shell"] /\ length (shape (pd_array sample)) = 2
  /\ ~ names_mass (lit "Vr").
Proof.
  split; [|split; [reflexivity|split; [reflexivity|split; [reflexivity|split; [reflexivity|]]]]].
  - exists ((lit "m / s", ten 3), (lit "cm / s", ten 5)). split; [unfold eprem_units; do 7 right; left; reflexivity|].
    split; [apply computes; vm_compute; reflexivity|reflexivity].
  - intros [H|H]; discriminate H.
Qed.
Example C191_attribute_example : eprem_unit (lit "au") Mks (the "m") (Qc_of_Z 149597870700) /\ pd_unit sample' = Some (lit "au")
  /\ Qc_of_Z 149597870700 <> 1%Qc /\ standardize (lit "au") = lit "au" /\ writes (lit "au") (the "au").
Proof.
  split; [|split; [reflexivity|split; [|split; [reflexivity|apply computes; vm_compute; reflexivity]]]].
  - exists ((lit "m", Qc_of_Z 149597870700), (lit "cm", (Qc_of_Z 149597870700 * ten 2)%Qc)).
    split; [unfold eprem_units; do 4 right; left; reflexivity|]. split; [apply computes; vm_compute; reflexivity|reflexivity].
  - intro H. assert (Qc_eqb (Qc_of_Z 149597870700) 1 = false) as F by reflexivity. rewrite H, Qc_eqb_refl in F. discriminate F.
Qed.

(** ** C192 Every variable of the dataset can be read *)

(** A variable without a unit cannot be read. *)
Theorem C192_no_unit_refuted : forall D asarray get has_shape unit_attr units_attr dims_attr limit (d : D) name s,
  unit_attr d = None -> units_attr d = None ->
  seen_in limit asarray get has_shape unit_attr units_attr dims_attr s name d = Err TypeError.
Proof. intros D asarray get has_shape unit_attr units_attr dims_attr limit d name s A B. unfold view_variable. now rewrite A, B. Qed.
(** Nor can one be read without a choice of a metric system. *)
Theorem C192_no_system_refuted : forall D asarray get has_shape unit_attr units_attr dims_attr limit (d : D) dims name t s u f,
  unit_attr d = None -> units_attr d = Some t -> dims_attr d = Some dims ->
  dims <> [] -> length dims = length (shape (asarray d)) -> ~ names_mass name -> eprem_unit t s u f ->
  seen_in limit asarray get has_shape unit_attr units_attr dims_attr None name d = Err UnitParsingError.
Proof.
  intros D asarray get has_shape unit_attr units_attr dims_attr limit d dims name t s u f A B C N L NM (r & I & _).
  pose proof none_rows_ok as R. rewrite forallb_forall in R. apply R in I. cbn [fst] in I. unfold none_row in I.
  destruct (m_read (or_one (standardize t))) as [x|] eqn:Ex; [|discriminate I].
  destruct (m_read (lit "None")) as [n|] eqn:En; [|discriminate I].
  unfold view_variable. rewrite A, B, C. unfold m_variable, eprem_build. cbn [rv_unit rv_data rv_dims rv_name bind].
  destruct (construct_ok asarray get has_shape m_read unit_attr dims_attr (Source d) dims (m_read (or_one (standardize t))) x N L (or_intror C)) as (full & K & F).
  { cbn [attr_of]. rewrite A. exact Ex. }
  rewrite K. cbn [bind].
  assert (existsb (str_eqb name) [lit "mass"; lit "m"] = false) as ->.
  { apply not_true_is_false. intro H. apply NM. apply existsb_exists in H as (z & [<-|[<-|[]]] & H);
      [left|right]; [destruct (str_eqb_spec name (lit "mass"))|destruct (str_eqb_spec name (lit "m"))]; congruence. }
  unfold convert_text. replace (is_system (lit "None")) with false by reflexivity. rewrite En. cbn [bind].
  unfold convert_unit. cbn [o_unit]. destruct (m_unit_eqb mks_first n x) as [b|[]]; try discriminate I. reflexivity.
Qed.
(** A variable with a known unit can be read in each system; its array must
    have as many axes as its description. *)
Theorem C192_readable_partial : forall D asarray get has_shape unit_attr units_attr dims_attr limit (d : D) dims name t s u f,
  6 <= limit -> unit_attr d = None -> units_attr d = Some t -> dims_attr d = Some dims -> dims <> [] -> ~ names_mass name ->
  eprem_unit t s u f ->
  (length dims = length (shape (asarray d)) <-> exists o, seen_in limit asarray get has_shape unit_attr units_attr dims_attr (Some s) name d = Ok o)
  /\ (length dims <> length (shape (asarray d)) -> seen_in limit asarray get has_shape unit_attr units_attr dims_attr (Some s) name d = Err ValueError).
Proof.
  intros D asarray get has_shape unit_attr units_attr dims_attr limit d dims name t s u f L A B C N NM E.
  assert (length dims <> length (shape (asarray d)) -> seen_in limit asarray get has_shape unit_attr units_attr dims_attr (Some s) name d = Err ValueError) as Z.
  { intro Le. destruct (row_of limit t s u f L E) as (w & R & _). unfold unit_row in R.
    destruct (m_read (or_one (standardize t))) as [x|] eqn:Ex; [|discriminate R].
    unfold view_variable. rewrite A, B, C. unfold m_variable, eprem_build. cbn [rv_unit rv_data rv_dims rv_name bind].
    rewrite (construct_refuses asarray get has_shape m_read unit_attr dims_attr (Source d) dims (m_read (or_one (standardize t))) x N Le (or_intror C)); [reflexivity|].
    cbn [attr_of]. rewrite A. exact Ex. }
  split; [|exact Z]. split.
  - intro Le. destruct (C191_units_partial D asarray get has_shape unit_attr units_attr dims_attr limit d dims name t s u f L A B C N Le NM E) as (o & O & _).
    now exists o.
  - intros (o & O). destruct (Nat.eq_dec (length dims) (length (shape (asarray d)))) as [H|H]; [exact H|]. rewrite (Z H) in O. discriminate O.
Qed.
Print Assumptions C192_no_unit_refuted.
Print Assumptions C192_no_system_refuted.
Print Assumptions C192_readable_partial.
(** [C191_example] meets the hypotheses of the last two. *)
Example C192_example : exists D (d : D) (unit_attr units_attr : D -> option str), unit_attr d = None /\ units_attr d = None.
Proof. exists plain_data, (mkPlain (mkArr [] []) None None None), pd_unit, pd_units. auto. Qed.

(** ** C193 Variables do not depend on earlier requests *)

(** Whatever was requested before, a name gives the quantity built from its
    variable, or the exception of looking it up or of building it. *)
Theorem C193_history : forall D U (find : str -> res (raw_variable D)) (build : raw_variable D -> res (object D U)) ks,
  Forall2 (fun k r => match find k with
                      | Ok v => r = build v
                      | Err e => r = Err e
                      end) ks (requests find build [] ks).
Proof.
  intros. rewrite requests_ok by (intros k o H; discriminate H).
  induction ks as [|k ks IH]; cbn [map]; constructor; [|exact IH]. now destruct (find k).
Qed.
Print Assumptions C193_history.
Example C193_example : let v := mkRawVariable tt None [] (lit "r") in
  requests (fun k => if str_eqb k (lit "r") then Ok v else Err KeyError)
    (fun _ => Ok (mkObject (Source tt) None 1%Qc tt [])) [] [lit "x"; lit "r"; lit "r"]
  = [Err KeyError; Ok (mkObject (Source tt) None 1%Qc tt []); Ok (mkObject (Source tt) None 1%Qc tt [])].
Proof. reflexivity. Qed.

(** ** C194 The interface to the variables of any dataset *)

(** No variable of a dataset can be read through the general interface. *)
Theorem C194_known_refuted : forall D U (find : str -> res (raw_variable D)) k v, find k = Ok v ->
  forall ks, Forall2 (fun j r => j = k -> r = Err AttributeError) ks (requests find (base_build (D := D) (U := U)) [] ks).
Proof.
  intros D U find k v E ks. pose proof (C193_history D U find base_build ks) as H.
  induction H as [|j r js rs A _ IH]; constructor; [|exact IH]. intros ->. rewrite E in A. exact A.
Qed.
Print Assumptions C194_known_refuted.
