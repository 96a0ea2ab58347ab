(** Properties of observable quantities. *)

From Coq Require Import String Ascii List Bool ZArith QArith Qcanon Lia.
From Verif Require Import Py PyFacts PyDict ParametersModel ParametersSpec ArrayModel ArraySpec ArrayProofs ArrayOpsProofs ArrayMoreProofs ArrayProps
  ObservingModel ObservingSpec ObservingProofs ObservablesModel ObservablesSpec ObservablesProofs.
Import ListNotations.
Open Scope list_scope.
Open Scope nat_scope.

Section Observables.
Context {D U V IX SC AX A : Type}.
Context (asarray : D -> arr) (get : D -> nindex -> res arr) (has_shape : D -> bool)
        (ueq uor : U -> U -> res bool) (ufactor : U -> U -> res Qc).
Context (uread : str -> res U) (ustr : U -> str) (norms : U -> res (list (str * U))).
Context (default_unit : str -> res U) (default_dims default_params : str -> res (list str))
        (observe_name : str -> program IX SC (observation IX SC (object D U))).
Context (defaults : list (str * V)) (find : str -> list str) (names : list str)
        (in_axes : str -> bool) (axis_all : str -> res IX)
        (axis_at : str -> V -> res IX) (as_index : V -> option IX) (constants : list (str * V))
        (scalar : V -> res SC).
Context (axis_truth : IX -> bool) (axis_array : IX -> AX) (system : str -> bool).
Notation result_for := (@ObservingSpec.result_for V IX SC in_axes axis_all axis_at as_index constants scalar).
Notation after := (@ObservingSpec.after V IX SC A defaults find names in_axes axis_all axis_at as_index constants scalar).
Notation observe_it := (observe_it asarray get has_shape ueq uor ufactor uread ustr norms default_unit observe_name
  defaults in_axes axis_all axis_at as_index constants scalar axis_truth axis_array).
Notation retrieve := (retrieve asarray get has_shape ueq uor ufactor uread norms axis_truth axis_array).
Notation sound := (sound asarray get has_shape uread ustr default_dims default_params observe_name
  in_axes axis_all axis_at as_index constants scalar system).

(** C171: in every program that creates observables, changes their units,
    asks for their attributes, compares them, observes them and looks at the
    observations, in any order and with failures, and uses the shared context
    otherwise, every answer is the one that plain values would give: an
    observable is its name and its unit, and an observation depends only on
    these and on the constraints of its own call.  Missing: units whose
    comparison fails, or that are equal without being the same
    ([C171_comparison_refuted], [C171_equal_refuted]). *)
Theorem C171_values_partial (l : list (use V (command V IX SC A))) : sound -> decides ueq ->
  run asarray get has_shape ueq uor ufactor uread ustr norms default_unit default_dims default_params
    observe_name defaults find names in_axes axis_all axis_at as_index constants scalar axis_truth axis_array start l =
  view_run asarray ueq uor ufactor uread ustr norms default_unit default_dims default_params
    observe_name defaults in_axes axis_all axis_at as_index constants scalar axis_truth axis_array system (mkView [] []) l.
Proof.
  intros S Q. apply run_view; [exact S|exact Q|]. apply start_matches.
Qed.

(** C172: after any use of the context, observing in a unit gives the
    quantity observed under the given constraints with all its values
    multiplied by the factor between the units, with the same axes, indices
    and assumptions.  [o] is what the context observes, before conversion. *)
Theorem C172_values (h : list (command V IX SC A)) name u cs o f : sound ->
  result_for (effective defaults [(cs, false)]) (observe_name name) = Ok o ->
  let d := q_data (ob_quantity o) in
  ~ In (ustr u) (map fst (ob_indices o)) -> ~ In (ustr u) (map fst (ob_assumptions o)) ->
  ueq u (o_unit d) = Ok false -> uor (o_unit d) u = Ok true -> ufactor (o_unit d) u = Ok f ->
  exists s b c, observe_it (new_observable name (Some u)) (after h) cs = (Ok (FSeen s), b, c) /\
    o_unit (s_data s) = u /\ o_dims (s_data s) = o_dims d /\
    shape (meaning asarray (s_data s)) = shape (meaning asarray d) /\
    (forall i, at_ (meaning asarray (s_data s)) i = (f * at_ (meaning asarray d) i)%Qc) /\
    s_indices s = ob_indices o /\ s_assumptions s = Some (ob_assumptions o).
Proof.
  intros S E d N1 N2 E1 E2 E3.
  destruct (observe_once asarray get has_shape ueq uor ufactor uread ustr norms default_unit default_dims default_params
    observe_name defaults find names in_axes axis_all axis_at as_index constants scalar axis_truth axis_array system S
    h name u cs o E N1 N2) as (b & c & Eo).
  fold d in Eo.
  pose proof (subscripted_related asarray get has_shape uread ustr default_dims default_params observe_name
    in_axes axis_all axis_at as_index constants scalar system S d
    (sound_observed _ _ _ _ _ _ _ _ _ _ _ _ _ _ _ S _ _ _ E)) as Rd.
  pose proof (convert_ok asarray get has_shape ueq uor ufactor d _ _ u Rd) as C. unfold value_convert in C.
  cbn [v_unit v_array v_dims] in C. rewrite E1, E2, E3 in C. cbn [bind negb] in C.
  destruct C as (n & Eu & C). specialize (C eq_refl). destruct C as (C1 & C2 & C3 & _). cbn [v_unit v_dims v_array] in C1, C2, C3.
  rewrite Eu in Eo. cbn [bind snd] in Eo. rewrite Eo.
  eexists _, _, _. split; [reflexivity|]. cbn [s_data new_seen s_indices s_assumptions]. rewrite <- C3, C1, C2. repeat split; auto.
  intros i. apply at_scale.
Qed.
(** C172: the same unit changes nothing. *)
Theorem C172_same_unit (h : list (command V IX SC A)) name u cs o : sound ->
  result_for (effective defaults [(cs, false)]) (observe_name name) = Ok o ->
  let d := q_data (ob_quantity o) in
  ~ In (ustr u) (map fst (ob_indices o)) -> ~ In (ustr u) (map fst (ob_assumptions o)) ->
  ueq u (o_unit d) = Ok true ->
  exists s b c, observe_it (new_observable name (Some u)) (after h) cs = (Ok (FSeen s), b, c) /\ s_data s = d /\
    s_indices s = ob_indices o /\ s_assumptions s = Some (ob_assumptions o).
Proof.
  intros S E d N1 N2 E1.
  destruct (observe_once asarray get has_shape ueq uor ufactor uread ustr norms default_unit default_dims default_params
    observe_name defaults find names in_axes axis_all axis_at as_index constants scalar axis_truth axis_array system S
    h name u cs o E N1 N2) as (b & c & Eo).
  fold d in Eo. unfold update_unit in Eo. rewrite E1 in Eo. cbn [bind snd] in Eo. rewrite Eo.
  eexists _, _, _. split; [reflexivity|]. cbn. auto.
Qed.
(** C172: a unit of another dimension is refused with ValueError. *)
Theorem C172_inconsistent (h : list (command V IX SC A)) name u cs o : sound ->
  result_for (effective defaults [(cs, false)]) (observe_name name) = Ok o ->
  let d := q_data (ob_quantity o) in
  ~ In (ustr u) (map fst (ob_indices o)) -> ~ In (ustr u) (map fst (ob_assumptions o)) ->
  ueq u (o_unit d) = Ok false -> uor (o_unit d) u = Ok false ->
  fst (fst (observe_it (new_observable name (Some u)) (after h) cs)) = Err ValueError.
Proof.
  intros S E d N1 N2 E1 E2.
  destruct (observe_once asarray get has_shape ueq uor ufactor uread ustr norms default_unit default_dims default_params
    observe_name defaults find names in_axes axis_all axis_at as_index constants scalar axis_truth axis_array system S
    h name u cs o E N1 N2) as (b & c & Eo).
  fold d in Eo. unfold update_unit in Eo. rewrite E1 in Eo. cbn [bind] in Eo. rewrite E2 in Eo. cbn [bind negb] in Eo. now rewrite Eo.
Qed.

(** C173: the name of a metric system stands for the unit of the same
    quantity in that system.  Missing: names in capital letters
    ([C173_capitals_refuted]). *)
Theorem C173_systems_partial b u x d n :
  fst (unit_of default_unit b) = Ok u -> norms u = Ok d -> system_name x -> d_get str_eqb d x = Some n ->
  (forall v, ueq n u = Ok v ->
   fst (index_observable ueq uread norms default_unit b x) = Ok (if v then None else Some (new_observable (b_name b) (Some n)))).
Proof.
  intros E N X G v Ev. unfold index_observable. rewrite (proj2 (is_system_spec x) X).
  assert (U1 : b_unit (snd (unit_of default_unit b)) = Some u /\ b_name (snd (unit_of default_unit b)) = b_name b).
  { unfold unit_of in *. destruct (b_unit b) as [w|] eqn:Eb; cbn in *; [split; congruence|].
    destruct (default_unit (b_name b)); cbn in *; [|discriminate]. split; congruence. }
  destruct (unit_of default_unit b) as [r b'] eqn:Eu. cbn [fst snd] in *. subst r.
  unfold norm_in. rewrite N. cbn [bind]. rewrite G. cbn [fst]. unfold change_unit.
  destruct U1 as [-> ->]. rewrite Ev. cbn. now destruct v.
Qed.
Theorem C173_capitals_refuted b u x d :
  fst (unit_of default_unit b) = Ok u -> norms u = Ok d -> map fst d = [lit "mks"; lit "cgs"] ->
  system_name x -> x <> lit "mks" -> x <> lit "cgs" ->
  fst (index_observable ueq uread norms default_unit b x) = Err KeyError.
Proof.
  intros E N K X X1 X2. unfold index_observable. rewrite (proj2 (is_system_spec x) X).
  destruct (unit_of default_unit b) as [r b'] eqn:Eu. cbn [fst snd] in *. subst r.
  unfold norm_in. rewrite N. cbn [bind].
  destruct (d_get str_eqb d x) as [n|] eqn:G; [|reflexivity]. exfalso.
  apply (d_get_in str_eqb str_eqb_spec) in G. assert (I : In x (map fst d)) by (apply in_map_iff; now exists (x, n)).
  rewrite K in I. destruct I as [I|[I|[]]]; congruence.
Qed.

(** C174 is refuted: an observable whose reported unit is inconsistent with
    its data, such as one over a velocity ([C143_first_exponent_refuted]),
    can never be observed without a unit, after any use of the context. *)
Theorem C174_default_unit_refuted (h : list (command V IX SC A)) name u cs o : sound ->
  default_unit name = Ok u ->
  result_for (effective defaults [(cs, false)]) (observe_name name) = Ok o ->
  let d := q_data (ob_quantity o) in
  ~ In (ustr u) (map fst (ob_indices o)) -> ~ In (ustr u) (map fst (ob_assumptions o)) ->
  ueq u (o_unit d) = Ok false -> uor (o_unit d) u = Ok false ->
  fst (fst (observe_it (new_observable name None) (after h) cs)) = Err ValueError.
Proof.
  intros S Eu E d N1 N2 E1 E2. rewrite <- (C172_inconsistent h name u cs o S E N1 N2 E1 E2).
  unfold ObservablesModel.observe_it, target_of, unit_of. cbn [b_unit b_target new_observable b_name]. rewrite Eu. cbn.
  destruct (run_program _ _ _ _ _ _ _ _ _). reflexivity.
Qed.
(** C174, in part: otherwise it has the reported unit. *)
Theorem C174_default_unit_partial (h : list (command V IX SC A)) name u cs o f : sound ->
  default_unit name = Ok u ->
  result_for (effective defaults [(cs, false)]) (observe_name name) = Ok o ->
  let d := q_data (ob_quantity o) in
  ~ In (ustr u) (map fst (ob_indices o)) -> ~ In (ustr u) (map fst (ob_assumptions o)) ->
  ueq u (o_unit d) = Ok false -> uor (o_unit d) u = Ok true -> ufactor (o_unit d) u = Ok f ->
  exists s b c, observe_it (new_observable name None) (after h) cs = (Ok (FSeen s), b, c) /\
    o_unit (s_data s) = u /\ fst (unit_of default_unit b) = Ok u /\
    (forall i, at_ (meaning asarray (s_data s)) i = (f * at_ (meaning asarray d) i)%Qc).
Proof.
  intros S Eu E d N1 N2 E1 E2 E3.
  destruct (C172_values h name u cs o f S E N1 N2 E1 E2 E3) as (s & b & c & Eo & P1 & P2 & P3 & P4 & _).
  unfold ObservablesModel.observe_it, target_of, unit_of in Eo |- *. cbn [b_unit b_target new_observable b_name] in *.
  rewrite Eu. cbn. cbn in Eo. destruct (run_program _ _ _ _ _ _ _ _ _) as [r c0].
  injection Eo as Er Eb Ec. eexists s, _, _. split; [rewrite Er; reflexivity|]. cbn. auto.
Qed.

(** C175: looking up a name in an observation gives the values along the axis
    of that name, else the assumption of that name. *)
Theorem C251_axes (o : observation IX SC (object D U)) x i :
  NoDup (map fst (ob_indices o)) -> In (x, Some i) (ob_indices o) -> axis_truth i = true ->
  retrieve (new_seen axis_truth axis_array (q_data (ob_quantity o)) (ob_indices o) (Some (ob_assumptions o))) x
  = Ok (FAxis (axis_array i)).
Proof.
  intros N I T. unfold ObservablesModel.retrieve. cbn [s_axes new_seen].
  rewrite (axes_of_in axis_truth axis_array _ x i N I T). reflexivity.
Qed.
Theorem C251_assumptions (o : observation IX SC (object D U)) x v :
  NoDup (map fst (ob_assumptions o)) -> In (x, v) (ob_assumptions o) -> ~ In x (map fst (ob_indices o)) ->
  retrieve (new_seen axis_truth axis_array (q_data (ob_quantity o)) (ob_indices o) (Some (ob_assumptions o))) x
  = Ok (FAssumption v).
Proof.
  intros N I T. unfold ObservablesModel.retrieve. cbn [s_axes new_seen s_assumptions].
  rewrite (axes_of_none axis_truth axis_array _ x T).
  rewrite (proj2 (d_get_iff str_eqb str_eqb_spec _ x v N) I). reflexivity.
Qed.
(** C175 is refuted for the other names of an axis: they are read as units,
    and never give the values along the axis. *)
Theorem C175_aliases_refuted (o : observation IX SC (object D U)) x a :
  ~ In x (map fst (ob_indices o)) ->
  retrieve (new_seen axis_truth axis_array (q_data (ob_quantity o)) (ob_indices o) (Some (ob_assumptions o))) x
  <> Ok (FAxis a).
Proof.
  intros T. unfold ObservablesModel.retrieve. cbn [s_axes new_seen s_assumptions].
  rewrite (axes_of_none axis_truth axis_array _ x T).
  destruct (d_get str_eqb (ob_assumptions o) x); [discriminate|].
  destruct (data_in _ _ _ _ _ _ _ _ _ _); discriminate.
Qed.
(** An observation made without assumptions gives nothing but its axes, and
    cannot be converted. *)
Theorem C175_no_assumptions_refuted (d : object D U) indices x : ~ In x (map fst indices) ->
  retrieve (new_seen (SC := SC) axis_truth axis_array d indices None) x = Err TypeError.
Proof.
  intros T. unfold ObservablesModel.retrieve. cbn [s_axes new_seen s_assumptions].
  now rewrite (axes_of_none axis_truth axis_array _ x T).
Qed.
(** Nor does it list its parameters. *)
Theorem C175_no_parameters_refuted (d : object D U) indices :
  fst (parameters_of (new_seen (SC := SC) axis_truth axis_array d indices None)) = Err TypeError.
Proof. reflexivity. Qed.

(** C176: two observables compare equal exactly if their units do and their
    axes and parameters are the same up to order.  Missing: their names
    ([C176_names_refuted]). *)
Theorem C176_equal_partial n m un um ru rm k l p q e :
  let a := new_observable n un in let b := new_observable m um in
  fst (unit_of default_unit a) = Ok ru -> fst (unit_of default_unit b) = Ok rm -> ueq ru rm = Ok e ->
  default_dims n = Ok k -> default_dims m = Ok l -> default_params n = Ok p -> default_params m = Ok q ->
  NoDup k -> NoDup l -> NoDup p -> NoDup q ->
  exists r, equal_observables ueq default_unit default_dims default_params a b = Ok r /\
    (r = true <-> e = true /\ (forall x, In x k <-> In x l) /\ (forall x, In x p <-> In x q)).
Proof.
  cbv zeta. intros E1 E2 E3 D1 D2 P1 P2 N1 N2 N3 N4. unfold equal_observables. rewrite E1, E2. cbn [bind]. rewrite E3. cbn [bind].
  unfold dims_of, params_of. cbn [b_dims b_params new_observable b_name]. rewrite D1, D2, P1, P2. cbn [fst bind].
  rewrite !names_equal_members by assumption.
  destruct e; cbn [negb]; [|exists false; split; [reflexivity|]; split; [discriminate|intros [? _]; discriminate]].
  destruct (same_members k l) eqn:M1; cbn [negb].
  - exists (same_members p q). split; [reflexivity|]. rewrite !same_members_spec in *. tauto.
  - exists false. split; [reflexivity|]. split; [discriminate|]. intros (_ & H & _).
    apply same_members_spec in H. congruence.
Qed.

(** C177: the array of an observation has the elements of its data, without
    the axes of size 1, and reading it again gives the same. *)
Theorem C177_array (s : seen D U IX SC AX) : reads_like asarray get -> shaped asarray (s_data s) -> s_array s = None ->
  exists a, fst (array_of asarray get s) = Ok a /\
    shape a = filter (fun n => negb (Nat.eqb n 1)) (shape (meaning asarray (s_data s))) /\
    (forall j, inside (shape a) j ->
       at_ a j = at_ (meaning asarray (s_data s)) (with_single (shape (meaning asarray (s_data s))) j)) /\
    fst (array_of asarray get (snd (array_of asarray get s))) = Ok a.
Proof.
  intros R Sh E. unfold array_of at 1 3. rewrite E.
  destruct (get_array_ok asarray get R (s_data s) NAll) as (o' & -> & _). cbn [missing fst snd].
  eexists. split; [reflexivity|]. cbn [squeezed shape]. split; [reflexivity|]. split; [|reflexivity].
  intros j Hj. unfold at_, squeezed. cbn [shape cells].
  assert (L : length j = length (filter (fun n => negb (Nat.eqb n 1)) (shape (meaning asarray (s_data s)))))
    by (clear -Hj; induction Hj; cbn; auto).
  destruct (squeeze_ravel (shape (meaning asarray (s_data s))) j L) as [<- _]. reflexivity.
Qed.
End Observables.
Print Assumptions C171_values_partial.
Print Assumptions C172_values.
Print Assumptions C172_same_unit.
Print Assumptions C172_inconsistent.
Print Assumptions C173_systems_partial.
Print Assumptions C173_capitals_refuted.
Print Assumptions C174_default_unit_refuted.
Print Assumptions C174_default_unit_partial.
Print Assumptions C251_axes.
Print Assumptions C251_assumptions.
Print Assumptions C175_aliases_refuted.
Print Assumptions C175_no_assumptions_refuted.
Print Assumptions C175_no_parameters_refuted.
Print Assumptions C176_equal_partial.
Print Assumptions C177_array.

(** * Concrete cases *)

(** Two velocities and a length at three times, observed at one time; the
    velocities depend on a parameter.  Units: m, km, J, N m, s. *)
Module Dataset.
Inductive unit_ : Type := Metre | Kilometre | Joule | NewtonMetre | Second.
Definition text (u : unit_) : str :=
  match u with Metre => lit "m" | Kilometre => lit "km" | Joule => lit "J" | NewtonMetre => lit "N m" | Second => lit "s" end.
Definition reading (x : str) : res unit_ :=
  if str_eqb x (lit "m") then Ok Metre else if str_eqb x (lit "km") then Ok Kilometre
  else if str_eqb x (lit "J") then Ok Joule else if str_eqb x (lit "N m") then Ok NewtonMetre
  else if str_eqb x (lit "s") then Ok Second else Err ValueError.
Definition size (u : unit_) : Qc := match u with Kilometre => Qc_of_Z 1000 | _ => 1%Qc end.
Definition kind (u : unit_) : nat := match u with Metre | Kilometre => 0 | Joule | NewtonMetre => 1 | Second => 2 end.
Definition same (u v : unit_) : res bool := Ok (str_eqb (text u) (text v)).
(** Equal units, as in the package: the same kind and size. *)
Definition equal (u v : unit_) : res bool := Ok (Nat.eqb (kind u) (kind v) && Qc_eqb (size u) (size v)).
(** The comparison of J and N m fails, as that of kJ and N m in the package
    (C31 to C35). *)
Definition failing (u v : unit_) : res bool :=
  if str_eqb (text u) (text v) then Ok true else if Nat.eqb (kind u) 1 && Nat.eqb (kind v) 1 then Err ValueError else Ok false.
Definition consistent_with (u v : unit_) : res bool := Ok (Nat.eqb (kind u) (kind v)).
Definition factor (u v : unit_) : res Qc := Ok (size u / size v)%Qc.
Definition norms (u : unit_) : res (list (str * unit_)) := Ok [(lit "mks", Metre); (lit "cgs", Kilometre)].
Definition given_unit (n : str) : unit_ := if str_eqb n (lit "work") then Joule else Metre.
Definition reported (n : str) : res unit_ := Ok (if str_eqb n (lit "odd") then Second else given_unit n).
Definition dims (n : str) : res (list str) := Ok [lit "time"].
Definition params (n : str) : res (list str) := Ok [lit "lambda0"].
Definition quantity (n : str) : object sample unit_ :=
  mkObject (Source (true, mkArr [3] [Qc_of_Z 10; Qc_of_Z 20; Qc_of_Z 30])) None 1%Qc (given_unit n) [lit "time"].
Definition observe_name (n : str) : program Z Z (observation Z Z (object sample unit_)) :=
  AskIndex (lit "time") (fun i => AskValue (lit "lambda0") (fun v =>
    Return (do o <- fst (ArrayModel.getitem sample_array sample_get sample_shape (quantity n)
                           (Bare (match i with Some z => IInt z | None => full_slice end)));
            Ok (mkObservation (mkQty o (o_dims o) [lit "lambda0"]) [(lit "time", i)] [(lit "lambda0", v)]))%py)).
Definition defaults : list (str * Z) := [(lit "lambda0", 7%Z)].
Definition in_axes (k : str) : bool := str_eqb k (lit "time").
Definition axis_all (_ : str) : res Z := Ok 0%Z.
Definition axis_at (_ : str) (v : Z) : res Z := Ok v.
Definition as_index (_ : Z) : option Z := None.
Definition scalar (v : Z) : res Z := Ok v.
Definition system (x : str) : bool := is_system x.
Definition run ueq := run (A := unit) (AX := Z) sample_array sample_get sample_shape ueq consistent_with factor reading text norms reported dims params
  observe_name defaults (fun k => [k]) [] in_axes axis_all axis_at as_index defaults scalar (fun _ => true) (fun i => (10 * i)%Z) start.
End Dataset.
Import Dataset.

Lemma dataset_sound : sound sample_array sample_get sample_shape reading text dims params observe_name
  in_axes axis_all axis_at as_index defaults scalar system.
Proof.
  split.
  - apply sample_reads.
  - intros u. split; [destruct u; reflexivity|]. intros H. apply is_system_spec in H. destruct u; discriminate.
  - apply is_system_spec.
  - intros d n o H. cbn [observe_name ObservingSpec.result_for] in H.
    destruct (index_for _ _ _ _ _ _) as [i|]; [|discriminate]. cbn [bind ObservingSpec.result_for] in H.
    destruct (value_for _ _ _ _) as [v|]; [|discriminate]. cbn [bind ObservingSpec.result_for] in H.
    destruct (fst (ArrayModel.getitem sample_array sample_get sample_shape (quantity n) _)) as [q|] eqn:E; [|discriminate].
    cbn [bind] in H. injection H as <-. cbn. exists (quantity n). eexists. split; [|exact E]. split; reflexivity.
  - intros n l H. injection H as <-. repeat constructor; cbn; tauto.
  - intros n l H. injection H as <-. repeat constructor; cbn; tauto.
Qed.
Lemma dataset_decides : decides same.
Proof.
  intros u v. eexists. split; [reflexivity|]. split; [|intros ->; apply str_eqb_refl].
  intros H. destruct (str_eqb_spec (text u) (text v)) as [E|]; [|discriminate]. destruct u, v; try reflexivity; discriminate.
Qed.
Definition array_is {U' AX' SC'} (a : answer U' AX' SC') (s : list nat) (l : list Z) : bool :=
  match a with
  | AArray (Ok a) => str_eqb (map ascii_of_nat (shape a)) (map ascii_of_nat s) &&
                     Nat.eqb (length (cells a)) (length l) && forallb (fun p => Qc_eqb (fst p) (Qc_of_Z (snd p))) (combine (cells a) l)
  | _ => false
  end.
(** A program: observe in km at the third time, in m at the first, with a
    failing observation between. *)
Example C171_example :
  let l := [New (lit "mfp") None; AskUnit 0; InUnit 0 (lit "km"); Observe 0 [(lit "time", 2%Z)]; Observe 1 [(lit "time", 9%Z)];
            Observe 1 []; SeenUnit 1; SeenArray 0; Lookup 1 (lit "m"); SeenArray 2; Lookup 0 (lit "time"); Lookup 1 (lit "time");
            AskUnit 0; Lookup 0 (lit "lambda0"); Lookup 0 (lit "t"); InUnit 1 (lit "mks"); AskUnit 2; Compare 0 2; Compare 0 1] in
  exists a0 a2,
  run same l = [Done (Ok tt); AUnit (Ok Metre); Done (Ok tt); AnObservation; Failed IndexError; AnObservation; AUnit (Ok Kilometre); a0;
     AnObservation; a2; AnAxis 20%Z; AnAxis 0%Z; AUnit (Ok Metre); AnAssumption (Some 7%Z); Failed ValueError; Done (Ok tt);
     AUnit (Ok Metre); ABool (Ok true); ABool (Ok false)] /\ array_is a0 [] [30%Z] = true /\ array_is a2 [] [10%Z] = true.
Proof. cbv zeta. eexists _, _. split; [vm_compute; reflexivity|]. split; vm_compute; reflexivity. Qed.
(** C171 is refuted for units whose comparison fails: whether N m can be
    requested of a quantity in J depends on whether its unit has been looked
    at before. *)
Theorem C171_comparison_refuted :
  run failing [New (lit "work") None; InUnit 0 (lit "N m")] = [Done (Ok tt); Done (Ok tt)] /\
  run failing [New (lit "work") None; AskUnit 0; InUnit 0 (lit "N m")] = [Done (Ok tt); AUnit (Ok Joule); Done (Err ValueError)].
Proof. split; vm_compute; reflexivity. Qed.
Print Assumptions C171_comparison_refuted.
(** And for equal units the unit of the result depends on it. *)
Theorem C171_equal_refuted :
  run equal [New (lit "work") None; InUnit 0 (lit "N m"); AskUnit 1] = [Done (Ok tt); Done (Ok tt); AUnit (Ok NewtonMetre)] /\
  run equal [New (lit "work") None; AskUnit 0; InUnit 0 (lit "N m"); AskUnit 1] =
    [Done (Ok tt); AUnit (Ok Joule); Done (Ok tt); AUnit (Ok Joule)].
Proof. split; vm_compute; reflexivity. Qed.
Print Assumptions C171_equal_refuted.
(** C172 and C174: the hypotheses hold for a length in km, and for a quantity
    whose reported unit is not that of its data. *)
Example C172_example :
  exists o, result_for in_axes axis_all axis_at as_index defaults scalar (effective defaults [([(lit "time", 2%Z)], false)])
              (observe_name (lit "mfp")) = Ok o /\
    ~ In (text Kilometre) (map fst (ob_indices o)) /\ ~ In (text Kilometre) (map fst (ob_assumptions o)) /\
    same Kilometre (o_unit (q_data (ob_quantity o))) = Ok false /\ consistent_with (o_unit (q_data (ob_quantity o))) Kilometre = Ok true /\
    same Metre (o_unit (q_data (ob_quantity o))) = Ok true.
Proof.
  eexists. split; [vm_compute; reflexivity|]. cbn.
  split; [intros [H|[]]; discriminate|]. split; [intros [H|[]]; discriminate|]. auto.
Qed.
Example C174_example :
  run same [New (lit "odd") None; AskUnit 0; Observe 0 []; InUnit 0 (lit "m"); Observe 1 []] =
  [Done (Ok tt); AUnit (Ok Second); Failed ValueError; Done (Ok tt); AnObservation].
Proof. vm_compute. reflexivity. Qed.
(** C173: the systems. *)
Example C173_example :
  run same [New (lit "mfp") None; InUnit 0 (lit "cgs"); AskUnit 1; InUnit 1 (lit "mks"); AskUnit 2; InUnit 0 (lit "MKS")] =
  [Done (Ok tt); Done (Ok tt); AUnit (Ok Kilometre); Done (Ok tt); AUnit (Ok Metre); Done (Err KeyError)] /\
  system_name (lit "MKS").
Proof. split; [vm_compute; reflexivity|]. apply is_system_spec. reflexivity. Qed.
(** C175: the axis and the assumption of an observation, and another name. *)
Example C175_example :
  run same [New (lit "mfp") None; Observe 0 [(lit "time", 2%Z)]; Lookup 0 (lit "time"); Lookup 0 (lit "lambda0"); Lookup 0 (lit "t")] =
  [Done (Ok tt); AnObservation; AnAxis 20%Z; AnAssumption (Some 7%Z); Failed ValueError].
Proof. vm_compute. reflexivity. Qed.
(** C176 is refuted: different quantities compare equal. *)
Theorem C176_names_refuted :
  equal_observables same reported dims params (new_observable (lit "Vr") None) (new_observable (lit "Vt") None) = Ok true.
Proof. vm_compute. reflexivity. Qed.
Print Assumptions C176_names_refuted.
Example C176_example :
  NoDup [lit "time"] /\ NoDup [lit "lambda0"] /\
  equal_observables same reported dims params (new_observable (lit "Vr") None) (new_observable (lit "Vt") (Some Kilometre)) = Ok false.
Proof. split; [repeat constructor; cbn; tauto|]. split; [repeat constructor; cbn; tauto|vm_compute; reflexivity]. Qed.
Example C177_example :
  let s := new_seen (AX := Z) (SC := Z) (fun _ : Z => true) (fun i => i)
             (mkObject (Source (true, counting [1; 3; 1; 2])) None 1%Qc Metre [lit "a"; lit "b"; lit "c"; lit "d"]) [] None in
  shaped sample_array (s_data s) /\ shown_is (Shown (fst (array_of sample_array sample_get s))) [3; 2] [0; 1; 2; 3; 4; 5] = true.
Proof. cbv zeta. split; [split; reflexivity|vm_compute; reflexivity]. Qed.
