(** Properties of observing contexts. *)

From Coq Require Import String Ascii List Bool ZArith QArith Qcanon Lia.
From Verif Require Import Py PyFacts PyDict ObservingModel ObservingSpec ObservingProofs.
Import ListNotations.
Open Scope list_scope.
Open Scope nat_scope.

Section Observing.
Context {V IX SC D A : Type} (defaults : list (str * V)) (find : str -> list str) (names : list str)
        (in_axes : str -> bool) (axis_all : str -> res IX) (axis_at : str -> V -> res IX)
        (as_index : V -> option IX) (constants : list (str * V)) (scalar : V -> res SC)
        (lookup : str -> option (source SC D)) (truth : D -> bool)
        (power : D * list str -> Qc -> res (D * list str))
        (times : D * list str -> D * list str -> res (D * list str))
        (take : D * list str -> list (option IX) -> res (D * list str))
        (resample : D * list str -> list (str * (IX + SC)) -> res (D * list str))
        (expression : str -> res (list (str * Qc)))
        (coordinate : str -> bool) (needs : str -> IX -> bool) (nonzero : SC -> bool)
        (mkset : list str -> list str) (aliases : str -> list str).
Notation run := (run_program defaults in_axes axis_all axis_at as_index constants scalar).
Notation after := (@after V IX SC A defaults find names in_axes axis_all axis_at as_index constants scalar).
Notation index_for := (index_for in_axes axis_all axis_at as_index).
Notation value_for := (value_for constants scalar).
Notation result_for := (result_for in_axes axis_all axis_at as_index constants scalar).
Notation interpolate := (@interpolate IX SC D take resample).
Notation observe := (@observe V IX SC D find constants lookup truth power times take resample expression coordinate needs nonzero mkset aliases).

(** C47: whatever was done before with the context, an observation gives what
    its definition gives for the constraints in force, without any cache. *)
Theorem C47_observation_follows_constraints (h : list (command V IX SC A)) fuel key :
  fst (run (observe fuel key) (after h)) = result_for (effective defaults (calls h)) (observe fuel key).
Proof. exact (run_history defaults find names in_axes axis_all axis_at as_index constants scalar h (observe fuel key)). Qed.
(** C47: in particular, observing with given constraints gives the same after
    any history as in a new context. *)
Theorem C47_same_as_in_a_new_context (h : list (command V IX SC A)) new fuel key :
  fst (run (observe fuel key) (constrain (after h) new false)) =
  fst (run (observe fuel key) (constrain new_context new false)).
Proof. exact (run_forgets defaults find names in_axes axis_all axis_at as_index constants scalar h new (observe fuel key)). Qed.

(** C48: the current constraints are the latest user values, else the
    defaults. *)
Theorem C48_constraints (h : list (command V IX SC A)) name :
  d_get str_eqb (fst (constraints defaults (after h))) name = effective defaults (calls h) name.
Proof. exact (constraints_effective defaults find names in_axes axis_all axis_at as_index constants scalar h name). Qed.

(** C49, in part: as long as no name has been asked for before, a name is
    available exactly if it is one of the names of an observable or of a
    currently constrained quantity. *)
Theorem C49_available_at_first_partial (h : list (command V IX SC A)) x :
  (forall y, ~ In (AskName y) h) ->
  fst (contains defaults find names (after h) x) = true <->
  exists n, (In n names \/ effective defaults (calls h) n <> None) /\ In x (find n).
Proof.
  intros H. apply contains_first. apply forallb_forall. intros [new append|p| |y] I; try reflexivity.
  exfalso. exact (H y I).
Qed.
(** C49 is refuted: once a name has been asked for, the available names never
    change, whatever is constrained. *)
Theorem C49_available_names_frozen_refuted (h h' : list (command V IX SC A)) y x :
  fst (contains defaults find names (after (h ++ AskName y :: h')) x) = fst (contains defaults find names (after h) x).
Proof. exact (contains_frozen defaults find names in_axes axis_all axis_at as_index constants scalar h h' y x). Qed.

(** C104, in part: an observation reports exactly the constants among the
    parameters of the functions named in its expression, with the values in
    force, and the indices of exactly its axes. *)
Theorem C104_reported_parameters_partial d fuel key terms o :
  (forall l x, In x (mkset l) <-> In x l) ->
  expression key = Ok terms -> result_for d (observe fuel key) = Ok o ->
  (forall p, In p (map fst (ob_assumptions o)) <-> parameter_of lookup constants terms p) /\
  (forall p v, In (p, v) (ob_assumptions o) -> value_for d p = Ok v) /\
  map fst (ob_indices o) = q_dims (ob_quantity o) /\
  (forall a i, In (a, i) (ob_indices o) -> index_for d a = Ok i).
Proof. intros H. now apply observe_assumptions. Qed.

(** C105, in part: if some axis is not interpolated, the others are subscripted
    by their indices and the interpolated ones are kept whole. *)
Theorem C105_interpolated_axes_kept_partial d q l data (idx : str -> option IX) :
  resample (q_data q, q_dims q) l = Ok (data, q_dims q) ->
  (exists a, In a (q_dims q) /\ interpolated l a = false) ->
  (forall a, In a (q_dims q) -> interpolated l a = false -> index_for d a = Ok (idx a)) ->
  result_for d (interpolate q l) =
  with_data q (take (data, q_dims q) (map (fun a => if interpolated l a then None else idx a) (q_dims q))).
Proof. exact (interpolate_rest in_axes axis_all axis_at as_index constants scalar take resample d q l data idx). Qed.
(** C105 is refuted: if every axis is interpolated, the interpolated array is
    subscripted by the indices of the original axes. *)
Theorem C105_every_axis_interpolated_refuted d q l data (idx : str -> option IX) :
  resample (q_data q, q_dims q) l = Ok (data, q_dims q) ->
  (forall a, In a (q_dims q) -> interpolated l a = true) ->
  (forall a, In a (q_dims q) -> index_for d a = Ok (idx a)) ->
  result_for d (interpolate q l) = with_data q (take (data, q_dims q) (map idx (q_dims q))).
Proof. exact (interpolate_every in_axes axis_all axis_at as_index constants scalar take resample d q l data idx). Qed.

(** C106: constraints on names that take no part in an observation do not
    change it. *)
Theorem C106_irrelevant_constraints axis_name fuel key terms d e :
  axes_named lookup power times take resample axis_name -> (forall l x, In x (mkset l) <-> In x l) ->
  expression key = Ok terms ->
  (forall k, relevant lookup axis_name (find (lit "radius")) terms k -> d k = e k) ->
  result_for d (observe fuel key) = result_for e (observe fuel key).
Proof. intros [H1 H2 H3 H4 H5] H6 E H. now apply (observe_frame) with (axis_name := axis_name) (terms := terms). Qed.

(** C107 is refuted: a constraint on a name that is not itself the name of an
    axis, of the radius or of a parameter taking part is ignored, in
    particular on an alias of the name of an axis or of a parameter. *)
Theorem C107_alias_ignored_refuted axis_name (h : list (command V IX SC A)) new alias v fuel key terms :
  axes_named lookup power times take resample axis_name -> (forall l x, In x (mkset l) <-> In x l) ->
  expression key = Ok terms -> ~ relevant lookup axis_name (find (lit "radius")) terms alias ->
  fst (run (observe fuel key) (constrain (after h) ((alias, v) :: new) false)) =
  fst (run (observe fuel key) (constrain (after h) new false)).
Proof.
  intros [H1 H2 H3 H4 H5] H6 E N. apply run_same. intros d e -> ->.
  apply (observe_frame) with (axis_name := axis_name) (terms := terms); auto.
  intros k Hk. cbn [effective rev]. rewrite d_get_snoc. destruct (d_get str_eqb (rev new) k); [reflexivity|].
  destruct (str_eqb_spec k alias) as [->|]; [contradiction|reflexivity].
Qed.
(** C107, in part: radial interpolation may be asked for under any one of the
    names of the radius. *)
Theorem C107_radius_aliases_partial d k v :
  In k (find (lit "radius")) -> NoDup (find (lit "radius")) ->
  value_for d k = Ok (Some v) -> nonzero v = true ->
  (forall j, In j (find (lit "radius")) -> j <> k -> value_for d j = Ok None) ->
  result_for d (@radius_interpolants IX SC nonzero (find (lit "radius")) []) = Ok [(lit "radius", inr v)].
Proof. exact (radius_any in_axes axis_all axis_at as_index constants scalar find nonzero d k v). Qed.
End Observing.

(** * Concrete cases *)

(** A dataset with axes of times 0, 10, 20 and of shells, a variable, and two
    functions: a mean free path, and a rate that depends on it.  Indices are
    lists of positions; arrays are flat lists along one axis. *)
Module Dataset.
Definition constants : list (str * Z) := [(lit "lambda0", 5%Z); (lit "kper/kpar", 2%Z)].
Definition find (k : str) : list str :=
  if existsb (str_eqb k) [lit "time"; lit "t"] then [lit "time"; lit "t"]
  else if existsb (str_eqb k) [lit "radius"; lit "r"] then [lit "radius"; lit "r"]
  else [k].
Definition names : list str := [lit "time"; lit "Br"; lit "mfp"; lit "rate"].
Definition in_axes (k : str) : bool := existsb (str_eqb k) [lit "time"; lit "t"].
Definition axis_all (_ : str) : res (list Z) := Ok [0%Z; 1%Z; 2%Z].
(** The nearest of the times; a position is written as a negative number. *)
Definition axis_at (_ : str) (v : Z) : res (list Z) :=
  if (v <? 0)%Z then Ok [(- v - 1)%Z] else Ok [if (v <? 5)%Z then 0%Z else if (v <? 15)%Z then 1%Z else 2%Z].
Definition as_index (_ : Z) : option (list Z) := None.
Definition scalar (v : Z) : res Z := Ok v.
Definition sum (l : list (str * dependency (SC := Z) (D := list Z))) : Z :=
  fold_right (fun x n => match snd x with DQuantity q => fold_right Z.add n (q_data q) | DValue (Some v) => (v + n)%Z | DValue None => n end) 0%Z l.
Definition lookup (k : str) : option (source Z (list Z)) :=
  if str_eqb k (lit "Br") then Some (Given [10%Z; 20%Z; 30%Z] [lit "time"])
  else if str_eqb k (lit "mfp") then Some (Derived [lit "lambda0"] (fun l => Ok [sum l; sum l; sum l]) [lit "time"])
  else if str_eqb k (lit "rate") then Some (Derived [lit "mfp"; lit "kper/kpar"] (fun l => Ok [sum l; sum l; sum l]) [lit "time"])
  else None.
Definition truth (d : list Z) : bool := match d with [] => false | _ => true end.
Definition power (x : list Z * list str) (_ : Qc) : res (list Z * list str) := Ok x.
Definition times (x y : list Z * list str) : res (list Z * list str) :=
  Ok (map (fun p => fst p * snd p)%Z (combine (fst x) (fst y)), snd x).
Definition at_ (d : list Z) (i : Z) : res Z := match nth_error d (Z.to_nat i) with Some x => Ok x | None => Err IndexError end.
Definition take (x : list Z * list str) (l : list (option (list Z))) : res (list Z * list str) :=
  match l with
  | [Some i] => (do d <- mapM (at_ (fst x)) i; Ok (d, snd x))%py
  | _ => Ok x
  end.
(** The values half way between neighbouring times. *)
Definition resample (x : list Z * list str) (_ : list (str * (list Z + Z))) : res (list Z * list str) := Ok ([25%Z], snd x).
Definition expression (k : str) : res (list (str * Qc)) := Ok [(k, 1%Qc)].
Definition needs (_ : str) (i : list Z) : bool := false.
Definition always (_ : str) (i : list Z) : bool := true.
Definition observe (needs : str -> list Z -> bool) := @observe Z (list Z) Z (list Z) find constants lookup truth power times take resample
  expression (fun _ => false) needs (fun v => negb (v =? 0)%Z) (fun l => l) (fun k => [k]).
Definition run {B} (p : program (list Z) Z B) := run_program constants in_axes axis_all axis_at as_index constants scalar p.
Definition after (h : list (command Z (list Z) Z (observation (list Z) Z (list Z)))) :=
  after constants find names in_axes axis_all axis_at as_index constants scalar h.
Definition axis_name (k : str) : Prop := k = lit "time".

End Dataset.
Import Dataset.

Lemma lookup_named : axes_named lookup power times take resample axis_name.
Proof.
  split.
  - intros k. unfold lookup. repeat (destruct (str_eqb _ _)); try exact I; repeat constructor.
  - intros x e y H [= <-]. exact H.
  - intros x z y H _ [= <-]. exact H.
  - intros x l y H. unfold take. destruct l as [|[i|] [|]]; try (intros [= <-]; exact H).
    destruct (mapM (at_ (fst x)) i); [|discriminate]. intros [= <-]. exact H.
  - intros x l y H [= <-]. exact H.
Qed.

(** A history with a failing observation (position 7 does not exist), and the
    values observed afterwards. *)
Example C47_dataset :
  let h := [Perform (observe needs 5 (lit "rate")); Constrain [(lit "time", (-8)%Z)] false; Perform (observe needs 5 (lit "Br"));
            Constrain [(lit "lambda0", 9%Z)] true; Look] in
  fst (run (observe needs 5 (lit "Br")) (after h)) = Err IndexError /\
  fst (run (observe needs 5 (lit "rate")) (constrain (after h) [(lit "time", 12%Z); (lit "lambda0", 1%Z)] false)) =
  Ok (mkObservation (mkQty [5%Z] [lit "time"] [lit "kper/kpar"]) [(lit "time", Some [1%Z])] [(lit "kper/kpar", Some 2%Z)]).
Proof. split; vm_compute; reflexivity. Qed.
Example C48_dataset :
  let h := [Constrain [(lit "lambda0", 9%Z); (lit "time", 3%Z)] false; Look; Constrain [(lit "lambda0", 1%Z)] true] in
  map (d_get str_eqb (fst (constraints constants (after h)))) [lit "lambda0"; lit "time"; lit "kper/kpar"; lit "x"] =
  [Some 1%Z; Some 3%Z; Some 2%Z; None].
Proof. vm_compute. reflexivity. Qed.
(** C49 is refuted: a constrained name that is not available. *)
Example C49_dataset :
  fst (contains constants find names (after [Constrain [(lit "width", 9%Z)] false]) (lit "width")) = true /\
  fst (contains constants find names (after [AskName (lit "Br"); Constrain [(lit "width", 9%Z)] false]) (lit "width")) = false.
Proof. split; vm_compute; reflexivity. Qed.

(** C104 is refuted: the observed rate depends on a constant that is not
    reported. *)
Theorem C104_hidden_parameter_refuted :
  let d := d_get str_eqb [(lit "lambda0", 5%Z); (lit "kper/kpar", 2%Z)] in
  let e := d_get str_eqb [(lit "lambda0", 6%Z); (lit "kper/kpar", 2%Z)] in
  let observed d := result_for in_axes axis_all axis_at as_index constants scalar d (observe needs 5 (lit "rate")) in
  takes_part lookup (lit "lambda0") (lit "rate") /\ d_get str_eqb constants (lit "lambda0") <> None /\
  observed d <> observed e /\
  (exists o, observed d = Ok o /\ ~ In (lit "lambda0") (map fst (ob_assumptions o))).
Proof.
  cbv zeta. split.
  - eapply (through lookup) with (q := lit "mfp"); [reflexivity|now left|]. eapply directly; [reflexivity|now left].
  - split; [discriminate|]. split; [vm_compute; discriminate|].
    eexists. split; [vm_compute; reflexivity|]. vm_compute. intros [H|[]]. discriminate.
Qed.
Example C104_dataset : exists o,
  result_for in_axes axis_all axis_at as_index constants scalar (d_get str_eqb constants) (observe needs 5 (lit "mfp")) = Ok o /\
  ob_assumptions o = [(lit "lambda0", Some 5%Z)] /\ parameter_of lookup constants [(lit "mfp", 1%Qc)] (lit "lambda0").
Proof.
  eexists. split; [vm_compute; reflexivity|]. split; [reflexivity|].
  exists (lit "mfp"), 1%Qc. do 3 eexists. split; [now left|]. split; [reflexivity|]. split; [now left|discriminate].
Qed.
(** C105 is refuted: interpolation along the only axis, between the last two
    times, ends with an index that the interpolated array does not have. *)
Example C105_dataset :
  result_for in_axes axis_all axis_at as_index constants scalar (d_get str_eqb [(lit "time", 15%Z)]) (observe always 5 (lit "Br"))
  = Err IndexError.
Proof. vm_compute. reflexivity. Qed.
Example C105_dataset_rest :
  let q := mkQty [10%Z; 20%Z; 30%Z] [lit "time"] [] in
  interpolated [(lit "radius", @inr (list Z) Z 3%Z)] (lit "time") = false /\
  result_for in_axes axis_all axis_at as_index constants scalar (d_get str_eqb [(lit "time", (-1)%Z)])
    (interpolate take resample q [(lit "radius", inr 3%Z)]) = Ok (mkQty [25%Z] [lit "time"] []).
Proof. split; vm_compute; reflexivity. Qed.
(** C106 and C107: constraining the time under its alias is ignored. *)
Lemma alias_irrelevant : ~ relevant lookup axis_name (find (lit "radius")) [(lit "Br", 1%Qc)] (lit "t").
Proof.
  intros [H|[[H|[H|[]]]|(b & e & [E|[]] & H)]]; try discriminate. injection E as <- <-.
  inversion H; discriminate.
Qed.
Example C107_dataset :
  let observed l := fst (run (observe needs 5 (lit "Br")) (constrain (after []) l false)) in
  rmap (fun o => q_data (ob_quantity o)) (observed [(lit "time", 12%Z)]) = Ok [20%Z] /\
  rmap (fun o => q_data (ob_quantity o)) (observed [(lit "t", 12%Z)]) = Ok [10%Z; 20%Z; 30%Z].
Proof. split; vm_compute; reflexivity. Qed.
Example C107_dataset_radius :
  let d := d_get str_eqb [(lit "r", 3%Z)] in
  In (lit "r") (find (lit "radius")) /\ NoDup (find (lit "radius")) /\
  value_for constants scalar d (lit "r") = Ok (Some 3%Z) /\ value_for constants scalar d (lit "radius") = Ok None.
Proof.
  split; [now right; left|]. split; [|split; reflexivity].
  repeat constructor; cbn; intros H; repeat destruct H as [H|H]; try discriminate; exact H.
Qed.

Print Assumptions C47_observation_follows_constraints.
Print Assumptions C47_same_as_in_a_new_context.
Print Assumptions C48_constraints.
Print Assumptions C49_available_at_first_partial.
Print Assumptions C49_available_names_frozen_refuted.
Print Assumptions C104_reported_parameters_partial.
Print Assumptions C104_hidden_parameter_refuted.
Print Assumptions C105_interpolated_axes_kept_partial.
Print Assumptions C105_every_axis_interpolated_refuted.
Print Assumptions C106_irrelevant_constraints.
Print Assumptions C107_alias_ignored_refuted.
Print Assumptions C107_radius_aliases_partial.
