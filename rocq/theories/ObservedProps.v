(** The properties of the results of observing in core/observed.py. *)

From Coq Require Import String Ascii List Bool ZArith QArith Qcanon Lia.
From Verif Require Import Py PyFacts PyDict ArrayModel ArraySpec ArrayProofs ArrayMoreProofs ArrayProps
  ObservedModel ObservedSpec ObservedProofs.
Import ListNotations.
Open Scope list_scope.
Open Scope nat_scope.

Section Observed.
Context {D U IX SC : Type} (asarray : D -> arr) (get : D -> nindex -> res arr).
Context (deq : object D U -> object D U -> res bool).
Notation after := (@after D U IX SC asarray get).

(** ** C328: the array and the parameters, however often they were used *)

Theorem C328_array d indices assumptions v : reads_like asarray get -> after d indices assumptions v ->
  exists a, fst (observed_array asarray get v) = Ok a /\
    shape a = filter (fun n => negb (Nat.eqb n 1)) (shape (meaning asarray d)) /\
    forall j, inside (shape a) j ->
      at_ a j = at_ (meaning asarray d) (with_single (shape (meaning asarray d)) j).
Proof.
  intros R A. apply (after_kept asarray get R) in A.
  destruct (array_kept asarray get R _ _ _ _ A) as [-> _].
  eexists. split; [reflexivity|]. cbn [squeeze_axes shape]. split; [reflexivity|].
  intros j Hj. unfold at_, squeeze_axes. cbn [shape cells].
  assert (L : length j = length (filter (fun n => negb (Nat.eqb n 1)) (shape (meaning asarray d))))
    by (clear -Hj; induction Hj; cbn; auto).
  destruct (squeeze_ravel (shape (meaning asarray d)) j L) as [<- _]. reflexivity.
Qed.
Theorem C328_parameters d indices assumptions v : reads_like asarray get -> after d indices (Some assumptions) v ->
  fst (observed_parameters v) = Ok (map fst assumptions).
Proof.
  intros R A. apply (after_kept asarray get R) in A.
  now destruct (parameters_kept asarray _ _ _ _ A) as [-> _].
Qed.

(** ** C329: context items *)

Theorem C329_indices d indices assumptions v x i : reads_like asarray get -> after d indices assumptions v ->
  NoDup (map fst indices) -> In (x, i) indices -> observed_item v (OText x) = Ok (OIndex i).
Proof.
  intros R A N H. apply (after_kept asarray get R) in A as (K1 & _).
  unfold observed_item. rewrite K1.
  rewrite (proj2 (d_get_iff str_eqb str_eqb_spec indices x i N) H). reflexivity.
Qed.
Theorem C329_assumptions d indices assumptions v x s : reads_like asarray get -> after d indices (Some assumptions) v ->
  ~ In x (map fst indices) -> NoDup (map fst assumptions) -> In (x, s) assumptions ->
  observed_item v (OText x) = Ok (OAssumption s).
Proof.
  intros R A M N H. apply (after_kept asarray get R) in A as (K1 & K2 & _).
  unfold observed_item. rewrite K1, K2.
  rewrite (proj2 (d_get_none str_eqb str_eqb_spec indices x) M).
  rewrite (proj2 (d_get_iff str_eqb str_eqb_spec assumptions x s N) H). reflexivity.
Qed.
Theorem C329_other v : observed_item (D := D) (U := U) (IX := IX) (SC := SC) v OOther = Err TypeError.
Proof. reflexivity. Qed.

(** ** C330: the unit of an observed quantity *)

(** Whatever text is given as a unit, the new quantity has the unit and the
    values of the old one. *)
Theorem C330_unit_refuted d indices assumptions v x : reads_like asarray get -> after d indices (Some assumptions) v ->
  ~ In x (map fst indices) -> ~ In x (map fst assumptions) ->
  exists w, observed_item v (OText x) = Ok (OQuantity w) /\
    o_unit (v_data w) = o_unit d /\ meaning asarray (v_data w) = meaning asarray d.
Proof.
  intros R A M N. apply (after_kept asarray get R) in A as (K1 & K2 & K3 & K4 & _).
  unfold observed_item. rewrite K1, K2.
  rewrite (proj2 (d_get_none str_eqb str_eqb_spec indices x) M).
  rewrite (proj2 (d_get_none str_eqb str_eqb_spec assumptions x) N).
  eexists. split; [reflexivity|]. now split.
Qed.
(** Without assumptions, nothing but the axes can be asked for. *)
Theorem C330_no_assumptions_refuted d indices v x : reads_like asarray get -> after d indices None v ->
  ~ In x (map fst indices) ->
  observed_item v (OText x) = Err TypeError /\ fst (observed_parameters v) = Err TypeError.
Proof.
  intros R A M. apply (after_kept asarray get R) in A. split.
  - destruct A as (K1 & K2 & _). unfold observed_item. rewrite K1, K2.
    now rewrite (proj2 (d_get_none str_eqb str_eqb_spec indices x) M).
  - now destruct (parameters_kept asarray _ _ _ _ A) as [-> _].
Qed.

(** ** C331: equality *)

(** Two observed quantities with equal data cannot be compared: not even a
    quantity with itself. *)
Theorem C331_equal_refuted (v w : observed D U IX SC) : deq (v_data v) (v_data w) = Ok true ->
  observed_eq deq v w = Err AttributeError.
Proof. intros H. unfold observed_eq. now rewrite H. Qed.
Theorem C331_never_refuted (v w : observed D U IX SC) : observed_eq deq v w <> Ok true.
Proof. unfold observed_eq. destruct (deq _ _) as [[|]|]; discriminate. Qed.
Theorem C331_different_partial (v w : observed D U IX SC) : deq (v_data v) (v_data w) = Ok false ->
  observed_eq deq v w = Ok false.
Proof. intros H. unfold observed_eq. now rewrite H. Qed.
End Observed.
Print Assumptions C328_array.
Print Assumptions C328_parameters.
Print Assumptions C329_indices.
Print Assumptions C329_assumptions.
Print Assumptions C329_other.
Print Assumptions C330_unit_refuted.
Print Assumptions C330_no_assumptions_refuted.
Print Assumptions C331_equal_refuted.
Print Assumptions C331_never_refuted.
Print Assumptions C331_different_partial.

(** A quantity of shape 1 by 2, with an axis and a parameter, converted to
    another "unit" and read twice. *)
Definition shown : object sample Z := object_of [1; 2] ["time"; "shell"]%string 1%Z.
Definition observed_sample : observed sample Z nat nat :=
  new_observed shown [(lit "time", 7)] (Some [(lit "mass", 9)]).
Definition data_equal (a b : object sample Z) : res bool := z_eq (o_unit a) (o_unit b).
Example C328_case :
  after sample_array sample_get shown [(lit "time", 7)] (Some [(lit "mass", 9)])
    (snd (observed_parameters (snd (observed_array sample_array sample_get observed_sample)))) /\
  (match fst (observed_array sample_array sample_get
                (snd (observed_array sample_array sample_get observed_sample))) with
   | Ok a => arr_is a [2] [0; 1] | Err _ => false end) = true /\
  fst (observed_parameters observed_sample) = Ok [lit "mass"].
Proof. split; [apply after_parameters, after_array, just_made|]. now split. Qed.
Example C329_case :
  observed_item observed_sample (OText (lit "time")) = Ok (OIndex 7) /\
  observed_item observed_sample (OText (lit "mass")) = Ok (OAssumption 9) /\
  NoDup (map fst [(lit "time", 7)]) /\ ~ In (lit "mass") (map fst [(lit "time", 7)]) /\
  reads_like sample_array sample_get.
Proof.
  split; [reflexivity|]. split; [reflexivity|]. split; [|split].
  - constructor; [easy|constructor].
  - intros [H|[]]. discriminate.
  - exact sample_reads.
Qed.
Example C330_case : exists w, observed_item observed_sample (OText (lit "km")) = Ok (OQuantity w) /\
  o_unit (v_data w) = 1%Z.
Proof. eexists. split; reflexivity. Qed.
Example C331_case : observed_eq data_equal observed_sample observed_sample = Err AttributeError /\
  observed_eq data_equal observed_sample (new_observed (object_of [2] ["time"]%string 2%Z) [] None) = Ok false.
Proof. now split. Qed.
