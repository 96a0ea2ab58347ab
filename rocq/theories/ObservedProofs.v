(** Lemmas about the results of observing. *)

From Coq Require Import String Ascii List Bool ZArith QArith Qcanon Lia.
From Verif Require Import Py PyFacts PyDict ArrayModel ArraySpec ArrayProofs ArrayMoreProofs ObservedModel ObservedSpec.
Import ListNotations.
Open Scope list_scope.
Open Scope nat_scope.

Section Observed.
Context {D U IX SC : Type} (asarray : D -> arr) (get : D -> nindex -> res arr).
Context (R : reads_like asarray get).
Context (d : object D U) (indices : list (str * IX)) (assumptions : option (list (str * SC))).

(** What does not change, and what the caches hold. *)
Definition kept (v : observed D U IX SC) : Prop :=
  v_indices v = indices /\ v_assumptions v = assumptions /\
  meaning asarray (v_data v) = meaning asarray d /\ o_unit (v_data v) = o_unit d /\ o_dims (v_data v) = o_dims d /\
  (v_array v = None \/ v_array v = Some (squeeze_axes (meaning asarray d))) /\
  (v_parameters v = None \/ exists l, assumptions = Some l /\ v_parameters v = Some (map fst l)).

Lemma array_kept v : kept v ->
  fst (observed_array asarray get v) = Ok (squeeze_axes (meaning asarray d)) /\ kept (snd (observed_array asarray get v)).
Proof.
  intros K. pose proof K as (K1 & K2 & K3 & K4 & K5 & K6 & K7). unfold observed_array.
  destruct (v_array v) as [a|] eqn:E.
  - destruct K6 as [K6|K6]; [discriminate|]. injection K6 as ->. split; [reflexivity|exact K].
  - destruct (get_array_ok asarray get R (v_data v) NAll) as (o' & -> & H1 & H2 & H3 & H4 & H5 & _).
    cbn [missing fst snd]. rewrite K3. split; [reflexivity|].
    unfold kept. cbn [v_indices v_assumptions v_data v_array v_parameters].
    assert (M : meaning asarray o' = meaning asarray (v_data v)) by (unfold meaning; congruence).
    rewrite M, H3, H4. tauto.
Qed.
Lemma parameters_kept v : kept v ->
  fst (observed_parameters v) = match assumptions with Some l => Ok (map fst l) | None => Err TypeError end
  /\ kept (snd (observed_parameters v)).
Proof.
  intros K. pose proof K as (K1 & K2 & K3 & K4 & K5 & K6 & K7). unfold observed_parameters.
  destruct (v_parameters v) as [l|] eqn:E.
  - destruct K7 as [K7|(m & H1 & H2)]; [discriminate|]. injection H2 as ->.
    rewrite H1. split; [reflexivity|exact K].
  - rewrite K2. destruct assumptions as [l|] eqn:A; [|now split].
    cbn [fst snd]. split; [reflexivity|].
    unfold kept. cbn [v_indices v_assumptions v_data v_array v_parameters]. rewrite A.
    repeat (split; [assumption||reflexivity|]). right. now exists l.
Qed.
Lemma item_kept v k w : kept v -> observed_item v k = Ok (OQuantity w) -> kept w.
Proof.
  intros (K1 & K2 & K3 & K4 & K5 & K6 & K7). unfold observed_item. destruct k as [x|]; [|discriminate].
  destruct (d_get str_eqb (v_indices v) x); [discriminate|]. destruct (v_assumptions v) as [l|] eqn:A; [|discriminate].
  destruct (d_get str_eqb l x); [discriminate|]. intros [= <-].
  unfold kept, new_observed. cbn [v_indices v_assumptions v_data v_array v_parameters]. tauto.
Qed.
Lemma after_kept v : after asarray get d indices assumptions v -> kept v.
Proof.
  induction 1 as [|v _ IH|v _ IH|v k w _ IH H].
  - unfold kept, new_observed. cbn. tauto.
  - now apply array_kept.
  - now apply parameters_kept.
  - exact (item_kept _ _ _ IH H).
Qed.
End Observed.
