(** Lemmas about amounts. *)

From Coq Require Import String Ascii List Bool ZArith QArith Qcanon Lia.
From Verif Require Import MeasurableModel.
From Verif Require Import Py PyFacts SymbolicModel MetricTables MetricModel MetricSpec ArrayModel ArraySpec ArrayProofs SystemSpec ConverterModel ConverterSpec
  ConverterProofs ConverterProps UnitQuantityProofs AmountsModel AmountsSpec.
Import ListNotations.
Open Scope list_scope.
Open Scope nat_scope.

Section Package.
Context (systems : list system) (units_of : str -> res (str * str)) (past : expression -> expression -> list action) (size : str -> Qc).
Hypothesis Both : both systems.
Hypothesis Sizes : sizes identified the_connections size.

Lemma exchange_or x y : exchangeable x y -> package_or systems x y = Ok true.
Proof.
  intros (P & P' & _ & C). destruct (C324_units systems x y Both P P') as (p & r & _ & _ & K). apply K.
  right. right. destruct (comparable_size size _ _ Sizes C) as (f & E & _). eauto.
Qed.
Lemma exchange_factor x y : exchangeable x y ->
  exists f, package_factor units_of past x y = Ok f /\ size_in size x = (f * size_in size y)%Qc.
Proof.
  intros (_ & _ & C & _). destruct (C280_quotient size units_of (past x y) y x _ _ Sizes eq_refl eq_refl C) as (f & Q & E & _).
  exists f. split; assumption.
Qed.

Lemma size_in_nonzero u : size_in size u <> 0%Qc.
Proof. apply (size_nonzero _ _ _ Sizes). Qed.
Lemma read_back v : reading size (absolute size v) = v.
Proof.
  destruct v as [a u d]. unfold reading, absolute. cbn. rewrite scale_scale. f_equal.
  replace (/ size_in size u * size_in size u)%Qc with 1%Qc; [apply scale_one|]. field. apply size_in_nonzero.
Qed.

Section Run.
Context {D : Type} (asarray : D -> arr).
Notation vstep := (value_step asarray (package_eq systems) (package_or systems) (package_factor units_of past)).
Notation astep := (amount_step asarray size (package_eq systems)).

Lemma step_amounts (h : list (value expression)) (c : op D expression) :
  match c with
  | Convert k u => match nth_error (map (absolute size) h) k with Some a => exchangeable (am_unit a) u | None => True end
  | _ => True
  end ->
  astep (map (absolute size) h) c = (map (absolute size) (fst (vstep h c)), snd (vstep h c)).
Proof.
  assert (forall r : res (value expression),
    made (map (absolute size) h) (do v <- r; Ok (absolute size v))%py
    = (map (absolute size) (fst (made h r)), snd (made h r))) as M.
  { intros [v|e]; cbn [bind made fst snd]; [|reflexivity]. now rewrite map_app, map_length. }
  destruct c as [d dims u|k x|k u|k s|k]; cbn [amount_step value_step]; try rewrite nth_error_map.
  - intros _. apply M.
  - destruct (nth_error h k) as [v|]; cbn [option_map fst snd]; [|reflexivity]. now rewrite read_back.
  - destruct (nth_error h k) as [v|]; cbn [option_map]; [|reflexivity].
    intro X. unfold value_convert. change (am_unit (absolute size v)) with (ArraySpec.v_unit v) in *.
    destruct (package_eq systems u (ArraySpec.v_unit v)) as [[|]|e]; cbn [bind]; [reflexivity| |exact (M (Err e))].
    rewrite (exchange_or _ _ X). destruct (exchange_factor _ _ X) as (f & -> & Q). cbn [bind negb].
    rewrite <- (M (Ok _)). cbn [bind]. do 3 f_equal. unfold absolute. cbn [am_array am_dims v_array ArraySpec.v_unit v_dims].
    now rewrite scale_scale, Q, Qcmult_comm.
  - destruct (nth_error h k) as [v|]; cbn [option_map]; [|reflexivity]. intros _. rewrite read_back. apply M.
  - destruct (nth_error h k) as [v|]; cbn [option_map]; [|reflexivity]. intros _. exact (M (Ok v)).
Qed.
Lemma run_amounts l : forall h, sensible asarray size (package_eq systems) (map (absolute size) h) l ->
  value_run asarray (package_eq systems) (package_or systems) (package_factor units_of past) h l
  = amount_run asarray size (package_eq systems) (map (absolute size) h) l.
Proof.
  induction l as [|c l IH]; intros h; [reflexivity|]. cbn [sensible amount_run value_run]. intros [C S].
  rewrite (step_amounts h c C) in *. destruct (vstep h c) as [h' r]. cbn [fst snd] in *. now rewrite (IH h' S).
Qed.
End Run.

Section One.
Context {D : Type} (asarray : D -> arr) (get : D -> nindex -> res arr) (has_shape : D -> bool).
Lemma convert_amount (o : object D expression) u : shaped asarray o ->
  unscaled asarray o = data_array asarray (o_data o) ->
  exchangeable (o_unit o) u -> package_eq systems u (o_unit o) = Ok false ->
  exists n, update_unit asarray get has_shape (package_eq systems) (package_or systems) (package_factor units_of past) o u = Ok (false, n)
    /\ o_unit n = u /\ o_dims n = o_dims o /\ shape (meaning asarray n) = shape (meaning asarray o)
    /\ forall i, (at_ (meaning asarray n) i * size_in size u = at_ (meaning asarray o) i * size_in size (o_unit o))%Qc.
Proof.
  intros Sh Un X E.
  pose proof (convert_ok asarray get has_shape (package_eq systems) (package_or systems) (package_factor units_of past) o
    (mkValue (meaning asarray o) (o_unit o) (o_dims o)) (true, false) u) as K.
  destruct (exchange_factor _ _ X) as (f & F & Q).
  unfold value_convert in K. cbn [ArraySpec.v_unit v_array v_dims] in K. rewrite E, (exchange_or _ _ X), F in K. cbn [bind negb] in K.
  destruct K as (n & En & Rn).
  { unfold related. cbn [ArraySpec.v_unit v_array v_dims fst snd]. repeat split; try apply Sh; auto; try discriminate.
    intros _. unfold unscaled in Un. destruct (o_full o) as [a|]; [right; now rewrite Un|now left]. }
  exists n. split; [exact En|]. destruct (Rn eq_refl) as (A1 & A2 & A3 & _). cbn [ArraySpec.v_unit v_array v_dims] in A1, A2, A3.
  split; [congruence|]. split; [congruence|]. rewrite <- A3. split; [apply shape_scale|].
  intro i. rewrite at_scale, Q. ring.
Qed.
End One.
End Package.
