(** Lemmas about the arguments of methods. *)

From Coq Require Import String List Bool ZArith Lia Arith.
From Verif Require Import Py PyFacts PyDict NumericalModel ComputedModel ComputedSpec.
Import ListNotations.
Open Scope list_scope.
Open Scope nat_scope.
Open Scope py_scope.

Section Methods.
Context {A F : Type}.
Implicit Types (deps : list (str * dep A F)) (ds : list (dep A F)).

Lemma provide_length deps params ds : provide deps params ds -> length params = length ds.
Proof. induction 1; cbn; congruence. Qed.
Lemma lookup_all deps params ds : provide deps params ds -> mapM (lookup deps) params = Ok ds.
Proof.
  induction 1 as [|p d ps ds' H _ IH]; [reflexivity|].
  cbn [mapM]. unfold lookup at 1. rewrite H. cbn [bind]. now rewrite IH.
Qed.
Lemma lookup_missing deps params p : In p params -> d_get str_eqb deps p = None -> mapM (lookup deps) params = Err KeyError.
Proof.
  induction params as [|q ps IH]; intros H N; [easy|]. cbn [mapM]. unfold lookup at 1.
  destruct (d_get str_eqb deps q) as [d|] eqn:E; [|reflexivity].
  destruct H as [->|H]; [congruence|]. cbn [bind]. rewrite (IH H N). reflexivity.
Qed.

Lemma concat_arrays ds : Forall is_array ds -> map (@AArr A F) (concat (map arrays_of ds)) = concat (map values_of ds)
  /\ concat (map numbers_of ds) = [].
Proof.
  induction 1 as [|d ds' [a ->] _ [I J]]; [easy|]. cbn. rewrite I, J. easy.
Qed.
Lemma concat_numbers ds : Forall are_numbers ds -> map (@ANum A F) (concat (map numbers_of ds)) = concat (map values_of ds)
  /\ concat (map arrays_of ds) = [].
Proof.
  induction 1 as [|d ds' H _ [I J]]; [easy|].
  destruct H as [[f ->]|[l ->]]; cbn; rewrite ?map_app, I, J; easy.
Qed.

Lemma parse_ordered deps params ds1 ds2 :
  provide deps params (ds1 ++ ds2) -> Forall is_array ds1 -> Forall are_numbers ds2 ->
  parse params deps = Ok (concat (map values_of (ds1 ++ ds2))).
Proof.
  intros P H1 H2. unfold parse. rewrite (lookup_all _ _ _ P). cbn [bind].
  destruct (concat_arrays _ H1) as [I1 J1]. destruct (concat_numbers _ H2) as [I2 J2].
  rewrite !map_app, !concat_app, J1, J2, app_nil_r, I1. cbn [app]. now rewrite I2.
Qed.

Lemma bind_single params : forall ds variadic, length params = length ds ->
  Forall (fun d => length (values_of d) = 1) ds ->
  bind_arguments params variadic (concat (map (@values_of A F) ds)) = Ok (own_arguments params ds).
Proof.
  induction params as [|p ps IH]; intros [|d ds] variadic L H; try easy.
  inversion H as [|? ? Hd Hds]; subst. cbn in L.
  destruct (values_of d) as [|a [|? ?]] eqn:E; try easy.
  unfold own_arguments. cbn [map concat combine]. rewrite E. cbn [app].
  destruct ps as [|q ps].
  - destruct ds; [|easy]. cbn. now destruct variadic.
  - change (bind_arguments (p :: q :: ps) variadic (a :: concat (map values_of ds)))
      with (do r <- bind_arguments (q :: ps) variadic (concat (map values_of ds)); Ok ((p, [a]) :: r)).
    rewrite (IH ds variadic) by (assumption || (cbn in *; lia)). reflexivity.
Qed.
Lemma bind_variadic params : forall ds p d, length params = length ds ->
  Forall (fun d => length (values_of d) = 1) ds ->
  bind_arguments (params ++ [p]) true (concat (map (@values_of A F) (ds ++ [d]))) = Ok (own_arguments (params ++ [p]) (ds ++ [d])).
Proof.
  induction params as [|q ps IH]; intros [|e ds] p d L H; try easy.
  - cbn. now rewrite app_nil_r.
  - inversion H as [|? ? Hd Hds]; subst. cbn in L.
    destruct (values_of e) as [|a [|? ?]] eqn:E; try easy.
    unfold own_arguments. cbn [map concat combine app]. rewrite E. cbn [app].
    destruct (ps ++ [p]) as [|q' ps'] eqn:Q; [now destruct ps|].
    change (bind_arguments (q :: q' :: ps') true (a :: concat (map values_of (ds ++ [d]))))
      with (do r <- bind_arguments (q' :: ps') true (concat (map values_of (ds ++ [d]))); Ok ((q, [a]) :: r)).
    rewrite <- Q, (IH ds p d) by (assumption || lia). reflexivity.
Qed.

Lemma bind_count params : forall args b, bind_arguments (A:=A) (F:=F) params false args = Ok b -> length args = length params.
Proof.
  induction params as [|p ps IH]; intros args b H.
  - now destruct args.
  - destruct ps as [|q ps].
    + cbn in H. now destruct args as [|a [|? ?]].
    + destruct args as [|a args]; [easy|].
      change (bind_arguments (p :: q :: ps) false (a :: args)) with (do r <- bind_arguments (q :: ps) false args; Ok ((p, [a]) :: r)) in H.
      destruct (bind_arguments (q :: ps) false args) as [r|] eqn:E; [|easy].
      cbn. f_equal. eapply IH; eauto.
Qed.
Lemma bind_errors params : forall v args e, bind_arguments (A:=A) (F:=F) params v args = Err e -> e = TypeError.
Proof.
  induction params as [|p ps IH]; intros v args e H.
  - destruct args; [easy|]. cbn in H. congruence.
  - destruct ps as [|q ps].
    + cbn in H. destruct v; [easy|]. destruct args as [|a [|? ?]]; congruence.
    + destruct args as [|a args]; [cbn in H; congruence|].
      change (bind_arguments (p :: q :: ps) v (a :: args)) with (do r <- bind_arguments (q :: ps) v args; Ok ((p, [a]) :: r)) in H.
      destruct (bind_arguments (q :: ps) v args) as [r|] eqn:E; [easy|].
      cbn in H. injection H as <-. eapply IH; eauto.
Qed.
Lemma count_values ds :
  length (concat (map arrays_of ds)) + length (concat (map numbers_of ds)) = length (concat (map (@values_of A F) ds)).
Proof.
  induction ds as [|d ds IH]; [reflexivity|]. cbn. rewrite !app_length.
  destruct d; cbn; rewrite ?map_length; lia.
Qed.
Lemma parse_count deps params ds l : provide deps params ds -> parse params deps = Ok l ->
  length l = length (concat (map values_of ds)).
Proof.
  intros P. unfold parse. rewrite (lookup_all _ _ _ P). cbn [bind]. intros [= <-].
  rewrite app_length, !map_length. apply count_values.
Qed.
End Methods.
