(** Lemmas about the quantities that products of units measure and about
    consistent units. *)

From Coq Require Import String Ascii List Bool ZArith QArith Qcanon Lia.
From Verif Require Import MeasurableModel.
From Verif Require Import Py PyFacts PyDict SymbolicModel SymbolicSpec SymbolicReduceProofs SymbolicExprProofs SymbolicLawProofs SymbolicChainProofs IterablesModel
  MetricTables MetricModel SystemModel SystemSpec SystemAlgebraProofs SystemNormProofs SystemProofs ConverterSpec ConverterProofs.
Import ListNotations.
Open Scope list_scope.
Open Scope nat_scope.
Open Scope py_scope.

Lemma names_valid : forallb (fun p => valid_base (under (fst p))) table = true.
Proof. vm_compute. reflexivity. Qed.
Lemma row_valid q r : sd_get table q = Some r -> valid_base (under q) = true.
Proof.
  intro H. pose proof names_valid as V. rewrite forallb_forall in V.
  apply (d_get_in str_eqb str_eqb_spec) in H. exact (V _ H).
Qed.
Lemma quantity_same x : Forall has_row x -> MeasurableModel.unit_quantity F64 identified x = m_quantity x.
Proof.
  intro H. unfold MeasurableModel.unit_quantity, m_quantity, SystemModel.unit_quantity. f_equal.
  induction H as [|t x Ht _ IH]; [reflexivity|]. cbn [mapM]. rewrite IH. f_equal.
  destruct Ht as (n & r & k & -> & Er & _). unfold term_new. fold (under (n_quantity n)). now rewrite (row_valid _ _ Er).
Qed.

Lemma qterms_base x b : Forall has_row x -> total_expo b (qterms x) <> 0%Qc -> exists q r, sd_get table q = Some r /\ b = under q.
Proof.
  intros H. induction H as [|t x Ht _ IH]; [intro N; now contradiction N|].
  cbn [qterms map]. fold (qterms x). rewrite total_expo_cons. cbn [base expo]. destruct (str_eqb_spec b (uq (base t))) as [E|E].
  - intros _. destruct Ht as (n & r & k & En & Er & _). exists (n_quantity n), r. split; [exact Er|]. subst b. unfold uq. now rewrite En.
  - intro N. apply IH. intro Z. apply N. rewrite Z. ring.
Qed.
Lemma same_exponents x y : Forall has_row x -> Forall has_row y -> (forall q, exponent_of q x = exponent_of q y) ->
  forall b, total_expo b (qterms x) = total_expo b (qterms y).
Proof.
  intros Hx Hy E b.
  destruct (Qc_eq_dec (total_expo b (qterms x)) 0) as [Zx|Nx].
  - destruct (Qc_eq_dec (total_expo b (qterms y)) 0) as [Zy|Ny]; [congruence|].
    destruct (qterms_base y b Hy Ny) as (q & r & R & ->). rewrite (exponent_total q r x Hx R), (exponent_total q r y Hy R). apply E.
  - destruct (qterms_base x b Hx Nx) as (q & r & R & ->). rewrite (exponent_total q r x Hx R), (exponent_total q r y Hy R). apply E.
Qed.
Lemma product_quantity x : product_of_units x ->
  exists z, MeasurableModel.unit_quantity F64 identified x = Ok z /\ canonical z /\ total_coef z = 1%Qc
    /\ forall u q, measures u q -> ~ In q photometric -> total_expo (under q) z = exponent_of q x.
Proof.
  intro P. destruct (product_rows x P) as (H & N & _). rewrite (quantity_same x H).
  destruct (unit_quantity_ok x H N) as (z & Ez & Fz & S). exists z. split; [exact Ez|].
  destruct Fz as (C & _ & Pl). split; [exact C|]. split; [now apply total_coef_plain|].
  intros u q M Q. destruct (row_measured _ _ M Q) as (n & r & _ & Eq & Er). rewrite <- (exponent_total q r x H Er).
  destruct S as [_ S]. apply S. apply legal_not_one. exact (proj1 (f_legal _ _ (row_fact _ _ Er))).
Qed.
Lemma same_quantity x y : product_of_units x -> product_of_units y -> (forall q, exponent_of q x = exponent_of q y) ->
  exists z, MeasurableModel.unit_quantity F64 identified x = Ok z /\ MeasurableModel.unit_quantity F64 identified y = Ok z.
Proof.
  intros P P' E. destruct (product_rows x P) as (H & N & _). destruct (product_rows y P') as (H' & N' & _).
  rewrite (quantity_same x H), (quantity_same y H').
  destruct (unit_quantity_ok x H N) as (z & Ez & Fz & S). destruct (unit_quantity_ok y H' N') as (z' & Ez' & Fz' & S').
  exists z. split; [exact Ez|]. rewrite Ez'. f_equal. symmetry. apply canonical_unique; [apply Fz|apply Fz'|]. destruct S as [_ S], S' as [_ S']. split.
  - destruct Fz as (_ & _ & Pl), Fz' as (_ & _ & Pl'). now rewrite !total_coef_plain.
  - intros b B. rewrite (S b B), (S' b B). now apply same_exponents.
Qed.

(** * Every product of units has a dimension in one of the systems *)

Local Opaque table table' the_canonical identified quantities.
Lemma step_any n r s : sd_get table (n_quantity n) = Some r ->
  exists m c d, is_allowed_in identified the_canonical n Mks = Ok m /\ is_allowed_in identified the_canonical n Cgs = Ok c
    /\ dimensions F64 identified the_canonical n = Ok d /\ m || c = true
    /\ exists s', pick (if m && c then s else if m then Mks else Cgs) d = pick s' (r_dims r).
Proof.
  intro H. destruct (SystemNormProofs.defined_ok n r H Mks) as [m0 M], (SystemNormProofs.defined_ok n r H Cgs) as [c0 C].
  assert (exists m c, is_allowed_in identified the_canonical n Mks = Ok m /\ is_allowed_in identified the_canonical n Cgs = Ok c /\ m || c = true) as (m & c & Em & Ec & O).
  { unfold is_allowed_in. rewrite M, C. cbn [bind]. destruct m0, c0; cbn [orb]; eauto 8. }
  set (s' := if m && c then s else if m then Mks else Cgs).
  assert (is_allowed_in identified the_canonical n s' = Ok true) as A.
  { subst s'. destruct m, c; try discriminate O; cbn [andb]; try assumption. now destruct s. }
  destruct (dimension_step n r s' H A) as (m' & c' & d & Em' & Ec' & Ed & _ & Ep).
  rewrite Em in Em'. rewrite Ec in Ec'. injection Em' as <-. injection Ec' as <-.
  exists m, c, d. split; [exact Em|]. split; [exact Ec|]. split; [exact Ed|]. split; [exact O|]. exists s'.
  rewrite <- Ep. subst s'. destruct m, c; reflexivity.
Qed.
Lemma go_any s x : Forall has_row x -> forall acc ok, fine acc ->
  exists d ok', dimension_go F64 identified the_canonical s acc ok x = Ok (d, ok') /\ (ok = true -> ok' = true)
    /\ (forall t x', x = t :: x' -> forall n, identified (base t) = Some n -> is_allowed_in identified the_canonical n s = Ok true -> ok' = true).
Proof.
  intro Hx. induction Hx as [|t x (n & r & k & En & Er & Ek & Nk & Lk) _ IH]; intros acc ok Fa.
  - exists acc, ok. split; [reflexivity|]. split; [auto|]. discriminate.
  - destruct (step_any n r s Er) as (m & c & d & Em & Ec & Ed & O & s' & Ep).
    cbn [dimension_go]. rewrite En, Em, Ec. cbn [bind]. rewrite Ed. cbn [bind]. rewrite Ep, Ek.
    destruct (f_dims _ _ (row_fact _ _ Er) s') as [Fd Hd].
    destruct (pow_fine (pick s' (r_dims r)) k 8 Fd Nk Hd ltac:(lia)) as (p & Ep' & Fp & Sp).
    rewrite Ep'. cbn [bind]. destruct (mul_fine acc p Fa Fp) as (a & Ea & Faa & Sa). rewrite Ea. cbn [bind].
    destruct (IH a (ok || pick s (m, c)) Faa) as (e & ok' & Ee & K & _). exists e, ok'. split; [exact Ee|]. split.
    + intros ->. now apply K.
    + intros t' x' [= <- <-] n' En' A. rewrite En in En'. injection En' as <-. apply K.
      destruct s; cbn [pick fst snd]; [rewrite Em in A|rewrite Ec in A]; injection A as ->; apply orb_true_r.
Qed.
Lemma dims_product x : product_of_units x -> exists a, dimensions_of F64 identified the_canonical x = Ok a.
Proof.
  intro P. destruct (product_rows x P) as (H & N & _). unfold dimensions_of, dimension_of.
  destruct reads_nothing as [_ ->]. cbn [bind].
  destruct (go_any Mks x H _ false fine_one) as (d & ok & -> & _ & K). cbn [bind snd fst].
  destruct (go_any Cgs x H _ false fine_one) as (d' & ok' & -> & _ & K'). cbn [bind snd fst].
  destruct x as [|t x]; [congruence|]. inversion H as [|? ? (n & r & k & En & Er & _) _]; subst.
  destruct (step_any n r Mks Er) as (m & c & d0 & Em & Ec & _ & O & _).
  assert (ok || ok' = true) as Z.
  { destruct m; [rewrite (K t x eq_refl n En Em); reflexivity|]. cbn [orb] in O. subst c.
    rewrite (K' t x eq_refl n En Ec). apply orb_true_r. }
  destruct ok, ok'; cbn [bind]; eauto. discriminate.
Qed.
Local Transparent table table' the_canonical identified quantities.

Section Exact.
Context (F : flops) (named : str -> option named_unit) (canonical : list canonical_row) (bases : list (str * str)) (qs : list (str * qdef))
        (systems : list system) (conns : connections) (nodes : list str).
Notation unit_or := (unit_or F named canonical bases qs systems conns nodes).
Notation dims := (dimensions_of F named canonical).
Notation search := (convert F named canonical bases qs conns nodes).
Notation quantity_of := (MeasurableModel.unit_quantity F named).
Lemma pick_dims x a s e : dims x = Ok a -> pick s a = Some e -> dimension_of F named canonical s x = Ok e.
Proof.
  unfold dimensions_of. intros H E.
  destruct (dimension_of F named canonical Mks x) as [m|em] eqn:M; destruct (dimension_of F named canonical Cgs x) as [c|ec] eqn:C;
    try destruct em; try destruct ec; cbn [bind] in H; try discriminate; injection H as <-; destruct s; cbn in E; try discriminate; congruence.
Qed.
Lemma unit_or_exact x y a b p r : both systems -> dims x = Ok a -> dims y = Ok b -> quantity_of x = Ok p -> quantity_of y = Ok r ->
  (unit_or x y = Ok true <->
     (exists s s' e f, dimension_of F named canonical s x = Ok e /\ dimension_of F named canonical s' y = Ok f /\ expr_eqb F e f = true)
     \/ expr_eqb F p r = true \/ exists c, search (expr_format F y) (expr_format F x) = Ok c).
Proof.
  intros B A A' Q Q'. rewrite unit_or_eq, A, A', Q, Q'. cbn [bind]. destruct (agree F systems a b) eqn:G.
  - split; [|reflexivity]. intros _. left. apply (agree_iff F systems a b B) in G as (s & s' & e & f & E & E' & X).
    exists s, s', e, f. eauto using pick_dims.
  - split.
    + destruct (expr_eqb F p r); [auto|]. destruct (search _ _) as [c|[]]; try discriminate. right. right. eauto.
    + intros [(s & s' & e & f & E & E' & X)|[-> |(c & ->)]].
      * rewrite (proj2 (agree_iff F systems a b B)) in G; [discriminate|]. exists s, s', e, f. eauto using dims_pick.
      * reflexivity.
      * now destruct (expr_eqb F p r).
Qed.
End Exact.
