(** Lemmas about the dimensions of products of units. *)

From Coq Require Import String Ascii List Bool ZArith QArith Qcanon Lia.
From Verif Require Import Py PyFacts PyDict SymbolicModel SymbolicSpec SymbolicReduceProofs SymbolicExprProofs SymbolicLawProofs SymbolicChainProofs
  MetricTables MetricModel SystemModel SystemSpec SystemAlgebraProofs SystemNormProofs SystemProofs UnitQuantityProofs DimensionSpec.
Import ListNotations.
Open Scope list_scope.
Open Scope nat_scope.
Open Scope py_scope.

Local Opaque table table' the_canonical identified quantities.

Definition is_of (s : system) (b : str) : bool :=
  match identified b with
  | Some n => match is_allowed_in identified the_canonical n s with Ok a => a | Err _ => false end
  | None => false
  end.
Lemma is_of_belongs s b : is_of s b = true <-> belongs s b.
Proof.
  unfold is_of, belongs. split.
  - destruct (identified b) as [n|]; [|discriminate]. intro H. exists n. split; [reflexivity|].
    destruct (is_allowed_in identified the_canonical n s) as [a|]; [now subst a|discriminate].
  - intros (n & E & A). now rewrite E, A.
Qed.
Definition other (s : system) : system := match s with Mks => Cgs | Cgs => Mks end.
Definition counted (s : system) (b : str) : system := if is_of s b then s else other s.
Definition brought (s : system) (c b : str) : Qc := dexp (counted s b) c b.

Lemma step_full n r s b : identified b = Some n -> sd_get table (n_quantity n) = Some r ->
  exists m c d, is_allowed_in identified the_canonical n Mks = Ok m /\ is_allowed_in identified the_canonical n Cgs = Ok c
    /\ dimensions F64 identified the_canonical n = Ok d /\ pick s (m, c) = is_of s b
    /\ pick (if m && c then s else if m then Mks else Cgs) d = pick (counted s b) (r_dims r).
Proof.
  intros En H. destruct (step_any n r s H) as (m & c & d & Em & Ec & Ed & O & _).
  exists m, c, d. split; [exact Em|]. split; [exact Ec|]. split; [exact Ed|].
  assert (pick s (m, c) = is_of s b) as P.
  { unfold is_of. rewrite En. destruct s; cbn [pick fst snd]; [now rewrite Em|now rewrite Ec]. }
  split; [exact P|].
  assert (is_allowed_in identified the_canonical n (counted s b) = Ok true) as A.
  { unfold counted. rewrite <- P. destruct s, m, c; cbn [pick fst snd other] in *; try discriminate O; assumption. }
  destruct (dimension_step n r (counted s b) H A) as (m' & c' & d' & Em' & Ec' & Ed' & _ & Ep).
  rewrite Em in Em'. rewrite Ec in Ec'. rewrite Ed in Ed'. injection Em' as <-. injection Ec' as <-. injection Ed' as <-.
  rewrite <- Ep. unfold counted. rewrite <- P. destruct s, m, c; cbn [pick fst snd other andb]; reflexivity.
Qed.

Lemma go_full s x : Forall has_row x -> forall acc ok, fine acc ->
  exists d, dimension_go F64 identified the_canonical s acc ok x = Ok (d, ok || existsb (fun t => is_of s (base t)) x)
    /\ fine d /\ forall c, c <> lit "1" -> total_expo c d = (total_expo c acc + lin (brought s c) x)%Qc.
Proof.
  intros Hx. induction Hx as [|t x (n & r & k & En & Er & Ek & Nk & Lk) _ IH]; intros acc ok Fa.
  - exists acc. cbn [dimension_go existsb]. rewrite orb_false_r. split; [reflexivity|]. split; [exact Fa|].
    intros c _. rewrite lin_nil. ring.
  - destruct (step_full n r s (base t) En Er) as (m & c & d & Em & Ec & Ed & Es & Ep).
    cbn [dimension_go existsb]. rewrite En, Em, Ec. cbn [bind]. rewrite Ed. cbn [bind]. rewrite Ep, Ek, Es.
    destruct (f_dims _ _ (row_fact _ _ Er) (counted s (base t))) as [Fd Hd].
    destruct (pow_fine (pick (counted s (base t)) (r_dims r)) k 8 Fd Nk Hd ltac:(lia)) as (p & Ep' & Fp & Sp).
    rewrite Ep'. cbn [bind]. destruct (mul_fine acc p Fa Fp) as (a & Ea & Faa & Sa). rewrite Ea. cbn [bind].
    destruct (IH a (ok || is_of s (base t)) Faa) as (e & Ee & Fe & Te).
    exists e. split; [|split; [exact Fe|]].
    + rewrite Ee. now rewrite orb_assoc.
    + intros b Hb. rewrite (Te b Hb), lin_cons. destruct Sa as [_ Sa]. rewrite (Sa b Hb), total_expo_app.
      destruct Sp as [_ Sp]. rewrite (Sp b Hb), total_expo_power. unfold brought at 2, dexp at 1, row_of_unit. rewrite En, Er, Ek. ring.
Qed.

Lemma of_full s x : Forall has_row x ->
  exists d, fine d /\ (forall c, c <> lit "1" -> total_expo c d = lin (brought s c) x)
    /\ m_dimension_of s x = if existsb (fun t => is_of s (base t)) x then Ok d else Err ValueError.
Proof.
  intros Hx. unfold m_dimension_of, dimension_of. destruct reads_nothing as [_ ->]. cbn [bind].
  destruct (go_full s x Hx _ false fine_one) as (d & -> & Fd & Td). cbn [bind snd fst orb].
  exists d. split; [exact Fd|]. split; [|reflexivity].
  intros c Hc. rewrite (Td c Hc), total_expo_cons. cbn [base]. rewrite str_eqb_neq by auto. rewrite total_expo_nil. ring.
Qed.

Lemma some_of s x : existsb (fun t => is_of s (base t)) x = true <-> has_one_of s x.
Proof.
  rewrite existsb_exists. unfold has_one_of. split; intros (t & I & H); exists t; (split; [exact I|]); now apply is_of_belongs.
Qed.

Lemma brings_iff s c t e : has_row t -> (brings s c (base t) e <-> brought s c (base t) = e).
Proof.
  intros (n & r & k & En & Er & _). unfold brought, dexp, row_of_unit. rewrite En, Er.
  destruct (f_text _ _ (row_fact _ _ Er)) as (us & ds & Et & Hd). unfold brings. split.
  - intros (q & d & s' & (n' & En' & Eq) & (w & (us' & ds' & Et' & Ew) & W) & Ee & C).
    rewrite En in En'. injection En' as <-. rewrite Eq in Et. rewrite Et in Et'. injection Et' as <- <-.
    assert (counted s (base t) = s') as ->.
    { unfold counted. destruct C as [[B ->]|[B N]].
      - apply is_of_belongs in B. now rewrite B.
      - destruct (is_of s (base t)) eqn:X; [now apply is_of_belongs in X|]. destruct s, s'; try reflexivity; now contradiction N. }
    destruct (Hd s') as [_ D]. unfold writes in W. rewrite <- Ew, D in W. injection W as <-. exact Ee.
  - intro Ee. exists (n_quantity n), (pick (counted s (base t)) (r_dims r)), (counted s (base t)).
    split; [now exists n|]. split; [|split; [exact Ee|]].
    + exists (pick (counted s (base t)) ds). split; [now exists us, ds|]. apply Hd.
    + unfold counted. destruct (is_of s (base t)) eqn:X.
      * left. split; [now apply is_of_belongs|reflexivity].
      * right. split; [|now destruct s]. intro B. apply is_of_belongs in B. congruence.
Qed.
Lemma adds_iff s c x : Forall has_row x -> forall e, adds_up s c x e <-> lin (brought s c) x = e.
Proof.
  intro H. induction H as [|t x Ht _ IH]; intro e.
  - rewrite lin_nil. split; [now inversion 1|]. intros <-. constructor.
  - rewrite lin_cons. split.
    + inversion 1 as [|? ? e' f B A]; subst. apply (brings_iff s c t e' Ht) in B. apply IH in A. now rewrite B, A.
    + intros <-. constructor; [now apply (brings_iff s c t _ Ht)|now apply IH].
Qed.

Lemma eqb_one d : fine d -> expr_eqb F64 d [mkTerm 1 (lit "1") 1] = true <-> (forall c, c <> lit "1" -> total_expo c d = 0%Qc).
Proof.
  intro Fd. destruct (fine_parts d Fd) as [->|[B N]].
  - split; [|intros _; apply SymbolicExprProofs.eqb_refl]. intros _ c Hc. rewrite total_expo_cons. cbn [base].
    rewrite str_eqb_neq by auto. rewrite total_expo_nil. reflexivity.
  - pose proof (fine_nonempty d Fd) as Nn. split.
    + unfold expr_eqb. destruct d as [|t [|u d]]; [congruence| |discriminate].
      inversion B as [|? ? Bt _]; subst. cbn [length Nat.eqb andb sort_by fold_right insert_by all2]. unfold term_eqb.
      cbn [base]. destruct (str_eqb_spec (lit "1") (base t)) as [E|]; [congruence|discriminate].
    + intro Z. destruct d as [|t d]; [congruence|]. inversion B as [|? ? Bt _]; subst.
      destruct (fine_term _ t Fd ltac:(now left) Bt) as [E N0]. rewrite (Z _ Bt) in E. congruence.
Qed.

Lemma dimensionless_full x : product_of_units x ->
  exists b, dimensionless F64 identified the_canonical x = Ok b
    /\ (b = true <-> forall s, has_one_of s x /\ forall c, c <> lit "1" -> adds_up s c x 0%Qc).
Proof.
  intro P. destruct (product_rows x P) as (H & N & _). destruct (dims_product x P) as (a & Ea).
  unfold dimensionless. rewrite Ea. cbn [bind]. destruct reads_nothing as [_ ->]. cbn [bind].
  eexists. split; [reflexivity|].
  assert (forall s, (match pick s a with Some e => expr_eqb F64 e [mkTerm 1 (lit "1") 1] | None => false end) = true
            <-> has_one_of s x /\ forall c, c <> lit "1" -> adds_up s c x 0%Qc) as K.
  { intro s. destruct (of_full s x H) as (d & Fd & Td & Ed). rewrite <- some_of.
    destruct (existsb (fun t => is_of s (base t)) x) eqn:X.
    - rewrite (ConverterProofs.dims_pick F64 identified the_canonical x a s d Ea Ed), (eqb_one d Fd).
      split.
      + intro Z. split; [reflexivity|]. intros c Hc. apply (adds_iff s c x H). now rewrite <- Td, Z.
      + intros [_ Z] c Hc. rewrite (Td c Hc). apply (adds_iff s c x H). now apply Z.
    - destruct (pick s a) as [e|] eqn:Pa.
      + apply (pick_dims F64 identified the_canonical x a s e Ea) in Pa. unfold m_dimension_of in Ed. congruence.
      + split; [discriminate|]. intros [Y _]. discriminate Y. }
  rewrite andb_true_iff. pose proof (K Mks) as K1. pose proof (K Cgs) as K2. cbn [pick] in K1, K2. rewrite K1, K2. split.
  - intros [A B] []; assumption.
  - intro A. split; apply A.
Qed.

Lemma brought_one s c : c <> lit "1" -> brought s c (lit "1") = 0%Qc.
Proof. intro H. unfold brought. now apply dexp_one. Qed.
Lemma exponents_of s x d : product_of_units x -> m_dimension_of s x = Ok d ->
  total_coef d = 1%Qc /\ forall c, c <> lit "1" -> total_expo c d = lin (brought s c) x.
Proof.
  intros P E. destruct (product_rows x P) as (H & _ & _). destruct (of_full s x H) as (d' & Fd & Td & Ed).
  rewrite E in Ed. destruct (existsb _ x); [|discriminate]. injection Ed as ->. split; [|exact Td].
  apply total_coef_plain, Fd.
Qed.
