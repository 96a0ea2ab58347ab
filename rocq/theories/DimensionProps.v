(** The dimensions of products of units. *)

From Coq Require Import String Ascii List Bool ZArith QArith Qcanon Lia.
From Verif Require Import Py PyFacts PyDict SymbolicModel SymbolicSpec SymbolicLawProofs
  MetricTables MetricModel SystemModel SystemSpec SystemProofs DimensionSpec DimensionProofs.
Import ListNotations.
Open Scope list_scope.
Open Scope nat_scope.
Open Scope py_scope.

(** ** C345 The dimension of a product of units *)

(** The dimension in a system is the product of the declared dimensions of the
    factors, in canonical form and without a number; there is one exactly if
    some factor is a unit of that system. *)
Theorem C345_dimension : forall s x, product_of_units x ->
  (has_one_of s x -> exists d, m_dimension_of s x = Ok d /\ canonical d /\ total_coef d = 1%Qc
     /\ forall c e, c <> lit "1" -> (total_expo c d = e <-> adds_up s c x e))
  /\ (~ has_one_of s x -> m_dimension_of s x = Err ValueError).
Proof.
  intros s x P. destruct (product_rows x P) as (H & _ & _). destruct (of_full s x H) as (d & Fd & Td & Ed).
  rewrite <- some_of. split.
  - intro B. rewrite B in Ed. exists d. split; [exact Ed|]. pose proof Fd as (C & _ & Pl). split; [exact C|].
    split; [now apply SystemAlgebraProofs.total_coef_plain|]. intros c e Hc. rewrite (Td c Hc). symmetry. now apply adds_iff.
  - intro B. apply not_true_is_false in B. now rewrite B in Ed.
Qed.
Print Assumptions C345_dimension.

(** A unit is dimensionless exactly if in each system it has a factor of that
    system and the exponents of every dimension add up to zero. *)
Theorem C345_dimensionless : forall x, product_of_units x ->
  exists b, dimensionless F64 identified the_canonical x = Ok b
    /\ (b = true <-> forall s, has_one_of s x /\ forall c, c <> lit "1" -> adds_up s c x 0%Qc).
Proof. exact dimensionless_full. Qed.
Print Assumptions C345_dimensionless.

Definition unit_of (l : list (string * Z)) : list term := map (fun p => mkTerm 1 (lit (fst p)) (Qc_of_Z (snd p))) l.
Definition known_b (p : string * Z) : bool :=
  match identified (lit (fst p)) with
  | Some n => negb (existsb (str_eqb (n_quantity n)) photometric)
  | None => false
  end && negb (snd p =? 0)%Z.
Lemma not_in_b q l : existsb (str_eqb q) l = false -> ~ In q l.
Proof.
  intros H I. assert (existsb (str_eqb q) l = true) as X; [|congruence].
  apply existsb_exists. exists q. split; [exact I|apply str_eqb_refl].
Qed.
Lemma product_b l : l <> [] -> forallb known_b l = true -> (total_power (unit_of l) <= 2 ^ 40)%Z -> product_of_units (unit_of l).
Proof.
  intros N H L. split; [destruct l; [contradiction N; reflexivity|discriminate]|]. split; [|exact L]. rewrite forallb_forall in H. apply Forall_forall. intros t I.
  apply in_map_iff in I as (p & <- & I). specialize (H p I). unfold known_b in H. apply andb_true_iff in H as [H1 H2]. cbn [base expo]. split.
  - destruct (identified (lit (fst p))) as [n|] eqn:En; [|discriminate]. apply negb_true_iff in H1. exists (n_quantity n).
    split; [exists n; split; [exact En|reflexivity]|apply not_in_b; exact H1].
  - exists (snd p). split; [reflexivity|]. apply negb_true_iff in H2. now apply Z.eqb_neq.
Qed.
Ltac product := apply product_b; [discriminate|vm_compute; reflexivity|vm_compute; discriminate].
Ltac of_system := apply some_of; vm_compute; reflexivity.

(** The joule per newton is a length; per newton and metre it is dimensionless
    in both systems, although neither the joule nor the newton is a cgs unit. *)
Example C345_meets :
  product_of_units (unit_of [("J", 1); ("N", -1)]%string%Z)
  /\ has_one_of Mks (unit_of [("J", 1); ("N", -1)]%string%Z)
  /\ ~ has_one_of Cgs (unit_of [("J", 1); ("N", -1)]%string%Z)
  /\ adds_up Mks (lit "L") (unit_of [("J", 1); ("N", -1)]%string%Z) 1%Qc
  /\ product_of_units (unit_of [("J", 1); ("N", -1); ("m", -1)]%string%Z)
  /\ dimensionless F64 identified the_canonical (unit_of [("J", 1); ("N", -1); ("m", -1)]%string%Z) = Ok true
  /\ dimensionless F64 identified the_canonical (unit_of [("J", 1); ("N", -1); ("s", 1)]%string%Z) = Ok false.
Proof.
  split; [product|]. split; [of_system|]. split; [rewrite <- some_of; vm_compute; discriminate|].
  split; [apply adds_iff; [now apply product_rows; product|compute_eq]|]. split; [product|].
  split; vm_compute; reflexivity.
Qed.

(** ** C346 A unit that has the dimension 1 is dimensionless *)

(** A product with a unit of each system. *)
Theorem C346_dimensionless_partial : forall x, product_of_units x -> (forall s, has_one_of s x) ->
  (dimensionless F64 identified the_canonical x = Ok true
   <-> forall s d, m_dimension_of s x = Ok d -> same_monomial d []).
Proof.
  intros x P O. destruct (C345_dimensionless x P) as (b & Eb & Hb). rewrite Eb. split.
  - intros [= ->] s d Ed. destruct (C345_dimension s x P) as [D _]. destruct (D (O s)) as (d' & Ed' & _ & Cd & Td).
    rewrite Ed in Ed'. injection Ed' as <-. split; [exact Cd|]. intros c Hc. apply Td; [exact Hc|].
    now apply Hb.
  - intro Z. f_equal. apply Hb. intro s. split; [apply O|]. intros c Hc.
    destruct (C345_dimension s x P) as [D _]. destruct (D (O s)) as (d & Ed & _ & _ & Td). apply Td; [exact Hc|].
    now apply (Z s d Ed).
Qed.
Print Assumptions C346_dimensionless_partial.
(** Farad times volt per coulomb has the dimension 1 in the only system in
    which it has a dimension, but does not count as dimensionless; times the
    radian it does. *)
Theorem C346_alien_refuted : let x := unit_of [("F", 1); ("V", 1); ("C", -1)]%string%Z in
  product_of_units x /\ (exists d, m_dimension_of Mks x = Ok d)
  /\ (forall s d, m_dimension_of s x = Ok d -> same_monomial d [])
  /\ dimensionless F64 identified the_canonical x = Ok false
  /\ dimensionless F64 identified the_canonical (x ++ unit_of [("rad", 1)]%string%Z) = Ok true.
Proof.
  cbv zeta. assert (m_dimension_of Mks (unit_of [("F", 1); ("V", 1); ("C", -1)]%string%Z) = Ok [mkTerm 1 (lit "1") 1]) as E by compute_eq.
  split; [product|]. split; [eauto|]. split; [|split; vm_compute; reflexivity].
  intros [] d H.
  - rewrite E in H. injection H as <-. split; [compute_eq|]. intros c Hc. unfold total_expo. cbn [filter base].
    rewrite str_eqb_neq by auto. reflexivity.
  - vm_compute in H. discriminate H.
Qed.
Print Assumptions C346_alien_refuted.
Example C346_meets : let x := unit_of [("J", 1); ("N", -1); ("m", -1)]%string%Z in product_of_units x /\ forall s, has_one_of s x.
Proof. split; [product|]. intros []; of_system. Qed.

(** ** C347 Dimensions multiply as their units do *)

(** [z] is the product of [x] and [y], in whatever way the three are written,
    and they have dimensions in [s]. *)
Theorem C347_product : forall s x y z a b d,
  product_of_units x -> product_of_units y -> product_of_units z -> Forall wf (x ++ y) -> Forall wf z ->
  same_monomial z (x ++ y) ->
  m_dimension_of s x = Ok a -> m_dimension_of s y = Ok b -> m_dimension_of s z = Ok d ->
  same_monomial d (a ++ b).
Proof.
  intros s x y z a b d Px Py Pz Wxy Wz M Ea Eb Ed.
  destruct (exponents_of s x a Px Ea) as [Ca Ta], (exponents_of s y b Py Eb) as [Cb Tb], (exponents_of s z d Pz Ed) as [Cd Td].
  split; [rewrite SymbolicReduceProofs.total_coef_app, Ca, Cb, Cd; reflexivity|]. intros c Hc.
  rewrite SymbolicReduceProofs.total_expo_app, (Ta c Hc), (Tb c Hc), (Td c Hc), <- SystemAlgebraProofs.lin_app.
  apply SystemAlgebraProofs.lin_same; [now apply brought_one|exact Wz|exact Wxy|apply Pz| |exact M].
  destruct Px as [N _]. destruct x; [congruence|discriminate].
Qed.
Print Assumptions C347_product.
(** [z] is the power [n] of [x]. *)
Theorem C347_power : forall s x z n a d, n <> 0%Z ->
  product_of_units x -> product_of_units z -> Forall wf x -> Forall wf z -> same_monomial z (power n x) ->
  m_dimension_of s x = Ok a -> m_dimension_of s z = Ok d -> same_monomial d (power n a).
Proof.
  intros s x z n a d Nn Px Pz Wx Wz M Ea Ed.
  destruct (exponents_of s x a Px Ea) as [Ca Ta], (exponents_of s z d Pz Ed) as [Cd Td].
  split; [rewrite total_coef_power, Ca, Cd, Qc_zpow_1_l; reflexivity|]. intros c Hc.
  rewrite total_expo_power, (Ta c Hc), (Td c Hc), <- SystemAlgebraProofs.lin_power.
  apply SystemAlgebraProofs.lin_same; [now apply brought_one|exact Wz|now apply SymbolicExprProofs.wf_power|apply Pz| |exact M].
  destruct Px as [N _]. destruct x; [congruence|discriminate].
Qed.
Print Assumptions C347_power.
(** The joule per newton, times the newton, is the joule. *)
Example C347_meets : let x := unit_of [("J", 1); ("N", -1)]%string%Z in let y := unit_of [("N", 1)]%string%Z in
  let z := unit_of [("J", 1)]%string%Z in
  product_of_units x /\ product_of_units y /\ product_of_units z /\ Forall wf (x ++ y) /\ Forall wf z /\ same_monomial z (x ++ y)
  /\ forall u, In u [x; y; z] -> exists d, m_dimension_of Mks u = Ok d.
Proof.
  cbv zeta. split; [product|]. split; [product|]. split; [product|].
  split; [repeat constructor; discriminate|]. split; [repeat constructor; discriminate|]. split.
  - split; [compute_eq|]. intros b Hb. unfold unit_of. cbn [map app fst snd]. rewrite !SymbolicReduceProofs.total_expo_cons. cbn [base expo].
    destruct (str_eqb b (lit "N")), (str_eqb b (lit "J")); compute_eq.
  - assert (forall u, has_one_of Mks u -> product_of_units u -> exists d, m_dimension_of Mks u = Ok d) as K.
    { intros u O P. destruct (C345_dimension Mks u P) as [D _]. destruct (D O) as (d & E & _). eauto. }
    intros u [<-|[<-|[<-|[]]]]; (apply K; [of_system|product]).
Qed.
