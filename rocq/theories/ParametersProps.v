(** Properties of operational parameters. *)

From Coq Require Import String Ascii List Bool ZArith QArith Qcanon Lia.
From Verif Require Import Py PyFacts PyDict ParametersModel ParametersSpec ParametersProofs.
From Verif Require AliasedModel AliasedSpec AliasedProofs AliasedMapProofs MeasurableProofs AliasedGroupProofs AliasedProps ObserverProofs.
Import ListNotations.
Open Scope list_scope.
Open Scope nat_scope.
Open Scope py_scope.

(** ** C161: the values of an argument *)

Theorem C247_values : forall (U : Type) g (u : U), Forall (fun i => is_text i = false) (values g) ->
  exists a qs, argument_of g (Some u) = Ok a /\ numbers (values g) qs
  /\ a_unit a = Some u /\ iterate a = map IReal qs /\ length_of a = length (values g).
Proof.
  intros U g u F. destruct (physical_defined g u F) as (a & E). destruct (physical_array g u a E) as (qs & N & ->).
  exists (mkArgument (SArray qs) (Some u)), qs. split; [exact E|]. split; [exact N|]. split; [reflexivity|].
  destruct (array_values qs (Some u)) as [-> ->]. split; [reflexivity|]. symmetry. clear E F. unfold numbers in N.
  induction N; simpl; congruence.
Qed.
Print Assumptions C247_values.

(** Missing: a single text (see below). *)
Theorem C161_option_partial : forall (U : Type) g, (forall s, values g <> [IText s]) ->
  exists a : argument U, argument_of g None = Ok a /\ a_unit a = None /\ iterate a = values g /\ length_of a = length (values g).
Proof.
  intros U g N. unfold argument_of. eexists. split; [reflexivity|]. split; [reflexivity|].
  destruct g as [[s|z|b|q]|[|[s|z|b|q] [|j l]]]; try (split; reflexivity); exfalso; exact (N s eq_refl).
Qed.
Print Assumptions C161_option_partial.

(** A text is taken for the sequence of its characters. *)
Theorem C161_text_refuted : forall (U : Type) g s, values g = [IText s] ->
  exists a : argument U, argument_of g None = Ok a /\ iterate a = map (fun c => IText [c]) s /\ length_of a = length s.
Proof.
  intros U g s E. destruct g as [i|l]; simpl in E; [injection E as ->|subst l]; eexists; (split; [reflexivity|]); split; reflexivity.
Qed.
Print Assumptions C161_text_refuted.

(** A number other than an integer requires a unit. *)
Theorem C161_alone_partial : forall (U : Type) i, (exists a : argument U, argument_alone (One i) = Ok a) <-> forall q, i <> IReal q.
Proof.
  intros U i. split.
  - intros (a & H) q ->. discriminate.
  - intros H. destruct i as [s|z|b|q]; try (eexists; reflexivity). now exfalso; apply (H q).
Qed.
Print Assumptions C161_alone_partial.
(** Sequences are refused without a unit, whatever they contain. *)
Theorem C161_alone_refuted : forall (U : Type) l, argument_alone (U := U) (Several l) = Err TypeError.
Proof. reflexivity. Qed.
Print Assumptions C161_alone_refuted.

Example C161_example :
  rmap (fun a : argument str => (iterate a, length_of a)) (argument_of (Several [IInt 1; IReal 0%Qc]) (Some (lit "m")))
    = Ok ([IReal (Qc_of_Z 1); IReal 0%Qc], 2)
  /\ rmap (fun a : argument str => length_of a) (argument_alone (One (IText (lit "ideal")))) = Ok 5.
Proof. split; reflexivity. Qed.

(** ** C162: conversion to numbers *)

Theorem C247_physical : forall (U : Type) g (u : U) a, argument_of g (Some u) = Ok a ->
  (forall i, values g = [i] -> exists q, numbers [i] [q] /\ to_float a = Ok q /\ to_int a = Ok (Qc_trunc q))
  /\ (length (values g) >= 2 -> to_float a = Err NumericCastError /\ to_int a = Err NumericCastError).
Proof.
  intros U g u a E. destruct (physical_array g u a E) as (qs & N & ->). split.
  - intros i Ei. rewrite Ei in N. inversion N as [|? q ? qs' H1 H2]; subst. inversion H2; subst. exists q.
    split; [now constructor|]. split; reflexivity.
  - intros L. assert (length qs = length (values g)) as Lq by (clear - N; unfold numbers in N; induction N; simpl; congruence).
    destruct qs as [|q [|r qs]]; simpl in Lq; try lia. split; reflexivity.
Qed.
Print Assumptions C247_physical.

Theorem C247_integers : forall (U : Type) z, exists a : argument U, argument_alone (One (IInt z)) = Ok a /\ to_int a = Ok z.
Proof. intros U z. eexists. split; reflexivity. Qed.
Print Assumptions C247_integers.
(** What else converts to an integer, and what does not. *)
Theorem C247_other : forall (U : Type) g u (a : argument U), argument_of g u = Ok a ->
  (values g = [IBool true] -> to_int a = Ok 1%Z) /\ (values g = [IBool false] -> to_int a = Ok 0%Z)
  /\ (length (values g) >= 2 -> to_int a = Err NumericCastError)
  /\ (values g = [] -> to_int a = Err TypeError /\ to_float a = Err TypeError).
Proof.
  intros U g [u|] a E.
  - destruct (physical_array g u a E) as (qs & N & ->). split; [|split; [|split]].
    + intros V. rewrite V in N. apply numbers_spec in N. injection N as <-. reflexivity.
    + intros V. rewrite V in N. apply numbers_spec in N. injection N as <-. reflexivity.
    + intros L. assert (length qs = length (values g)) as Lq by (clear - N; unfold numbers in N; induction N; simpl; congruence).
      destruct qs as [|q [|r qs]]; simpl in Lq; try lia. reflexivity.
    + intros V. rewrite V in N. inversion N; subst. split; reflexivity.
  - simpl in E. injection E as <-. split; [|split; [|split]].
    + intros V. destruct g as [i|l]; simpl in V; [injection V as ->|subst l]; reflexivity.
    + intros V. destruct g as [i|l]; simpl in V; [injection V as ->|subst l]; reflexivity.
    + intros L. destruct g as [i|[|i [|j l]]]; simpl in L; try lia. reflexivity.
    + intros L. destruct g as [i|l]; simpl in L; [discriminate|subst l]. split; reflexivity.
Qed.
Print Assumptions C247_other.
(** An argument without a unit never converts to a real number. *)
Theorem C162_float_refuted : forall (U : Type) g (a : argument U), argument_of g None = Ok a -> to_float a = Err TypeError.
Proof. intros U g a E. simpl in E. injection E as <-. reflexivity. Qed.
Print Assumptions C162_float_refuted.

(** Missing: integers with more than one character (see below). *)
Theorem C162_text_partial : forall (U : Type) c, exists a : argument U, argument_alone (One (IText [c])) = Ok a
  /\ to_int a = if is_digit c then Ok (Z.of_nat (nat_of_ascii c - 48)) else Err ValueError.
Proof. intros U c. eexists. split; reflexivity. Qed.
Print Assumptions C162_text_partial.
Theorem C162_text_refuted : forall (U : Type) s, length s >= 2 -> exists a : argument U, argument_alone (One (IText s)) = Ok a
  /\ to_int a = Err NumericCastError.
Proof.
  intros U s L. destruct s as [|c [|d s]]; simpl in L; try lia. eexists. split; reflexivity.
Qed.
Print Assumptions C162_text_refuted.

Example C162_example :
  (do a <- argument_of (One (IReal (Qc_of_Z 7 / Qc_of_Z 2)%Qc)) (Some (lit "m")); to_int a) = Ok 3%Z
  /\ (do a <- argument_alone (U := str) (One (IText (lit "7"))); to_int a) = Ok 7%Z
  /\ (do a <- argument_alone (U := str) (One (IText (dec_of_Z 12))); to_int a) = Err NumericCastError.
Proof. repeat split. Qed.

(** ** C163: truth *)

Theorem C248_numbers : forall (U : Type) g u (a : argument U), argument_of g u = Ok a ->
  (forall z, values g = [IInt z] -> truth a = Ok true) /\ (forall q, values g = [IReal q] -> truth a = Ok true).
Proof.
  intros U g [u|] a E; split; intros x V.
  - destruct (physical_array g u a E) as (qs & N & ->). rewrite V in N. inversion N as [|? q ? qs' H1 H2]; subst. inversion H2; subst. reflexivity.
  - destruct (physical_array g u a E) as (qs & N & ->). rewrite V in N. inversion N as [|? q ? qs' H1 H2]; subst. inversion H2; subst. reflexivity.
  - destruct g as [i|l]; simpl in V; [injection V as ->|subst l]; simpl in E; injection E as <-; reflexivity.
  - destruct g as [i|l]; simpl in V; [injection V as ->|subst l]; simpl in E; injection E as <-; reflexivity.
Qed.
Print Assumptions C248_numbers.

Theorem C248_options : forall (U : Type) g (a : argument U), argument_of g None = Ok a ->
  (forall b, values g = [IBool b] -> truth a = Ok b)
  /\ (forall s, values g = [IText s] -> truth a = Ok true <-> strip s <> [])
  /\ (forall s, values g = [IText s] -> truth a = Ok false <-> strip s = [])
  /\ (length (values g) >= 2 -> truth a = Ok true)
  /\ (values g = [] -> truth a = Ok false).
Proof.
  intros U g a E. simpl in E. injection E as <-. split; [|split; [|split; [|split]]].
  - intros b V. destruct g as [i|l]; simpl in V; [injection V as ->|subst l]; reflexivity.
  - intros s V. destruct g as [i|l]; simpl in V; [injection V as ->|subst l]; unfold truth; simpl; destruct (str_eqb_spec (strip s) []); simpl; split; congruence.
  - intros s V. destruct g as [i|l]; simpl in V; [injection V as ->|subst l]; unfold truth; simpl; destruct (str_eqb_spec (strip s) []); simpl; split; congruence.
  - intros L. destruct g as [i|[|i [|j l]]]; simpl in L; try lia. reflexivity.
  - intros L. destruct g as [i|l]; simpl in L; [discriminate|subst l]. reflexivity.
Qed.
Print Assumptions C248_options.

(** Several values with a unit have no truth value. *)
Theorem C163_array_refuted : forall (U : Type) g (u : U) a, argument_of g (Some u) = Ok a -> length (values g) >= 2 -> truth a = Err ValueError.
Proof.
  intros U g u a E L. destruct (physical_array g u a E) as (qs & N & ->).
  assert (length qs = length (values g)) as Lq by (clear - N; unfold numbers in N; induction N; simpl; congruence).
  destruct qs as [|q [|r qs]]; simpl in Lq; try lia. reflexivity.
Qed.
Print Assumptions C163_array_refuted.

Example C163_example :
  (do a <- argument_of (One (IInt 0)) (Some (lit "m")); truth a) = Ok true
  /\ (do a <- argument_alone (U := str) (One (IText (lit "  "))); truth a) = Ok false
  /\ (do a <- argument_of (Several [IInt 0; IInt 1]) (Some (lit "m")); truth a) = Err ValueError.
Proof. repeat split. Qed.

(** ** C164: elements of arguments *)

Lemma element_at {A} (l : list A) i : (0 <= i < Z.of_nat (length l))%Z -> exists v, nth_error l (Z.to_nat i) = Some v /\ py_index l i = Ok v.
Proof. apply MeasurableProofs.py_index_in. Qed.

(** Missing: arguments with one value, and indices below -n (see below). *)
Theorem C164_elements_partial : forall (U : Type) g (u : U) a qs i, argument_of g (Some u) = Ok a -> numbers (values g) qs ->
  let n := Z.of_nat (length qs) in (2 <= n)%Z ->
  ((0 <= i < n)%Z -> exists q, nth_error qs (Z.to_nat i) = Some q /\ getitem a i = Ok (q, Some u))
  /\ ((- n <= i < 0)%Z -> exists q, nth_error qs (Z.to_nat (n + i)) = Some q /\ getitem a i = Ok (q, Some u))
  /\ ((n <= i)%Z -> getitem a i = Err IndexError).
Proof.
  intros U g u a qs i E N n L. destruct (physical_array g u a E) as (qs' & N' & ->).
  assert (qs' = qs) as -> by (apply numbers_spec in N; apply numbers_spec in N'; congruence).
  assert (data (mkArgument (SArray qs) (Some u)) = ShowArray qs) as D by (destruct qs as [|q [|r qs]]; [reflexivity|simpl in n; lia|reflexivity]).
  unfold getitem. rewrite D. destruct (array_values qs (Some u)) as [_ ->]. cbn [a_unit]. fold n. split; [|split].
  - intros H. destruct (Z.ltb_spec i 0); [lia|]. destruct (element_at qs i H) as (v & V & ->). exists v. auto.
  - intros H. destruct (Z.ltb_spec i 0); [|lia]. destruct (element_at qs (i + n)%Z) as (v & V & ->); [unfold n in *; lia|].
    exists v. split; [|reflexivity]. replace (n + i)%Z with (i + n)%Z by lia. exact V.
  - intros H. destruct (Z.ltb_spec i 0); [lia|]. unfold py_index. destruct (Z.ltb_spec i 0); [lia|]. fold n.
    destruct (Z.ltb_spec i n); [lia|]. now rewrite andb_false_r.
Qed.
Print Assumptions C164_elements_partial.

(** A single value has no elements. *)
Theorem C164_single_refuted : forall (U : Type) g (u : U) a x i, argument_of g (Some u) = Ok a -> values g = [x] -> getitem a i = Err IndexError.
Proof.
  intros U g u a x i E V. destruct (physical_array g u a E) as (qs & N & ->). rewrite V in N.
  inversion N as [|? q ? qs' H1 H2]; subst. inversion H2; subst. unfold getitem. reflexivity.
Qed.
Print Assumptions C164_single_refuted.
(** Indices below -n give elements. *)
Theorem C164_below_refuted : forall (U : Type) g (u : U) a qs i, argument_of g (Some u) = Ok a -> numbers (values g) qs ->
  let n := Z.of_nat (length qs) in (2 <= n)%Z -> (- 2 * n <= i < - n)%Z ->
  exists q, nth_error qs (Z.to_nat (2 * n + i)) = Some q /\ getitem a i = Ok (q, Some u).
Proof.
  intros U g u a qs i E N n L H. destruct (physical_array g u a E) as (qs' & N' & ->).
  assert (qs' = qs) as -> by (apply numbers_spec in N; apply numbers_spec in N'; congruence).
  assert (data (mkArgument (SArray qs) (Some u)) = ShowArray qs) as D by (destruct qs as [|q [|r qs]]; [reflexivity|simpl in n; lia|reflexivity]).
  unfold getitem. rewrite D. destruct (array_values qs (Some u)) as [_ ->]. cbn [a_unit]. fold n.
  destruct (Z.ltb_spec i 0); [|lia]. destruct (element_at qs (2 * n + i)%Z) as (v & V & P); [unfold n in *; lia|].
  exists v. split; [exact V|]. unfold py_index in *. destruct (Z.ltb_spec (2 * n + i) 0); [lia|].
  destruct (Z.ltb_spec (i + n) 0); [|lia]. replace (i + n + Z.of_nat (length qs))%Z with (2 * n + i)%Z by (unfold n; lia).
  now rewrite P.
Qed.
Print Assumptions C164_below_refuted.

Example C164_example :
  (do a <- argument_of (Several [IInt 5; IInt 6]) (Some (lit "m")); getitem a (-1)) = Ok (Qc_of_Z 6, Some (lit "m"))
  /\ (do a <- argument_of (Several [IInt 5; IInt 6]) (Some (lit "m")); getitem a (-3)) = Ok (Qc_of_Z 6, Some (lit "m"))
  /\ (do a <- argument_of (One (IInt 5)) (Some (lit "m")); getitem a 0) = Err IndexError.
Proof. repeat split. Qed.

(** ** C165: equality of arguments *)
Section Equality.
Context {U : Type} (unit_eqb : U -> U -> bool) (none_eqb : U -> bool).
Notation equal := (equal unit_eqb none_eqb).

(** Missing: several values with units, and arguments of different kinds (see
    below). *)
Theorem C165_single_partial : forall x y (u v : U) a b p q, argument_of (One x) (Some u) = Ok a -> argument_of (One y) (Some v) = Ok b ->
  numbers [x] [p] -> numbers [y] [q] -> exists r, equal a b = Ok r /\ (r = true <-> p = q /\ unit_eqb v u = true).
Proof.
  intros x y u v a b p q A B P Q. destruct (physical_array _ _ _ A) as (qs & N & ->). destruct (physical_array _ _ _ B) as (qs' & N' & ->).
  cbn [values] in *. apply numbers_spec in P, Q, N, N'. assert (qs = [p]) as -> by congruence. assert (qs' = [q]) as -> by congruence. eexists. split; [reflexivity|].
  cbn. rewrite andb_true_iff. unfold Qc_eqb. destruct (Qc_eq_dec q p); split; intros []; split; congruence.
Qed.
Theorem C165_options_partial : forall g h (a b : argument U), argument_of g None = Ok a -> argument_of h None = Ok b ->
  exists r, equal a b = Ok r /\ (r = true <-> Forall2 same_item (values h) (values g)).
Proof.
  intros g h a b A B. simpl in A, B. injection A as <-. injection B as <-. unfold ParametersModel.equal.
  assert (forall g, data (mkArgument (U := U) (SGiven match g with One (IText s) => Several [IText s] | _ => g end) None)
    = match values g with [i] => ShowOne i | l => ShowItems l end) as D by (intros [[s|z|b|q]|[|i [|j l]]]; reflexivity).
  rewrite !D. cbn [a_unit units_eqb]. assert (forall l m, (items_eqb l m = true) <-> Forall2 same_item l m) as IS by apply items_eqb_spec. exists (items_eqb (values h) (values g)). split; [|apply IS].
  destruct (values g) as [|i [|j l]], (values h) as [|i' [|j' l']]; cbn [same_data bind items_eqb];
    rewrite ?andb_true_r, ?andb_false_r; try reflexivity; try (destruct i; cbn [bind same_data]; rewrite ?andb_true_r; reflexivity);
    destruct i'; cbn [bind same_data]; rewrite ?andb_true_r; reflexivity.
Qed.

(** Arguments of different kinds: never equal to none at all, to a text, or to
    another number of values. *)
Theorem C165_mixed_partial : forall g h (u : U) a b, argument_of g None = Ok a -> argument_of h (Some u) = Ok b ->
  values h = [] \/ (exists s, values g = [IText s]) \/ (length (values g) <> 1 /\ length (values g) <> length (values h)) ->
  equal a b = Ok false /\ equal b a = Ok false.
Proof.
  intros g h u a b A B C. simpl in A. injection A as <-. destruct (physical_array h u b B) as (qs & N & ->).
  assert (data (mkArgument (U := U) (SGiven match g with One (IText s) => Several [IText s] | _ => g end) None)
    = match values g with [i] => ShowOne i | l => ShowItems l end) as D by (destruct g as [[s|z|b|q]|[|i [|j l]]]; reflexivity).
  assert (length qs = length (values h)) as Lq by (clear - N; unfold numbers in N; induction N; simpl; congruence).
  unfold ParametersModel.equal. rewrite D. unfold data, a_data. cbn [a_unit].
  destruct C as [C|[(s & C)|[C1 C2]]].
  - rewrite C in Lq. destruct qs; [|discriminate]. destruct (values g) as [|[] [|j l]]; split; reflexivity.
  - rewrite C. destruct qs as [|q [|r qs]]; split; reflexivity.
  - rewrite <- Lq in C2. destruct (values g) as [|i [|j l]]; [|cbn in C1; congruence|].
    + destruct qs as [|q [|r qs]]; [now contradiction C2| |]; split; reflexivity.
    + destruct qs as [|q [|r qs]]; [split; reflexivity|destruct i; split; reflexivity|].
      assert (Nat.eqb (length (q :: r :: qs)) (length (i :: j :: l)) = false) as X by (apply Nat.eqb_neq; auto).
      split; unfold same_data; rewrite X; reflexivity.
Qed.
(** An option with as many values, or with one number, cannot be compared with
    several values with a unit. *)
Theorem C165_mixed_refuted : forall g h (u : U) a b, argument_of g None = Ok a -> argument_of h (Some u) = Ok b ->
  length (values h) >= 2 -> length (values g) = length (values h) \/ (exists i, values g = [i] /\ is_text i = false) ->
  equal a b = Err ValueError /\ equal b a = Err ValueError.
Proof.
  intros g h u a b A B L C. simpl in A. injection A as <-. destruct (physical_array h u b B) as (qs & N & ->).
  assert (data (mkArgument (U := U) (SGiven match g with One (IText s) => Several [IText s] | _ => g end) None)
    = match values g with [i] => ShowOne i | l => ShowItems l end) as D by (destruct g as [[s|z|b|q]|[|i [|j l]]]; reflexivity).
  assert (length qs = length (values h)) as Lq by (clear - N; unfold numbers in N; induction N; simpl; congruence).
  unfold ParametersModel.equal. rewrite D. unfold data, a_data. cbn [a_unit].
  destruct qs as [|q [|r qs]]; [cbn in Lq; lia|cbn in Lq; lia|]. destruct C as [C|(i & C & T)].
  - rewrite <- Lq in C. destruct (values g) as [|i [|j l]]; try discriminate C.
    assert (Nat.eqb (length (q :: r :: qs)) (length (i :: j :: l)) = true) as X by (apply Nat.eqb_eq; auto).
    split; unfold same_data; rewrite X; reflexivity.
  - rewrite C. destruct i; try discriminate T; split; reflexivity.
Qed.

(** It is not symmetric: an option equals every argument with its value. *)
Theorem C165_symmetric_refuted : forall z (u : U) a b, none_eqb u = false ->
  argument_of (One (IInt z)) None = Ok a -> argument_of (One (IInt z)) (Some u) = Ok b -> equal a b = Ok true /\ equal b a = Ok false.
Proof.
  intros z u a b H A B. simpl in A, B. injection A as <-. injection B as <-. unfold ParametersModel.equal. cbn.
  unfold Qc_eqb. destruct (Qc_eq_dec (Qc_of_Z z) (Qc_of_Z z)); [|congruence]. now rewrite H.
Qed.
(** Several values with a unit cannot be compared, even with themselves. *)
Theorem C165_array_refuted : forall g (u : U) a, argument_of g (Some u) = Ok a -> length (values g) >= 2 -> equal a a = Err ValueError.
Proof.
  intros g u a E L. destruct (physical_array g u a E) as (qs & N & ->).
  assert (length qs = length (values g)) as Lq by (clear - N; unfold numbers in N; induction N; simpl; congruence).
  destruct qs as [|q [|r qs]]; simpl in Lq; try lia. unfold ParametersModel.equal. cbn [data a_data same_data length]. now rewrite Nat.eqb_refl.
Qed.
End Equality.
Print Assumptions C165_single_partial.
Print Assumptions C165_options_partial.
Print Assumptions C165_mixed_partial.
Print Assumptions C165_mixed_refuted.
Print Assumptions C165_symmetric_refuted.
Print Assumptions C165_array_refuted.

Example C165_example :
  (do a <- argument_of (One (IInt 1)) (Some (lit "m")); do b <- argument_of (One (IInt 1)) (Some (lit "km")); equal str_eqb (fun _ => false) a b) = Ok false
  /\ (do a <- argument_of (One (IInt 1)) None; do b <- argument_of (One (IInt 1)) (Some (lit "km")); equal str_eqb (fun _ => false) a b) = Ok true.
Proof. split; reflexivity. Qed.

(** ** C166: parameters under all their names *)

Theorem C166_names : forall mkset (U : Type) (l : list (AliasedModel.key * entry U)) k e a, AliasedSpec.set_order mkset ->
  AliasedSpec.disjoint (map (fun p => AliasedModel.members (fst p)) l) -> Forall (fun p => AliasedModel.members (fst p) <> []) l ->
  In (k, e) l -> In a (AliasedModel.members k) ->
  exists name, (NoDup name /\ forall b, In b name <-> In b (AliasedModel.members k))
  /\ match e_unit e with
     | None => parameter_of mkset (AliasedModel.mapping mkset l) a = Ok (Option (e_value e) name)
     | Some u => forall qs, numbers (e_value e) qs -> parameter_of mkset (AliasedModel.mapping mkset l) a = Ok (Assumption (mkQuantity qs u name))
     end.
Proof.
  intros mkset U l k e a O D F I Ia.
  destruct (AliasedProps.C11_aliases_read_same mkset _ l O D F) as [G _]. specialize (G k e a I Ia).
  destruct (AliasedProps.C13_refinement mkset _ l [] O D F) as [_ (_ & _ & R & _)]. simpl in R. specialize (R a).
  unfold parameter_of. rewrite G. unfold AliasedModel.alias_get. cbn [bind].
  destruct (AliasedModel.resolve_key (AliasedModel.mapping mkset l) a) as [g|] eqn:E.
  - destruct R as (_ & N & R). exists g. split.
    + split; [exact N|]. intros b. rewrite R. unfold AliasedSpec.abs_of. cbn [AliasedSpec.rel]. rewrite existsb_exists. split.
      * intros ((k' & e') & J & H). cbn [fst] in H. apply andb_true_iff in H as [H1 H2]. apply AliasedProofs.gin_In in H1, H2.
        assert (AliasedModel.members k' = AliasedModel.members k) as <-; [|exact H2].
        apply (AliasedGroupProofs.disjoint_unique _ D _ _ a); auto; apply in_map_iff; [exists (k', e')|exists (k, e)]; split; auto.
      * intros Ib. exists (k, e). split; [exact I|]. cbn [fst]. apply andb_true_iff. split; now apply AliasedProofs.gin_In.
    + destruct (e_unit e); [|reflexivity]. intros qs Q. apply numbers_spec in Q. now rewrite Q.
  - exfalso. unfold AliasedModel.getitem in G. rewrite E in G. discriminate.
Qed.
Print Assumptions C166_names.

Theorem C166_unknown : forall mkset (U : Type) (l : list (AliasedModel.key * entry U)) a, AliasedSpec.set_order mkset ->
  AliasedSpec.disjoint (map (fun p => AliasedModel.members (fst p)) l) -> Forall (fun p => AliasedModel.members (fst p) <> []) l ->
  (forall k e, In (k, e) l -> ~ In a (AliasedModel.members k)) -> parameter_of mkset (AliasedModel.mapping mkset l) a = Err KeyError.
Proof.
  intros mkset U l a O D F H. destruct (AliasedProps.C11_aliases_read_same mkset _ l O D F) as [_ G]. unfold parameter_of. now rewrite (G a H).
Qed.
Print Assumptions C166_unknown.

Definition ex_parameters : list (AliasedModel.key * entry str) :=
  [(AliasedModel.Many [lit "mfp"; lit "lambda"], mkEntry [IReal (Qc_of_Z 2)] (Some (lit "au")));
   (AliasedModel.One (lit "method"), mkEntry [IText (lit "fast")] None)].
Example C166_example :
  parameter_of AliasedProps.ord (AliasedModel.mapping AliasedProps.ord ex_parameters) (lit "lambda")
    = Ok (Assumption (mkQuantity [Qc_of_Z 2] (lit "au") [lit "mfp"; lit "lambda"]))
  /\ parameter_of AliasedProps.ord (AliasedModel.mapping AliasedProps.ord ex_parameters) (lit "method")
    = Ok (Option [IText (lit "fast")] [lit "method"])
  /\ parameter_of AliasedProps.ord (AliasedModel.mapping AliasedProps.ord ex_parameters) (lit "mu") = Err KeyError.
Proof. repeat split. Qed.

(** ** C167: scalars, vectors and assumptions in other units *)
Section Conversion.
Context {U : Type} (unit_eqb : U -> U -> bool) (convert : U -> U -> res Qc).
Context (unit_eqb_refl : forall u, unit_eqb u u = true).

Theorem C167_values_partial : forall q u f, unit_eqb u (q_unit q) = false -> convert (q_unit q) u = Ok f ->
  exists r, in_unit unit_eqb convert q u = Ok r /\ q_unit r = u /\ length (q_values r) = length (q_values q)
  /\ forall i v, nth_error (q_values q) i = Some v -> nth_error (q_values r) i = Some (v * f)%Qc.
Proof.
  intros q u f N C. unfold in_unit. rewrite N, C. eexists. split; [reflexivity|]. cbn [q_unit q_values]. split; [reflexivity|].
  split; [apply map_length|]. intros i v E. now rewrite nth_error_map, E.
Qed.
(** The same unit changes nothing. *)
Theorem C249_same : forall q, in_unit unit_eqb convert q (q_unit q) = Ok q.
Proof. intros q. unfold in_unit. now rewrite unit_eqb_refl. Qed.
(** Converting there and back restores the values. *)
Theorem C167_back_partial : forall q u f g, unit_eqb u (q_unit q) = false -> unit_eqb (q_unit q) u = false ->
  convert (q_unit q) u = Ok f -> convert u (q_unit q) = Ok g -> (f * g = 1)%Qc ->
  (do r <- in_unit unit_eqb convert q u; do s <- in_unit unit_eqb convert r (q_unit q); Ok (q_values s, q_unit s)) = Ok (q_values q, q_unit q).
Proof.
  intros q u f g N1 N2 F G E. unfold in_unit. rewrite N1, F. cbn [bind q_unit]. rewrite N2, G. cbn [bind q_values q_unit].
  rewrite map_map. do 2 f_equal. rewrite <- (map_id (q_values q)) at 2. apply map_ext. intros x. rewrite <- Qcmult_assoc, E. ring.
Qed.
Theorem C249_refused : forall q u e, unit_eqb u (q_unit q) = false -> convert (q_unit q) u = Err e -> in_unit unit_eqb convert q u = Err e.
Proof. intros q u e N C. unfold in_unit. now rewrite N, C. Qed.
(** The name is lost unless the unit is the same. *)
Theorem C167_name_refuted : forall q u f, unit_eqb u (q_unit q) = false -> convert (q_unit q) u = Ok f ->
  exists r, in_unit unit_eqb convert q u = Ok r /\ q_name r = [].
Proof. intros q u f N C. unfold in_unit. rewrite N, C. eexists. split; reflexivity. Qed.

(** An element of an assumption has its unit and name, and an assumption with
    one value is a number. *)
Theorem C249_elements : forall (q : quantity U) i v, nth_error (q_values q) i = Some v ->
  assumption_item q (Z.of_nat i) = Ok (mkQuantity [v] (q_unit q) (q_name q))
  /\ assumption_item q (Z.of_nat i - Z.of_nat (length (q_values q))) = Ok (mkQuantity [v] (q_unit q) (q_name q)).
Proof.
  intros q i v E. assert (i < length (q_values q)) as L by (apply nth_error_Some; congruence).
  assert (py_index (q_values q) (Z.of_nat i) = Ok v) as P.
  { destruct (element_at (q_values q) (Z.of_nat i)) as (w & W & ->); [lia|]. rewrite Nat2Z.id in W. congruence. }
  unfold assumption_item, vector_item. split.
  - destruct (Z.ltb_spec (Z.of_nat i) 0); [lia|]. now rewrite P.
  - destruct (Z.ltb_spec (Z.of_nat i - Z.of_nat (length (q_values q))) 0); [|lia].
    replace (Z.of_nat i - Z.of_nat (length (q_values q)) + Z.of_nat (length (q_values q)))%Z with (Z.of_nat i) by lia. now rewrite P.
Qed.
Theorem C249_cast : forall q : quantity U,
  (forall v, q_values q = [v] -> assumption_float q = Ok v /\ assumption_int q = Ok (Qc_trunc v))
  /\ (length (q_values q) <> 1 -> assumption_float q = Err TypeError /\ assumption_int q = Err TypeError).
Proof.
  intros q. unfold assumption_float, assumption_int. split.
  - intros v ->. auto.
  - intros N. destruct (q_values q) as [|x [|y l]]; simpl in N; try lia; auto.
Qed.
End Conversion.
Print Assumptions C167_values_partial.
Print Assumptions C249_same.
Print Assumptions C167_back_partial.
Print Assumptions C249_refused.
Print Assumptions C167_name_refuted.
Print Assumptions C249_elements.
Print Assumptions C249_cast.

Definition ex_convert (u v : str) : res Qc :=
  if str_eqb u (lit "km") && str_eqb v (lit "m") then Ok (Qc_of_Z 1000)
  else if str_eqb u (lit "m") && str_eqb v (lit "km") then Ok (/ Qc_of_Z 1000)%Qc else Err ValueError.
Example C167_example :
  in_unit str_eqb ex_convert (mkQuantity [Qc_of_Z 3] (lit "km") [lit "length"]) (lit "m") = Ok (mkQuantity [Qc_of_Z 3000] (lit "m") [])
  /\ in_unit str_eqb ex_convert (mkQuantity [Qc_of_Z 3] (lit "km") [lit "length"]) (lit "s") = Err ValueError
  /\ assumption_item (mkQuantity [Qc_of_Z 3; Qc_of_Z 4] (lit "km") [lit "length"]) (-1) = Ok (mkQuantity [Qc_of_Z 4] (lit "km") [lit "length"]).
Proof. split; [|split]; [|reflexivity|reflexivity]. vm_compute. do 3 f_equal. Qed.

(** ** C168: constants *)

Definition electric : list str := [lit "e"; lit "epsilon0"; lit "mu0"].

(** Missing: the first radiation constant (see below) and electric constants,
    which are different quantities in the two systems. *)
Theorem C168_systems_partial : forall name, In name (map fst constants) -> name <> lit "c1" -> ~ In name electric ->
  exists a b, constant (lit "mks") name = Ok a /\ constant (lit "cgs") name = Ok b /\ same_amount a b.
Proof.
  intros name I N E.
  assert (Forall (fun p => In (fst p) (lit "c1" :: electric) \/ same_amount (fst (snd p)) (snd (snd p))) constants) as H.
  { unfold constants.
    repeat (apply Forall_cons; [try (left; cbn [fst In electric]; tauto); right; do 2 eexists; (split; [vm_compute; reflexivity|]); (split; [vm_compute; reflexivity|]); cbn [fst snd]; apply Qc_is_canon; vm_compute; reflexivity|]).
    constructor. }
  assert (NoDup (map fst constants)) as ND.
  { apply (ObserverProofs.distinct_NoDup). vm_compute. reflexivity. }
  apply in_map_iff in I as ((n & a & b) & <- & I). exists a, b.
  assert (d_get str_eqb constants n = Some (a, b)) as G by (apply (d_get_iff _ str_eqb_spec); assumption).
  cbn [fst] in *. unfold constant. rewrite G. split; [reflexivity|]. split; [reflexivity|].
  rewrite Forall_forall in H. destruct (H _ I) as [X|X]; [|exact X]. cbn [fst In] in X. destruct X as [X|X]; [congruence|contradiction].
Qed.
Print Assumptions C168_systems_partial.
Theorem C168_c1_refuted : exists a b, constant (lit "mks") (lit "c1") = Ok a /\ constant (lit "cgs") (lit "c1") = Ok b /\ ~ same_amount a b
  /\ same_amount a (fst b * dec 1 11, snd b)%Qc.
Proof.
  do 2 eexists. split; [reflexivity|]. split; [reflexivity|]. split.
  - intros (s & t & S & T & E). vm_compute in S, T. injection S as <-. injection T as <-. vm_compute in E. discriminate E.
  - do 2 eexists. split; [vm_compute; reflexivity|]. split; [vm_compute; reflexivity|]. apply Qc_is_canon. vm_compute. reflexivity.
Qed.
Print Assumptions C168_c1_refuted.

Theorem C259_lookup : forall system name,
  (~ In name (map fst constants) -> constant system name = Err KeyError)
  /\ (spells system (lit "mks") -> constant system name = constant (lit "mks") name)
  /\ (spells system (lit "cgs") -> constant system name = constant (lit "cgs") name)
  /\ (~ spells system (lit "mks") -> ~ spells system (lit "cgs") -> exists e, constant system name = Err e)
  /\ (In name (map fst constants) -> exists a b, constant (lit "mks") name = Ok a /\ constant (lit "cgs") name = Ok b).
Proof.
  intros system name. destruct small_systems as [M C]. split; [|split; [|split; [|split]]].
  - intros N. unfold constant. now rewrite (proj2 (d_get_none _ str_eqb_spec constants name) N).
  - intros S. apply (lower_spells _ _ M) in S. unfold constant. now rewrite S.
  - intros S. apply (lower_spells _ _ C) in S. unfold constant. now rewrite S.
  - intros NM NC. rewrite <- (lower_spells _ _ M) in NM. rewrite <- (lower_spells _ _ C) in NC. unfold constant.
    destruct (d_get str_eqb constants name) as [[a b]|]; [|eauto].
    destruct (str_eqb_spec (lower system) (lit "mks")); [contradiction|]. destruct (str_eqb_spec (lower system) (lit "cgs")); [contradiction|].
    destruct (_ || _); eauto.
  - intros I. unfold constant. destruct (d_get str_eqb constants name) as [[a b]|] eqn:E.
    + exists a, b. split; reflexivity.
    + apply (d_get_none _ str_eqb_spec) in E. contradiction.
Qed.
Print Assumptions C259_lookup.
Example C168_example : constant (lit "MKS") (lit "c") = Ok (dec 29979 4, lit "m / s") /\ constant (lit "imperial") (lit "c") = Err ValueError.
Proof. split; reflexivity. Qed.

(** ** C169: the files that are compared *)

(** Missing: other current directories (see below). *)
Theorem C169_opened_partial : forall these cwd, these <> [] -> common_ancestor cwd these -> map (opened cwd) (relative_paths these) = these.
Proof.
  intros these cwd N C. apply (common_ancestor_common _ _ N) in C as ->. unfold relative_paths. rewrite map_map.
  rewrite <- map_id. apply map_ext_in. intros p I. unfold opened. symmetry. apply relative_spec. now apply common_prefix.
Qed.
Print Assumptions C169_opened_partial.
(** Missing files: in every other directory each file is sought elsewhere. *)
Theorem C169_opened_refuted : forall these cwd, these <> [] -> ~ common_ancestor cwd these ->
  Forall2 (fun p q => q <> p) these (map (opened cwd) (relative_paths these)).
Proof.
  intros these cwd N C. rewrite (common_ancestor_common _ _ N) in C. unfold relative_paths. rewrite map_map.
  assert (forall l, (forall p, In p l -> In p these) -> Forall2 (fun p q => q <> p) l (map (fun x => opened cwd (relative (common these) x)) l)) as H.
  { induction l as [|p l IH]; intros L; simpl; constructor; [|apply IH; intros q I; apply L; now right].
    intros H. apply C. unfold opened in H. pose proof (relative_spec _ _ (common_prefix these p (L p (or_introl eq_refl)))) as E.
    rewrite E in H at 2. now apply app_inv_tail in H. }
  now apply H.
Qed.
Print Assumptions C169_opened_refuted.
(** A single file is sought as the current directory. *)
Theorem C169_single_refuted : forall cwd p, map (opened cwd) (relative_paths [p]) = [cwd].
Proof. intros cwd p. unfold relative_paths, opened, relative. simpl. rewrite skipn_all. now rewrite app_nil_r. Qed.
Print Assumptions C169_single_refuted.
Example C169_example :
  relative_paths [[lit "home"; lit "a"; lit "x.ini"]; [lit "home"; lit "b"; lit "x.ini"]] = [[lit "a"; lit "x.ini"]; [lit "b"; lit "x.ini"]]
  /\ opened [lit "tmp"] [lit "a"; lit "x.ini"] = [lit "tmp"; lit "a"; lit "x.ini"].
Proof. split; reflexivity. Qed.

(** ** C170: the comparison *)
Section Compare.
Context {V : Type} (veqb : V -> V -> bool) (veqb_spec : forall a b, veqb a b = true <-> a = b) (shown_in : path -> str -> V) (default : str -> V).

(** Every parameter, with its default and its value in each file, is shown. *)
Theorem C250_show : forall targets keys k, keys <> [] ->
  exists l, compare veqb shown_in default Show targets keys = Ok l
  /\ map fst l = keys
  /\ (In k keys -> In (k, (default k, map (fun f => (f, shown_in f k)) targets)) l).
Proof.
  intros targets keys k N. unfold compare, build_args.
  assert (forall ks, concat (map (fun p => match snd p with Some x => [(fst p, x)] | None => [] end)
     (map (fun k0 => (k0, Some (default k0, map (fun f => (f, shown_in f k0)) targets))) ks))
     = map (fun k0 => (k0, (default k0, map (fun f => (f, shown_in f k0)) targets))) ks) as C by (induction ks; simpl; congruence).
  cbv zeta. cbn beta iota. rewrite C. destruct keys as [|k0 keys]; [congruence|]. exists (map (fun k0 => (k0, (default k0, map (fun f => (f, shown_in f k0)) targets))) (k0 :: keys)).
  split; [reflexivity|]. split; [rewrite map_map; cbn; f_equal; apply map_id|]. intros I. apply in_map_iff. eauto.
Qed.

(** The parameters with different values in two files are shown. *)
Theorem C170_diff_partial : forall targets keys l, compare veqb shown_in default Diff targets keys = Ok l ->
  forall k x, In (k, x) l <-> In k keys /\ (exists f g, In f targets /\ In g targets /\ shown_in f k <> shown_in g k)
                             /\ x = (default k, map (fun f => (f, shown_in f k)) targets).
Proof.
  intros targets keys l H k x. unfold compare in H.
  set (b := build_args veqb shown_in default Diff targets keys) in H.
  assert (forall k x, In (k, Some x) b <-> In k keys /\ (exists f g, In f targets /\ In g targets /\ shown_in f k <> shown_in g k)
                             /\ x = (default k, map (fun f => (f, shown_in f k)) targets)) as B.
  { intros k' y. unfold b, build_args. rewrite filter_In, in_map_iff. cbn [snd]. split.
    - intros [(k0 & E & I) _]. injection E as -> E. split; [exact I|]. destruct targets as [|f0 fs]; [discriminate|]. cbn [map] in E.
      destruct (existsb _ _) eqn:X; [|discriminate]. injection E as <-. split; [|reflexivity].
      apply existsb_exists in X as ((f & v) & J & X). cbn [snd] in X. change ((f0, shown_in f0 k') :: map (fun f => (f, shown_in f k')) fs) with (map (fun f => (f, shown_in f k')) (f0 :: fs)) in J.
      apply in_map_iff in J as (f' & E & J). injection E as -> <-. exists f, f0. split; [exact J|]. split; [now left|].
      intros E. apply negb_true_iff in X. rewrite (proj2 (veqb_spec _ _) E) in X. discriminate.
    - intros (I & (f & g & F & G & D) & ->). split; [|reflexivity]. exists k'. split; [|exact I]. f_equal.
      destruct targets as [|f0 fs]; [contradiction|]. cbn [map].
      destruct (existsb _ _) eqn:X; [reflexivity|]. exfalso.
      assert (forall h, In h (f0 :: fs) -> shown_in h k' = shown_in f0 k') as A.
      { intros h J. destruct (veqb (shown_in h k') (shown_in f0 k')) eqn:Y; [now apply veqb_spec|].
        assert (existsb (fun p => negb (veqb (snd p) (shown_in f0 k'))) (map (fun f => (f, shown_in f k')) (f0 :: fs)) = true) as Z.
        { apply existsb_exists. exists (h, shown_in h k'). split; [apply in_map_iff; eauto|]. cbn. now rewrite Y. }
        cbn [map] in Z. congruence. }
      apply D. rewrite (A f F), (A g G). reflexivity. }
  assert (forall k x, In (k, x) (concat (map (fun p => match snd p with Some x => [(fst p, x)] | None => [] end) b)) <-> In (k, Some x) b) as C.
  { intros k' y. rewrite in_concat. split.
    - intros (c & I & J). apply in_map_iff in I as ((k0 & [z|]) & <- & I); cbn in J; [|contradiction]. destruct J as [J|[]]. injection J as <- <-. exact I.
    - intros I. exists [(k', y)]. split; [|now left]. apply in_map_iff. exists (k', Some y). auto. }
  rewrite <- B, <- C. destruct (concat _); [discriminate|]. injection H as <-. reflexivity.
Qed.

(** When there is no difference the command fails instead of showing nothing. *)
Theorem C170_same_refuted : forall targets keys, (forall k f g, In k keys -> In f targets -> In g targets -> shown_in f k = shown_in g k) ->
  compare veqb shown_in default Diff targets keys = Err StopIteration.
Proof.
  intros targets keys H. destruct (compare veqb shown_in default Diff targets keys) as [l|e] eqn:E.
  - exfalso. pose proof (C170_diff_partial targets keys l E) as D. unfold compare in E. destruct (concat _) as [|[k x] l'] eqn:X; [discriminate|].
    injection E as <-. destruct (proj1 (D k x) (or_introl eq_refl)) as (I & (f & g & F & G & N) & _). apply N. now apply H.
  - unfold compare in E. destruct (concat _); [congruence|discriminate].
Qed.
End Compare.
Print Assumptions C250_show.
Print Assumptions C170_diff_partial.
Print Assumptions C170_same_refuted.

(** Adding to a file of defaults keeps the old values of what it has. *)
Theorem C170_append_refuted : forall (A : Type) (obj old : list (str * A)) k v, NoDup (map fst old) -> d_get str_eqb old k = Some v ->
  d_get str_eqb (generated true obj old) k = Some v.
Proof.
  intros A obj old k v N G. unfold generated. rewrite (d_update_get _ str_eqb_spec).
  assert (d_get str_eqb (rev old) k = Some v) as ->; [|reflexivity].
  apply (d_get_iff _ str_eqb_spec); [rewrite map_rev; now apply NoDup_rev|]. apply in_rev. rewrite rev_involutive. now apply (d_get_in _ str_eqb_spec).
Qed.
Print Assumptions C170_append_refuted.
Theorem C250_write : forall (A : Type) (obj old : list (str * A)), generated false obj old = obj.
Proof. reflexivity. Qed.
Print Assumptions C250_write.

Example C170_example :
  compare Z.eqb (fun f k => Z.of_nat (length f + length k)) (fun _ => 0%Z) Diff [[lit "a"]; [lit "a"; lit "b"]] [lit "n"]
    = Ok [(lit "n", (0%Z, [([lit "a"], 2%Z); ([lit "a"; lit "b"], 3%Z)]))]
  /\ compare Z.eqb (fun _ k => Z.of_nat (length k)) (fun _ => 0%Z) Diff [[lit "a"]; [lit "a"; lit "b"]] [lit "n"] = Err StopIteration.
Proof. split; reflexivity. Qed.
