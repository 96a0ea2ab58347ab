(** Proofs about the objects that axes accept. *)

From Coq Require Import String Ascii List Bool ZArith QArith Qcanon Lia.
From Verif Require Import Py PyFacts QcOrder IterablesModel IterablesSpec RuntimeModel AxisModel AxisSpec AxisProofs PackageSpec PackageProofs AxisTargetSpec.
Import ListNotations.
Open Scope list_scope.
Open Scope nat_scope.

Lemma of_Z_le z q : (Qc_of_Z z <= q)%Qc <-> (z * Zpos (Qc_den q) <= Qc_num q)%Z.
Proof. unfold Qcle. rewrite this_of_Z. unfold Qle, inject_Z, Qc_num, Qc_den. cbn [Qnum Qden]. lia. Qed.
Lemma le_of_Z z q : (q <= Qc_of_Z z)%Qc <-> (Qc_num q <= z * Zpos (Qc_den q))%Z.
Proof. unfold Qcle. rewrite this_of_Z. unfold Qle, inject_Z, Qc_num, Qc_den. cbn [Qnum Qden]. lia. Qed.
Lemma of_Z_lt z q : (Qc_of_Z z < q)%Qc <-> (z * Zpos (Qc_den q) < Qc_num q)%Z.
Proof. unfold Qclt. rewrite this_of_Z. unfold Qlt, inject_Z, Qc_num, Qc_den. cbn [Qnum Qden]. lia. Qed.
Lemma lt_of_Z z q : (q < Qc_of_Z z)%Qc <-> (Qc_num q < z * Zpos (Qc_den q))%Z.
Proof. unfold Qclt. rewrite this_of_Z. unfold Qlt, inject_Z, Qc_num, Qc_den. cbn [Qnum Qden]. lia. Qed.

Lemma toward_zero_trunc q z : toward_zero q z <-> z = Qc_trunc q.
Proof.
  unfold toward_zero. change 0%Qc with (Qc_of_Z 0). rewrite !of_Z_le, !of_Z_lt, le_of_Z, lt_of_Z, lt_of_Z. unfold Qc_trunc.
  set (n := Qc_num q). set (d := Zpos (Qc_den q)). assert (0 < d)%Z as D by reflexivity.
  pose proof (Z.quot_rem' n d) as E. pose proof (Z.rem_bound_pos_pos n d) as Rp. pose proof (Z.rem_bound_pos_neg n d) as Rn.
  split.
  - intros [P N]. destruct (Z.le_gt_cases 0 n) as [L|L].
    + destruct P; [lia|]. specialize (Rp D L). nia.
    + destruct N; [lia|]. specialize (Rn D ltac:(lia)). nia.
  - intros ->. split; intros L.
    + specialize (Rp D ltac:(lia)). nia.
    + specialize (Rn D ltac:(lia)). nia.
Qed.

Lemma whole_value x : is_whole x ->
  decimal_value x = Qc_of_Z (match d_sign x with Some true => - digits_number (d_whole x) | _ => digits_number (d_whole x) end)%Z.
Proof.
  intros (F & E). unfold decimal_value. rewrite F, E. change (power_of_ten 0) with 1%Qc. rewrite Qcplus_0_r, Qcmult_1_r.
  destruct (d_sign x) as [[]|]; cbn [with_sign]; [now rewrite Qc_of_Z_opp|reflexivity|reflexivity].
Qed.

Lemma to_int_index t z : to_int t = Ok z <-> index_of t z.
Proof.
  split.
  - destruct t as [y|q|s| | |]; simpl; intros H; try discriminate.
    + injection H as <-. constructor.
    + injection H as <-. constructor. now apply toward_zero_trunc.
    + destruct (read_int s) as [q|] eqn:R; [|discriminate]. injection H as <-.
      destruct (read_int_inv _ _ R) as (b & x & a & -> & B & A & X & W & ->). rewrite whole_value, Qc_num_of_Z by exact W. now constructor.
  - intros H. destruct H as [y|q y T|b x a B A X W]; simpl; [reflexivity| |].
    + apply toward_zero_trunc in T. now subst.
    + rewrite read_int_text by assumption. now rewrite whole_value, Qc_num_of_Z by exact W.
Qed.
Lemma to_int_no t : (forall z, ~ index_of t z) -> to_int t = Err (match t with PStr _ => ValueError | _ => TypeError end).
Proof.
  intros N. destruct (to_int t) as [z|e] eqn:E; [apply to_int_index in E; now destruct (N z)|].
  destruct t as [y|q|s| | |]; simpl in *; try discriminate; try congruence. destruct (read_int s); congruence.
Qed.
Lemma mapM_index l : forall r, mapM to_int l = Ok r <-> Forall2 index_of l r.
Proof.
  induction l as [|t l IH]; intros r; simpl.
  - split; [intros E; injection E as <-; constructor|intros F; now inversion F].
  - destruct (to_int t) as [z|e] eqn:E; simpl.
    + apply to_int_index in E. destruct (mapM to_int l) as [m|e] eqn:M; simpl.
      * split; [intros X; injection X as <-; constructor; [exact E|now apply IH]|].
        intros F. inversion F as [|? z' ? r' Z' F']; subst. apply to_int_index in E, Z'. apply IH in F'. congruence.
      * split; [discriminate|]. intros F. inversion F as [|? z' ? r' Z' F']; subst. apply IH in F'. congruence.
    + split; [discriminate|]. intros F. inversion F as [|? z' ? r' Z' F']; subst. apply to_int_index in Z'. congruence.
Qed.
Lemma mapM_stops {A B} (f : A -> res B) l1 : forall t l2 e, Forall (fun t => exists z, f t = Ok z) l1 -> f t = Err e ->
  mapM f (l1 ++ t :: l2) = Err e.
Proof.
  induction l1 as [|x l1 IH]; intros t l2 e F E; simpl; [now rewrite E|]. inversion F as [|? ? (z & Z1) F']; subst.
  rewrite Z1. simpl. now rewrite (IH t l2 e F' E).
Qed.
Lemma listed_normal n user : listed user -> normalize n user = Ok user.
Proof. intros (t & rest & -> & S & R). destruct t; simpl; try reflexivity; [now destruct (S s)|now destruct (R r)]. Qed.

Lemma default_listed n user : listed user ->
  (forall l, axis_index n (default_method n) user = Ok (mkData l l) <-> Forall2 index_of user l /\ Forall (within n) l)
  /\ (forall l, Forall2 index_of user l -> ~ Forall (within n) l -> axis_index n (default_method n) user = Err ValueError)
  /\ (forall l1 t l2, user = l1 ++ t :: l2 -> Forall (fun t => exists z, index_of t z) l1 -> (forall z, ~ index_of t z) ->
        axis_index n (default_method n) user = Err (match t with PStr _ => ValueError | _ => IndexTypeError end)).
Proof.
  intros L. unfold axis_index. rewrite (listed_normal n user L). cbn [bind]. unfold default_method.
  assert (forall l, Forall2 index_of user l -> l <> []) as N
    by (intros l F; destruct L as (t & rest & -> & _); inversion F; discriminate).
  split; [|split].
  - intros l. split.
    + intros H. destruct (mapM to_int user) as [m|e] eqn:M; [|destruct e; discriminate].
      destruct (forallb _ m) eqn:C; [|discriminate]. cbn [bind] in H. unfold quantity in H. cbn [d_values] in H.
      destruct m as [|y m]; [discriminate|]. injection H as <-. split; [now apply mapM_index|now apply range_check].
    + intros (F & W). pose proof (N l F) as Nl. apply mapM_index in F. rewrite F, (proj2 (range_check n l) W). cbn [bind].
      unfold quantity. cbn [d_values]. now destruct l.
  - intros l F W. apply mapM_index in F. rewrite F. destruct (forallb _ l) eqn:C; [now apply range_check in C|reflexivity].
  - intros l1 t l2 -> F X. erewrite mapM_stops; [|eapply Forall_impl; [|exact F]; intros x (z & Z1); exists z; now apply to_int_index|exact (to_int_no t X)].
    destruct t; reflexivity.
Qed.

Lemma integral_stops l1 : forall t l2, (forall z, t <> PInt z) -> integral_points (l1 ++ t :: l2) = Err ValueError.
Proof.
  induction l1 as [|x l1 IH]; intros t l2 N; simpl; [destruct t; try reflexivity; now destruct (N z)|].
  destruct x; try reflexivity. now rewrite IH.
Qed.
Lemma measured_stops l1 : forall t l2, Forall is_number l1 -> ~ is_number t -> (forall s, t = PStr s -> l2 <> []) ->
  measured (l1 ++ t :: l2) = Err TypeError.
Proof.
  induction l1 as [|x l1 IH]; intros t l2 F N S.
  - simpl. destruct t; try reflexivity; try (exfalso; apply N; red; eauto; fail). destruct l2; [now destruct (S _ eq_refl)|reflexivity].
  - inversion F as [|? ? X F']; subst. destruct X as [(z & ->)|(q & ->)]; cbn [app measured]; now rewrite IH.
Qed.
Lemma position_known symbols : forall s,
  (In s symbols -> exists i, position s symbols = Some i) /\ (~ In s symbols -> position s symbols = None).
Proof.
  intros s. induction symbols as [|x l [P Q]]; simpl; [split; [contradiction|reflexivity]|]. destruct (str_eqb_spec x s) as [->|D].
  - split; [eauto|]. intros C. exfalso. apply C. now left.
  - split.
    + intros [C|H]; [contradiction|]. destruct (P H) as (i & ->). eauto.
    + intros H. rewrite Q; [reflexivity|]. intros C. apply H. now right.
Qed.
