(** Properties of the objects that axes accept. *)

From Coq Require Import String List Bool ZArith QArith Qcanon Lia.
From Verif Require Import Py PyFacts IterablesModel IterablesSpec NumericalModel RuntimeModel AxisModel AxisSpec AxisProofs PackageSpec AxisTargetSpec AxisTargetProofs.
Import ListNotations.
Open Scope list_scope.
Open Scope nat_scope.

(** ** C318: what axes accept *)

(** The default axis takes whole numbers, numbers cut to whole numbers, and
    numerals; anything else is an error, which depends on the first such
    object. *)
Theorem C318_default : forall n user, listed user ->
  (forall l, axis_index n (default_method n) user = Ok (mkData l l) <-> Forall2 index_of user l /\ Forall (within n) l)
  /\ (forall l, Forall2 index_of user l -> ~ Forall (within n) l -> axis_index n (default_method n) user = Err ValueError)
  /\ (forall l1 t l2, user = l1 ++ t :: l2 -> Forall (fun t => exists z, index_of t z) l1 -> (forall z, ~ index_of t z) ->
        axis_index n (default_method n) user = Err (match t with PStr _ => ValueError | _ => IndexTypeError end)).
Proof. exact default_listed. Qed.
Print Assumptions C318_default.

(** The axis of shells takes whole numbers only. *)
Theorem C318_shells : forall n user, listed user ->
  (forall l, user = map PInt l -> axis_index n shell_method user = Ok (mkData l l))
  /\ ((exists t, In t user /\ forall z, t <> PInt z) -> axis_index n shell_method user = Err ValueError).
Proof.
  intros n user L. unfold axis_index, shell_method. rewrite (listed_normal n user L). cbn [bind]. split.
  - intros l ->. rewrite integral_ints. cbn [bind]. unfold quantity. cbn [d_values].
    destruct L as (t & rest & E & _). now destruct l.
  - intros (t & I & N). apply in_split in I as (l1 & l2 & ->). now rewrite integral_stops.
Qed.
Print Assumptions C318_shells.

(** An axis of coordinates takes numbers and a unit after them, in that order. *)
Theorem C318_coordinates : forall factor n values own unit user l1 t l2, listed user ->
  user = l1 ++ t :: l2 -> Forall is_number l1 -> ~ is_number t -> (forall s, t = PStr s -> l2 <> []) ->
  axis_index n (coordinate_method factor values own unit) user
  = Err (match factor own unit with Some _ => TypeError | None => ValueError end).
Proof.
  intros factor n values own unit user l1 t l2 L E F N S. unfold axis_index. rewrite (listed_normal n user L). cbn [bind].
  unfold coordinate_method, in_unit. destruct (factor own unit); [|reflexivity]. cbn [bind].
  destruct user as [|x user]; [now destruct l1|].
  replace (forallb is_index (x :: user)) with false.
  - rewrite E. now rewrite measured_stops.
  - symmetry. rewrite E, forallb_app. cbn [forallb]. replace (is_index t) with false; [now rewrite andb_false_r|].
    destruct t; try reflexivity. exfalso. apply N. left. eauto.
Qed.
Print Assumptions C318_coordinates.

(** A symbol must be one of the species; other objects must be numbers. *)
Theorem C318_species : forall n symbols user l1 t l2, listed user -> user = l1 ++ t :: l2 ->
  Forall (fun t => is_number t \/ exists s, t = PStr s /\ In s symbols) l1 ->
  ~ is_number t -> (forall s, t = PStr s -> ~ In s symbols) ->
  axis_index n (species_method symbols) user = Err (match t with PStr _ => ValueError | _ => TypeError end).
Proof.
  intros n symbols user l1 t l2 L E F N S. unfold axis_index. rewrite (listed_normal n user L). cbn [bind]. unfold species_method. rewrite E.
  pose proof (position_known symbols) as P.
  erewrite mapM_stops; [reflexivity| |].
  - eapply Forall_impl; [|exact F]. intros x [[(z & ->)|(q & ->)]|(s & -> & I)]; simpl; eauto.
    destruct (proj1 (P s) I) as (i & ->). eauto.
  - destruct t; simpl; try reflexivity; try (exfalso; apply N; red; eauto; fail). now rewrite (proj2 (P s) (S s eq_refl)).
Qed.
Print Assumptions C318_species.

(** An axis without a unit cannot be converted, and no axis to an inconsistent
    unit. *)
Theorem C318_units : forall factor d u new,
  axis_unit factor None new = Err TypeError /\ array_unit factor d None new = Err TypeError
  /\ (u <> new -> factor u new = None -> axis_unit factor (Some u) new = Err ValueError /\ array_unit factor d (Some u) new = Err ValueError).
Proof.
  intros factor d u new. split; [reflexivity|]. split; [reflexivity|]. intros N H. unfold axis_unit, array_unit.
  destruct (str_eqb_spec new u); [congruence|]. now rewrite H.
Qed.
Print Assumptions C318_units.

Example C318_case :
  axis_index 6 (default_method 6) [PStr (lit " +4 "); PReal (Q2Qc (7 # 2)); PInt 0] = Ok (mkData [4; 3; 0]%Z [4; 3; 0]%Z)
  /\ axis_index 6 (default_method 6) [PInt 1; PStr (lit "1.5"); POther] = Err ValueError
  /\ axis_index 6 (default_method 6) [PInt 1; POther; PStr (lit "1.5")] = Err IndexTypeError
  /\ axis_index 6 shell_method [PInt 1; PReal (Q2Qc 2)] = Err ValueError
  /\ axis_index 6 (species_method [lit "H+"; lit "He++"]) [PStr (lit "H+"); PStr (lit "O")] = Err ValueError
  /\ index_of (PStr (lit " +4 ")) 4.
Proof.
  repeat (split; [vm_compute; reflexivity|]).
  apply (index_text (lit " ") (mkDecimal (Some false) (lit "4") None None) (lit " ")); repeat constructor; vm_compute; auto 10; discriminate.
Qed.
