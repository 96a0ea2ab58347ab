(** Properties of axes. *)

From Coq Require Import String List Bool ZArith QArith Qcanon Lia.
From Verif Require Import Py PyFacts QcOrder IterablesModel IterablesSpec NumericalModel NumericalSpec NumericalProofs AxisModel AxisSpec AxisProofs.
Import ListNotations.
Open Scope list_scope.
Open Scope nat_scope.

(** ** C53: default axes *)

(** Without arguments, the whole axis. *)
Theorem C53_all_partial : forall n, 0 < n ->
  axis_index (Z.of_nat n) (default_method (Z.of_nat n)) [] = Ok (mkData (positions n) (positions n)).
Proof. exact default_all. Qed.
Print Assumptions C53_all_partial.

(** Whatever is given, the indices are within the axis. *)
Theorem C239_within : forall n user d, axis_index n (default_method n) user = Ok d ->
  d_points d <> [] /\ Forall (within n) (d_points d) /\ d_values d = d_points d.
Proof. exact default_within. Qed.
Print Assumptions C239_within.

(** Given integers are accepted as they are if all of them are within the
    axis, and rejected otherwise. *)
Theorem C239_explicit : forall n l, l <> [] ->
  (Forall (within n) l -> axis_index n (default_method n) (map PInt l) = Ok (mkData l l))
  /\ (~ Forall (within n) l -> axis_index n (default_method n) (map PInt l) = Err ValueError).
Proof.
  intros n l N. rewrite default_explicit by assumption. split; intro H.
  - now rewrite (proj2 (range_check n l) H).
  - destruct (forallb _ l) eqn:E; [|reflexivity]. now apply range_check in E.
Qed.
Print Assumptions C239_explicit.

(** A slice selects the positions that Python's indexing selects.  Missing:
    negative numbers, ends at 0 or beyond the axis, and slices that select
    nothing. *)
Theorem C53_slice_partial : forall s n, (0 <= n)%Z ->
  match s_start s with Some x => (0 <= x)%Z | None => True end ->
  match s_stop s with Some x => (0 < x <= n)%Z | None => True end ->
  match s_step s with Some x => (0 < x)%Z | None => True end ->
  exists i, slice_indices s n = Some i /\ forall rest, range_list i <> [] ->
    axis_index n (default_method n) (PSlice s :: rest) = Ok (mkData (range_list i) (range_list i)).
Proof. exact default_slice. Qed.
Print Assumptions C53_slice_partial.

(** [axis.index(slice(-2, None))], which should select the last two of five, is
    rejected. *)
Theorem C53_slice_refuted : exists i,
  slice_indices (mkSlice (Some (-2)%Z) None None) 5 = Some i /\ range_list i = [3%Z; 4%Z]
  /\ axis_index 5 (default_method 5) [PSlice (mkSlice (Some (-2)%Z) None None)] = Err ValueError.
Proof. eexists. split; [reflexivity|]. split; reflexivity. Qed.
Print Assumptions C53_slice_refuted.

(** Every number between -1 and 0 is accepted as the index 0. *)
Theorem C53_reals_refuted : forall n q, (0 < n)%Z -> (Q2Qc (-1) < q)%Qc -> (q < 0)%Qc ->
  axis_index n (default_method n) [PReal q] = Ok (mkData [0%Z] [0%Z]).
Proof.
  intros n q N H1 H2. unfold axis_index, normalize. cbn [bind]. unfold default_method. cbn [mapM to_int bind].
  assert (Qc_trunc q = 0%Z) as ->.
  { unfold Qc_trunc, Qc_num, Qc_den. unfold Qclt in H1, H2. change (this (Q2Qc (-1))) with (-1)%Q in H1. change (this 0%Qc) with 0%Q in H2.
    destruct (this q) as [a d]. unfold Qlt in H1, H2. cbn in H1, H2 |- *.
    rewrite <- (Z.opp_involutive a), Z.quot_opp_l by lia. rewrite Z.quot_small; lia. }
  cbn [forallb]. destruct (Z.leb_spec 0 0); [|lia]. destruct (Z.ltb_spec 0 n); [|lia]. reflexivity.
Qed.
Print Assumptions C53_reals_refuted.

Example C53_case : axis_index 6 (default_method 6) [PSlice (mkSlice (Some 1%Z) None (Some 2%Z))] = Ok (mkData [1%Z; 3%Z; 5%Z] [1%Z; 3%Z; 5%Z])
  /\ axis_index 6 (default_method 6) [PInt 5; PInt 0; PInt 5] = Ok (mkData [5%Z; 0%Z; 5%Z] [5%Z; 0%Z; 5%Z])
  /\ axis_index 6 (default_method 6) [PInt 5; PInt 6] = Err ValueError
  /\ axis_index 6 (default_method 6) [POther] = Err IndexTypeError.
Proof. repeat split; reflexivity. Qed.

(** Units for the cases: seconds, minutes and metres. *)
Definition case_factor (u v : str) : option Qc :=
  if str_eqb u v then Some 1%Qc
  else if str_eqb u (lit "s") && str_eqb v (lit "min") then Some (Q2Qc (1 # 60))
  else if str_eqb u (lit "min") && str_eqb v (lit "s") then Some (Qc_of_Z 60)
  else None.
Lemma case_coherent : coherent case_factor.
Proof.
  unfold case_factor. split; [|split].
  - intro u. now rewrite str_eqb_refl.
  - intros u v f. destruct (str_eqb u v); [intro E; injection E as <-; reflexivity|].
    destruct (str_eqb u (lit "s") && str_eqb v (lit "min")); [intro E; injection E as <-; reflexivity|].
    destruct (str_eqb u (lit "min") && str_eqb v (lit "s")); [intro E; injection E as <-; reflexivity|discriminate].
  - intros u v w f g. destruct (str_eqb_spec u v) as [->|N1].
    { intros E G. injection E as <-. rewrite G. f_equal. ring. }
    destruct (str_eqb_spec v w) as [->|N2].
    { intros E G. injection G as <-. destruct (str_eqb_spec u w); [contradiction|]. rewrite E. f_equal. ring. }
    destruct (str_eqb_spec u (lit "s")) as [->|]; cbn [andb].
    + destruct (str_eqb_spec v (lit "min")) as [->|]; [|cbn; discriminate]. intro E. injection E as <-. cbn [andb].
      destruct (str_eqb_spec w (lit "s")) as [->|]; [|cbn; discriminate].
      intro G. cbn in G. injection G as <-. rewrite str_eqb_refl. f_equal; apply Qc_is_canon; reflexivity.
    + destruct (str_eqb_spec u (lit "min")) as [->|]; [|discriminate]. cbn [andb].
      destruct (str_eqb_spec v (lit "s")) as [->|]; [|discriminate]. cbn [andb]. intro E. injection E as <-.
      destruct (str_eqb_spec w (lit "min")) as [->|]; [|cbn; discriminate]. intro G. injection G as <-. rewrite str_eqb_refl. f_equal; apply Qc_is_canon; reflexivity.
Qed.
Definition case_times : list Qc := [Qc_of_Z 0; Qc_of_Z 60; Qc_of_Z 180; Qc_of_Z 600].

(** ** C114: indexing by values *)

(** Numbers with a consistent unit, or without one, select the nearest
    coordinate, each in the unit of the axis. *)
Theorem C114_nearest : forall factor n values own unit targets f g u vs,
  values <> [] -> vs <> [] -> factor own unit = Some f -> specify unit targets u vs -> factor u unit = Some g ->
  exists d, axis_index n (coordinate_method factor values own unit) targets = Ok d
  /\ d_values d = map (Qcmult g) vs
  /\ Forall2 (nearest_point (map (Qcmult f) values)) (map (Qcmult g) vs) (d_points d).
Proof.
  intros factor n values own unit targets f g u vs N N' E S G.
  destruct (coordinate_index factor n values own unit targets f u vs N E S N') as (l & H & F). rewrite G in H, F.
  eexists. split; [exact H|]. now split.
Qed.
Print Assumptions C114_nearest.

Example C114_case : specify (lit "s") [PReal (Q2Qc (5 # 2)); PInt 3; PStr (lit "min")] (lit "min") [Q2Qc (5 # 2); Qc_of_Z 3]
  /\ rmap d_points (axis_index 4 (coordinate_method case_factor case_times (lit "s") (lit "s"))
       [PReal (Q2Qc (5 # 2)); PInt 3; PStr (lit "min")]) = Ok [2%Z; 2%Z]
  /\ rmap d_points (axis_index 4 (coordinate_method case_factor case_times (lit "s") (lit "s"))
       [PReal (Q2Qc (5 # 2)); PInt 61]) = Ok [0%Z; 1%Z].
Proof.
  split; [|split; vm_compute; reflexivity].
  exists [PReal (Q2Qc (5 # 2)); PInt 3]. split; [repeat constructor|]. right. left. split; [reflexivity|discriminate].
Qed.

(** ** C115: inconsistent units *)

(** The English claim, that values in a unit inconsistent with the axis are
    rejected, is false: whatever the unit, they are accepted as if they were in
    the unit of the axis. *)
Theorem C115_inconsistent_refuted : forall factor n values own unit targets f u vs,
  values <> [] -> vs <> [] -> factor own unit = Some f -> specify unit targets u vs -> factor u unit = None ->
  exists d, axis_index n (coordinate_method factor values own unit) targets = Ok d
  /\ d_values d = vs /\ Forall2 (nearest_point (map (Qcmult f) values)) vs (d_points d).
Proof.
  intros factor n values own unit targets f u vs N N' E S G.
  destruct (coordinate_index factor n values own unit targets f u vs N E S N') as (l & H & F). rewrite G in H, F.
  eexists. split; [exact H|]. now split.
Qed.
Print Assumptions C115_inconsistent_refuted.

(** An axis itself cannot be changed to an inconsistent unit. *)
Theorem C115_axis_partial : forall factor own new, new <> own ->
  (forall f, factor own new = Some f -> axis_unit factor (Some own) new = Ok new)
  /\ (factor own new = None -> axis_unit factor (Some own) new = Err ValueError)
  /\ (forall values unit targets n, factor own unit = None ->
        axis_index n (coordinate_method factor values own unit) targets = Err ValueError
        \/ exists e, normalize n targets = Err e).
Proof.
  intros factor own new N. unfold axis_unit. destruct (str_eqb_spec new own); [contradiction|].
  split; [intros f ->; reflexivity|]. split; [intros ->; reflexivity|].
  intros values unit targets k E. unfold axis_index. destruct (normalize k targets) as [t|e]; [left|right; now exists e].
  unfold coordinate_method, in_unit. now rewrite E.
Qed.
Print Assumptions C115_axis_partial.

Example C115_case : case_factor (lit "m") (lit "s") = None
  /\ rmap d_points (axis_index 4 (coordinate_method case_factor case_times (lit "s") (lit "s"))
       [PReal (Q2Qc (119 # 2)); PStr (lit "m")]) = Ok [1%Z].
Proof. split; vm_compute; reflexivity. Qed.

(** ** C116: indices of dataset axes *)

(** The English claim, that integer indices outside an axis are rejected, is
    false of shells, coordinates and species: every integer is accepted. *)
Theorem C116_range_refuted : forall factor n values symbols own f l, l <> [] -> values <> [] -> symbols <> [] ->
  factor own own = Some f ->
  rmap d_points (axis_index n shell_method (map PInt l)) = Ok l
  /\ rmap d_points (axis_index n (coordinate_method factor values own own) (map PInt l)) = Ok l
  /\ rmap d_points (axis_index n (species_method symbols) (map PInt l)) = Ok l.
Proof.
  intros factor n values symbols own f l N N1 N2 E. split; [now rewrite shell_ints|]. split; [now rewrite (coordinate_ints factor n values own own f l)|].
  unfold axis_index. rewrite normalize_ints by assumption. cbn [bind]. unfold species_method.
  replace (mapM _ (map PInt l)) with (Ok l).
  - cbn [bind]. unfold quantity. cbn [d_values]. now destruct symbols.
  - symmetry. clear. induction l as [|a l IH]; [reflexivity|]. cbn [map mapM to_int bind]. now rewrite IH.
Qed.
Print Assumptions C116_range_refuted.

(** Without arguments and by value the points are within the axis. *)
Theorem C116_within_partial : forall factor values own unit f, values <> [] -> factor own unit = Some f ->
  let n := Z.of_nat (length values) in let index := axis_index n (coordinate_method factor values own unit) in
  (exists d, index [] = Ok d /\ Forall (within n) (d_points d))
  /\ forall targets u vs, specify unit targets u vs -> vs <> [] ->
     exists d, index targets = Ok d /\ length (d_points d) = length vs /\ Forall (within n) (d_points d).
Proof.
  intros factor values own unit f N E n index. split.
  - exists (mkData (positions (length values)) (map (Qcmult f) values)). split; [now apply coordinate_whole|].
    apply Forall_forall. intros i I. now apply positions_within.
  - intros targets u vs S N'. destruct (coordinate_index factor n values own unit targets f u vs N E S N') as (l & H & F).
    eexists. split; [exact H|]. cbn [d_points]. split.
    + assert (length l = length vs) as ->; [|reflexivity]. destruct (factor u unit).
      * rewrite <- (map_length (Qcmult q) vs). clear -F. induction F; cbn; congruence.
      * clear -F. induction F; cbn; congruence.
    + clear - F. set (a := match factor u unit with Some g => map (Qcmult g) vs | None => vs end) in F. clearbody a.
      induction F as [|x p a l (i & y & -> & A & _) F IH]; constructor; [|assumption].
      assert (i < length (map (Qcmult f) values)) as L by (apply nth_error_Some; unfold at_ in A; now rewrite A). rewrite map_length in L. unfold within, n. lia.
Qed.
Print Assumptions C116_within_partial.

Example C116_case : rmap d_points (axis_index 4 shell_method [PInt 9; PInt (-7)]) = Ok [9%Z; (-7)%Z].
Proof. reflexivity. Qed.

(** ** C117: values at the indices *)

(** The whole axis: each value is the coordinate, in the unit of the axis, at
    the corresponding point. *)
Theorem C117_whole_partial : forall factor values own unit f, values <> [] -> factor own unit = Some f ->
  exists d, axis_index (Z.of_nat (length values)) (coordinate_method factor values own unit) [] = Ok d
  /\ length (d_points d) = length values /\ at_points (map (Qcmult f) values) d.
Proof.
  intros factor values own unit f N E. eexists. split; [apply coordinate_whole; [exact N|exact E]|]. cbn [d_points]. split; [apply positions_length|].
  rewrite <- (map_length (Qcmult f) values) at 1. apply positions_at.
Qed.
Print Assumptions C117_whole_partial.

(** Selected by integers, the values are those of the whole axis, whatever the
    selection. *)
Theorem C117_values_refuted : forall factor n values own unit f l, l <> [] -> values <> [] -> factor own unit = Some f ->
  length l <> length values ->
  exists d, axis_index n (coordinate_method factor values own unit) (map PInt l) = Ok d
  /\ d_points d = l /\ d_values d = map (Qcmult f) values /\ ~ at_points (map (Qcmult f) values) d.
Proof.
  intros factor n values own unit f l N N' E L. eexists. split; [apply (coordinate_ints factor n values own unit f l); [exact N|exact N'|exact E]|]. cbn [d_points d_values].
  repeat split. unfold at_points. cbn [d_points d_values]. intro F. apply L. rewrite <- (map_length (Qcmult f) values).
  clear -F. induction F; cbn; congruence.
Qed.
Print Assumptions C117_values_refuted.

Example C117_case : rmap d_values (axis_index 4 (coordinate_method case_factor case_times (lit "s") (lit "s")) [PInt 2])
  = Ok (map (Qcmult 1) case_times).
Proof. vm_compute. reflexivity. Qed.

(** ** C118: empty selections *)

(** An empty range selects the whole of a coordinate axis, and fails on other
    axes. *)
Theorem C118_empty_refuted : forall factor n values own unit f r, range_list r = [] -> values <> [] -> factor own unit = Some f ->
  rmap d_points (axis_index n (coordinate_method factor values own unit) [PRange r]) = Ok (positions (length values))
  /\ axis_index n (default_method n) [PRange r] = Err IndexError
  /\ axis_index n shell_method [PRange r] = Err IndexError.
Proof.
  intros factor n values own unit f r R N E. rewrite (coordinate_empty factor n values own unit f r R N E).
  unfold axis_index, normalize. rewrite R. repeat split; reflexivity.
Qed.
Print Assumptions C118_empty_refuted.

Example C118_case : range_list (mkRange 2 2 1) = [].
Proof. reflexivity. Qed.

(** ** C119: units of axes *)

(** Values with a unit select the same points whatever the unit of the axis,
    and the selected values are converted. *)
Theorem C119_points : forall factor n values own new targets u vs f, coherent factor -> values <> [] -> vs <> [] ->
  factor own new = Some f -> specify own targets u vs -> specify new targets u vs -> (exists g, factor u own = Some g) ->
  exists l a b, axis_index n (coordinate_method factor values own own) targets = Ok (mkData l a)
  /\ axis_index n (coordinate_method factor values own new) targets = Ok (mkData l b) /\ b = map (Qcmult f) a.
Proof. exact points_unit. Qed.
Print Assumptions C119_points.

(** The reference array of an axis in a new unit is its reference array
    converted to the unit. *)
Theorem C119_reference : forall factor values own new f, coherent factor -> values <> [] -> factor own new = Some f ->
  exists d, coordinate_reference factor values own own = Ok d
  /\ array_unit factor d (Some own) new = Ok (mkData (positions (length values)) (map (Qcmult f) values), new)
  /\ coordinate_reference factor values own new = Ok (mkData (positions (length values)) (map (Qcmult f) values)).
Proof. exact array_reference. Qed.
Print Assumptions C119_reference.

Example C119_case : let targets := [PReal (Q2Qc (5 # 2)); PStr (lit "min")] in
  specify (lit "s") targets (lit "min") [Q2Qc (5 # 2)] /\ specify (lit "min") targets (lit "min") [Q2Qc (5 # 2)]
  /\ case_factor (lit "s") (lit "min") = Some (Q2Qc (1 # 60)) /\ case_factor (lit "min") (lit "s") = Some (Qc_of_Z 60).
Proof.
  intro targets. assert (forall unit, specify unit targets (lit "min") [Q2Qc (5 # 2)]) as S.
  { intro unit. exists [PReal (Q2Qc (5 # 2))]. split; [repeat constructor|]. right. left. split; [reflexivity|discriminate]. }
  repeat split; try apply S; reflexivity.
Qed.

(** ** C120: species *)

(** Symbols select their first positions; unknown symbols are rejected. *)
Theorem C120_species : forall symbols n names, names <> [] ->
  (forall l, Forall2 (fun s i => first_position s symbols i) names l ->
     rmap d_points (axis_index n (species_method symbols) (map PStr names)) = Ok l)
  /\ (forall s, In s names -> ~ In s symbols -> axis_index n (species_method symbols) (map PStr names) = Err ValueError).
Proof.
  intros symbols n names N. split.
  - intros l F. now rewrite (species_names symbols n names l N F).
  - intros s I NI. now apply (species_unknown symbols n names s).
Qed.
Print Assumptions C120_species.

(** The energies of a species are those of its row. *)
Theorem C120_energies : forall factor symbols rows own s i row unit targets, first_position s symbols i ->
  nth_error rows (Z.to_nat i) = Some row ->
  energy_method factor symbols rows own (PStr s) unit targets = coordinate_method factor row own unit targets.
Proof. exact energy_row. Qed.
Print Assumptions C120_energies.

Example C120_case : first_position (lit "He++") [lit "H+"; lit "He++"; lit "e-"] 1%Z
  /\ axis_index 3 (species_method [lit "H+"; lit "He++"; lit "e-"]) [PStr (lit "He++"); PStr (lit "H+")]
     = Ok (mkData [1%Z; 0%Z] [lit "H+"; lit "He++"; lit "e-"]).
Proof.
  split; [|reflexivity]. exists [lit "H+"], [lit "e-"]. split; [reflexivity|]. split; [|reflexivity]. intros [H|[]]. discriminate.
Qed.
