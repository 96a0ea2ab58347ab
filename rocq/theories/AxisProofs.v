(** Proofs about axes. *)

From Coq Require Import String Ascii List Bool ZArith QArith Qcanon Lia.
From Verif Require Import Py PyFacts PyDict QcOrder IterablesModel IterablesSpec IterablesProofs NumericalModel NumericalSpec NumericalProofs RuntimeModel AxisModel AxisSpec.
Import ListNotations.
Open Scope list_scope.
Open Scope nat_scope.
Open Scope py_scope.

(** * Ranges *)

Lemma range_positions n : range_list (mkRange 0 (Z.of_nat n) 1) = positions n.
Proof.
  unfold range_list, positions. cbn [r_start r_stop r_step].
  replace (Z.to_nat (Z.max 0 (if (0 <? 1)%Z then (Z.of_nat n - 0 + 1 - 1) / 1 else (0 - Z.of_nat n - 1 - 1) / - (1)))%Z) with n.
  - apply map_ext. intro k. lia.
  - cbn. rewrite Z.div_1_r. lia.
Qed.

Lemma positions_length n : length (positions n) = n.
Proof. unfold positions. now rewrite map_length, seq_length. Qed.

Lemma positions_within n i : In i (positions n) <-> within (Z.of_nat n) i.
Proof.
  unfold positions, within. rewrite in_map_iff. split.
  - intros (k & <- & H). apply in_seq in H. lia.
  - intro H. exists (Z.to_nat i). split; [lia|]. apply in_seq. lia.
Qed.

Lemma mapM_ints l : mapM to_int (map PInt l) = Ok l.
Proof. induction l as [|a l IH]; [reflexivity|]. cbn [map mapM to_int bind]. now rewrite IH. Qed.

Lemma integral_ints l : integral_points (map PInt l) = Ok l.
Proof. induction l as [|a l IH]; [reflexivity|]. cbn [map integral_points]. now rewrite IH. Qed.

Lemma range_check n l : forallb (fun i => (0 <=? i)%Z && (i <? n)%Z) l = true <-> Forall (within n) l.
Proof.
  rewrite forallb_forall, Forall_forall. unfold within. split; intros H x I; specialize (H x I).
  - apply andb_true_iff in H as [H1 H2]. apply Z.leb_le in H1. apply Z.ltb_lt in H2. lia.
  - apply andb_true_iff. split; [apply Z.leb_le|apply Z.ltb_lt]; lia.
Qed.

(** * The default indexer *)

Lemma default_ints n l : Forall (within n) l -> default_method n (map PInt l) = Ok (mkData l l).
Proof. intro H. unfold default_method. rewrite mapM_ints. now rewrite (proj2 (range_check n l) H). Qed.

Lemma default_ints_bad n l : ~ Forall (within n) l -> default_method n (map PInt l) = Err ValueError.
Proof.
  intro H. unfold default_method. rewrite mapM_ints.
  destruct (forallb _ l) eqn:E; [|reflexivity]. now apply range_check in E.
Qed.

Lemma quantity_ok {V} (d : data V) : d_values d <> [] -> quantity d = Ok d.
Proof. unfold quantity. now destruct (d_values d). Qed.

Lemma default_all n : 0 < n -> axis_index (Z.of_nat n) (default_method (Z.of_nat n)) [] = Ok (mkData (positions n) (positions n)).
Proof.
  intro H. unfold axis_index, normalize. rewrite range_positions. cbn [bind].
  rewrite default_ints by (apply Forall_forall; intros; now apply positions_within).
  cbn [bind]. apply quantity_ok. cbn. destruct n; [lia|discriminate].
Qed.

Lemma default_within n user d : axis_index n (default_method n) user = Ok d ->
  d_points d <> [] /\ Forall (within n) (d_points d) /\ d_values d = d_points d.
Proof.
  unfold axis_index. destruct (normalize n user) as [t|]; [|discriminate]. cbn [bind]. unfold default_method.
  destruct (mapM to_int t) as [l|e]; [|destruct e; discriminate].
  destruct (forallb _ l) eqn:E; [|discriminate]. cbn [bind]. unfold quantity. cbn [d_values].
  destruct l as [|a l]; [discriminate|]. intro H. injection H as <-. cbn [d_points d_values].
  repeat split; [discriminate|]. now apply range_check.
Qed.

Lemma normalize_ints n l : l <> [] -> normalize n (map PInt l) = Ok (map PInt l).
Proof. destruct l; [congruence|reflexivity]. Qed.

Lemma default_explicit n l : l <> [] ->
  axis_index n (default_method n) (map PInt l) = if forallb (fun i => (0 <=? i)%Z && (i <? n)%Z) l then Ok (mkData l l) else Err ValueError.
Proof.
  intro N. unfold axis_index. rewrite normalize_ints by assumption. cbn [bind]. unfold default_method. rewrite mapM_ints.
  destruct (forallb _ l); [|reflexivity]. cbn [bind]. now apply quantity_ok.
Qed.

Lemma slice_members s n i : (0 <= n)%Z -> slice_indices s n = Some i ->
  present (s_start s) (fun x => 0 <= x)%Z -> present (s_stop s) (fun x => 0 < x <= n)%Z ->
  present (s_step s) (fun x => 0 < x)%Z -> Forall (within n) (range_list i).
Proof.
  intros Hn E H1 H2 H3. destruct s as [a b c]. simpl in *. unfold slice_indices in E. cbn [s_start s_stop s_step] in E.
  set (step := match c with Some x => x | None => 1%Z end) in *.
  assert (0 < step)%Z as S by (unfold step; destruct c; simpl in *; lia).
  destruct (Z.eqb_spec step 0); [lia|]. destruct (Z.ltb_spec step 0); [lia|]. injection E as <-.
  apply Forall_forall. intros x I. unfold range_list in I. cbn [r_start r_stop r_step] in I.
  apply in_map_iff in I as (k & <- & I). apply in_seq in I. destruct (Z.ltb_spec 0 step); [|lia].
  set (start := match a with Some x => _ | None => 0%Z end) in *.
  set (stop := match b with Some x => _ | None => n end) in *.
  assert (0 <= start)%Z. { unfold start. destruct a as [x|]; [|lia]. simpl in H1. destruct (Z.ltb_spec x 0); lia. }
  assert (stop <= n)%Z. { unfold stop. destruct b as [x|]; [|lia]. simpl in H2. destruct (Z.ltb_spec x 0); lia. }
  assert (Z.of_nat k < (stop - start + step - 1) / step)%Z as K by lia.
  assert (step * (Z.of_nat k + 1) <= stop - start + step - 1)%Z.
  { transitivity (step * ((stop - start + step - 1) / step))%Z; [apply Z.mul_le_mono_nonneg_l; lia|apply Z.mul_div_le; lia]. }
  unfold within. nia.
Qed.

Lemma default_slice s n : (0 <= n)%Z ->
  present (s_start s) (fun x => 0 <= x)%Z -> present (s_stop s) (fun x => 0 < x <= n)%Z ->
  present (s_step s) (fun x => 0 < x)%Z ->
  exists i, slice_indices s n = Some i /\ forall rest, range_list i <> [] ->
    axis_index n (default_method n) (PSlice s :: rest) = Ok (mkData (range_list i) (range_list i)).
Proof.
  intros Hn H1 H2 H3. destruct (slice_range_ok s n Hn H1 H2 H3) as (r & i & E1 & E2 & E3).
  exists i. split; [assumption|]. intros rest N. unfold axis_index, normalize. rewrite E1. cbn [bind]. rewrite E3.
  rewrite default_ints by (eapply slice_members; eauto). cbn [bind]. now apply quantity_ok.
Qed.

(** * Shells *)

Lemma shell_ints n l : l <> [] -> axis_index n shell_method (map PInt l) = Ok (mkData l l).
Proof.
  intro N. unfold axis_index. rewrite normalize_ints by assumption. cbn [bind]. unfold shell_method.
  rewrite integral_ints. cbn [bind]. now apply quantity_ok.
Qed.

Lemma shell_all n : 0 < n -> axis_index (Z.of_nat n) shell_method [] = Ok (mkData (positions n) (positions n)).
Proof.
  intro H. unfold axis_index, normalize. rewrite range_positions. cbn [bind]. unfold shell_method. rewrite integral_ints.
  cbn [bind]. apply quantity_ok. cbn. destruct n; [lia|discriminate].
Qed.

(** * Species *)

Lemma position_first s l i : position s l = Some i <-> first_position s l i.
Proof.
  revert i. induction l as [|x l IH]; intro i; cbn [position].
  - split; [discriminate|]. intros (b & a & E & _). now destruct b.
  - destruct (str_eqb_spec x s) as [->|N].
    + split.
      * intro E. injection E as <-. exists [], l. split; [reflexivity|]. split; [intros []|reflexivity].
      * intros (b & a & E & NI & ->). destruct b as [|y b]; [reflexivity|]. exfalso. apply NI. injection E as -> _. now left.
    + split.
      * destruct (position s l) as [j|]; [|discriminate]. intro E. injection E as <-.
        destruct (proj1 (IH j) eq_refl) as (b & a & -> & NI & ->). exists (x :: b), a. split; [reflexivity|].
        split; [intros [|]; [congruence|tauto]|]. cbn. lia.
      * intros (b & a & E & NI & ->). destruct b as [|y b]; [injection E as -> _; congruence|].
        injection E as -> ->. rewrite (proj2 (IH (Z.of_nat (length b)))).
        -- f_equal. cbn. lia.
        -- exists b, a. split; [reflexivity|]. split; [|reflexivity]. intro; apply NI; now right.
Qed.

Lemma position_none s l : position s l = None <-> ~ In s l.
Proof.
  induction l as [|x l IH]; cbn [position]; [split; [intros _ []|reflexivity]|].
  destruct (str_eqb_spec x s) as [->|N].
  - split; [discriminate|]. intro H. exfalso. apply H. now left.
  - destruct (position s l).
    + split; [discriminate|]. intro H. exfalso. apply H. right.
      destruct (in_dec (list_eq_dec ascii_dec) s l) as [I|I]; [assumption|]. now apply IH in I.
    + split; [|reflexivity]. intros _ [|I]; [congruence|]. now apply IH in I.
Qed.

Lemma mapM_species symbols names l : Forall2 (fun s i => first_position s symbols i) names l ->
  mapM (fun t => match t with
                 | PStr s => match position s symbols with Some i => Ok i | None => Err ValueError end
                 | _ => to_int t
                 end) (map PStr names) = Ok l.
Proof.
  induction 1 as [|s i names l H F IH]; [reflexivity|]. cbn [map mapM bind].
  rewrite (proj2 (position_first s symbols i) H). cbn [bind]. now rewrite IH.
Qed.

Lemma species_names symbols n names l : names <> [] -> Forall2 (fun s i => first_position s symbols i) names l ->
  axis_index n (species_method symbols) (map PStr names) = Ok (mkData l symbols).
Proof.
  intros N F. unfold axis_index. assert (normalize n (map PStr names) = Ok (map PStr names)) as -> by (destruct names; [congruence|reflexivity]).
  cbn [bind]. unfold species_method. rewrite (mapM_species symbols names l F). cbn [bind]. apply quantity_ok. cbn.
  inversion F as [E|s i ns l' H F' E1 E2]; [congruence|]. destruct H as (b & a & -> & _). now destruct b.
Qed.

Lemma species_unknown symbols n names s : In s names -> ~ In s symbols ->
  axis_index n (species_method symbols) (map PStr names) = Err ValueError.
Proof.
  intros I N. unfold axis_index. assert (normalize n (map PStr names) = Ok (map PStr names)) as -> by (destruct names; [destruct I|reflexivity]).
  cbn [bind]. unfold species_method.
  assert (forall names, In s names -> mapM (fun t => match t with
                 | PStr s => match position s symbols with Some i => Ok i | None => Err ValueError end
                 | _ => to_int t
                 end) (map PStr names) = Err ValueError) as ->; [|reflexivity|assumption].
  clear names I. induction names as [|x names IH]; [intros []|]. intros [->|I]; cbn [map mapM].
  - rewrite (proj2 (position_none s symbols) N). reflexivity.
  - destruct (position x symbols); [|reflexivity]. cbn [bind]. now rewrite IH.
Qed.

(** * Coordinates *)

Lemma measured_numbers numbers values : Forall2 number_of numbers values -> measured numbers = Ok (values, None).
Proof.
  induction 1 as [|t v ts vs H F IH]; [reflexivity|]. inversion H; subst; cbn [measured]; rewrite IH; reflexivity.
Qed.

Lemma measured_unit numbers values u : Forall2 number_of numbers values -> measured (numbers ++ [PStr u]) = Ok (values, Some u).
Proof.
  induction 1 as [|t v ts vs H F IH]; [reflexivity|]. inversion H; subst; cbn [measured app]; rewrite IH; reflexivity.
Qed.

Lemma mapM_nearest c vs : c <> [] -> exists l,
  mapM (fun v => do r <- find_nearest c v BNone; Ok (fst r)) vs = Ok l /\ Forall2 (nearest_point c) vs l.
Proof.
  intro N. induction vs as [|v vs (l & E & F)]; [exists []; split; [reflexivity|constructor]|].
  destruct (find_nearest_ex c v N) as (i & x & G). exists (Z.of_nat i :: l). split.
  - cbn [mapM]. rewrite G. cbn [bind fst]. now rewrite E.
  - constructor; [|assumption]. exists i, x. split; [reflexivity|]. now apply find_nearest_none.
Qed.

Lemma specify_measured unit targets u values : specify unit targets u values ->
  targets <> [] /\ forallb is_index targets = false
  /\ exists o, measured targets = Ok (values, o)
     /\ match o with Some u' => if str_eqb u' (lit "1") then unit else u' | None => unit end = u.
Proof.
  intros (numbers & F & [(-> & -> & q & I)|[(-> & N)|(-> & ->)]]).
  - split; [intro; subst; destruct I|]. split.
    + destruct (forallb is_index numbers) eqn:E; [|reflexivity]. rewrite forallb_forall in E. now specialize (E _ I).
    + exists None. split; [now apply measured_numbers|reflexivity].
  - split; [now destruct numbers|]. split; [rewrite forallb_app; cbn; apply andb_false_r|].
    exists (Some u). split; [now apply measured_unit|]. destruct (str_eqb_spec u (lit "1")); [contradiction|reflexivity].
  - split; [now destruct numbers|]. split; [rewrite forallb_app; cbn; apply andb_false_r|].
    exists (Some (lit "1")). split; [now apply measured_unit|]. reflexivity.
Qed.

Lemma coordinate_at factor values own unit targets f u vs : values <> [] -> factor own unit = Some f ->
  specify unit targets u vs -> let array := match factor u unit with Some g => map (Qcmult g) vs | None => vs end in
  exists l, coordinate_method factor values own unit targets = Ok (mkData l array)
  /\ Forall2 (nearest_point (map (Qcmult f) values)) array l.
Proof.
  intros N E S array. destruct (specify_measured _ _ _ _ S) as (N' & I & o & M & U).
  unfold coordinate_method, in_unit. rewrite E. cbn [bind].
  destruct targets as [|t ts]; [congruence|]. rewrite I, M. cbn [bind fst snd]. rewrite U. fold array.
  destruct (mapM_nearest (map (Qcmult f) values) array) as (l & G & F); [now destruct values|].
  exists l. rewrite G. cbn [bind]. now split.
Qed.

Lemma specify_normalized n unit targets u values : specify unit targets u values -> normalize n targets = Ok targets.
Proof.
  intros (numbers & F & H). destruct F as [|t v ts vs X F].
  - destruct H as [(-> & _ & q & [])|[(-> & N)|(-> & ->)]]; reflexivity.
  - destruct H as [(-> & _)|[(-> & _)|(-> & _)]]; inversion X; reflexivity.
Qed.

Lemma coordinate_index factor n values own unit targets f u vs : values <> [] -> factor own unit = Some f ->
  specify unit targets u vs -> vs <> [] -> let array := match factor u unit with Some g => map (Qcmult g) vs | None => vs end in
  exists l, axis_index n (coordinate_method factor values own unit) targets = Ok (mkData l array)
  /\ Forall2 (nearest_point (map (Qcmult f) values)) array l.
Proof.
  intros N E S N' array. destruct (coordinate_at factor values own unit targets f u vs N E S) as (l & G & F). fold array in G, F.
  exists l. split; [|assumption]. unfold axis_index. rewrite (specify_normalized n unit targets u vs S). cbn [bind]. rewrite G.
  cbn [bind]. apply quantity_ok. cbn [d_values]. unfold array. destruct (factor u unit); now destruct vs.
Qed.

Lemma coordinate_whole factor values own unit f : values <> [] -> factor own unit = Some f ->
  axis_index (Z.of_nat (length values)) (coordinate_method factor values own unit) []
  = Ok (mkData (positions (length values)) (map (Qcmult f) values)).
Proof.
  intros N E. unfold axis_index, normalize. rewrite range_positions. cbn [bind]. unfold coordinate_method, in_unit. rewrite E.
  cbn [bind]. destruct values as [|v vs]; [congruence|].
  destruct (map PInt (positions (length (v :: vs)))) as [|t ts] eqn:T; [discriminate|]. rewrite <- T.
  assert (forallb is_index (map PInt (positions (length (v :: vs)))) = true) as ->.
  { apply forallb_forall. intros x I. apply in_map_iff in I as (z & <- & _). reflexivity. }
  rewrite integral_ints. cbn [bind]. now apply quantity_ok.
Qed.

Lemma coordinate_ints factor n values own unit f l : l <> [] -> values <> [] -> factor own unit = Some f ->
  axis_index n (coordinate_method factor values own unit) (map PInt l) = Ok (mkData l (map (Qcmult f) values)).
Proof.
  intros N N' E. unfold axis_index. rewrite normalize_ints by assumption. cbn [bind]. unfold coordinate_method, in_unit. rewrite E.
  cbn [bind]. destruct l as [|a l]; [congruence|]. cbn [map].
  assert (forallb is_index (PInt a :: map PInt l) = true) as ->.
  { apply (forallb_forall is_index). intros x I. change (In x (map PInt (a :: l))) in I. apply in_map_iff in I as (z & <- & _). reflexivity. }
  change (PInt a :: map PInt l) with (map PInt (a :: l)). rewrite integral_ints. cbn [bind]. apply quantity_ok. cbn. now destruct values.
Qed.

Lemma coordinate_empty factor n values own unit f r : range_list r = [] -> values <> [] -> factor own unit = Some f ->
  axis_index n (coordinate_method factor values own unit) [PRange r]
  = Ok (mkData (positions (length values)) (map (Qcmult f) values)).
Proof.
  intros R N E. unfold axis_index, normalize. rewrite R. cbn [bind map]. unfold coordinate_method, in_unit. rewrite E.
  cbn [bind]. rewrite range_positions, map_length. apply quantity_ok. cbn. now destruct values.
Qed.

Lemma positions_at {V} (axis : list V) : at_points axis (mkData (positions (length axis)) axis).
Proof.
  unfold at_points, positions. cbn [d_points d_values].
  assert (forall l k, (forall i v, nth_error l i = Some v -> nth_error axis (k + i) = Some v) ->
    Forall2 (fun p v => (0 <= p)%Z /\ nth_error axis (Z.to_nat p) = Some v) (map Z.of_nat (seq k (length l))) l) as H.
  { induction l as [|v l IH]; intros k H; cbn [length seq map]; constructor.
    - split; [lia|]. rewrite Nat2Z.id. rewrite <- (Nat.add_0_r k). now apply H.
    - apply IH. intros i w E. replace (S k + i) with (k + S i) by lia. now apply H. }
  now apply H.
Qed.

(** * Units *)

Lemma dist_scale f x t : (0 < f)%Qc -> dist (f * x) (f * t) = (f * dist x t)%Qc.
Proof.
  intro F. unfold dist. replace (f * x - f * t)%Qc with (f * (x - t))%Qc by ring.
  destruct (Qc_total 0 (x - t)) as [H|[H|H]].
  - rewrite !Qc_abs_nonneg; [reflexivity|now apply Qc_lt_le|].
    unfold Qcle. rewrite this_mul. change (this 0%Qc) with 0%Q. apply Qmult_le_0_compat; apply Qlt_le_weak; assumption.
  - rewrite <- H. now rewrite Qcmult_0_r, Qc_abs_nonneg, Qcmult_0_r by apply Qcle_refl.
  - rewrite (Qc_abs_neg (x - t)) by now apply Qc_lt_le. rewrite Qc_abs_neg; [ring|].
    rewrite <- (Qcmult_0_r f). rewrite (Qcmult_comm f (x - t)), (Qcmult_comm f 0). apply Qcmult_le_compat_r; now apply Qc_lt_le.
Qed.

Lemma nearest_scale f a t i x : (0 < f)%Qc -> nearest (map (Qcmult f) a) (f * t) i (f * x) <-> nearest a t i x.
Proof.
  intro F.
  assert (forall j y, at_ a j y -> at_ (map (Qcmult f) a) j (f * y)%Qc) as A1.
  { intros j y H. unfold at_ in *. now rewrite nth_error_map, H. }
  assert (forall j z, at_ (map (Qcmult f) a) j z -> exists y, z = (f * y)%Qc /\ at_ a j y) as A2.
  { intros j z H. unfold at_ in *. rewrite nth_error_map in H. destruct (nth_error a j) as [y|]; [|discriminate].
    cbn in H. injection H as <-. now exists y. }
  assert (forall y z, (f * y <= f * z)%Qc <-> (y <= z)%Qc) as LE.
  { intros y z. split; intro H.
    - apply (Qcmult_lt_0_le_reg_r y z f F). now rewrite (Qcmult_comm y), (Qcmult_comm z).
    - rewrite (Qcmult_comm f y), (Qcmult_comm f z). apply Qcmult_le_compat_r; [assumption|now apply Qc_lt_le]. }
  assert (forall y z, (f * y < f * z)%Qc <-> (y < z)%Qc) as LT.
  { intros y z. split; intro H.
    - apply Qcnot_le_lt. intro G. apply LE in G. now apply Qcle_not_lt in G.
    - apply Qcnot_le_lt. intro G. apply (proj1 (LE z y)) in G. now apply Qcle_not_lt in G. }
  split; intros (H1 & H2 & H3); (split; [|split]).
  - destruct (A2 _ _ H1) as (y & E & H). assert (x = y) as ->; [|assumption].
    assert (f <> 0)%Qc by (intro; subst; now apply Qclt_not_eq in F).
    apply (f_equal (Qcmult (/ f))) in E. now rewrite !Qcmult_assoc, (Qcmult_comm (/ f) f), Qcmult_inv_r, !Qcmult_1_l in E by assumption.
  - intros j y H. specialize (H2 j _ (A1 j y H)). rewrite !dist_scale in H2 by assumption. now apply LE.
  - intros j y H J. specialize (H3 j _ (A1 j y H) J). rewrite !dist_scale in H3 by assumption. now apply LT.
  - now apply A1.
  - intros j z H. destruct (A2 j z H) as (y & -> & H'). rewrite !dist_scale by assumption. apply LE. now apply (H2 j).
  - intros j z H J. destruct (A2 j z H) as (y & -> & H'). rewrite !dist_scale by assumption. apply LT. now apply (H3 j).
Qed.

Lemma nearest_point_scale f a t p : (0 < f)%Qc -> nearest_point (map (Qcmult f) a) (f * t) p <-> nearest_point a t p.
Proof.
  intro F. split; intros (i & x & -> & H).
  - destruct H as [A H]. unfold at_ in A. rewrite nth_error_map in A. destruct (nth_error a i) as [y|] eqn:E; [|discriminate].
    cbn in A. injection A as <-. exists i, y. split; [reflexivity|]. apply (nearest_scale f); [assumption|]. split; [|assumption].
    unfold at_. now rewrite nth_error_map, E.
  - exists i, (f * x)%Qc. split; [reflexivity|]. now apply nearest_scale.
Qed.

Lemma nearest_point_det a t p p' : nearest_point a t p -> nearest_point a t p' -> p = p'.
Proof.
  intros (i & x & -> & H) (j & y & -> & G). apply find_nearest_none in H, G. rewrite H in G. injection G as G _. now rewrite G.
Qed.

Lemma Forall2_det {A B} (R : A -> B -> Prop) l : (forall x y z, R x y -> R x z -> y = z) ->
  forall r s, Forall2 R l r -> Forall2 R l s -> r = s.
Proof.
  intros D. induction l as [|x l IH]; intros r s H G; inversion H; inversion G; subst; [reflexivity|].
  f_equal; [eapply D; eassumption|now apply IH].
Qed.

Lemma points_unit factor n values own new targets u vs f : coherent factor -> values <> [] -> vs <> [] ->
  factor own new = Some f -> specify own targets u vs -> specify new targets u vs -> (exists g, factor u own = Some g) ->
  exists l a b, axis_index n (coordinate_method factor values own own) targets = Ok (mkData l a)
  /\ axis_index n (coordinate_method factor values own new) targets = Ok (mkData l b) /\ b = map (Qcmult f) a.
Proof.
  intros (C1 & C2 & C3) N N' E S1 S2 (g & G).
  destruct (coordinate_index factor n values own own targets 1 u vs N (C1 own) S1 N') as (l & E1 & F1).
  destruct (coordinate_index factor n values own new targets f u vs N E S2 N') as (l' & E2 & F2).
  rewrite G in E1, F1. rewrite (C3 _ _ _ _ _ G E) in E2, F2.
  assert (map (Qcmult (g * f)) vs = map (Qcmult f) (map (Qcmult g) vs)) as M by (rewrite map_map; apply map_ext; intro; ring).
  rewrite M in E2, F2. assert (l = l') as <-.
  { assert (map (Qcmult 1) values = values) as V by (rewrite <- (map_id values) at 2; apply map_ext; intro; ring).
    rewrite V in F1. clear - F1 F2 C2 E. revert l l' F1 F2. generalize (map (Qcmult g) vs) as a.
    induction a as [|x a IH]; intros l l' F1 F2; inversion F1; inversion F2; subst; [reflexivity|]. f_equal.
    - eapply nearest_point_det; [eassumption|]. eapply nearest_point_scale; [eapply C2; eassumption|eassumption].
    - now apply IH. }
  exists l, (map (Qcmult g) vs), (map (Qcmult f) (map (Qcmult g) vs)). auto.
Qed.

Lemma energy_row factor symbols rows own s i row unit targets : first_position s symbols i ->
  nth_error rows (Z.to_nat i) = Some row ->
  energy_method factor symbols rows own (PStr s) unit targets = coordinate_method factor row own unit targets.
Proof.
  intros H R. unfold energy_method, species_method. cbn [mapM]. rewrite (proj2 (position_first s symbols i) H). cbn [bind d_points].
  destruct H as (b & a & _ & _ & ->). rewrite Nat2Z.id in R. rewrite (py_index_at rows (length b) row) by exact R. reflexivity.
Qed.

Lemma array_reference factor values own new f : coherent factor -> values <> [] -> factor own new = Some f ->
  exists d, coordinate_reference factor values own own = Ok d
  /\ array_unit factor d (Some own) new = Ok (mkData (positions (length values)) (map (Qcmult f) values), new)
  /\ coordinate_reference factor values own new = Ok (mkData (positions (length values)) (map (Qcmult f) values)).
Proof.
  intros (C1 & C2 & C3) N E. unfold coordinate_reference. rewrite (coordinate_whole factor values own own 1 N (C1 own)).
  rewrite (coordinate_whole factor values own new f N E). eexists. split; [reflexivity|]. split; [|reflexivity].
  assert (map (Qcmult 1) values = values) as V by (rewrite <- (map_id values) at 2; apply map_ext; intro; ring).
  unfold array_unit. rewrite V, E. destruct (str_eqb_spec new own) as [->|]; [|reflexivity].
  rewrite C1 in E. injection E as <-. now rewrite V.
Qed.
