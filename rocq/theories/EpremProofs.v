(** Proofs about the EPREM interface. *)

From Coq Require Import String Ascii List Bool ZArith QArith Qcanon Lia Permutation.
From Verif Require Import Py PyFacts PyDict QcOrder EpremModel EpremSpec.
Import ListNotations.
Open Scope list_scope.
Open Scope nat_scope.
Open Scope py_scope.

(** * Unit strings *)

Lemma split_slash_ok a b : ~ In "/"%char a -> split_slash (a ++ "/"%char :: b) = Some (a, b).
Proof.
  induction a as [|c a IH]; intro N; cbn [app split_slash]; [reflexivity|].
  destruct (Ascii.eqb_spec c "/"); [exfalso; apply N; now left|]. rewrite IH; [reflexivity|]. intro; apply N; now right.
Qed.
Lemma split_slash_none a : ~ In "/"%char a -> split_slash a = None.
Proof.
  induction a as [|c a IH]; intro N; cbn [split_slash]; [reflexivity|].
  destruct (Ascii.eqb_spec c "/"); [exfalso; apply N; now left|]. rewrite IH; [reflexivity|]. intro; apply N; now right.
Qed.

Lemma unmapped u : ~ In u (map fst unit_map) -> d_get str_eqb unit_map u = None.
Proof. intro N. apply (d_get_none str_eqb str_eqb_spec). exact N. Qed.

Lemma standardize_slash num den : ~ In "/"%char num -> ~ In (num ++ "/"%char :: den) (map fst unit_map) ->
  standardize (num ++ "/"%char :: den) = strip num ++ lit " / (" ++ strip den ++ lit ")".
Proof. intros N M. unfold standardize. rewrite unmapped by assumption. now rewrite split_slash_ok. Qed.
Lemma standardize_plain u : ~ In "/"%char u -> ~ In u (map fst unit_map) -> standardize u = u.
Proof. intros N M. unfold standardize. rewrite unmapped by assumption. now rewrite split_slash_none. Qed.

(** * Rounding *)

Lemma rounds_unique q y z : rounds q y -> rounds q z -> y = z.
Proof.
  assert (forall a b, (Qc_of_Z a < Qc_of_Z b)%Qc <-> (a < b)%Z) as LT.
  { intros a b. unfold Qclt. rewrite !this_of_Z. unfold Qlt. cbn. lia. }
  unfold rounds, Qclt. intros H G.
  assert (forall a, (this (Qc_of_Z a - Q2Qc (1 # 2)) == inject_Z a - (1 # 2))%Q) as S by (intro; now rewrite this_sub, this_of_Z, this_q).
  assert (forall a, (this (Qc_of_Z a + Q2Qc (1 # 2)) == inject_Z a + (1 # 2))%Q) as T by (intro; now rewrite this_add, this_of_Z, this_q).
  rewrite !Qc_eq_this in H. rewrite !Qc_eq_this in G. rewrite !S, !T in H. rewrite !S, !T in G.
  destruct (this q) as [a d]. unfold Qlt, Qeq in *. cbn in *.
  destruct H as [H|[H [k ->]]], G as [G|[G [m ->]]]; nia.
Qed.

Lemma py_round_rounds q : rounds q (py_round q).
Proof.
  unfold rounds, Qclt. set (z := py_round q).
  assert (this (Qc_of_Z z - Q2Qc (1 # 2)) == inject_Z z - (1 # 2))%Q as S by (now rewrite this_sub, this_of_Z, this_q).
  assert (this (Qc_of_Z z + Q2Qc (1 # 2)) == inject_Z z + (1 # 2))%Q as T by (now rewrite this_add, this_of_Z, this_q).
  rewrite !Qc_eq_this, !S, !T. clear S T. unfold z, py_round, Qc_num, Qc_den. destruct (this q) as [a d]. cbn [Qnum Qden].
  pose proof (Z.div_mod a (Zpos d) ltac:(lia)) as E. pose proof (Z.mod_pos_bound a (Zpos d) ltac:(lia)) as B.
  set (f := (a / Zpos d)%Z) in *. set (r := (a mod Zpos d)%Z) in *. clearbody f r.
  destruct (Z.ltb_spec (2 * r) (Zpos d)).
  { destruct (Z.eq_dec r 0); left; unfold Qlt; cbn; nia. }
  destruct (Z.ltb_spec (Zpos d) (2 * r)).
  { left. unfold Qlt. cbn. nia. }
  assert (2 * r = Zpos d)%Z by lia. right. destruct (Z.even f) eqn:V.
  - split; [right; unfold Qeq; cbn; nia|]. now apply Z.even_spec.
  - split; [left; unfold Qeq; cbn; nia|]. apply Z.even_spec. now rewrite Z.even_add, V.
Qed.

Lemma rounds_iff q z : rounds q z <-> py_round q = z.
Proof.
  split; [intro H; eapply rounds_unique; [apply py_round_rounds|assumption]|intros <-; apply py_round_rounds].
Qed.

(** * Species *)

Lemma index_of_first z l i : index_of z l = Some i -> nth_error l i = Some z /\ forall j, j < i -> nth_error l j <> Some z.
Proof.
  revert i. induction l as [|x l IH]; intros i H; cbn [index_of] in H; [discriminate|].
  destruct (Z.eqb_spec x z) as [->|N].
  - injection H as <-. split; [reflexivity|lia].
  - destruct (index_of z l) as [j|]; [|discriminate]. injection H as <-. destruct (IH j eq_refl) as [E F]. split; [exact E|].
    intros [|k] K; cbn; [congruence|]. apply F. lia.
Qed.
Lemma index_of_ok z l i : nth_error l i = Some z -> (forall j, j < i -> nth_error l j <> Some z) -> index_of z l = Some i.
Proof.
  revert i. induction l as [|x l IH]; intros i H F; [now destruct i|]. cbn [index_of]. destruct i as [|i].
  - injection H as ->. now rewrite Z.eqb_refl.
  - destruct (Z.eqb_spec x z) as [->|N]; [exfalso; apply (F 0); [lia|reflexivity]|].
    rewrite (IH i H); [reflexivity|]. intros j J. apply (F (S j)). lia.
Qed.
Lemma index_of_none z l : index_of z l = None <-> ~ In z l.
Proof.
  induction l as [|x l IH]; cbn [index_of]; [split; [intros _ []|reflexivity]|].
  destruct (Z.eqb_spec x z) as [->|N].
  - split; [discriminate|]. intro H. exfalso. apply H. now left.
  - destruct (index_of z l) as [i|] eqn:E; cbn; (split; [try discriminate|]).
    + intro H. exfalso. apply index_of_first in E as [E _]. apply H. right. eapply nth_error_In; eassumption.
    + intros _ [|I]; [congruence|]. now apply IH.
    + reflexivity.
Qed.

Lemma nucleons_id table : NoDup (map fst table) -> nucleons table = map (fun e => (fst e, py_round (snd e))) table.
Proof. intro N. unfold nucleons. apply (d_of_id str_eqb str_eqb_spec). now rewrite map_map. Qed.

Section Species.
Context (table : list (str * Qc)) (N : NoDup (map fst table)).

Lemma mass_index q s : first_element table q s -> exists i,
  index_of (py_round q) (map snd (nucleons table)) = Some i /\ nth_error (map fst (nucleons table)) i = Some s.
Proof.
  intros (b & a & m & z & E & R & M & F). rewrite nucleons_id by assumption. rewrite !map_map. cbn [fst snd].
  apply rounds_iff in R, M. exists (length b). split.
  - apply index_of_ok; rewrite E.
    + rewrite nth_error_map, nth_error_app2, Nat.sub_diag by lia. cbn. now rewrite M, R.
    + intros j J. rewrite nth_error_map, nth_error_app1 by assumption. destruct (nth_error b j) as [e|] eqn:X; [|discriminate].
      cbn. intro Y. injection Y as Y. apply nth_error_In in X. apply (F e X). apply rounds_iff. congruence.
  - rewrite E. rewrite nth_error_map, nth_error_app2, Nat.sub_diag by lia. reflexivity.
Qed.

Lemma elements_ok mass charge symbols : length mass = length charge -> Forall2 (first_element table) mass symbols ->
  elements table mass charge = Ok (map (fun p => fst p ++ signs (snd p)) (combine symbols charge)).
Proof.
  intros L F. unfold elements. rewrite L, Nat.eqb_refl. clear L. unfold get_mass_indices.
  assert (exists idx, mapM (fun t => match index_of (py_round t) (map snd (nucleons table)) with Some i => Ok i | None => Err MassValueError end) mass = Ok idx
    /\ mapM (fun i => match nth_error (map fst (nucleons table)) i with Some b => Ok b | None => Err IndexError end) idx = Ok symbols) as (idx & -> & E).
  { induction F as [|q s mass symbols H F (idx & E1 & E2)]; [exists []; split; reflexivity|].
    destruct (mass_index q s H) as (i & I1 & I2). exists (i :: idx). cbn [mapM]. rewrite I1, I2. cbn [bind]. now rewrite E1, E2. }
  cbn [bind]. rewrite E. reflexivity.
Qed.

Lemma elements_unknown mass charge q : length mass = length charge -> In q mass -> no_element table q ->
  elements table mass charge = Err MassValueError.
Proof.
  intros L I H. unfold elements. rewrite L, Nat.eqb_refl. clear L. unfold get_mass_indices.
  assert (mapM (fun t => match index_of (py_round t) (map snd (nucleons table)) with Some i => Ok i | None => Err MassValueError end) mass = Err MassValueError) as ->; [|reflexivity].
  assert (index_of (py_round q) (map snd (nucleons table)) = None) as E.
  { apply index_of_none. rewrite nucleons_id by assumption. rewrite map_map. cbn. intro X. apply in_map_iff in X as (e & X & Y).
    apply (H (py_round q) (py_round_rounds q) e Y). now apply rounds_iff. }
  induction mass as [|x mass IH]; [destruct I|]. cbn [mapM]. destruct I as [->|I].
  - now rewrite E.
  - destruct (index_of (py_round x) _); [|reflexivity]. cbn [bind]. now rewrite IH.
Qed.

Lemma element_cases q : no_element table q \/ exists s, first_element table q s.
Proof.
  destruct (index_of (py_round q) (map (fun e => py_round (snd e)) table)) as [i|] eqn:E.
  - right. apply index_of_first in E as [E F]. rewrite nth_error_map in E. destruct (nth_error table i) as [[s m]|] eqn:X; [|discriminate].
    cbn in E. injection E as E. exists s. apply nth_error_split in X as (b & a & -> & L). exists b, a, m, (py_round q).
    split; [reflexivity|]. split; [apply py_round_rounds|]. split; [now apply rounds_iff|].
    intros e I R. apply rounds_iff in R. apply In_nth_error in I as [j J].
    assert (j < length b) by (apply nth_error_Some; congruence). apply (F j); [lia|].
    rewrite nth_error_map, nth_error_app1, J by assumption. cbn. now rewrite R.
  - left. apply index_of_none in E. intros z R e I M. apply E. apply rounds_iff in R, M. apply in_map_iff. exists e. split; [congruence|assumption].
Qed.
End Species.

Lemma Qc_ltb_lt a b : Qc_ltb a b = true <-> (a < b)%Qc.
Proof.
  unfold Qc_ltb. rewrite negb_true_iff. split.
  - intro H. apply Qcnot_le_lt. intro G. apply Qle_bool_iff in G. congruence.
  - intro H. destruct (Qle_bool b a) eqn:E; [|reflexivity]. apply Qle_bool_iff in E. now apply Qcle_not_lt in E.
Qed.

Lemma signs_Z z : signs (Qc_of_Z z) = charged z.
Proof.
  unfold signs, charged.
  assert (Qc_trunc (Qc_of_Z z) = z) as ->.
  { unfold Qc_trunc. rewrite Qc_num_of_Z, Qc_den_of_Z. apply Z.quot_1_r. }
  replace (Qc_ltb 0 (Qc_of_Z z)) with (0 <? z)%Z; [reflexivity|].
  apply eq_true_iff_eq. rewrite Z.ltb_lt, Qc_ltb_lt. unfold Qclt. rewrite this_of_Z. unfold Qlt. cbn. lia.
Qed.

(** * Dimensions *)

Lemma inb_in x l : inb x l = true <-> In x l.
Proof.
  unfold inb. rewrite existsb_exists. split.
  - intros (y & I & E). destruct (str_eqb_spec x y); [now subst|discriminate].
  - intro I. exists x. split; [assumption|]. apply str_eqb_refl.
Qed.

Lemma NoDup_both {A} (a b : list A) : NoDup a -> NoDup b -> (forall x, In x a -> ~ In x b) -> NoDup (a ++ b).
Proof.
  intros Na Nb D. induction Na as [|x a NI Na IH]; [assumption|]. cbn. constructor.
  - rewrite in_app_iff. intros [|]; [contradiction|]. apply (D x); [now left|assumption].
  - apply IH. intros y I. apply D. now right.
Qed.

Lemma resolve_append names given : exists l, resolve names given Append = Ok l
  /\ (forall d, In d l <-> In d given) /\ in_dataset_order names l
  /\ (NoDup names -> NoDup given -> NoDup l).
Proof.
  unfold resolve. set (ordered := filter (fun n => inb n given) names). set (extra := filter (fun n => negb (inb n ordered)) given).
  assert (forall d, In d ordered <-> In d names /\ In d given) as O by (intro d; unfold ordered; now rewrite filter_In, inb_in).
  assert (forall d, In d extra <-> In d given /\ ~ In d names) as X.
  { intro d. unfold extra. rewrite filter_In, negb_true_iff. destruct (inb d ordered) eqn:E.
    - apply inb_in, O in E. intuition congruence.
    - assert (~ In d ordered) as F by (intro G; apply inb_in in G; congruence). rewrite O in F. tauto. }
  exists (ordered ++ extra).
  assert (forall d, In d (ordered ++ extra) <-> In d given) as M.
  { intro d. rewrite in_app_iff, O, X. destruct (in_dec (list_eq_dec ascii_dec) d names); tauto. }
  split; [destruct extra; [now rewrite app_nil_r|reflexivity]|]. split; [exact M|]. split.
  - exists extra. split; [|intros d I; now apply X]. f_equal. unfold ordered. apply filter_ext_in. intros d I.
    apply eq_true_iff_eq. rewrite !inb_in. symmetry. apply M.
  - intros N1 N2. apply NoDup_both; [now apply NoDup_filter|now apply NoDup_filter|]. intros d I J. apply O in I. apply X in J. tauto.
Qed.

Section Gather.
Context (names : list str) (variables : str -> option (list str)) (functions : str -> option fn) (listing : list str -> list str).
Hypothesis L : forall l, Permutation l (listing l).

Notation gather := (gather names variables functions listing).
Notation below := (below variables functions).
Notation uses := (uses variables functions).

Lemma unique_in a r d x : In x (unique listing a r d) <-> In x d \/ (In x a /\ ~ In x r).
Proof.
  unfold unique. rewrite <- (Permutation_in' (eq_refl x) (L _)). rewrite nodup_In, in_app_iff, filter_In, negb_true_iff.
  destruct (inb x r) eqn:E.
  - apply inb_in in E. intuition congruence.
  - assert (~ In x r) by (intro H; apply inb_in in H; congruence). tauto.
Qed.
Lemma unique_NoDup a r d : NoDup (unique listing a r d).
Proof. unfold unique. eapply Permutation_NoDup; [apply L|]. apply NoDup_nodup. Qed.

Fixpoint gather_params (rec : fn -> gathering -> res (gathering * list str)) (l : list str) (g : gathering) : res gathering :=
  match l with
  | [] => Ok g
  | p :: l' =>
      match variables p with
      | Some dims => gather_params rec l' (mkGathering (g_removed g) (g_added g) (g_accumulated g ++ dims))
      | None =>
          match functions p with
          | Some f =>
              do r <- rec f (mkGathering (g_removed g ++ f_removed f) (g_added g ++ f_added f) (g_accumulated g));
              gather_params rec l' (mkGathering (g_removed (fst r)) (g_added (fst r)) (g_accumulated (fst r) ++ snd r))
          | None => gather_params rec l' g
          end
      end
  end.
Lemma gather_S fuel f g : gather (S fuel) f g =
  do g <- gather_params (gather fuel) (f_params f) g;
  do d <- resolve names (unique listing (g_accumulated g) (g_removed g) (g_added g)) Append;
  Ok (g, d).
Proof.
  cbn [EpremModel.gather]. f_equal. revert g. induction (f_params f) as [|p l IH]; intro g; [reflexivity|]. cbn [gather_params].
  destruct (variables p); [apply IH|]. destruct (functions p); [|apply IH].
  destruct (gather fuel _ _); [|reflexivity]. cbn [bind]. apply IH.
Qed.

Definition removed_below (f : fn) (d : str) : Prop := exists h, below f h /\ In d (f_removed h).
Definition added_below (f : fn) (d : str) : Prop := exists h, below f h /\ In d (f_added h).
Definition through (P : fn -> Prop) (l : list str) : Prop :=
  exists p h, In p l /\ variables p = None /\ functions p = Some h /\ P h.
Definition direct (l : list str) (d : str) : Prop := exists p dims, In p l /\ variables p = Some dims /\ In d dims.

Lemma through_cons P p l : through P (p :: l) <->
  (variables p = None /\ exists h, functions p = Some h /\ P h) \/ through P l.
Proof.
  unfold through. split.
  - intros (q & h & [->|I] & V & F & H); [left; eauto|right; eauto 6].
  - intros [(V & h & F & H)|(q & h & I & V & F & H)]; [exists p, h|exists q, h]; cbn; tauto.
Qed.
Lemma direct_cons p l d : direct (p :: l) d <-> (exists dims, variables p = Some dims /\ In d dims) \/ direct l d.
Proof.
  unfold direct. split.
  - intros (q & h & [->|I] & V & H); [left; eauto|right; eauto 6].
  - intros [(h & V & H)|(q & h & I & V & H)]; [exists p, h|exists q, h]; cbn; tauto.
Qed.
Lemma below_through f h : below f h <-> through (fun g => h = g \/ below g h) (f_params f).
Proof.
  split.
  - intros [p k I V F|p g k I V F B]; [exists p, k|exists p, g]; tauto.
  - intros (p & g & I & V & F & [->|B]); [now apply (below_param _ _ f p)|now apply (below_trans _ _ f p g)].
Qed.
Lemma removed_through f d : removed_below f d <-> through (fun h => In d (f_removed h) \/ removed_below h d) (f_params f).
Proof.
  unfold removed_below. split.
  - intros (h & B & I). apply below_through in B as (p & g & J & V & F & [->|B]); exists p, g; eauto 8.
  - intros (p & g & J & V & F & [I|(h & B & I)]); [exists g|exists h]; (split; [|assumption]); apply below_through; exists p, g; tauto.
Qed.
Lemma added_through f d : added_below f d <-> through (fun h => In d (f_added h) \/ added_below h d) (f_params f).
Proof.
  unfold added_below. split.
  - intros (h & B & I). apply below_through in B as (p & g & J & V & F & [->|B]); exists p, g; eauto 8.
  - intros (p & g & J & V & F & [I|(h & B & I)]); [exists g|exists h]; (split; [|assumption]); apply below_through; exists p, g; tauto.
Qed.
Lemma uses_through f d : uses f d <-> direct (f_params f) d \/ through (fun h => uses h d) (f_params f).
Proof.
  unfold EpremSpec.uses. split.
  - intros (g & p & dims & [->|B] & I & V & D); [left; exists p, dims; tauto|].
    apply below_through in B as (q & h & J & W & F & X). right. exists q, h. split; [assumption|]. split; [assumption|]. split; [assumption|].
    exists g, p, dims. tauto.
  - intros [(p & dims & I & V & D)|(q & h & J & W & F & g & p & dims & X & I & V & D)].
    + exists f, p, dims. tauto.
    + exists g, p, dims. split; [|tauto]. right. apply below_through. exists q, h. tauto.
Qed.

(** What gathering along [f] does to the state. *)
Definition gathered (R A U : str -> Prop) (g g' : gathering) : Prop :=
  (forall d, In d (g_removed g') <-> In d (g_removed g) \/ R d)
  /\ (forall d, In d (g_added g') <-> In d (g_added g) \/ A d)
  /\ (forall d, In d (g_accumulated g') -> In d (g_accumulated g) \/ U d \/ In d (g_added g'))
  /\ (forall d, In d (g_accumulated g) \/ U d -> In d (g_accumulated g')).

Lemma gather_params_ok fuel : (forall f g g' l, gather fuel f g = Ok (g', l) ->
    gathered (removed_below f) (added_below f) (uses f) g g'
    /\ forall d, In d l <-> In d (g_added g') \/ (In d (g_accumulated g') /\ ~ In d (g_removed g'))) ->
  forall ps g g', gather_params (gather fuel) ps g = Ok g' ->
  gathered (fun d => through (fun h => In d (f_removed h) \/ removed_below h d) ps)
           (fun d => through (fun h => In d (f_added h) \/ added_below h d) ps)
           (fun d => direct ps d \/ through (fun h => uses h d) ps) g g'.
Proof.
  intros IH ps. induction ps as [|p ps IHp]; intros g g' H; cbn [gather_params] in H.
  - injection H as <-. unfold gathered.
    assert (forall P, ~ through P []) as T by (intros P (p & h & [] & _)). assert (forall d, ~ direct [] d) as D by (intros d (p & h & [] & _)).
    split; [intro d; specialize (T (fun h => In d (f_removed h) \/ removed_below h d)); tauto|].
    split; [intro d; specialize (T (fun h => In d (f_added h) \/ added_below h d)); tauto|].
    split; intro d; specialize (T (fun h => uses h d)); specialize (D d); tauto.
  - destruct (variables p) as [dims|] eqn:V.
    + apply IHp in H as (H1 & H2 & H3 & H4). cbn [g_removed g_added g_accumulated] in *. unfold gathered.
      assert (forall P, through P (p :: ps) <-> through P ps) as T.
      { intro P. rewrite through_cons, V. split; [intros [[X _]|X]; [discriminate|assumption]|tauto]. }
      assert (forall d, direct (p :: ps) d <-> In d dims \/ direct ps d) as D.
      { intro d. rewrite direct_cons, V. split; [intros [(x & X & Y)|X]; [injection X as <-; tauto|tauto]|intros [X|X]; [left; eauto|tauto]]. }
      split; [intro d; now rewrite T, H1|]. split; [intro d; now rewrite T, H2|].
      split; intro d; specialize (H3 d); specialize (H4 d); rewrite T, D; rewrite in_app_iff in *; tauto.
    + destruct (functions p) as [f|] eqn:F.
      * destruct (gather fuel f _) as [[g1 l1]|] eqn:G; [|discriminate]. cbn [bind fst snd] in H.
        apply IH in G as ((G1 & G2 & G3 & G4) & G5). apply IHp in H as (H1 & H2 & H3 & H4).
        cbn [g_removed g_added g_accumulated] in *. unfold gathered.
        assert (forall P, through P (p :: ps) <-> P f \/ through P ps) as T.
        { intro P. rewrite through_cons, F. split; [intros [[_ (h & X & Y)]|X]; [injection X as <-; tauto|tauto]|intros [X|X]; [left; eauto|tauto]]. }
        assert (forall d, direct (p :: ps) d <-> direct ps d) as D.
        { intro d. rewrite direct_cons, V. split; [intros [(x & X & _)|X]; [discriminate|assumption]|tauto]. }
        split; [intro d; rewrite T, H1, G1, in_app_iff; tauto|]. split; [intro d; rewrite T, H2, G2, in_app_iff; tauto|].
        split; intro d; specialize (H3 d); specialize (H4 d); specialize (G3 d); specialize (G4 d); rewrite T, D; rewrite in_app_iff in *.
        -- rewrite G5 in H3. intro X. specialize (H3 X). rewrite H2. rewrite H2 in H3. tauto.
        -- tauto.
      * apply IHp in H as (H1 & H2 & H3 & H4). unfold gathered.
        assert (forall P, through P (p :: ps) <-> through P ps) as T.
        { intro P. rewrite through_cons, F. split; [intros [[_ (h & X & _)]|X]; [discriminate|assumption]|tauto]. }
        assert (forall d, direct (p :: ps) d <-> direct ps d) as D.
        { intro d. rewrite direct_cons, V. split; [intros [(x & X & _)|X]; [discriminate|assumption]|tauto]. }
        split; [intro d; now rewrite T, H1|]. split; [intro d; now rewrite T, H2|].
        split; intro d; specialize (H3 d); specialize (H4 d); rewrite T, D; tauto.
Qed.

Lemma gather_ok fuel : forall f g g' l, gather fuel f g = Ok (g', l) ->
  gathered (removed_below f) (added_below f) (uses f) g g'
  /\ forall d, In d l <-> In d (g_added g') \/ (In d (g_accumulated g') /\ ~ In d (g_removed g')).
Proof.
  induction fuel as [|fuel IH]; intros f g g' l H; [discriminate|]. rewrite gather_S in H.
  destruct (gather_params (gather fuel) (f_params f) g) as [g1|] eqn:G; [|discriminate]. cbn [bind] in H.
  destruct (resolve_append names (unique listing (g_accumulated g1) (g_removed g1) (g_added g1))) as (l1 & E & M & _).
  rewrite E in H. cbn [bind] in H. injection H as <- <-.
  apply (gather_params_ok fuel IH) in G as (G1 & G2 & G3 & G4). split.
  - unfold gathered. split; [intro d; now rewrite G1, removed_through|]. split; [intro d; now rewrite G2, added_through|].
    split; intro d; specialize (G3 d); specialize (G4 d); rewrite uses_through; assumption.
  - intro d. now rewrite M, unique_in.
Qed.

Lemma gather_order fuel f g g' l : gather fuel f g = Ok (g', l) -> in_dataset_order names l /\ (NoDup names -> NoDup l).
Proof.
  destruct fuel as [|fuel]; [discriminate|]. rewrite gather_S.
  destruct (gather_params (gather fuel) (f_params f) g) as [g1|]; [|discriminate]. cbn [bind].
  destruct (resolve_append names (unique listing (g_accumulated g1) (g_removed g1) (g_added g1))) as (l1 & E & M & O & N).
  rewrite E. cbn [bind]. intro H. injection H as <- <-. split; [assumption|]. intro D. apply N; [assumption|apply unique_NoDup].
Qed.

Lemma dimensions_members fuel key l : get_dimensions names variables functions listing fuel key = Ok l ->
  exists f, functions key = Some f
  /\ (forall d, In d l <->
        (In d (f_added f) \/ exists h, below f h /\ In d (f_added h))
        \/ (uses f d /\ ~ In d (f_removed f) /\ forall h, below f h -> ~ In d (f_removed h)))
  /\ in_dataset_order names l /\ (NoDup names -> NoDup l).
Proof.
  unfold get_dimensions. destruct (functions key) as [f|]; [|discriminate].
  destruct (gather fuel f _) as [[g' l']|] eqn:G; [|discriminate]. cbn [bind snd]. intro H. injection H as <-.
  exists f. split; [reflexivity|]. split; [|now apply gather_order in G].
  apply gather_ok in G as ((G1 & G2 & G3 & G4) & G5). cbn [g_removed g_added g_accumulated] in *.
  intro d. rewrite G5, G2. unfold added_below. split.
  - intros [H|[H H']]; [tauto|]. apply G3 in H as [[]|[H|H]]; [|left; now apply G2 in H].
    right. split; [assumption|]. rewrite G1 in H'. split; [tauto|]. intros h B I. apply H'. right. now exists h.
  - intros [H|(H & H1 & H2)]; [tauto|]. right. split; [apply G4; tauto|]. rewrite G1. intros [|(h & B & I)]; [tauto|]. now apply (H2 h B).
Qed.

(** ** Termination *)

Lemma gather_total rank : ranked variables functions rank -> forall fuel key f, functions key = Some f -> rank key < fuel ->
  forall g, exists r, gather fuel f g = Ok r.
Proof.
  intros K. induction fuel as [|fuel IH]; intros key f F Lt g; [lia|]. rewrite gather_S.
  assert (forall ps, incl ps (f_params f) -> forall g, exists g', gather_params (gather fuel) ps g = Ok g') as P.
  { induction ps as [|p ps IHp]; intros I g0; cbn [gather_params]; [eauto|].
    assert (incl ps (f_params f)) as I' by (intros x X; apply I; now right).
    destruct (variables p) as [dims|] eqn:V; [apply IHp; assumption|].
    destruct (functions p) as [h|] eqn:Fp; [|apply IHp; assumption].
    destruct (IH p h Fp) with (g := mkGathering (g_removed g0 ++ f_removed h) (g_added g0 ++ f_added h) (g_accumulated g0)) as [r E].
    { assert (rank p < rank key); [|lia]. apply (K key f p F); [apply I; now left|assumption|congruence]. }
    rewrite E. cbn [bind]. now apply IHp. }
  destruct (P (f_params f) (incl_refl _) g) as [g' E]. rewrite E. cbn [bind].
  destruct (resolve_append names (unique listing (g_accumulated g') (g_removed g') (g_added g'))) as (l & R & _). rewrite R. cbn [bind]. eauto.
Qed.

Lemma dimensions_total rank key f : ranked variables functions rank -> functions key = Some f ->
  forall fuel, rank key < fuel -> exists l, get_dimensions names variables functions listing fuel key = Ok l.
Proof.
  intros K F fuel Lt. unfold get_dimensions. rewrite F.
  destruct (gather_total rank K fuel key f F Lt (mkGathering (f_removed f) (f_added f) [])) as [r E]. rewrite E. cbn [bind]. eauto.
Qed.

(** ** Composition *)

Notation has_dimension := (has_dimension variables functions).

Lemma dimension_origin p d : has_dimension p d ->
  (exists dims, variables p = Some dims /\ In d dims)
  \/ (variables p = None /\ exists f, functions p = Some f /\ (In d (f_added f) \/ added_below f d \/ uses f d)).
Proof.
  induction 1 as [p dims d V I|p f d V F I|p f q d V F I H IH N].
  - left. eauto.
  - right. split; [assumption|]. exists f. tauto.
  - right. split; [assumption|]. exists f. split; [assumption|]. right.
    destruct IH as [(dims & Vq & J)|(Vq & h & Fq & J)].
    + right. apply uses_through. left. exists q, dims. tauto.
    + destruct J as [J|[J|J]].
      * left. exists h. split; [|assumption]. now apply (below_param _ _ f q).
      * left. destruct J as (k & B & J). exists k. split; [|assumption]. now apply (below_trans _ _ f q h).
      * right. apply uses_through. right. exists q, h. tauto.
Qed.

(** Along a path on which no function removes the dimension, it is kept. *)
Lemma kept_up p f h d : functions p = Some f -> variables p = None -> below f h -> ~ In d (f_removed f) ->
  (forall k, below f k -> ~ In d (f_removed k)) ->
  (forall q, functions q = Some h -> variables q = None -> has_dimension q d) -> has_dimension p d.
Proof.
  intros F V B. revert p F V. induction B as [f q h I Vq Fq|f q g h I Vq Fq B IH]; intros p F V N K H.
  - apply (of_dependency _ _ p f q); auto.
  - apply (of_dependency _ _ p f q); auto. apply IH; auto.
    + apply K. now apply (below_param _ _ f q).
    + intros k Bk. apply K. now apply (below_trans _ _ f q g).
Qed.

Lemma composed f : 
  (forall h d, below f h -> In d (f_removed h) -> forall p, In p (f_params f) -> ~ has_dimension p d) ->
  (forall g h d, g = f \/ below f g -> h = f \/ below f h -> In d (f_added g) -> ~ In d (f_removed h)) ->
  forall d, function_dimension variables functions f d <->
    (In d (f_added f) \/ exists h, below f h /\ In d (f_added h))
    \/ (uses f d /\ ~ In d (f_removed f) /\ forall h, below f h -> ~ In d (f_removed h)).
Proof.
  intros C1 C2 d. split.
  - intros [I|((q & I & H) & N)]; [tauto|]. destruct (dimension_origin q d H) as [(dims & Vq & J)|(Vq & h & Fq & J)].
    + right. split; [apply uses_through; left; exists q, dims; tauto|]. split; [assumption|]. intros k B X. now apply (C1 k d B X q).
    + destruct J as [J|[(k & B & J)|J]].
      * left. right. exists h. split; [|assumption]. now apply (below_param _ _ f q).
      * left. right. exists k. split; [|assumption]. now apply (below_trans _ _ f q h).
      * right. split; [apply uses_through; right; exists q, h; tauto|]. split; [assumption|]. intros k B X. now apply (C1 k d B X q).
  - intros [[I|(h & B & I)]|(U & N & K)].
    + now left.
    + right. assert (~ In d (f_removed f)) as Nf by (apply (C2 h f d); tauto).
      assert (forall k, below f k -> ~ In d (f_removed k)) as Kf by (intros k Bk; apply (C2 h k d); tauto).
      split; [|assumption]. inversion B as [p h' J V F|p g h' J V F Bg]; subst h'; exists p; (split; [assumption|]).
      * now apply (of_added _ _ p h).
      * apply (kept_up p g h d F V Bg).
        -- apply Kf. now apply (below_param _ _ f p).
        -- intros k Bk. apply Kf. now apply (below_trans _ _ f p g).
        -- intros q Fq Vq. now apply (of_added _ _ q h).
    + right. split; [|assumption]. apply uses_through in U as [(p & dims & I & V & D)|(p & h & I & V & F & U)].
      * exists p. split; [assumption|]. now apply (of_variable _ _ p dims).
      * exists p. split; [assumption|]. destruct U as (g & q & dims & G & Iq & Vq & D).
        assert (~ In d (f_removed h)) as Nh by (apply K; now apply (below_param _ _ f p)).
        destruct G as [->|B].
        -- apply (of_dependency _ _ p h q); auto. now apply (of_variable _ _ q dims).
        -- apply (kept_up p h g d F V B Nh).
           ++ intros k Bk. apply K. now apply (below_trans _ _ f p h).
           ++ intros r Fr Vr. apply (of_dependency _ _ r g q); auto.
              ** now apply (of_variable _ _ q dims).
              ** apply K. now apply (below_trans _ _ f p h).
Qed.
End Gather.
