(** Normalizing units keeps their dimensions. *)

From Coq Require Import String Ascii List Bool ZArith QArith Qcanon Lia.
From Verif Require Import Py PyFacts PyDict SymbolicModel SymbolicSpec SymbolicReduceProofs SymbolicParseProofs
  SymbolicChainProofs SymbolicExprProofs SymbolicLawProofs ParametersModel IterablesModel MetricTables MetricModel MetricTableProofs
  SystemModel SystemSpec SystemAlgebraProofs.
Import ListNotations.
Open Scope list_scope.
Open Scope nat_scope.

(** * Fuel *)

Lemma mapM_mono {A B} (f g : A -> res B) l r : (forall a b, f a = Ok b -> g a = Ok b) -> mapM f l = Ok r -> mapM g l = Ok r.
Proof.
  intro H. revert r. induction l as [|a l IH]; cbn [mapM]; intros r E; [exact E|].
  destruct (f a) as [b|] eqn:Fa; [|discriminate]. rewrite (H a b Fa). cbn [bind] in *.
  destruct (mapM f l) as [bs|]; [|discriminate]. rewrite (IH bs eq_refl). exact E.
Qed.
Lemma prop_get_S F qs dims q r : forall f, prop_get F qs dims f q = Ok r -> prop_get F qs dims (S f) q = Ok r.
Proof.
  intro f. revert q r. induction f as [|f IH]; [discriminate|].
  assert (forall s r,
    (do e <- expression_of_str F false (underscore qs s);
     do parts <- mapM (fun t =>
            do v <- prop_get F qs dims f (replace (lit "_") (lit " ") (base t));
            do a <- create F (S (length (fst v))) 1 (fst v) (expo t);
            do b <- create F (S (length (snd v))) 1 (snd v) (expo t);
            Ok (a, b)) e;
        do m <- expression_of_operands F (map fst parts);
        do c <- expression_of_operands F (map snd parts);
        Ok (expr_format F m, expr_format F c))%py = Ok r ->
    (do e <- expression_of_str F false (underscore qs s);
     do parts <- mapM (fun t =>
            do v <- prop_get F qs dims (S f) (replace (lit "_") (lit " ") (base t));
            do a <- create F (S (length (fst v))) 1 (fst v) (expo t);
            do b <- create F (S (length (snd v))) 1 (snd v) (expo t);
            Ok (a, b)) e;
        do m <- expression_of_operands F (map fst parts);
        do c <- expression_of_operands F (map snd parts);
        Ok (expr_format F m, expr_format F c))%py = Ok r) as P.
  { intros s r. destruct (expression_of_str F false (underscore qs s)) as [e|]; [|discriminate]. cbn [bind].
    destruct (mapM _ e) as [parts|] eqn:M; [|discriminate].
    erewrite mapM_mono; [intro H; exact H| |exact M].
    intros t o. cbn beta. destruct (prop_get F qs dims f _) as [v|] eqn:V; [|discriminate].
    rewrite (IH _ _ V). auto. }
  intros q r. change (prop_get F qs dims (S (S f)) q) with
    (match sd_get qs q with
     | Some (QDict d u) => Ok (if dims then d else u)
     | Some (QStr s) => (do e <- expression_of_str F false (underscore qs s);
     do parts <- mapM (fun t =>
            do v <- prop_get F qs dims (S f) (replace (lit "_") (lit " ") (base t));
            do a <- create F (S (length (fst v))) 1 (fst v) (expo t);
            do b <- create F (S (length (snd v))) 1 (snd v) (expo t);
            Ok (a, b)) e;
        do m <- expression_of_operands F (map fst parts);
        do c <- expression_of_operands F (map snd parts);
        Ok (expr_format F m, expr_format F c))%py
     | None => (do e <- expression_of_str F false (underscore qs q);
     do parts <- mapM (fun t =>
            do v <- prop_get F qs dims (S f) (replace (lit "_") (lit " ") (base t));
            do a <- create F (S (length (fst v))) 1 (fst v) (expo t);
            do b <- create F (S (length (snd v))) 1 (snd v) (expo t);
            Ok (a, b)) e;
        do m <- expression_of_operands F (map fst parts);
        do c <- expression_of_operands F (map snd parts);
        Ok (expr_format F m, expr_format F c))%py
     end).
  cbn [prop_get]. destruct (sd_get qs q) as [[d u|s]|]; intro H; [exact H|apply P; exact H|apply P; exact H].
Qed.
Lemma prop_get_mono F qs dims q r f g : f <= g -> prop_get F qs dims f q = Ok r -> prop_get F qs dims g q = Ok r.
Proof. induction 1 as [|g _ IH]; auto. intro H. apply prop_get_S. auto. Qed.

(** * The rows of the quantities that units measure *)

Record row : Type := mkRow { r_units : expression * expression; r_dims : expression * expression }.
Definition under (q : str) : str := replace (lit " ") (lit "_") q.
Definition get_ok (r : res expression) : expression := match r with Ok e => e | Err _ => [] end.
Definition measured : list str :=
  filter (fun q => negb (existsb (str_eqb q) photometric)) (nodup str_eq_dec (map b_quantity units)).
Definition row_of (q : str) : row :=
  let rd p := (get_ok (expression_of_str F64 false (fst p)), get_ok (expression_of_str F64 false (snd p))) in
  match sd_get the_canonical q with
  | Some (us, ds) => mkRow (rd us) (rd ds)
  | None => mkRow ([], []) ([], [])
  end.
Definition table : list (str * row) := Eval vm_compute in map (fun q => (q, row_of q)) measured.
Definition table' : list (str * row) := map (fun r => (under (fst r), snd r)) table.

(** ** Checks *)

Definition legal_b (b : str) : bool :=
  negb (str_eqb (firstn 4 b) (lit "sqrt")) && negb (match b with [] => true | _ => false end) && forallb is_letter b.
Definition term_b (t : term) : bool :=
  Qc_eqb (coef t) 1 && negb (Qc_eqb (expo t) 0)
  && ((Qc_den (expo t) =? 1)%positive || (Qc_den (expo t) =? 2)%positive)
  && (Z.abs (Qc_num (expo t)) <=? 4)%Z
  && (str_eqb (base t) (lit "1") || legal_b (base t)).
Definition reads_b (s : str) (x : expression) : bool :=
  match expression_of_str F64 false s with Ok y => terms_are y x | Err _ => false end.
Definition fine_b (x : expression) : bool :=
  forallb term_b x && negb (match x with [] => true | _ => false end)
  && match reduce x with Ok y => terms_are y x | Err _ => false end.
Definition row_of_unit (b : str) : option row :=
  match identified b with Some n => sd_get table (n_quantity n) | None => None end.
(** The unit [b] of the row belongs to the system and is its own unit. *)
Definition own_b (s : system) (t : term) : bool :=
  Qc_is_int (expo t) && (Z.abs (Qc_num (expo t)) <=? 2)%Z &&
  match identified (base t) with
  | Some n =>
      match is_allowed_in identified the_canonical n s with Ok b => b | Err _ => false end &&
      match sd_get table (n_quantity n) with
      | Some r => terms_are (pick s (r_units r)) [mkTerm 1 (base t) 1]
      | None => false
      end
  | None => false
  end.
Definition dims_b (s : system) (r : row) : bool :=
  match reduce (concat (map (fun t => match row_of_unit (base t) with
                                       | Some r' => power (Qc_num (expo t)) (pick s (r_dims r'))
                                       | None => []
                                       end) (pick s (r_units r)))) with
  | Ok y => terms_are y (pick s (r_dims r))
  | Err _ => false
  end.
Definition row_b (kv : str * row) : bool :=
  let '(q, r) := kv in
  legal_b (under q)
  && match sd_get the_canonical q with
     | Some (us, ds) =>
         forallb (fun s => reads_b (pick s us) (pick s (r_units r)) && reads_b (pick s ds) (pick s (r_dims r))) [Mks; Cgs]
     | None => false
     end
  && match prop_get F64 quantities false 6 (under q) with
     | Ok us => forallb (fun s => reads_b (pick s us) (pick s (r_units r))) [Mks; Cgs]
     | Err _ => false
     end
  && forallb (fun s => fine_b (pick s (r_units r)) && fine_b (pick s (r_dims r))
                       && forallb (own_b s) (pick s (r_units r)) && dims_b s r) [Mks; Cgs]
  && forallb (fun kv' => Bool.eqb (str_eqb (under (fst kv')) (under q)) (str_eqb (fst kv') q)) table.
Lemma rows_ok : forallb row_b table = true.
Proof. vm_compute. reflexivity. Qed.

(** ** Consequences *)

Lemma legal_b_ok b : legal_b b = true -> legal_base b /\ ~ starts_with (lit "sqrt") b.
Proof.
  unfold legal_b. intro H. apply andb_true_iff in H as [H L]. apply andb_true_iff in H as [S N].
  split.
  - exists b, []. rewrite app_nil_r. split; [reflexivity|]. split; [now destruct b|]. split; [|constructor].
    rewrite forallb_forall in L. apply Forall_forall. intros c I. apply is_letter_letter. now apply L.
  - apply negb_true_iff in S. now apply not_starts.
Qed.
Lemma term_b_ok t : term_b t = true -> wf t /\ plain t /\ halves 8 (expo t).
Proof.
  unfold term_b. intro H. repeat (apply andb_true_iff in H; destruct H as [H ?]).
  destruct (Qc_eqb_spec (coef t) 1) as [E|]; [|discriminate]. destruct (Qc_eqb_spec (expo t) 0) as [|Ne]; [discriminate|].
  assert (halves 8 (expo t)) as Hh.
  { apply Z.leb_le in H1. apply orb_true_iff in H2.
    assert (this (expo t) = Qc_num (expo t) # Qc_den (expo t)) as Et by (unfold Qc_num, Qc_den; now destruct (this (expo t))).
    destruct H2 as [D|D]; apply Pos.eqb_eq in D; rewrite D in Et.
    - exists (2 * Qc_num (expo t))%Z. split; [|lia]. apply Qc_is_canon. unfold Qcmult, Qc_of_Z. cbn [this Q2Qc].
      rewrite !Qred_correct, Et. unfold Qeq. cbn [Qnum Qden Qmult inject_Z]. lia.
    - exists (Qc_num (expo t))%Z. split; [|lia]. apply Qc_is_canon. unfold Qcmult, Qc_of_Z. cbn [this Q2Qc].
      rewrite !Qred_correct, Et. unfold Qeq. cbn [Qnum Qden Qmult inject_Z]. lia. }
  apply orb_true_iff in H0. assert (base t = lit "1" \/ (legal_base (base t) /\ ~ starts_with (lit "sqrt") (base t))) as B.
  { destruct H0 as [B|B]; [left; now destruct (str_eqb_spec (base t) (lit "1"))|right; now apply legal_b_ok]. }
  split; [|split].
  - split; [rewrite E; discriminate|]. split; [exact Ne|]. intros Eb. rewrite Eb in B. destruct B as [B|[(l & d & El & Nl & _) _]]; [discriminate|].
    symmetry in El. apply app_eq_nil in El as [-> _]. congruence.
  - split; [exact E|]. split; [now exists 8%Z|exact B].
  - exact Hh.
Qed.
Lemma fine_b_ok x : fine_b x = true -> fine x /\ Forall (fun t => halves 8 (expo t)) x.
Proof.
  unfold fine_b. intro H. apply andb_true_iff in H as [H R]. apply andb_true_iff in H as [H N].
  rewrite forallb_forall in H. destruct (reduce x) as [y|] eqn:E; [|discriminate]. apply terms_are_eq in R. subst y.
  assert (Forall wf x) as W by (apply Forall_forall; intros t I; apply term_b_ok; auto).
  split.
  - split; [eapply reduce_canonical; eauto|]. split; [exact W|]. apply Forall_forall. intros t I. apply term_b_ok; auto.
  - apply Forall_forall. intros t I. apply term_b_ok; auto.
Qed.
Lemma reads_b_ok s x : reads_b s x = true -> expression_of_str F64 false s = Ok x.
Proof. unfold reads_b. destruct (expression_of_str _ _ s) as [y|]; [|discriminate]. intro H. apply terms_are_eq in H. now subst. Qed.

Lemma both {P : system -> Prop} (p : system -> bool) : (forall s, p s = true -> P s) -> forallb p [Mks; Cgs] = true -> forall s, P s.
Proof. intros H E s. apply H. rewrite forallb_forall in E. apply E. destruct s; simpl; auto. Qed.

(** What the check says of a row. *)
Record row_facts (q : str) (r : row) : Prop := mkFacts {
  f_legal : legal_base (under q) /\ ~ starts_with (lit "sqrt") (under q);
  f_text : exists us ds, sd_get the_canonical q = Some (us, ds)
      /\ forall s, expression_of_str F64 false (pick s us) = Ok (pick s (r_units r))
                   /\ expression_of_str F64 false (pick s ds) = Ok (pick s (r_dims r));
  f_prop : exists us, prop_get F64 quantities false 6 (under q) = Ok us
      /\ forall s, expression_of_str F64 false (pick s us) = Ok (pick s (r_units r));
  f_units : forall s, fine (pick s (r_units r)) /\ Forall (fun t => halves 8 (expo t)) (pick s (r_units r));
  f_dims : forall s, fine (pick s (r_dims r)) /\ Forall (fun t => halves 8 (expo t)) (pick s (r_dims r));
  f_own : forall s t, In t (pick s (r_units r)) -> own_b s t = true;
  f_same : forall s, dims_b s r = true;
  f_under : forall k v, In (k, v) table -> under k = under q -> k = q }.

Lemma row_fact q r : sd_get table q = Some r -> row_facts q r.
Proof.
  intro H. assert (row_b (q, r) = true) as R.
  { pose proof rows_ok as R. rewrite forallb_forall in R. apply R. apply (d_get_in str_eqb str_eqb_spec) in H. exact H. }
  unfold row_b in R. rewrite !andb_true_iff in R. destruct R as [[[[R H3] H2] H1] H0].
  destruct (sd_get the_canonical q) as [[us ds]|] eqn:E; [|discriminate].
  destruct (prop_get F64 quantities false 6 (under q)) as [us'|] eqn:E'; [|discriminate].
  assert (forall s, fine_b (pick s (r_units r)) && fine_b (pick s (r_dims r))
                       && forallb (own_b s) (pick s (r_units r)) && dims_b s r = true) as HF
    by (intro s; rewrite forallb_forall in H1; apply H1; destruct s; simpl; auto).
  constructor.
  - now apply legal_b_ok.
  - exists us, ds. split; [exact E|]. revert H3. apply both. intros s K. apply andb_true_iff in K as [K1 K2].
    split; now apply reads_b_ok.
  - exists us'. split; [exact E'|]. revert H2. apply both. intros s K. now apply reads_b_ok.
  - intro s. specialize (HF s). rewrite !andb_true_iff in HF. destruct HF as [[[A _] _] _]. exact (fine_b_ok _ A).
  - intro s. specialize (HF s). rewrite !andb_true_iff in HF. destruct HF as [[[_ A] _] _]. exact (fine_b_ok _ A).
  - intros s t I. specialize (HF s). rewrite !andb_true_iff in HF. destruct HF as [[_ H5] _].
    rewrite forallb_forall in H5. exact (H5 t I).
  - intros s. specialize (HF s). apply andb_true_iff in HF as [_ HF]. exact HF.
  - intros k v I Eu. rewrite forallb_forall in H0. apply H0 in I. cbn [fst] in I. rewrite Eu, str_eqb_refl in I.
    apply Bool.eqb_prop in I. symmetry in I. now destruct (str_eqb_spec k q).
Qed.

Lemma row_one : exists r, row_of_unit (lit "1") = Some r /\ forall s, pick s (r_dims r) = [mkTerm 1 (lit "1") 1].
Proof.
  assert (match row_of_unit (lit "1") with
          | Some r => terms_are (fst (r_dims r)) [mkTerm 1 (lit "1") 1] && terms_are (snd (r_dims r)) [mkTerm 1 (lit "1") 1]
          | None => false end = true) as H by (vm_compute; reflexivity).
  destruct (row_of_unit (lit "1")) as [r|]; [|discriminate]. exists r. split; [reflexivity|].
  apply andb_true_iff in H as [A B]. apply terms_are_eq in A. apply terms_are_eq in B. intros []; assumption.
Qed.
Lemma table'_one : sd_get table' (lit "1") = None.
Proof. vm_compute. reflexivity. Qed.
(** Reading '1' and nothing. *)
Lemma reads_nothing : expression_of_str F64 false [] = Ok [mkTerm 1 (lit "1") 1] /\
  expression_of_str F64 false (lit "1") = Ok [mkTerm 1 (lit "1") 1].
Proof. split; apply computes; vm_compute; reflexivity. Qed.
Lemma fine_one : fine [mkTerm 1 (lit "1") 1].
Proof.
  split; [exact canonical_one|]. split; [constructor; [exact wf_one|constructor]|constructor; [exact plain_one|constructor]].
Qed.

Local Opaque table table' the_canonical identified quantities.

(** A factor of a product of units. *)
Definition has_row (t : term) : Prop :=
  exists n r k, identified (base t) = Some n /\ sd_get table (n_quantity n) = Some r
    /\ expo t = Qc_of_Z k /\ k <> 0%Z /\ (Z.abs k <= 2 ^ 48)%Z.
Definition allowed (s : system) (t : term) : Prop :=
  exists n, identified (base t) = Some n /\ is_allowed_in identified the_canonical n s = Ok true.

Definition dexp (s : system) (c b : str) : Qc :=
  match row_of_unit b with Some r => total_expo c (pick s (r_dims r)) | None => 0%Qc end.
Lemma dexp_one s c : c <> lit "1" -> dexp s c (lit "1") = 0%Qc.
Proof.
  intro N. unfold dexp. destruct row_one as (r & -> & ->). rewrite total_expo_cons. cbn [base]. rewrite str_eqb_neq by auto.
  rewrite total_expo_nil. reflexivity.
Qed.

(** ** Dimensions *)

Lemma defined_ok n r : sd_get table (n_quantity n) = Some r -> forall s, exists b, is_defined_in identified the_canonical n s = Ok b.
Proof.
  intros H s. destruct (row_fact _ _ H) as [_ (us & ds & E & _) _ _ _ _ _ _].
  unfold is_defined_in, is_fundamental_in, canonical_unit. rewrite E. cbn [bind]. destruct (_ || _); eauto.
Qed.

Lemma dimension_step n r s : sd_get table (n_quantity n) = Some r -> is_allowed_in identified the_canonical n s = Ok true ->
  exists m c d, is_allowed_in identified the_canonical n Mks = Ok m /\ is_allowed_in identified the_canonical n Cgs = Ok c
    /\ dimensions F64 identified the_canonical n = Ok d /\ pick s (m, c) = true
    /\ pick (if m && c then s else if m then Mks else Cgs) d = pick s (r_dims r).
Proof.
  intros H A. destruct (defined_ok n r H Mks) as [m M], (defined_ok n r H Cgs) as [c C].
  destruct (row_fact _ _ H) as [_ (us & ds & E & Hd) _ _ _ _ _ _].
  unfold is_allowed_in in *. rewrite M, C in *. cbn [bind] in *. injection A as A.
  unfold dimensions. rewrite M, C. cbn [bind]. unfold dimension_strings. rewrite E. cbn [bind].
  destruct (Hd Mks) as [_ D1], (Hd Cgs) as [_ D2]. cbn [pick] in D1, D2. destruct reads_nothing as [R0 _].
  exists (if m || c then m else true), (if m || c then c else true). destruct m, c; cbn [Bool.eqb orb fst snd] in *; rewrite ?D1, ?D2, ?R0; cbn [bind];
    eexists; (split; [reflexivity|]); (split; [reflexivity|]); (split; [reflexivity|]); destruct s; cbn [pick fst snd andb] in *;
      try discriminate A; repeat split.
Qed.

Lemma dimension_go_ok s x : Forall has_row x -> Forall (allowed s) x -> forall acc ok, fine acc ->
  exists d, dimension_go F64 identified the_canonical s acc ok x = Ok (d, ok || negb (match x with [] => true | _ => false end))
    /\ fine d /\ forall c, c <> lit "1" -> total_expo c d = (total_expo c acc + lin (dexp s c) x)%Qc.
Proof.
  intros Hx Ax. induction Hx as [|t x (n & r & k & En & Er & Ek & Nk & Lk) _ IH]; intros acc ok Fa.
  - exists acc. cbn [dimension_go negb]. rewrite orb_false_r. split; [reflexivity|]. split; [exact Fa|].
    intros c _. rewrite lin_nil. ring.
  - inversion Ax as [|? ? (n' & En' & A) Ax']; subst. rewrite En in En'. injection En' as <-.
    destruct (dimension_step n r s Er A) as (m & c & d & Em & Ec & Ed & Es & Ep).
    cbn [dimension_go]. rewrite En, Em, Ec. cbn [bind]. rewrite Ed. cbn [bind]. rewrite Ep, Ek.
    destruct (f_dims _ _ (row_fact _ _ Er) s) as [Fd Hd].
    destruct (pow_fine (pick s (r_dims r)) k 8 Fd Nk Hd ltac:(lia)) as (p & Ep' & Fp & Sp).
    rewrite Ep'. cbn [bind]. destruct (mul_fine acc p Fa Fp) as (a & Ea & Faa & Sa). rewrite Ea. cbn [bind].
    rewrite Es, orb_true_r. destruct (IH Ax' a true Faa) as (e & Ee & Fe & Te).
    exists e. split; [|split; [exact Fe|]].
    + rewrite Ee. now rewrite orb_true_r.
    + intros b Hb. rewrite (Te b Hb), lin_cons. destruct Sa as [_ Sa]. rewrite (Sa b Hb), total_expo_app.
      destruct Sp as [_ Sp]. rewrite (Sp b Hb), total_expo_power. unfold dexp at 2, row_of_unit. rewrite En, Er, Ek. ring.
Qed.

Lemma dimension_of_ok s x : Forall has_row x -> Forall (allowed s) x -> x <> [] ->
  exists d, m_dimension_of s x = Ok d /\ fine d /\ forall c, c <> lit "1" -> total_expo c d = lin (dexp s c) x.
Proof.
  intros Hx Ax N. unfold m_dimension_of, dimension_of. destruct reads_nothing as [_ ->]. cbn [bind].
  destruct (dimension_go_ok s x Hx Ax _ false fine_one) as (d & -> & Fd & Td). cbn [bind snd fst].
  destruct x as [|t x]; [congruence|]. cbn [negb orb]. exists d. split; [reflexivity|]. split; [exact Fd|].
  intros c Hc. rewrite (Td c Hc), total_expo_cons. cbn [base]. rewrite str_eqb_neq by auto. rewrite total_expo_nil. ring.
Qed.

(** ** Quantities *)

Definition uq (b : str) : str := match identified b with Some n => under (n_quantity n) | None => [] end.
Definition qterms (x : list term) : list term := map (fun t => mkTerm 1 (uq (base t)) (expo t)) x.

Lemma one_not_zero : 1%Qc <> 0%Qc.
Proof. discriminate. Qed.
Lemma legal_not_one b : legal_base b -> b <> lit "1".
Proof.
  intros (l & d & E & N & L & _) ->. destruct l as [|c l]; [congruence|]. cbn in E. injection E as <- _.
  inversion L as [|? ? H _]; subst. destruct H as [[H _]|[[H _]|[H|H]]]; cbn in H; try discriminate; lia.
Qed.
Lemma legal_not_nil b : legal_base b -> b <> [].
Proof. intros (l & d & E & N & _) ->. symmetry in E. apply app_eq_nil in E as [-> _]. congruence. Qed.

Lemma has_row_q t : has_row t -> legal_base (uq (base t)) /\ ~ starts_with (lit "sqrt") (uq (base t)).
Proof.
  intros (n & r & k & En & Er & _). unfold uq. rewrite En. exact (f_legal _ _ (row_fact _ _ Er)).
Qed.
Lemma qterms_ok x : Forall has_row x -> Forall wf (qterms x) /\ Forall plain (qterms x) /\ Forall (fun t => base t <> lit "1") (qterms x).
Proof.
  intro H. rewrite !Forall_forall in *. split; [|split]; intros t I; unfold qterms in I; apply in_map_iff in I as (u & <- & I);
    destruct (has_row_q u (H u I)) as [L S]; destruct (H u I) as (n & r & k & En & Er & Ek & Nk & _).
  - split; [discriminate|]. cbn [expo base]. split; [rewrite Ek; now apply Qc_of_Z_neq_0|]. now apply legal_not_nil.
  - split; [reflexivity|]. cbn [expo base]. split; [exists (2 * Z.abs k)%Z; rewrite Ek; apply halves_Z|]. auto.
  - cbn [base]. now apply legal_not_one.
Qed.

Lemma unit_quantity_ok x : Forall has_row x -> x <> [] ->
  exists z, m_quantity x = Ok z /\ fine z /\ same_monomial z (qterms x).
Proof.
  intros H N. unfold m_quantity, unit_quantity.
  assert (mapM (fun t => match identified (base t) with
      | None => Err UnitParsingError
      | Some n => term_pow F64 (init 1 (replace (lit " ") (lit "_") (n_quantity n)) 1) (expo t)
      end) x = Ok (qterms x)) as ->.
  { clear N. induction H as [|t x Ht _ IH]; [reflexivity|]. cbn [mapM qterms map]. fold (qterms x). rewrite IH.
    destruct (has_row_q t Ht) as [L _]. destruct Ht as (n & r & k & En & Er & Ek & Nk & _).
    unfold uq in *. rewrite En in *. fold (under (n_quantity n)).
    rewrite init_id by (first [exact one_not_zero | now apply legal_not_nil]).
    rewrite Ek, term_pow_int; [|split; [discriminate|]; split; [discriminate|]; now apply legal_not_nil|exact Nk].
    cbn [bind]. unfold raise_t. cbn [coef base expo]. rewrite Qc_zpow_1_l. do 3 f_equal. ring. }
  cbn [bind]. destruct (qterms_ok x H) as (W & P & B). apply terms_fine; auto.
  unfold qterms. intro E. apply map_eq_nil in E. auto.
Qed.

(** ** The terms of fine expressions *)

Lemma fine_parts z : fine z -> (z = [mkTerm 1 (lit "1") 1]) \/ (Forall (fun t => base t <> lit "1") z /\ NoDup (map base z)).
Proof.
  intros (C & _ & P). destruct (canonical_parts z C) as (vs & Hv & Nv & _ & Ez & _).
  rewrite (total_coef_plain z P), Qc_eqb_refl in Ez. destruct vs as [|v vs]; [now left|]. right. subst z. split; [|exact Nv].
  rewrite Forall_forall in *. intros t I. now apply Hv.
Qed.
Lemma fine_term z t : fine z -> In t z -> base t <> lit "1" -> expo t = total_expo (base t) z /\ expo t <> 0%Qc.
Proof.
  intros Fz I B. split.
  - destruct (fine_parts z Fz) as [->|[_ N]]; [destruct I as [<-|[]]; now contradiction B|]. symmetry. now apply total_expo_In.
  - destruct Fz as (_ & W & _). rewrite Forall_forall in W. now apply W.
Qed.
Lemma fine_total z c : fine z -> total_expo c z = 0%Qc \/ exists t, In t z /\ base t = c /\ expo t = total_expo c z.
Proof.
  intros Fz. destruct (in_dec str_eq_dec c (map base z)) as [I|I].
  - apply in_map_iff in I as (t & E & I). right. exists t. split; [exact I|]. split; [exact E|].
    destruct (fine_parts z Fz) as [->|[_ N]].
    + destruct I as [<-|[]]. cbn [base] in E. subst c. reflexivity.
    + subst c. symmetry. now apply total_expo_In.
  - left. apply total_expo_zero. intros u J E. apply I. apply in_map_iff. eauto.
Qed.
Lemma lin_nonzero g z : lin g z <> 0%Qc -> exists t, In t z /\ g (base t) <> 0%Qc.
Proof.
  induction z as [|t z IH]; [intro H; now contradiction H|]. rewrite lin_cons. intro H.
  destruct (Qc_eqb_spec (g (base t)) 0) as [E|E].
  - destruct IH as (u & I & Hu); [intro L; apply H; rewrite E, L; ring|]. exists u. split; [now right|exact Hu].
  - exists t. split; [now left|exact E].
Qed.

(** ** Norms *)

Definition uexp (s : system) (c b : str) : Qc :=
  match sd_get table' b with Some r => total_expo c (pick s (r_units r)) | None => 0%Qc end.
Lemma find_under q r (l : list (str * row)) : (forall k v, In (k, v) l -> under k = under q -> k = q) ->
  sd_get l q = Some r -> sd_get (map (fun r => (under (fst r), snd r)) l) (under q) = Some r.
Proof.
  induction l as [|[k v] l IH]; [discriminate|]. intros U. cbn [map fst snd]. cbn [d_get].
  destruct (str_eqb_spec q k) as [->|N].
  - now rewrite str_eqb_refl.
  - destruct (str_eqb_spec (under q) (under k)) as [E|_].
    + exfalso. apply N. symmetry. apply (U k v); [now left|congruence].
    + apply IH. intros. eapply U; [right; eassumption|assumption].
Qed.
Lemma table'_row q r : sd_get table q = Some r -> sd_get table' (under q) = Some r.
Proof.
  intro H. exact (find_under q r table (f_under _ _ (row_fact _ _ H)) H).
Qed.

Definition quantity_terms (z : list term) : Prop :=
  Forall (fun t => exists q r k, base t = under q /\ sd_get table q = Some r /\ expo t = Qc_of_Z k /\ k <> 0%Z /\ (Z.abs k <= 2 ^ 48)%Z) z.

Lemma norm_in_ok limit s z : 6 <= limit -> fine z -> quantity_terms z ->
  exists y, norm_in F64 quantities limit s z = Ok y /\ fine y /\ forall c, c <> lit "1" -> total_expo c y = lin (uexp s c) z.
Proof.
  intros L Fz Q. unfold norm_in.
  assert (exists l, mapM (fun t =>
      do u <- prop_get F64 quantities false limit (base t);
      do e <- expression_of_str F64 false (pick s u);
      expr_pow F64 e (expo t))%py z = Ok l /\ Forall fine l /\ length l = length z
      /\ forall c, c <> lit "1" -> total_expo c (concat l) = lin (uexp s c) z) as (l & El & Fl & Ln & Tl).
  { clear Fz. induction Q as [|t z (q & r & k & Eb & Er & Ek & Nk & Lk) _ (l & El & Fl & Ln & Tl)].
    - exists []. split; [reflexivity|]. split; [constructor|]. split; [reflexivity|]. intros. reflexivity.
    - destruct (f_prop _ _ (row_fact _ _ Er)) as (us & Eu & Hu). destruct (f_units _ _ (row_fact _ _ Er) s) as [Fu Hh].
      destruct (pow_fine (pick s (r_units r)) k 8 Fu Nk Hh ltac:(lia)) as (p & Ep & Fp & Sp).
      exists (p :: l). cbn [mapM]. rewrite Eb, (prop_get_mono _ _ _ _ _ 6 limit L Eu). cbn [bind]. rewrite Hu. cbn [bind].
      rewrite Ek, Ep. cbn [bind]. rewrite El. cbn [bind]. split; [reflexivity|]. split; [now constructor|].
      split; [cbn; now rewrite Ln|]. intros c Hc. cbn [concat]. rewrite total_expo_app, lin_cons, (Tl c Hc).
      destruct Sp as [_ Sp]. rewrite (Sp c Hc), total_expo_power, Eb, Ek. unfold uexp at 2. rewrite (table'_row q r Er). ring. }
  rewrite El. cbn [bind]. destruct (parts_fine l Fl) as (y & Ey & Fy & Sy).
  { intros ->. apply (fine_nonempty z Fz). destruct z; [reflexivity|discriminate]. }
  exists y. split; [exact Ey|]. split; [exact Fy|]. intros c Hc. destruct Sy as [_ Sy]. now rewrite (Sy c Hc), Tl.
Qed.

Lemma has_row_int x : Forall has_row x -> Forall (fun t => exists n, expo t = Qc_of_Z n) x.
Proof. intro H. rewrite Forall_forall in *. intros t I. destruct (H t I) as (n & r & k & _ & _ & E & _). eauto. Qed.
Lemma size_qterms x : size (qterms x) = size x.
Proof. induction x as [|t x IH]; [reflexivity|]. cbn [qterms map size fold_right expo]. fold (qterms x) (size (qterms x)) (size x). now rewrite IH. Qed.
Lemma lin_qterms g x : lin g (qterms x) = lin (fun b => g (uq b)) x.
Proof. induction x as [|t x IH]; [reflexivity|]. cbn [qterms map]. fold (qterms x). rewrite !lin_cons, IH. reflexivity. Qed.

Lemma whole_nonzero q B : whole B q -> q <> 0%Qc -> exists k, q = Qc_of_Z k /\ k <> 0%Z /\ (Z.abs k <= B)%Z.
Proof. intros (k & E & L) N. exists k. split; [exact E|]. split; [|exact L]. intros ->. apply N. rewrite E. reflexivity. Qed.

Lemma qterms_whole x c : Forall has_row x -> whole (size x) (total_expo c (qterms x)).
Proof.
  intro H. rewrite total_lin. replace (size x) with (1 * size (qterms x))%Z by (rewrite size_qterms; lia). apply lin_whole; [lia| |].
  - unfold qterms. rewrite Forall_forall in *. intros u J. apply in_map_iff in J as (v & <- & J). cbn [expo].
    destruct (H v J) as (n & r & k & _ & _ & Ek & _). eauto.
  - intros u _. destruct (str_eqb _ _); [exists 1%Z|exists 0%Z]; split; try reflexivity; lia.
Qed.

Lemma quantity_terms_ok x z : Forall has_row x -> (forall c, whole (2 ^ 48) (total_expo c (qterms x))) -> fine z ->
  same_monomial z (qterms x) -> z <> [mkTerm 1 (lit "1") 1] -> quantity_terms z.
Proof.
  intros H L Fz [_ S] N1. destruct (fine_parts z Fz) as [E|[B _]]; [contradiction|].
  unfold quantity_terms. rewrite Forall_forall in *. intros t I. assert (base t <> lit "1") as Nb by now apply B.
  destruct (fine_term z t Fz I Nb) as [E N0]. rewrite (S _ Nb) in E.
  assert (whole (2 ^ 48) (expo t)) as Wt by (rewrite E; apply L).
  destruct (whole_nonzero _ _ Wt N0) as (k & Ek & Nk & Lk).
  destruct (in_dec str_eq_dec (base t) (map base (qterms x))) as [J|J].
  - apply in_map_iff in J as (u & Eu & J). unfold qterms in J. apply in_map_iff in J as (v & <- & J). cbn [base] in Eu.
    destruct (H v J) as (n & r & _ & En & Er & _). unfold uq in Eu. rewrite En in Eu.
    exists (n_quantity n), r, k. split; [now symmetry|]. split; [exact Er|]. split; [exact Ek|]. split; [exact Nk|lia].
  - exfalso. apply N0. rewrite E. apply total_expo_zero. intros u K Eu. apply J. apply in_map_iff. eauto.
Qed.

(** The unit that the row of a unit prescribes. *)
Definition nexp (s : system) (c b : str) : Qc :=
  match row_of_unit b with Some r => total_expo c (pick s (r_units r)) | None => 0%Qc end.
Lemma uexp_uq s c t : has_row t -> uexp s c (uq (base t)) = nexp s c (base t).
Proof.
  intros (n & r & _ & En & Er & _). unfold uexp, nexp, uq, row_of_unit. rewrite En, Er. now rewrite (table'_row _ _ Er).
Qed.
Lemma uexp_one s c : uexp s c (lit "1") = 0%Qc.
Proof. unfold uexp. now rewrite table'_one. Qed.

Lemma unit_whole r q s c : sd_get table q = Some r -> c <> lit "1" -> whole 2 (total_expo c (pick s (r_units r))).
Proof.
  intros Hr Hc. destruct (f_units _ _ (row_fact _ _ Hr) s) as [Fu _].
  destruct (fine_total _ c Fu) as [->|(t & I & _ & <-)]; [exists 0%Z; split; [reflexivity|lia]|].
  pose proof (f_own _ _ (row_fact _ _ Hr) s t I) as O. unfold own_b in O. rewrite !andb_true_iff in O.
  destruct O as [[O1 O2] _]. exists (Qc_num (expo t)). split; [|now apply Z.leb_le].
  unfold Qc_is_int in O1. apply Pos.eqb_eq in O1. apply Qc_is_canon. unfold Qc_of_Z. cbn [this Q2Qc]. rewrite Qred_correct.
  unfold Qc_num, Qc_den in *. destruct (this (expo t)) as [a b]. cbn [Qnum Qden] in *. subst b. reflexivity.
Qed.

(** The row of the unit 1. *)
Lemma one_own s : has_row (mkTerm 1 (lit "1") 1) /\ own_b s (mkTerm 1 (lit "1") 1) = true.
Proof.
  split.
  - assert (match identified (lit "1") with Some n => match sd_get table (n_quantity n) with Some _ => true | None => false end
            | None => false end = true) as H by (vm_compute; reflexivity).
    unfold has_row. cbn [base expo]. destruct (identified (lit "1")) as [n|]; [|discriminate].
    destruct (sd_get table (n_quantity n)) as [r|] eqn:E; [|discriminate]. exists n, r, 1%Z.
    repeat split; auto; lia.
  - destruct s; vm_compute; reflexivity.
Qed.

(** The quantity of the unit is not that of a pure number. *)
Definition remains (x : list term) : Prop := forall z, fine z -> same_monomial z (qterms x) -> z <> [mkTerm 1 (lit "1") 1].

Lemma norm_exists limit x : 6 <= limit -> Forall has_row x -> x <> [] -> (forall c, whole (2 ^ 48) (total_expo c (qterms x))) ->
  remains x -> exists r, m_norm limit x = Ok r
    /\ forall s, fine (pick s r) /\ forall c, c <> lit "1" -> total_expo c (pick s r) = lin (nexp s c) x.
Proof.
  intros L H N W R. unfold m_norm, norm. destruct (unit_quantity_ok x H N) as (z & Ez & Fz & Sz). fold m_quantity. rewrite Ez. cbn [bind].
  pose proof (quantity_terms_ok x z H W Fz Sz (R z Fz Sz)) as Q.
  destruct (norm_in_ok limit Mks z L Fz Q) as (ym & -> & Fm & Tm). cbn [bind].
  destruct (norm_in_ok limit Cgs z L Fz Q) as (yc & -> & Fc & Tc). cbn [bind].
  exists (ym, yc). split; [reflexivity|].
  assert (forall s c, c <> lit "1" -> lin (uexp s c) z = lin (nexp s c) x) as Tx.
  { intros s c Hc. destruct (qterms_ok x H) as (Wq & _ & _). rewrite (lin_same (uexp s c) z (qterms x)); auto.
    { rewrite lin_qterms. apply lin_ext. intros t I. rewrite Forall_forall in H. now apply uexp_uq, H. }
    all: first [apply uexp_one | now destruct Fz as (_ & Wz & _) | now apply fine_nonempty | destruct x; [congruence|discriminate]]. }
  intros []; cbn [pick fst snd]; (split; [assumption|]); intros c Hc; rewrite <- Tx by exact Hc; auto.
Qed.

(** The terms of a normalized unit. *)
Lemma norm_terms s x y : Forall has_row x -> (size x <= 2 ^ 40)%Z -> fine y ->
  (forall c, c <> lit "1" -> total_expo c y = lin (nexp s c) x) ->
  forall t, In t y -> has_row t /\ own_b s (mkTerm 1 (base t) 1) = true.
Proof.
  intros Hx L Fy Tx t I. destruct (str_eq_dec (base t) (lit "1")) as [E1|E1].
  - destruct (fine_parts y Fy) as [E|[B _]].
    + rewrite E in I. destruct I as [<-|[]]. apply one_own.
    + rewrite Forall_forall in B. now apply B in I.
  - destruct (fine_term y t Fy I E1) as [Et Nt]. rewrite (Tx _ E1) in Et.
    assert (exists u, In u x /\ nexp s (base t) (base u) <> 0%Qc) as (u & Iu & Hu) by (apply lin_nonzero; congruence).
    rewrite Forall_forall in Hx. destruct (Hx u Iu) as (n & r & ku & En & Er & _).
    unfold nexp, row_of_unit in Hu. rewrite En, Er in Hu.
    destruct (f_units _ _ (row_fact _ _ Er) s) as [Fu _].
    destruct (fine_total _ (base t) Fu) as [E0|(v & Iv & Ev & _)]; [contradiction|].
    pose proof (f_own _ _ (row_fact _ _ Er) s v Iv) as O.
    assert (whole (2 * size x) (expo t)) as Wt.
    { rewrite Et. apply lin_whole; [lia|apply has_row_int; now apply Forall_forall|]. intros w Iw. unfold nexp, row_of_unit.
      destruct (Hx w Iw) as (n' & r' & _ & En' & Er' & _). rewrite En', Er'. exact (unit_whole _ _ _ _ Er' E1). }
    destruct (whole_nonzero _ _ Wt Nt) as (k & Ek & Nk & Lk).
    unfold own_b in O |- *. cbn [base expo]. rewrite Ev in O. destruct (identified (base t)) as [m|] eqn:Em; [|now rewrite andb_false_r in O].
    rewrite !andb_true_iff in O. destruct O as [_ [O1 O2]]. destruct (sd_get table (n_quantity m)) as [r'|] eqn:Er'; [|discriminate].
    split.
    + exists m, r', k. repeat split; auto. lia.
    + rewrite !andb_true_iff. repeat split; auto.
Qed.

(** A linear function of the normalized unit. *)
Definition spread (s : system) (t : term) : list term :=
  match row_of_unit (base t) with Some r => power (Qc_num (expo t)) (pick s (r_units r)) | None => [] end.
Definition lin_of (g : str -> Qc) (s : system) (b : str) : Qc :=
  match row_of_unit b with Some r => lin g (pick s (r_units r)) | None => 0%Qc end.

Lemma spread_ok s x : Forall has_row x -> Forall wf (concat (map (spread s) x)) /\ Forall plain (concat (map (spread s) x))
  /\ (x <> [] -> concat (map (spread s) x) <> [])
  /\ forall g, lin g (concat (map (spread s) x)) = lin (lin_of g s) x.
Proof.
  intro H. induction H as [|t x (n & r & k & En & Er & Ek & Nk & _) _ (IH1 & IH2 & _ & IH4)].
  - repeat split; try constructor; congruence.
  - cbn [map concat]. assert (spread s t = power k (pick s (r_units r))) as ->.
    { unfold spread, row_of_unit. now rewrite En, Er, Ek, Qc_num_of_Z. }
    destruct (f_units _ _ (row_fact _ _ Er) s) as [Fu _]. assert (Nu := fine_nonempty _ Fu). destruct Fu as (_ & Wu & Pu).
    repeat split.
    + apply Forall_app. split; [now apply wf_power|exact IH1].
    + apply Forall_app. split; [now apply plain_power|exact IH2].
    + intros _ E. apply app_eq_nil in E as [E _]. apply map_eq_nil in E. auto.
    + intro g. rewrite lin_app, lin_cons, IH4, lin_power, Ek. unfold lin_of at 2, row_of_unit. rewrite En, Er. ring.
Qed.

Lemma norm_lin s x y : Forall has_row x -> x <> [] -> fine y -> (forall c, c <> lit "1" -> total_expo c y = lin (nexp s c) x) ->
  forall g, g (lit "1") = 0%Qc -> lin g y = lin (lin_of g s) x.
Proof.
  intros H N Fy T g G. destruct (spread_ok s x H) as (W & P & Ns & Ls). rewrite <- Ls.
  assert (Ny := fine_nonempty _ Fy). destruct Fy as (_ & Wy & Py).
  apply lin_same; auto. split; [now rewrite !total_coef_plain|]. intros c Hc. rewrite (T c Hc), (total_lin c (concat _)), Ls.
  apply lin_ext. intros t I. unfold nexp, lin_of. destruct (row_of_unit (base t)); [apply total_lin|reflexivity].
Qed.

(** Dimensions of the units in the table. *)
Lemma own_row s t : own_b s t = true -> exists n r, identified (base t) = Some n /\ sd_get table (n_quantity n) = Some r
  /\ is_allowed_in identified the_canonical n s = Ok true /\ pick s (r_units r) = [mkTerm 1 (base t) 1].
Proof.
  intro O. unfold own_b in O. destruct (identified (base t)) as [n|]; [|now rewrite andb_false_r in O].
  rewrite !andb_true_iff in O. destruct O as [_ [O1 O2]]. destruct (sd_get table (n_quantity n)) as [r|] eqn:Er; [|discriminate].
  exists n, r. split; [reflexivity|]. split; [exact Er|]. split.
  - destruct (is_allowed_in _ _ n s) as [[|]|]; congruence.
  - now apply terms_are_eq.
Qed.

Lemma unit_int q r s t : sd_get table q = Some r -> In t (pick s (r_units r)) -> exists n, expo t = Qc_of_Z n.
Proof.
  intros Er I. pose proof (f_own _ _ (row_fact _ _ Er) s t I) as O. unfold own_b in O. rewrite !andb_true_iff in O. destruct O as [[O _] _].
  exists (Qc_num (expo t)). unfold Qc_is_int in O. apply Pos.eqb_eq in O. apply Qc_is_canon. unfold Qc_of_Z. cbn [this Q2Qc]. rewrite Qred_correct.
  unfold Qc_num, Qc_den in *. destruct (this (expo t)) as [a b]. cbn [Qnum Qden] in *. subst b. reflexivity.
Qed.

Lemma unit_dimension q r s c : sd_get table q = Some r -> c <> lit "1" ->
  lin (dexp s c) (pick s (r_units r)) = total_expo c (pick s (r_dims r)).
Proof.
  intros Er Hc. pose proof (f_same _ _ (row_fact _ _ Er) s) as D. unfold dims_b in D.
  destruct (reduce _) as [y|] eqn:Ey in D; [|discriminate]. apply terms_are_eq in D. subst y.
  apply reduce_same in Ey as [_ S].
  2: { apply Forall_forall. intros u I. apply in_concat in I as (l & I & J). apply in_map_iff in I as (t & <- & I).
       unfold row_of_unit in J. destruct (identified (base t)) as [n|]; [|destruct J].
       destruct (sd_get table (n_quantity n)) as [r'|] eqn:Er'; [|destruct J].
       destruct (f_dims _ _ (row_fact _ _ Er') s) as [(_ & Wd & _) _].
       assert (Forall wf (power (Qc_num (expo t)) (pick s (r_dims r')))) as W.
       { apply wf_power; [|exact Wd]. destruct (f_units _ _ (row_fact _ _ Er) s) as [(_ & Wu & _) _].
         rewrite Forall_forall in Wu. destruct (Wu t I) as (_ & Nt & _). destruct (unit_int _ _ _ _ Er I) as (k & Ek).
         rewrite Ek, Qc_num_of_Z. intros ->. apply Nt. rewrite Ek. reflexivity. }
       rewrite Forall_forall in W. auto. }
  rewrite (S c Hc), total_lin. symmetry. apply lin_concat. intros t I.
  pose proof (f_own _ _ (row_fact _ _ Er) s t I) as O. unfold own_b in O. rewrite !andb_true_iff in O. destruct O as [[O _] _].
  unfold dexp. destruct (row_of_unit (base t)) as [r'|]; [|rewrite lin_nil; ring].
  rewrite lin_power, <- total_lin.
  replace (Qc_of_Z (Qc_num (expo t))) with (expo t); [ring|].
  unfold Qc_is_int in O. apply Pos.eqb_eq in O. apply Qc_is_canon. unfold Qc_of_Z. cbn [this Q2Qc]. rewrite Qred_correct.
  unfold Qc_num, Qc_den in *. destruct (this (expo t)) as [a b]. cbn [Qnum Qden] in *. subst b. reflexivity.
Qed.

Lemma norm_dimension s x y : Forall has_row x -> x <> [] -> (size x <= 2 ^ 40)%Z -> Forall (allowed s) x -> fine y ->
  (forall c, c <> lit "1" -> total_expo c y = lin (nexp s c) x) -> exists d, m_dimension_of s y = Ok d /\ m_dimension_of s x = Ok d.
Proof.
  intros H N L A Fy T. pose proof (norm_terms s x y H L Fy T) as B.
  destruct (dimension_of_ok s x H A N) as (d & Ed & Fd & Td).
  destruct (dimension_of_ok s y) as (d' & Ed' & Fd' & Td').
  - apply Forall_forall. intros t I. now apply B.
  - apply Forall_forall. intros t I. destruct (B t I) as [_ O]. apply own_row in O as (n & r & En & _ & Ea & _). exists n. auto.
  - now apply fine_nonempty.
  - exists d. split; [|exact Ed]. rewrite Ed'. f_equal. apply fine_unique; auto. intros c Hc.
    rewrite (Td c Hc), (Td' c Hc), (norm_lin s x y H N Fy T) by now apply dexp_one.
    apply lin_ext. intros t I. rewrite Forall_forall in H. destruct (H t I) as (n & r & _ & En & Er & _).
    unfold lin_of, row_of_unit. rewrite En, Er, (unit_dimension _ r s c Er Hc). unfold dexp, row_of_unit. now rewrite En, Er.
Qed.

(** Normalizing a normalized unit. *)
Definition size_ok : bool := forallb (fun kv => ((size (fst (r_units (snd kv))) <=? 8) && (size (snd (r_units (snd kv))) <=? 8))%Z) table.
Lemma sizes_ok : size_ok = true.
Proof. vm_compute. reflexivity. Qed.
Lemma size_row q r s : sd_get table q = Some r -> (size (pick s (r_units r)) <= 8)%Z.
Proof.
  intro Er. pose proof sizes_ok as S. unfold size_ok in S. rewrite forallb_forall in S.
  apply (d_get_in str_eqb str_eqb_spec) in Er. apply S in Er. cbn [snd] in Er. rewrite andb_true_iff, !Z.leb_le in Er.
  destruct s; cbn [pick]; apply Er.
Qed.
Lemma whole_le A B q : (A <= B)%Z -> whole A q -> whole B q.
Proof. intros L (n & E & H). exists n. split; [exact E|lia]. Qed.
Lemma norm_again limit s x y : 6 <= limit -> Forall has_row x -> x <> [] -> (size x <= 2 ^ 40)%Z -> fine y ->
  (forall c, c <> lit "1" -> total_expo c y = lin (nexp s c) x) -> exists r, m_norm limit y = Ok r /\ pick s r = y.
Proof.
  intros Lm H N L Fy T. pose proof (norm_terms s x y H L Fy T) as B.
  assert (Forall has_row y) as Hy by (apply Forall_forall; intros t I; now apply B).
  assert (Ny := fine_nonempty _ Fy).
  assert (forall c, c <> lit "1" -> lin (nexp s c) y = total_expo c y) as Own.
  { intros c Hc. rewrite total_lin. apply lin_ext. intros t I. destruct (B t I) as [_ O]. apply own_row in O as (n & r & En & Er & _ & Eu).
    cbn [base] in *. unfold nexp, row_of_unit. rewrite En, Er, Eu, total_expo_cons, total_expo_nil. cbn [base expo].
    destruct (str_eqb c (base t)); ring. }
  destruct (norm_exists limit y Lm Hy Ny) as (r & Er & R).
  - intro c. destruct (str_eq_dec c (uq (lit "1"))) as [->|Nc].
    + destruct (fine_parts y Fy) as [E|[E _]].
      * rewrite E. cbn [qterms map base expo]. rewrite total_expo_cons, total_expo_nil. cbn [base expo]. rewrite str_eqb_refl.
        exists 1%Z. split; [|lia]. rewrite Qcplus_0_r. reflexivity.
      * exists 0%Z. split; [|lia]. apply total_expo_zero. intros u J Eu. unfold qterms in J. apply in_map_iff in J as (t & <- & J).
        cbn [base] in Eu. rewrite Forall_forall in E. apply (E t J). destruct (B t J) as [_ O].
        apply own_row in O as (n & r & En & Er & _ & Eu'). cbn [base] in *.
        destruct (one_own s) as [_ O1]. apply own_row in O1 as (n1 & r1 & En1 & Er1 & _ & Eu1). cbn [base] in *.
        unfold uq in Eu. rewrite En, En1 in Eu. pose proof (f_under _ _ (row_fact _ _ Er1) (n_quantity n) r) as U.
        rewrite U in Er; [rewrite Er1 in Er; injection Er as ->; rewrite Eu1 in Eu'; now injection Eu'| |exact Eu].
        apply (d_get_in str_eqb str_eqb_spec) in Er. exact Er.
    + rewrite total_lin, lin_qterms, (norm_lin s x y H N Fy T).
      * apply (whole_le (8 * size x)); [lia|]. apply lin_whole; [lia|now apply has_row_int|]. intros t I. rewrite Forall_forall in H.
        destruct (H t I) as (n & r & _ & En & Er & _). unfold lin_of, row_of_unit. rewrite En, Er.
        apply (whole_le (1 * size (pick s (r_units r)))); [pose proof (size_row _ _ s Er); lia|]. apply lin_whole; [lia| |].
        -- apply Forall_forall. intros u J. exact (unit_int _ _ _ _ Er J).
        -- intros u _. destruct (str_eqb _ _); [exists 1%Z|exists 0%Z]; split; try reflexivity; lia.
      * cbn beta. now rewrite str_eqb_neq.
  - intros z Fz [_ Sz] ->. destruct (fine_parts y Fy) as [E|[E _]].
    + destruct (one_own s) as [(n & r & k & En & Er & _) _]. cbn [base] in En.
      assert (uq (lit "1") <> lit "1") as Nu.
      { unfold uq. rewrite En. apply legal_not_one. apply (f_legal _ _ (row_fact _ _ Er)). }
      specialize (Sz _ Nu). rewrite E in Sz. cbn [qterms map base expo] in Sz. rewrite !total_expo_cons, !total_expo_nil in Sz. cbn [base expo] in Sz.
      rewrite str_eqb_refl in Sz. rewrite str_eqb_neq in Sz by exact Nu. rewrite Qcplus_0_r in Sz. now apply one_not_zero.
    + destruct y as [|t y']; [congruence|]. inversion E as [|? ? Et _]; subst.
      destruct (fine_term _ t Fy (or_introl eq_refl) Et) as [E1 E2]. apply E2. rewrite E1, <- (Own _ Et).
      assert (lin (nexp s (base t)) (t :: y') = lin (uexp s (base t)) (qterms (t :: y'))) as ->.
      { rewrite lin_qterms. apply lin_ext. intros u I. symmetry. apply uexp_uq. now apply B. }
      destruct (qterms_ok _ Hy) as (Wq & _ & _).
      rewrite <- (lin_same (uexp s (base t)) [mkTerm 1 (lit "1") 1] (qterms (t :: y'))); [|apply uexp_one|now destruct Fz as (_ & Wz & _)|exact Wq|discriminate|discriminate|].
      * rewrite lin_cons, lin_nil. cbn [base]. rewrite uexp_one. ring.
      * split; [|exact Sz]. rewrite (total_coef_plain [_]) by now destruct Fz as (_ & _ & P). symmetry. apply total_coef_plain.
        now destruct (qterms_ok _ Hy) as (_ & P & _).
  - exists r. split; [exact Er|]. destruct (R s) as [Fr Tr]. apply fine_unique; auto. intros c Hc. now rewrite (Tr c Hc), Own.
Qed.
