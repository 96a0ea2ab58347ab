(** Proofs about metric systems. *)

From Coq Require Import String Ascii List Bool ZArith QArith Qcanon Lia.
From Verif Require Import Py PyFacts PyDict SymbolicModel SymbolicSpec SymbolicReduceProofs SymbolicParseProofs SymbolicChainProofs SymbolicExprProofs SymbolicLawProofs
  IterablesModel MetricTables MetricModel MetricProofs MetricMoreProofs MetricTableProofs ParametersModel ParametersSpec ParametersProofs SystemModel SystemSpec SystemAlgebraProofs SystemNormProofs.
Import ListNotations.
Open Scope list_scope.
Open Scope nat_scope.

(** * The norm of a unit *)

Lemma units_rows : forallb (fun u => existsb (str_eqb (b_quantity u)) photometric
    || match sd_get table (b_quantity u) with Some _ => true | None => false end) units = true.
Proof. vm_compute. reflexivity. Qed.

Local Opaque table table' the_canonical identified quantities units prefixes named_units.

Lemma row_measured b q : measures b q -> ~ In q photometric -> exists n r, identified b = Some n /\ n_quantity n = q /\ sd_get table q = Some r.
Proof.
  intros (n & En & Eq) P. exists n. pose proof En as I. rewrite identified_fun, named_units_computed in I.
  destruct (identify_sound prefixes units b n I) as (_ & B & _).
  pose proof units_rows as U. rewrite forallb_forall in U. specialize (U _ B). apply orb_true_iff in U as [U|U].
  - exfalso. apply P. rewrite existsb_exists in U. destruct U as (p & Ip & E).
    destruct (str_eqb_spec (b_quantity (n_base n)) p) as [E'|E']; [|discriminate]. rewrite <- Eq. unfold n_quantity. now rewrite E'.
  - change (b_quantity (n_base n)) with (n_quantity n) in U. rewrite Eq in U. destruct (sd_get table q) as [r|]; [|discriminate]. exists r.
    split; [exact En|]. split; [exact Eq|reflexivity].
Qed.

Lemma total_power_size x : total_power x = size x.
Proof. reflexivity. Qed.

Lemma product_rows x : product_of_units x -> Forall has_row x /\ x <> [] /\ (size x <= 2 ^ 40)%Z.
Proof.
  intros (N & H & L). split; [|split; [exact N|exact L]]. rewrite Forall_forall in *. intros t I.
  destruct (H t I) as ((q & M & P) & k & Ek & Nk). destruct (row_measured _ _ M P) as (n & r & En & Eq & Er).
  exists n, r, k. rewrite Eq. repeat split; auto.
  pose proof (size_in x t I) as S. rewrite Ek, Qc_num_of_Z in S. rewrite total_power_size in L. lia.
Qed.

Lemma exponent_total q r x : Forall has_row x -> sd_get table q = Some r -> total_expo (under q) (qterms x) = exponent_of q x.
Proof.
  intros H Er. unfold exponent_of. induction H as [|t x Ht _ IH]; [reflexivity|].
  cbn [qterms map]. rewrite total_expo_cons. cbn [base expo filter]. fold (qterms x). rewrite IH.
  destruct Ht as (n & r' & k & En & Er' & _). unfold uq, measures_b. rewrite En.
  destruct (str_eqb_spec (n_quantity n) q) as [E|E].
  - rewrite E, str_eqb_refl. reflexivity.
  - rewrite str_eqb_neq; [ring|]. intro U. apply E. symmetry in U.
    apply (f_under _ _ (row_fact _ _ Er) (n_quantity n) r'); [|exact U].
    apply (d_get_in str_eqb str_eqb_spec) in Er'. exact Er'.
Qed.

Lemma exponent_measured q x : exponent_of q x <> 0%Qc -> exists t, In t x /\ measures (base t) q.
Proof.
  unfold exponent_of. induction x as [|t x IH]; [intro H; now contradiction H|]. cbn [filter]. unfold measures_b at 1.
  destruct (identified (base t)) as [n|] eqn:En.
  - destruct (str_eqb_spec (n_quantity n) q) as [E|E].
    + intros _. exists t. split; [now left|]. exists n. auto.
    + intro H. destruct (IH H) as (u & I & M). exists u. split; [now right|exact M].
  - intro H. destruct (IH H) as (u & I & M). exists u. split; [now right|exact M].
Qed.

Lemma remains_of x q : product_of_units x -> exponent_of q x <> 0%Qc -> remains x.
Proof.
  intros P E. destruct (product_rows x P) as (H & _ & _). destruct (exponent_measured q x E) as (t & I & M).
  destruct P as (_ & P & _). rewrite Forall_forall in P. destruct (P t I) as ((q' & M' & N') & _).
  assert (q' = q) as ->. { destruct M as (n & En & <-), M' as (n' & En' & <-). congruence. }
  destruct (row_measured _ _ M N') as (n & r & _ & _ & Er).
  intros z Fz [_ S] ->. apply E. rewrite <- (exponent_total q r x H Er), <- S.
  - rewrite total_expo_cons, total_expo_nil. cbn [base]. rewrite str_eqb_neq; [reflexivity|].
    apply legal_not_one. apply (f_legal _ _ (row_fact _ _ Er)).
  - apply legal_not_one. apply (f_legal _ _ (row_fact _ _ Er)).
Qed.

(** Sums of shares. *)
Lemma share_row s c q r : sd_get table q = Some r -> share s c q (total_expo c (pick s (r_units r))).
Proof.
  intro Er. destruct (f_text _ _ (row_fact _ _ Er)) as (us & ds & E & H). exists (pick s us), (pick s (r_units r)).
  split; [exists us, ds; auto|]. split; [apply H|reflexivity].
Qed.
Lemma shares_ok s c x : Forall has_row x -> exists es,
  Forall2 (fun t e => exists q, measures (base t) q /\ share s c q e) x es
  /\ lin (nexp s c) x = sumQc (map (fun p => (expo (fst p) * snd p)%Qc) (combine x es)).
Proof.
  induction 1 as [|t x (n & r & k & En & Er & _) _ (es & F & E)]; [exists []; split; [constructor|reflexivity]|].
  exists (total_expo c (pick s (r_units r)) :: es). split.
  - constructor; [|exact F]. exists (n_quantity n). split; [exists n; auto|]. now apply share_row.
  - rewrite lin_cons, E. unfold nexp, row_of_unit. rewrite En, Er. reflexivity.
Qed.

Lemma norm_full limit x q : 6 <= limit -> product_of_units x -> exponent_of q x <> 0%Qc ->
  exists r, m_norm limit x = Ok r /\ forall s,
    canonical (pick s r)
    /\ (forall t, In t (pick s r) -> belongs s (base t) /\ coef t = 1%Qc)
    /\ (forall c, c <> lit "1" -> exists es,
          Forall2 (fun t e => exists q, measures (base t) q /\ share s c q e) x es
          /\ total_expo c (pick s r) = sumQc (map (fun p => (expo (fst p) * snd p)%Qc) (combine x es)))
    /\ (Forall (fun t => belongs s (base t)) x ->
          exists d, m_dimension_of s (pick s r) = Ok d /\ m_dimension_of s x = Ok d)
    /\ exists r', m_norm limit (pick s r) = Ok r' /\ pick s r' = pick s r.
Proof.
  intros Lm P E. pose proof (remains_of x q P E) as R. destruct (product_rows x P) as (H & N & L).
  destruct (norm_exists limit x Lm H N) as (r & Er & T); [|exact R|].
  { intro c. apply (whole_le (size x)); [lia|]. now apply qterms_whole. }
  exists r. split; [exact Er|]. intro s. destruct (T s) as [Fy Ty]. clear T. pose proof (norm_terms s x _ H L Fy Ty) as B.
  split; [now destruct Fy|]. split; [|split; [|split]].
  - intros t I. split.
    + destruct (B t I) as [_ O]. apply own_row in O as (n & r' & En & _ & Ea & _). exists n. auto.
    + destruct Fy as (_ & _ & Py). rewrite Forall_forall in Py. now destruct (Py t I).
  - intros c Hc. destruct (shares_ok s c x H) as (es & Fe & Ee). exists es. split; [exact Fe|]. now rewrite (Ty c Hc).
  - intro A. apply norm_dimension; auto.
  - eapply norm_again; eauto.
Qed.

(** * Unknown quantities *)

Lemma is_prefix_app p s : is_prefix p s = true -> exists r, s = p ++ r.
Proof.
  revert s. induction p as [|a p IH]; intros s H; [exists s; reflexivity|]. destruct s as [|b s]; [discriminate|].
  cbn [is_prefix] in H. apply andb_true_iff in H as [E H]. apply Ascii.eqb_eq in E. subst b. destruct (IH s H) as (r & ->). now exists r.
Qed.
Lemma replace_skip old new k s : replace_go old new k s = replace_go old new 0 (skipn k s).
Proof. revert k. induction s as [|c s IH]; intros [|k]; try reflexivity. cbn [replace_go skipn]. apply IH. Qed.
Lemma replace_absent c old new s : In c old -> ~ In c s -> replace old new s = s.
Proof.
  intros I N. unfold replace. induction s as [|d s IH]; [reflexivity|]. cbn [replace_go].
  destruct (is_prefix old (d :: s)) eqn:P.
  - exfalso. apply N. apply is_prefix_app in P as (r & ->). apply in_or_app. now left.
  - f_equal. apply IH. intro J. apply N. now right.
Qed.
Lemma replace_same old s : old <> [] -> replace old old s = s.
Proof.
  intro N. unfold replace. assert (forall n s, length s <= n -> replace_go old old 0 s = s) as H; [|now apply (H (length s))].
  clear s. induction n as [|n IH]; intros s L; [destruct s; [reflexivity|cbn in L; lia]|].
  destruct s as [|d s]; [reflexivity|]. cbn [replace_go]. destruct (is_prefix old (d :: s)) eqn:P.
  - destruct old as [|o old]; [congruence|]. apply is_prefix_app in P as (r & E). cbn [app] in E. injection E as E1 E2. subst o s.
    cbn [length pred]. rewrite replace_skip. rewrite skipn_app, skipn_all, Nat.sub_diag. cbn [skipn app].
    f_equal. f_equal. apply IH. cbn [length] in L. rewrite app_length in L. lia.
  - f_equal. apply IH. cbn in L. lia.
Qed.

Definition key_b (kv : str * qdef) : bool := negb (match fst kv with [] => true | _ => false end).
Lemma keys_ok : forallb key_b quantities = true.
Proof. vm_compute. reflexivity. Qed.
Lemma underscore_word qs w : forallb key_b qs = true -> ~ In " "%char w -> underscore qs w = w.
Proof.
  intros K N. unfold underscore. induction qs as [|[k v] qs IH]; [reflexivity|]. cbn [fold_left fst forallb] in *.
  apply andb_true_iff in K as [K1 K2]. assert (replace k (replace (lit " ") (lit "_") k) w = w) as ->; [|now apply IH].
  destruct (in_dec ascii_dec " "%char k) as [I|I].
  - now apply (replace_absent " "%char).
  - rewrite (replace_absent " "%char (lit " ")); [|now left|exact I]. apply replace_same. destruct k; [discriminate|discriminate].
Qed.

(** A word of small letters. *)
Lemma small_letter c : small c -> letter c /\ c <> " "%char /\ c <> "_"%char.
Proof.
  intros (n & L & ->). assert (N_of_ascii (ascii_of_nat (97 + n)) = N.of_nat (97 + n)) as E.
  { unfold ascii_of_nat. rewrite N_ascii_embedding; [reflexivity|]. apply (N.lt_le_trans _ (N.of_nat 200)); [|discriminate]. lia. }
  split; [left; rewrite E; lia|]. split; intro H; apply (f_equal N_of_ascii) in H; rewrite E in H; cbn in H; lia.
Qed.
Lemma word_read w : w <> [] -> Forall small w -> ~ starts_with (lit "sqrt") w ->
  ~ In " "%char w /\ ~ In "_"%char w /\ expression_of_str F64 false w = Ok [mkTerm 1 w 1].
Proof.
  intros N W Q. rewrite Forall_forall in W. split; [|split].
  - intro I. now apply W, small_letter in I.
  - intro I. now apply W, small_letter in I.
  - assert (legal_base w) as L.
    { exists w, []. rewrite app_nil_r. repeat split; auto. apply Forall_forall. intros c I. now apply small_letter, W. }
    assert (plain (mkTerm 1 w 1)) as P.
    { split; [reflexivity|]. split; [exists 2%Z; apply one_halves|]. right. auto. }
    assert (wf (mkTerm 1 w 1)) as Wf.
    { split; [exact one_not_zero|]. split; [exact one_not_zero|]. exact N. }
    assert (fine [mkTerm 1 w 1]) as Fz.
    { split; [|split; constructor; auto]. exists [], [mkTerm 1 w 1]. split; [reflexivity|]. split; [discriminate|]. split; [now left|].
      split; [|split].
      - constructor; [|constructor]. cbn [base coef expo]. split; [now apply legal_not_one|]. split; [reflexivity|exact one_not_zero].
      - constructor; [intros []|constructor].
      - repeat constructor. }
    rewrite <- (format_read F64 false [mkTerm 1 w 1]); [|now destruct Fz as (? & ? & ?)..|now apply fine_printable].
    f_equal. unfold expr_format. cbn [map join]. rewrite var_text by exact L. change (sup 1) with (@nil ascii). now rewrite app_nil_r.
Qed.

(** A word that the table does not have is looked up for ever. *)
Lemma unknown_diverges dims w : w <> [] -> Forall small w -> ~ starts_with (lit "sqrt") w -> ~ In w (map fst quantities) ->
  forall limit, m_prop dims limit w = Err OutOfFuel.
Proof.
  intros N W Q U. destruct (word_read w N W Q) as (B1 & B2 & R). unfold m_prop. induction limit as [|f IH]; [reflexivity|].
  cbn [prop_get]. replace (sd_get quantities w) with (@None qdef).
  2: { symmetry. destruct (sd_get quantities w) as [v|] eqn:E; [|reflexivity]. exfalso. apply U. apply (d_get_in str_eqb str_eqb_spec) in E.
       apply in_map_iff. exists (w, v). auto. }
  rewrite (underscore_word quantities w keys_ok B1), R. cbn [bind mapM base].
  rewrite (replace_absent "_"%char (lit "_") (lit " ") w (or_introl eq_refl) B2), IH. reflexivity.
Qed.

(** * The table of quantities *)

Definition exempt (q : str) : bool := existsb (str_eqb q) mismatched.
Record sysrow : Type := mkSys { s_units : expression * expression; s_dims : expression * expression }.
Definition sys_of (r : canonical_row) : str * sysrow :=
  let rd p := (get_ok (expression_of_str F64 false (fst p)), get_ok (expression_of_str F64 false (snd p))) in
  (fst r, mkSys (rd (fst (snd r))) (rd (snd (snd r)))).
Definition sysrows : list (str * sysrow) := Eval vm_compute in map sys_of the_canonical.
Definition dim_b (q : str) (s : system) (r : sysrow) : bool :=
  exempt q ||
  match m_dimension (mkProperties s (pick s (s_units r))) with
  | Ok (Some d) => terms_are d (pick s (s_dims r))
  | _ => false
  end.
Definition reads2 (p : str * str) (x : expression * expression) : bool := reads_b (fst p) (fst x) && reads_b (snd p) (snd x).
Definition exact_b (x : expression) : bool :=
  forallb (fun t => Qc_eqb (fl F64 (coef t)) (coef t) && Qc_eqb (fl F64 (expo t)) (expo t)) x
  && negb (match x with [] => true | _ => false end)
  && forallb (fun t => negb (Qc_eqb (coef t) 0) && negb (Qc_eqb (expo t) 0) && negb (match base t with [] => true | _ => false end)) x
  && match reduce x with Ok y => terms_are y x | Err _ => false end.
Definition exact2 (x : expression * expression) : bool := exact_b (fst x) && exact_b (snd x).
Definition sys_b (r : canonical_row) : bool :=
  match sd_get sysrows (fst r) with
  | Some y => reads2 (fst (snd r)) (s_units y) && reads2 (snd (snd r)) (s_dims y) && exact2 (s_units y) && exact2 (s_dims y)
              && dim_b (fst r) Mks y && dim_b (fst r) Cgs y
  | None => false
  end.
Lemma sys_ok : forallb sys_b the_canonical = true.
Proof. vm_cast_no_check (eq_refl true). Qed.
Lemma the_canonical_computed : canonical_of F64 quantities = Ok the_canonical.
Proof. vm_compute. reflexivity. Qed.

Local Opaque sysrows m_dimension mismatched.

Lemma exact_b_ok x : exact_b x = true -> canonical x /\ exactly x.
Proof.
  unfold exact_b. rewrite !andb_true_iff. intros (((E & N) & W) & R). rewrite forallb_forall in E, W. split.
  - destruct (reduce x) as [y|] eqn:Ry; [|discriminate]. apply terms_are_eq in R. subst y. apply reduce_canonical in Ry; [exact Ry|].
    apply Forall_forall. intros t I. specialize (W t I). rewrite !andb_true_iff, !negb_true_iff in W. destruct W as [[W1 W2] W3].
    split; [|split].
    + intro H. rewrite H, Qc_eqb_refl in W1. discriminate.
    + intro H. rewrite H, Qc_eqb_refl in W2. discriminate.
    + intro H. rewrite H in W3. discriminate.
  - apply Forall_forall. intros t I. specialize (E t I). rewrite andb_true_iff in E. destruct E as [E1 E2].
    split; [destruct (Qc_eqb_spec (fl F64 (coef t)) (coef t)); congruence|destruct (Qc_eqb_spec (fl F64 (expo t)) (expo t)); congruence].
Qed.

Lemma exempt_spec q : ~ In q mismatched -> exempt q = false.
Proof.
  intro H. unfold exempt. destruct (existsb _ _) eqn:E; [|reflexivity]. exfalso. apply H. rewrite existsb_exists in E.
  destruct E as (p & I & E). destruct (str_eqb_spec q p) as [->|]; [exact I|discriminate].
Qed.

Lemma sys_fact q us ds : sd_get the_canonical q = Some (us, ds) -> exists y, forall s,
  writes (pick s us) (pick s (s_units y)) /\ writes (pick s ds) (pick s (s_dims y))
  /\ (canonical (pick s (s_units y)) /\ exactly (pick s (s_units y)))
  /\ (canonical (pick s (s_dims y)) /\ exactly (pick s (s_dims y)))
  /\ (~ In q mismatched -> m_dimension (mkProperties s (pick s (s_units y))) = Ok (Some (pick s (s_dims y)))).
Proof.
  intro H. apply (d_get_in str_eqb str_eqb_spec) in H. pose proof sys_ok as S. rewrite forallb_forall in S. apply S in H. clear S.
  unfold sys_b in H. cbn [fst snd] in H. destruct (sd_get sysrows q) as [y|]; [|discriminate]. exists y.
  unfold reads2, exact2 in H. rewrite !andb_true_iff in H. destruct H as ((((([U1 U2] & [D1 D2]) & [XU1 XU2]) & [XD1 XD2]) & M1) & M2).
  assert (forall s, dim_b q s y = true -> ~ In q mismatched -> m_dimension (mkProperties s (pick s (s_units y))) = Ok (Some (pick s (s_dims y)))) as M.
  { intros s H N. unfold dim_b in H. rewrite (exempt_spec q N) in H. cbn [orb] in H.
    destruct (m_dimension _) as [[d|]|]; try discriminate. apply terms_are_eq in H. now subst d. }
  unfold reads_b in *. intros []; cbn [pick fst snd] in *; (split; [|split; [|split; [now apply exact_b_ok|split; [now apply exact_b_ok|]]]]).
  1,4: unfold writes; match goal with |- ?r = _ => destruct r as [e|]; [|discriminate] end; f_equal; now apply terms_are_eq.
  1,3: unfold writes; match goal with |- ?r = _ => destruct r as [e|]; [|discriminate] end; f_equal; now apply terms_are_eq.
  all: apply (M Mks) || apply (M Cgs); assumption.
Qed.

Lemma writes_fun t x y : writes t x -> writes t y -> x = y.
Proof. unfold writes. congruence. Qed.

Lemma dimension_declared s q u d : ~ In q mismatched -> unit_is s q u -> declared s q d -> m_dimension (mkProperties s u) = Ok (Some d).
Proof.
  intros N (t & (us & ds & E & <-) & W) (t' & (us' & ds' & E' & <-) & W'). rewrite E in E'. injection E' as <- <-.
  destruct (sys_fact q us ds E) as (y & F). destruct (F s) as (F1 & F2 & _ & _ & F3).
  rewrite (writes_fun _ _ _ W F1), (writes_fun _ _ _ W' F2). auto.
Qed.

(** ** Look-ups *)

Lemma mapM_row (f : bool -> str -> res (str * str)) qs l : mapM (fun kv : str * qdef => (do u <- f false (fst kv); do d <- f true (fst kv); Ok (fst kv, (u, d)))%py) qs = Ok l ->
  forall q us ds, In (q, (us, ds)) l -> f false q = Ok us /\ f true q = Ok ds.
Proof.
  revert l. induction qs as [|[k v] qs IH]; cbn [mapM]; intros l H q us ds I; [injection H as <-; destruct I|]. cbn [fst] in H.
  destruct (f false k) as [u|] eqn:Eu; [|discriminate]. cbn [bind] in H. destruct (f true k) as [d|] eqn:Ed; [|discriminate]. cbn [bind] in H.
  destruct (mapM _ qs) as [l'|] eqn:El; [|discriminate]. cbn [bind] in H. injection H as <-.
  destruct I as [E|I]; [injection E as <- <- <-; auto|]. exact (IH l' eq_refl q us ds I).
Qed.
Lemma row_prop q us ds limit : 10 <= limit -> sd_get the_canonical q = Some (us, ds) ->
  m_prop false limit q = Ok us /\ m_prop true limit q = Ok ds.
Proof.
  intros L H. apply (d_get_in str_eqb str_eqb_spec) in H. pose proof the_canonical_computed as C. unfold canonical_of in C.
  destruct (mapM_row (fun b k => prop_get F64 quantities b 10 k) quantities the_canonical C q us ds H) as [A B]. unfold m_prop.
  split; now apply (prop_get_mono _ _ _ _ _ 10 limit L).
Qed.

Definition small_or_blank (c : ascii) : Prop := small c \/ c = " "%char.
Definition small_b (c : ascii) : bool := (Nat.leb 97 (nat_of_ascii c) && Nat.leb (nat_of_ascii c) 122) || Ascii.eqb c " ".
Lemma small_b_ok c : small_b c = true -> small_or_blank c.
Proof.
  unfold small_b. rewrite orb_true_iff, andb_true_iff, !Nat.leb_le. intros [[A B]|E]; [left|right; now apply Ascii.eqb_eq].
  exists (nat_of_ascii c - 97). split; [lia|]. replace (97 + (nat_of_ascii c - 97)) with (nat_of_ascii c) by lia. symmetry. apply ascii_nat_embedding.
Qed.
Lemma lower_word key q : Forall small_or_blank q -> spells key q -> lower key = q.
Proof.
  intros W S. unfold spells in S. induction S as [|c d key q H _ IH]; [reflexivity|]. inversion W as [|? ? Wd Wq]; subst.
  cbn [lower map]. f_equal; [|now apply IH]. destruct Wd as [Wd| ->]; [now apply lower_letter|].
  destruct H as [->|(n & L & _ & E)]; [reflexivity|]. apply (f_equal nat_of_ascii) in E. rewrite nat_ascii_embedding in E by lia. cbn in E. lia.
Qed.
Lemma row_names : forallb (fun r : canonical_row => forallb small_b (fst r)) the_canonical = true.
Proof. vm_compute. reflexivity. Qed.
Lemma row_name q us ds : sd_get the_canonical q = Some (us, ds) -> Forall small_or_blank q.
Proof.
  intro H. apply (d_get_in str_eqb str_eqb_spec) in H. pose proof row_names as R. rewrite forallb_forall in R. apply R in H. cbn [fst] in H.
  rewrite forallb_forall in H. apply Forall_forall. intros c I. now apply small_b_ok, H.
Qed.

Lemma exact_name_spells name s : spells name (system_name s) -> exact_name (lower name) = Some s.
Proof.
  intro H. assert (lower name = system_name s) as ->.
  { apply lower_spells; [|exact H]. destruct s; apply small_systems. }
  destruct s; reflexivity.
Qed.
Lemma exact_name_other name : (forall s, ~ spells name (system_name s)) -> exact_name (lower name) = None.
Proof.
  intro H. unfold exact_name. destruct (str_eqb_spec (lower name) (lit "mks")) as [E|_].
  - exfalso. apply (H Mks). now apply lower_spells; [apply small_systems|].
  - destruct (str_eqb_spec (lower name) (lit "cgs")) as [E|_]; [|reflexivity].
    exfalso. apply (H Cgs). now apply lower_spells; [apply small_systems|].
Qed.

Lemma new_row limit key q us ds : 10 <= limit -> sd_get the_canonical q = Some (us, ds) -> spells key q ->
  m_new limit key = Ok (mkQuantity q us ds).
Proof.
  intros L H S. unfold m_new, new_quantity. rewrite (lower_word key q (row_name _ _ _ H) S).
  destruct (row_prop q us ds limit L H) as [A B]. unfold m_prop in *. now rewrite A, B.
Qed.

Lemma quantity_ok limit key q s u name : 10 <= limit -> spells key q -> unit_is s q u ->
  exists y, m_new limit key = Ok y /\ (spells name (system_name s) -> m_in y name = Ok (mkProperties s u))
    /\ ((forall s', ~ spells name (system_name s')) -> m_in y name = Err QuantityError).
Proof.
  intros L S (t & (us & ds & E & <-) & W). exists (mkQuantity q us ds). split; [now apply new_row|].
  unfold m_in, quantity_in. split; intro H.
  - rewrite (exact_name_spells name s H). cbn [q_units]. rewrite W. reflexivity.
  - now rewrite (exact_name_other name H).
Qed.
Lemma spells_self w : spells w w.
Proof. unfold spells. induction w; constructor; auto. now left. Qed.
Lemma get_ok' limit key q s u : 10 <= limit -> spells key q -> unit_is s q u -> m_get limit s key = Ok (mkProperties s u).
Proof.
  intros L S U. destruct (quantity_ok limit key q s u (system_name s) L S U) as (y & Y & Q & _).
  unfold m_get, system_get. unfold m_new in Y. rewrite Y. apply Q. apply spells_self.
Qed.

(** An unknown word. *)
Lemma unknown_get limit s key w : spells key w -> w <> [] -> Forall small w -> ~ starts_with (lit "sqrt") w ->
  ~ In w (map fst quantities) -> m_new limit key = Err OutOfFuel /\ m_get limit s key = Err OutOfFuel.
Proof.
  intros S N W Q U. assert (lower key = w) as E.
  { apply lower_word; [|exact S]. eapply Forall_impl; [|exact W]. intros c H. now left. }
  assert (m_new limit key = Err OutOfFuel) as M.
  { unfold m_new, new_quantity. rewrite E. pose proof (unknown_diverges false w N W Q U limit) as D. unfold m_prop in D. now rewrite D. }
  split; [exact M|]. unfold m_get, system_get. unfold m_new in M. now rewrite M.
Qed.

(** ** Search by dimension *)

Lemma exact_on_app x y : exactly x -> exactly y -> exact_on F64 (x ++ y).
Proof.
  intros X Y s t Is It. assert (exactly (x ++ y)) as H by (apply Forall_app; auto). unfold exactly in H. rewrite Forall_forall in H.
  destruct (H s Is) as [A B], (H t It) as [C D]. rewrite A, B, C, D. auto.
Qed.
Lemma eqb_same x y : canonical x -> canonical y -> exactly x -> exactly y -> (expr_eqb F64 x y = true <-> x = y).
Proof.
  intros Cx Cy Ex Ey. rewrite (eqb_algebraic F64 x y Cx Cy (exact_on_app x y Ex Ey)). split.
  - intro S. now apply canonical_unique.
  - intros ->. split; reflexivity.
Qed.

Lemma from_dimension_found s d l : canonical d -> exactly d ->
  (forall q us ds, In (q, (us, ds)) l -> sd_get the_canonical q = Some (us, ds)) ->
  match from_dimension_go F64 s (Expr d) l with
  | Ok (Some u) => exists q, declared s q d /\ unit_is s q u
  | Ok None => forall q us ds, In (q, (us, ds)) l -> ~ declared s q d
  | Err _ => False
  end.
Proof.
  intros C X. induction l as [|[q [us ds]] l IH]; intro H; cbn [from_dimension_go].
  - intros q us ds [].
  - pose proof (H q us ds (or_introl eq_refl)) as E. destruct (sys_fact q us ds E) as (y & F). destruct (F s) as (F1 & F2 & [C1 X1] & [C2 X2] & _).
    unfold writes in F1, F2. rewrite F2. cbn [bind]. destruct (expr_eqb F64 d (pick s (s_dims y))) eqn:Eq.
    + apply eqb_same in Eq; auto. rewrite F1. cbn [bind]. exists q. split.
      * exists (pick s ds). split; [exists us, ds; auto|]. now rewrite Eq.
      * exists (pick s us). split; [exists us, ds; auto|]. exact F1.
    + specialize (IH (fun q' us' ds' I => H q' us' ds' (or_intror I))).
      destruct (from_dimension_go F64 s (Expr d) l) as [[u|]|]; auto. intros q' us' ds' [I|I]; [|eauto].
      injection I as <- <- <-. intros (t & (us' & ds' & E' & <-) & W). rewrite E in E'. injection E' as <- <-.
      rewrite <- (writes_fun _ _ _ W F2), eqb_refl in Eq. discriminate.
Qed.

Lemma rows_distinct : forallb (fun r : canonical_row => match sd_get the_canonical (fst r) with
    | Some (us, ds) => str_eqb (fst us) (fst (fst (snd r))) && str_eqb (snd us) (snd (fst (snd r)))
                       && str_eqb (fst ds) (fst (snd (snd r))) && str_eqb (snd ds) (snd (snd (snd r)))
    | None => false end) the_canonical = true.
Proof. vm_compute. reflexivity. Qed.
Lemma row_in q us ds : In (q, (us, ds)) the_canonical -> sd_get the_canonical q = Some (us, ds).
Proof.
  intro H. pose proof rows_distinct as R. rewrite forallb_forall in R. apply R in H. cbn [fst snd] in H.
  destruct (sd_get the_canonical q) as [[[a b] [c e]]|]; [|discriminate]. rewrite !andb_true_iff in H.
  destruct H as [[[H1 H2] H3] H4]. destruct us as [us1 us2], ds as [ds1 ds2]. cbn [fst snd] in *.
  destruct (str_eqb_spec a us1), (str_eqb_spec b us2), (str_eqb_spec c ds1), (str_eqb_spec e ds2); try discriminate. now subst.
Qed.

Lemma by_dimension limit s d : canonical d -> exactly d -> expr_format F64 d <> lit "1" ->
  match m_get_unit limit s None (Some (Expr d)) None with
  | Ok u => exists q, declared s q d /\ unit_is s q u
  | Err e => e = SearchError /\ forall q, ~ declared s q d
  end.
Proof.
  intros C X N. unfold m_get_unit, get_unit. cbn [first_unit truthy target_text]. rewrite str_eqb_neq by exact N.
  unfold from_dimension. pose proof (from_dimension_found s d the_canonical C X row_in) as H.
  destruct (from_dimension_go F64 s (Expr d) the_canonical) as [[u|]|]; cbn [bind].
  - exact H.
  - split; [reflexivity|]. intros q D. assert (D' := D). destruct D as (t & (us & ds & E & _) & _).
    apply (d_get_in str_eqb str_eqb_spec) in E. now apply (H q us ds E).
  - destruct H.
Qed.

(** A dimension that no quantity has is passed over. *)
Lemma past_dimension limit s d quantity : canonical d -> exactly d -> expr_format F64 d <> lit "1" ->
  (forall q, ~ declared s q d) -> m_get_unit limit s None (Some (Expr d)) quantity = m_get_unit limit s None None quantity.
Proof.
  intros C X N A. unfold m_get_unit, get_unit. cbn [first_unit truthy target_text]. rewrite str_eqb_neq by exact N.
  unfold from_dimension at 1. pose proof (from_dimension_found s d the_canonical C X row_in) as H.
  destruct (from_dimension_go F64 s (Expr d) the_canonical) as [[u|]|]; cbn [bind].
  - exfalso. destruct H as (q & D & _). exact (A q D).
  - reflexivity.
  - destruct H.
Qed.

(** ** The names of the quantities *)

Fixpoint same_words (a b : list str) : bool :=
  match a, b with [], [] => true | x :: a', y :: b' => str_eqb x y && same_words a' b' | _, _ => false end.
Lemma same_words_eq a : forall b, same_words a b = true -> a = b.
Proof.
  induction a as [|x a IH]; intros [|y b] H; cbn [same_words] in H; try discriminate H; [reflexivity|].
  apply andb_true_iff in H as [H1 H2]. f_equal; [|exact (IH b H2)].
  destruct (str_eqb_spec x y) as [E|E]; [exact E|discriminate H1].
Qed.
Fixpoint no_repeat (l : list str) : bool :=
  match l with [] => true | x :: l' => negb (existsb (str_eqb x) l') && no_repeat l' end.
Lemma no_repeat_ok l : no_repeat l = true -> NoDup l.
Proof.
  induction l as [|x l IH]; cbn [no_repeat]; intro H; [constructor|]. apply andb_true_iff in H as [H1 H2]. constructor; [|exact (IH H2)].
  intro I. apply negb_true_iff in H1. assert (existsb (str_eqb x) l = true) as C; [|rewrite C in H1; discriminate H1].
  apply existsb_exists. exists x. split; [exact I|apply str_eqb_refl].
Qed.
Lemma keys_same : same_words (system_keys quantities) (map fst the_canonical) && no_repeat (system_keys quantities) = true.
Proof. vm_cast_no_check (eq_refl true). Qed.
Lemma system_keys_ok s : NoDup (system_keys quantities)
  /\ forall q, In q (system_keys quantities) <-> exists u, unit_is s q u.
Proof.
  pose proof keys_same as K. apply andb_true_iff in K as [K1 K2]. split; [exact (no_repeat_ok _ K2)|].
  rewrite (same_words_eq _ _ K1). intro q. split.
  - intro I. apply in_map_iff in I as ([q' [us ds]] & E & I). cbn [fst] in E. subst q'. pose proof (row_in q us ds I) as R.
    destruct (sys_fact q us ds R) as (y & Y). destruct (Y s) as (W & _). exists (pick s (s_units y)), (pick s us).
    split; [exists us, ds; auto|exact W].
  - intros (u & t & (us & ds & E & _) & _). apply (d_get_in str_eqb str_eqb_spec) in E. apply in_map_iff. exists (q, (us, ds)). auto.
Qed.

(** ** Quantities with a dimension *)

Lemma quantities_found s d l : canonical d -> exactly d ->
  (forall q us ds, In (q, (us, ds)) l -> sd_get the_canonical q = Some (us, ds)) ->
  exists r, quantities_with F64 s d l = Ok r /\ forall q, In q r <-> (In q (map fst l) /\ declared s q d).
Proof.
  intros C X. induction l as [|[q [us ds]] l IH]; intro H; cbn [quantities_with].
  - exists []. split; [reflexivity|]. intro q. split; [intros []|intros [[] _]].
  - destruct IH as (r & Er & R); [intros; apply H; now right|].
    pose proof (H q us ds (or_introl eq_refl)) as E. destruct (sys_fact q us ds E) as (y & F). destruct (F s) as (F1 & F2 & _ & [C2 X2] & _).
    unfold writes in F2. rewrite F2, Er. cbn [bind]. destruct (expr_eqb F64 d (pick s (s_dims y))) eqn:Eq.
    + exists (q :: r). split; [reflexivity|]. intro p. cbn [map fst In]. rewrite R. apply eqb_same in Eq; auto. split.
      * intros [<-|[I D]]; [|auto]. split; [now left|]. exists (pick s ds). split; [exists us, ds; auto|]. now rewrite Eq.
      * intros [[<-|I] D]; auto.
    + exists r. split; [reflexivity|]. intro p. cbn [map fst In]. rewrite R. split; [intros [I D]; auto|].
      intros [[<-|I] D]; [|auto]. exfalso. destruct D as (t & (us' & ds' & E' & <-) & W). rewrite E in E'. injection E' as <- <-.
      rewrite <- (writes_fun _ _ _ W F2), eqb_refl in Eq. discriminate.
Qed.
Lemma declared_in s q d : declared s q d -> In q (map fst the_canonical).
Proof.
  intros (t & (us & ds & E & _) & _). apply (d_get_in str_eqb str_eqb_spec) in E. apply in_map_iff. exists (q, (us, ds)). auto.
Qed.
Lemma quantities_ok s d : canonical d -> exactly d ->
  exists r, m_quantities d (system_name s) = Ok r /\ forall q, In q r <-> declared s q d.
Proof.
  intros C X. destruct (quantities_found s d the_canonical C X row_in) as (r & Er & R). exists r. split.
  - unfold m_quantities, dimension_quantities. destruct s; exact Er.
  - intro q. rewrite R. split; [tauto|]. intro D. split; [|exact D]. eapply declared_in, D.
Qed.

(** ** Equivalent quantities *)

Local Transparent m_dimension.
Lemma equivalent_ok limit a b p q : 10 <= limit -> spells a p -> spells b q -> In p (map fst the_canonical) -> In q (map fst the_canonical) ->
  ~ In p mismatched -> ~ In q mismatched ->
  exists x y, m_new limit a = Ok x /\ m_new limit b = Ok y
    /\ exists v, m_equivalent x y = Ok v /\ (v = true <-> forall s d, declared s p d <-> declared s q d).
Proof.
  intros L Sa Sb Ip Iq Np Nq. apply in_map_iff in Ip as ([p' [us ds]] & E & Ip). cbn in E. subst p'. apply row_in in Ip.
  apply in_map_iff in Iq as ([q' [vs es]] & E & Iq). cbn in E. subst q'. apply row_in in Iq.
  exists (mkQuantity p us ds), (mkQuantity q vs es). split; [now apply new_row|]. split; [now apply new_row|].
  destruct (sys_fact p us ds Ip) as (y & F), (sys_fact q vs es Iq) as (z & G).
  unfold m_equivalent, equivalent, equivalent_in, quantity_in. cbn [q_units].
  change (exact_name (lower (lit "mks"))) with (Some Mks). change (exact_name (lower (lit "cgs"))) with (Some Cgs). cbn [bind].
  assert (forall s, bind (expression_of_str F64 false (pick s us)) (fun e => Ok (mkProperties s e)) = Ok (mkProperties s (pick s (s_units y)))) as Fu.
  { intro s. destruct (F s) as (F1 & _). unfold writes in F1. now rewrite F1. }
  assert (forall s, bind (expression_of_str F64 false (pick s vs)) (fun e => Ok (mkProperties s e)) = Ok (mkProperties s (pick s (s_units z)))) as Gu.
  { intro s. destruct (G s) as (G1 & _). unfold writes in G1. now rewrite G1. }
  assert (forall s, m_dimension (mkProperties s (pick s (s_units y))) = Ok (Some (pick s (s_dims y)))) as Fd by (intro s; now apply F).
  assert (forall s, m_dimension (mkProperties s (pick s (s_units z))) = Ok (Some (pick s (s_dims z)))) as Gd by (intro s; now apply G).
  unfold m_dimension in Fd, Gd. rewrite !Fu, !Gu. cbn [bind]. rewrite !Fd, !Gd. cbn [bind same_dimension].
  assert (forall s, expr_eqb F64 (pick s (s_dims y)) (pick s (s_dims z)) = true <-> forall d, declared s p d <-> declared s q d) as Q.
  { intro s. destruct (F s) as (_ & F2 & _ & [F3 F4] & _), (G s) as (_ & G2 & _ & [G3 G4] & _). rewrite eqb_same by auto. split.
    - intros E d. split; intros (t & (us' & ds' & E' & <-) & W).
      + rewrite Ip in E'. injection E' as <- <-. exists (pick s es). split; [exists vs, es; auto|].
        rewrite (writes_fun _ _ _ W F2), E. exact G2.
      + rewrite Iq in E'. injection E' as <- <-. exists (pick s ds). split; [exists us, ds; auto|].
        rewrite (writes_fun _ _ _ W G2), <- E. exact F2.
    - intro H. assert (declared s p (pick s (s_dims y))) as D by (exists (pick s ds); split; [exists us, ds; auto|exact F2]).
      apply H in D as (t & (us' & ds' & E' & <-) & W). rewrite Iq in E'. injection E' as <- <-. now apply (writes_fun _ _ _ W G2). }
  destruct (expr_eqb F64 (pick Mks (s_dims y)) (pick Mks (s_dims z))) eqn:E1.
  - destruct (expr_eqb F64 (pick Cgs (s_dims y)) (pick Cgs (s_dims z))) eqn:E2.
    + exists true. split; [reflexivity|]. split; [|reflexivity]. intros _ []; now apply Q.
    + exists false. split; [reflexivity|]. split; [discriminate|]. intro H. rewrite <- E2. apply Q. apply H.
  - exists false. split; [reflexivity|]. split; [discriminate|]. intro H. rewrite <- E1. apply Q. apply H.
Qed.

(** * Units whose quantities cancel *)

Lemma one_diverges dims limit : m_prop dims limit (lit "1") = Err OutOfFuel.
Proof.
  assert (sd_get quantities (lit "1") = None) as N by (vm_compute; reflexivity).
  destruct reads_nothing as [_ R]. unfold m_prop. induction limit as [|f IH]; [reflexivity|].
  cbn [prop_get]. rewrite N. rewrite (underscore_word quantities (lit "1") keys_ok).
  - rewrite R. cbn [bind mapM base]. rewrite (replace_absent "_"%char (lit "_") (lit " ") (lit "1") (or_introl eq_refl)).
    + rewrite IH. reflexivity.
    + intros [H|[]]. discriminate.
  - intros [H|[]]. discriminate.
Qed.

Lemma cancelling limit x : product_of_units x -> (forall q, exponent_of q x = 0%Qc) -> m_norm limit x = Err OutOfFuel.
Proof.
  intros P Z. destruct (product_rows x P) as (H & N & _). destruct (unit_quantity_ok x H N) as (z & Ez & Fz & [_ Sz]).
  assert (z = [mkTerm 1 (lit "1") 1]) as E.
  { apply fine_unique; [exact Fz|exact fine_one|]. intros b Hb. rewrite (Sz b Hb).
    rewrite total_expo_cons, total_expo_nil. cbn [base]. rewrite str_eqb_neq by exact Hb.
    destruct (in_dec str_eq_dec b (map base (qterms x))) as [J|J].
    - apply in_map_iff in J as (u & Eu & J). unfold qterms in J. apply in_map_iff in J as (v & <- & J). cbn [base] in Eu.
      pose proof H as H'. rewrite Forall_forall in H'. destruct (H' v J) as (n & r & _ & En & Er & _). unfold uq in Eu. rewrite En in Eu. subst b.
      rewrite (exponent_total _ r x H Er), Z. reflexivity.
    - rewrite total_expo_zero; [reflexivity|]. intros u K Eu. apply J. apply in_map_iff. exists u. auto. }
  unfold m_norm, norm. fold m_quantity. rewrite Ez, E. cbn [bind]. unfold norm_in. cbn [mapM base].
  pose proof (one_diverges false limit) as D. unfold m_prop in D. rewrite D. reflexivity.
Qed.

(** * Factors between the systems *)

Definition mech_b (d : expression) : bool :=
  forallb (fun t => existsb (str_eqb (base t)) [lit "M"; lit "L"; lit "T"; lit "K"; lit "N"; lit "1"]) d.
Definition power_b (d : expression) (b : str) : Z := Qc_num (total_expo b d).
Definition coherent_b (r : canonical_row) : bool :=
  match sd_get sysrows (fst r) with
  | Some y => let d := fst (s_dims y) in
      negb (mech_b d) || existsb (str_eqb (fst r)) incoherent
      || match m_convert (fst (fst (snd r))) (snd (fst (snd r))) with
         | Ok f => Qc_eqb f (Qc_zpow (Qc_of_Z 1000) (power_b d (lit "M")) * Qc_zpow (Qc_of_Z 100) (power_b d (lit "L")))%Qc
         | Err _ => false
         end
  | None => false
  end.
Lemma coherent_ok : forallb coherent_b the_canonical = true.
Proof. vm_cast_no_check (eq_refl true). Qed.

Lemma coherent q d a b : declared Mks q d -> mechanical d -> ~ In q incoherent ->
  total_expo (lit "M") d = Qc_of_Z a -> total_expo (lit "L") d = Qc_of_Z b ->
  factor q (Qc_zpow (Qc_of_Z 1000) a * Qc_zpow (Qc_of_Z 100) b)%Qc.
Proof.
  intros (t & (us & ds & E & <-) & W) M N A B. exists (fst us), (snd us).
  split; [exists us, ds; auto|]. split; [exists us, ds; auto|].
  apply (d_get_in str_eqb str_eqb_spec) in E as I. pose proof coherent_ok as C. rewrite forallb_forall in C. apply C in I. clear C.
  unfold coherent_b in I. cbn [fst snd] in I. 
  pose proof sys_ok as S. rewrite forallb_forall in S. pose proof E as J. apply (d_get_in str_eqb str_eqb_spec) in J. apply S in J. clear S.
  unfold sys_b in J. cbn [fst snd] in J. destruct (sd_get sysrows q) as [y|]; [|discriminate].
  unfold reads2 in J. rewrite !andb_true_iff in J. destruct J as (((((_ & [D _]) & _) & _) & _) & _).
  assert (fst (s_dims y) = d) as Ed.
  { unfold reads_b in D. unfold writes in W. cbn [pick] in W. rewrite W in D. symmetry. now apply terms_are_eq. }
  rewrite Ed in I. unfold power_b in I. rewrite A, B, !Qc_num_of_Z in I. rewrite !orb_true_iff in I. destruct I as [[I|I]|I].
  - exfalso. apply negb_true_iff in I. assert (mech_b d = true) as T; [|congruence]. apply forallb_forall. intros u K. apply existsb_exists.
    exists (base u). split; [now apply M|apply str_eqb_refl].
  - exfalso. apply N. apply existsb_exists in I as (p & K & Ep). destruct (str_eqb_spec q p) as [->|]; [exact K|discriminate].
  - destruct (m_convert _ _) as [f|]; [|discriminate]. f_equal. destruct (Qc_eqb_spec f (Qc_zpow (Qc_of_Z 1000) a * Qc_zpow (Qc_of_Z 100) b)%Qc); congruence.
Qed.

(** * Names *)

Lemma upper_case c d : lower_char c = lower_char d <-> same_letter c d \/ same_letter d c.
Proof.
  unfold lower_char. split.
  - intro H. destruct (Nat.leb 65 (nat_of_ascii c) && Nat.leb (nat_of_ascii c) 90) eqn:C,
      (Nat.leb 65 (nat_of_ascii d) && Nat.leb (nat_of_ascii d) 90) eqn:D;
      try rewrite andb_true_iff, !Nat.leb_le in C; try rewrite andb_true_iff, !Nat.leb_le in D.
    + left. left. apply (f_equal nat_of_ascii) in H. rewrite !nat_ascii_embedding in H by lia.
      rewrite <- (ascii_nat_embedding c), <- (ascii_nat_embedding d). f_equal. lia.
    + left. right. exists (nat_of_ascii c - 65). split; [lia|]. split.
      * rewrite <- (ascii_nat_embedding c) at 1. f_equal. lia.
      * rewrite <- H. f_equal. lia.
    + right. right. exists (nat_of_ascii d - 65). split; [lia|]. split.
      * rewrite <- (ascii_nat_embedding d) at 1. f_equal. lia.
      * rewrite H. f_equal. lia.
    + left. left. exact H.
  - assert (forall c d, same_letter c d -> lower_char c = lower_char d) as S.
    { intros a b [->|(n & L & -> & ->)]; [reflexivity|]. unfold lower_char. rewrite !nat_ascii_embedding by lia.
      replace (Nat.leb 65 (65 + n) && Nat.leb (65 + n) 90) with true by (symmetry; apply andb_true_iff; rewrite !Nat.leb_le; lia).
      replace (Nat.leb 65 (97 + n) && Nat.leb (97 + n) 90) with false by (symmetry; apply andb_false_iff; right; apply Nat.leb_gt; lia).
      f_equal. lia. }
    intros [H|H]; [now apply S|symmetry; now apply S].
Qed.
Lemma lower_same a b : lower a = lower b <-> same_but_case a b.
Proof.
  unfold same_but_case, lower. revert b. induction a as [|c a IH]; intros [|d b]; cbn [map]; try (split; [discriminate|inversion 1]).
  - split; auto.
  - split.
    + intro H. injection H as H1 H2. constructor; [now apply upper_case|now apply IH].
    + inversion 1; subst. f_equal; [now apply upper_case|now apply IH].
Qed.
Lemma new_name limit a x : m_new limit a = Ok x -> q_name x = lower a.
Proof.
  unfold m_new, new_quantity. destruct (prop_get _ _ false _ _); [|discriminate]. cbn [bind].
  destruct (prop_get _ _ true _ _); [|discriminate]. cbn [bind]. intro H. injection H as <-. reflexivity.
Qed.
Lemma named_system s : named_as s = system_name s.
Proof. reflexivity. Qed.

(** * Search by unit *)

Lemma by_unit limit s t x d q : (t = Expr x \/ exists w, t = Text w /\ w <> [] /\ writes w x) -> target_text F64 t <> lit "1" ->
  m_get_unit limit s (Some t) d q = match m_norm limit x with Ok r => Ok (pick s r) | Err e => Err e end.
Proof.
  intros T N. unfold m_get_unit, get_unit. cbn [first_unit]. rewrite (str_eqb_neq _ _ N). unfold from_unit.
  destruct T as [->|(w & -> & Nw & W)].
  - cbn [truthy bind]. fold (m_norm limit x). destruct (m_norm limit x); reflexivity.
  - replace (truthy (Text w)) with true by (destruct w; [congruence|reflexivity]). unfold writes in W. rewrite W. cbn [bind].
    fold (m_norm limit x). destruct (m_norm limit x); reflexivity.
Qed.
Lemma by_one limit s t : 10 <= limit -> (exists e, writes (lit "1") e /\ forall d q, m_get_unit limit s (Some t) d q = Ok e)
  \/ target_text F64 t <> lit "1" .
Proof.
  intro L. destruct (str_eq_dec (target_text F64 t) (lit "1")) as [E|E]; [left|now right].
  exists [mkTerm 1 (lit "1") 1]. split; [exact (proj2 reads_nothing)|]. intros d q. unfold m_get_unit, get_unit. cbn [first_unit].
  assert (truthy t = true) as ->. { destruct t as [[|]|]; [discriminate|reflexivity..]. }
  rewrite E, str_eqb_refl. assert (sd_get the_canonical (lit "identity") = Some ((lit "1", lit "1"), (lit "1", lit "1"))) as R by (vm_compute; reflexivity).
  pose proof (get_ok' limit (lit "identity") (lit "identity") s [mkTerm 1 (lit "1") 1] L (spells_self _)) as G. unfold m_get in G.
  rewrite G; [reflexivity|]. exists (lit "1"). split; [exists (lit "1", lit "1"), (lit "1", lit "1"); split; [exact R|now destruct s]|].
  exact (proj2 reads_nothing).
Qed.
