(** Values, round trips, arithmetic and equality of expressions. *)

From Coq Require Import String Ascii List Bool ZArith NArith QArith Qcanon Lia Permutation Sorted.
From Verif Require Import Py PyFacts SymbolicModel SymbolicSpec SymbolicReduceProofs.
From Verif Require Import SymbolicRx SymbolicParseProofs SymbolicChainProofs.
Import ListNotations.
Open Scope list_scope.
Open Scope nat_scope.
Open Scope py_scope.

(** * Values in a commutative monoid *)

Section Value.
  Context {M : Type} (op : M -> M -> M) (e : M).
  Hypothesis assoc : forall x y z, op x (op y z) = op (op x y) z.
  Hypothesis comm : forall x y, op x y = op y x.
  Hypothesis unit_l : forall x, op e x = x.
  Variables (C : Qc -> M) (E : str -> Qc -> M) (P : Qc -> Prop).
  Hypothesis C_1 : C 1%Qc = e.
  Hypothesis C_mul : forall a b, C (a * b)%Qc = op (C a) (C b).
  Hypothesis P_0 : P 0%Qc.
  Hypothesis P_add : forall p q, P p -> P q -> P (p + q)%Qc.
  Hypothesis E_0 : forall b, E b 0%Qc = e.
  Hypothesis E_add : forall b p q, P p -> P q -> E b (p + q)%Qc = op (E b p) (E b q).
  Hypothesis E_one : forall p, E (lit "1") p = e.

  Definition prodM (l : list M) : M := fold_right op e l.

  Lemma total_P b ts : Forall (fun t => P (expo t)) ts -> P (total_expo b ts).
  Proof.
    induction 1 as [|t ts H _ IH]; [exact P_0|]. rewrite total_expo_cons.
    apply P_add; auto. destruct (str_eqb b (base t)); auto.
  Qed.

  Lemma prodM_add t ts L :
    P (expo t) -> Forall (fun t => P (expo t)) ts -> NoDup L ->
    prodM (map (fun b => E b (total_expo b (t :: ts))) L)
    = op (if existsb (str_eqb (base t)) L then E (base t) (expo t) else e)
         (prodM (map (fun b => E b (total_expo b ts)) L)).
  Proof.
    intros Pt Pts. induction 1 as [|b L Nb N IH].
    - simpl. now rewrite unit_l.
    - cbn [map prodM fold_right existsb]. fold (prodM (map (fun b => E b (total_expo b (t :: ts))) L)).
      fold (prodM (map (fun b => E b (total_expo b ts)) L)). rewrite IH. clear IH.
      rewrite total_expo_cons.
      assert (str_eqb b (base t) = str_eqb (base t) b) as Sy.
      { destruct (str_eqb_spec b (base t)), (str_eqb_spec (base t) b); congruence. }
      rewrite Sy. destruct (str_eqb_spec (base t) b) as [Eb|Eb]; cbn [orb].
      + subst b. assert (existsb (str_eqb (base t)) L = false) as ->.
        { apply not_true_is_false. intro H. apply existsb_exists in H as [b [I H]].
          destruct (str_eqb_spec (base t) b); [subst; auto|discriminate]. }
        rewrite E_add, unit_l by auto using total_P. now rewrite assoc.
      + rewrite Qcplus_0_l. destruct (existsb (str_eqb (base t)) L).
        * rewrite !assoc. f_equal. apply comm.
        * now rewrite !unit_l.
  Qed.

  Lemma value_split L ts :
    NoDup L -> (forall t, In t ts -> In (base t) L) -> Forall (fun t => P (expo t)) ts ->
    value_in op e C E ts = op (C (total_coef ts)) (prodM (map (fun b => E b (total_expo b ts)) L)).
  Proof.
    intros N I H. induction H as [|t ts Pt Pts IH].
    - cbn [value_in fold_right]. assert (total_coef [] = 1%Qc) as -> by reflexivity. rewrite C_1, unit_l.
      clear I. induction L as [|b L IHL]; [reflexivity|]. inversion N; subst.
      cbn [map prodM fold_right]. rewrite total_expo_nil, E_0, unit_l. now apply IHL.
    - cbn [value_in fold_right]. fold (value_in op e C E ts).
      rewrite IH by (intros; apply I; now right). clear IH.
      rewrite prodM_add by auto.
      assert (existsb (str_eqb (base t)) L = true) as ->.
      { apply existsb_exists. exists (base t). split; [apply I; now left|].
        destruct (str_eqb_spec (base t) (base t)); congruence. }
      rewrite total_coef_cons, C_mul.
      rewrite <- !assoc. f_equal. rewrite !assoc. f_equal. apply comm.
  Qed.

  Lemma value_same xs ys :
    Forall (fun t => P (expo t)) xs -> Forall (fun t => P (expo t)) ys ->
    same_monomial xs ys -> value_in op e C E xs = value_in op e C E ys.
  Proof.
    intros Px Py [Hc He].
    set (L := nodup str_eq_dec (map base (xs ++ ys))).
    assert (forall t, In t (xs ++ ys) -> In (base t) L) as HI
      by (intros; apply nodup_In; now apply in_map).
    assert (NoDup L) as N by apply NoDup_nodup.
    rewrite (value_split L xs), (value_split L ys); auto;
      try (intros; apply HI, in_or_app; auto).
    f_equal; [now rewrite Hc|]. f_equal. apply map_ext. intro b.
    destruct (str_eq_dec b (lit "1")) as [->|Nb]; [now rewrite !E_one|]. now rewrite He.
  Qed.

  Lemma before_P ts x :
    Forall wf ts -> Forall (fun t => P (expo t)) ts -> reduce ts = Ok x -> P 1%Qc ->
    Forall (fun t => P (expo t)) x.
  Proof.
    intros W H R P1. assert (Sm := reduce_same ts x W R). assert (Cx := reduce_canonical ts x W R).
    destruct Cx as [cs [vs [-> [_ [Hc [Hv [Nv _]]]]]]].
    apply Forall_app. split.
    - destruct Hc as [->|[c [-> [_ [Ec _]]]]]; constructor; auto. now rewrite Ec.
    - rewrite Forall_forall in *. intros t I. destruct (Hv t I) as [Nt _].
      rewrite <- (total_expo_In vs t Nv I).
      assert (total_expo (base t) vs = total_expo (base t) (cs ++ vs)) as ->.
      { rewrite total_expo_app. rewrite (total_expo_zero _ cs); [ring|].
        destruct Hc as [->|[c [-> [Bc _]]]]; intros u [].
        - subst u. congruence.
        - destruct H0. }
      destruct Sm as [_ Sm]. rewrite Sm by auto. apply total_P. now apply Forall_forall.
  Qed.
End Value.

(** ** Integral exponents and rational values *)

Lemma value_value_in rho ts :
  value rho ts = value_in Qcmult 1%Qc (fun c => c) (fun b p => Qc_zpow (rho b) (Qc_num p)) ts.
Proof. induction ts; simpl; auto. unfold value in *. simpl. now rewrite IHts. Qed.

Lemma integral_P ts : integral ts <-> Forall (fun t => exists z, expo t = Qc_of_Z z) ts.
Proof. reflexivity. Qed.

Lemma value_reduce rho ts x :
  Forall wf ts -> integral ts -> rho (lit "1") = 1%Qc -> (forall b, rho b <> 0%Qc) ->
  reduce ts = Ok x -> value rho x = value rho ts.
Proof.
  intros W I H1 H0 R. rewrite !value_value_in.
  assert (forall z w, exists k, (Qc_of_Z z + Qc_of_Z w)%Qc = Qc_of_Z k) as HP.
  { intros z w. exists (z + w)%Z. now rewrite Qc_of_Z_add. }
  apply (value_same Qcmult 1%Qc Qcmult_assoc Qcmult_comm Qcmult_1_l (fun c => c)
           (fun b p => Qc_zpow (rho b) (Qc_num p)) (fun p => exists z, p = Qc_of_Z z)).
  - reflexivity.
  - reflexivity.
  - exists 0%Z. reflexivity.
  - intros p q [z ->] [w ->]. apply HP.
  - reflexivity.
  - intros b p q [z ->] [w ->]. rewrite <- Qc_of_Z_add, !Qc_num_of_Z. now apply Qc_zpow_add.
  - intro p. now rewrite H1, Qc_zpow_1_l.
  - apply (before_P (fun p => exists z, p = Qc_of_Z z)) with (ts := ts); auto.
    + exists 0%Z. reflexivity.
    + intros p q [z ->] [w ->]. apply HP.
    + exists 1%Z. reflexivity.
  - exact I.
  - now apply reduce_same.
Qed.

(** * Reading back printed expressions *)

Definition written_of (t : term) : written :=
  if str_eqb (base t) (lit "1") then WNum (coef t) else WVar (base t) (expo t).

Lemma printable_written F t :
  wf t -> printable F t ->
  legal F (written_of t) /\ text (written_of t) = format_term F t /\ denote (written_of t) = [t].
Proof.
  intros [Wc [We Wb]] [He [Hc [Hf H]]]. unfold written_of. destruct t as [c b x]. cbn [coef base expo] in *.
  destruct H as [[-> ->]|[-> [L NS]]].
  - rewrite str_eqb_refl. split; [|split].
    + simpl. auto.
    + simpl text. now rewrite num_text.
    + reflexivity.
  - rewrite str_eqb_neq by now apply legal_not_one. split; [|split].
    + simpl. auto.
    + simpl text. now rewrite var_text.
    + reflexivity.
Qed.

Lemma join_cons s a l : join s (a :: l) = a ++ concat (map (fun x => s ++ x) l).
Proof.
  revert a; induction l as [|b l IH]; intro a; simpl.
  - now rewrite app_nil_r.
  - simpl in IH. rewrite IH. now rewrite <- app_assoc.
Qed.

Lemma chain_read F strict x0 l r :
  legal_chain F x0 l -> (strict = true -> orderly_chain x0 l) ->
  canonical r -> same_monomial (chain_denote x0 l) r ->
  (do ts <- parse F strict (chain_text x0 l); reduce ts) = Ok r.
Proof.
  intros L O Cr Sr. destruct (parse_written F strict x0 l L) as [[ts [E [W [S _]]]]|[Hs [NO _]]].
  - rewrite E. cbn [bind]. destruct (reduce_total ts) as [x R].
    { intros ->. destruct (parse F strict (chain_text x0 l)) eqn:P; [|discriminate]. injection E as ->.
      unfold parse in P. cbn [resolve] in P. destruct (parse_loop _ _ _ _ _ _); [|discriminate].
      cbn [bind] in P. destruct (mapM _ _); [|discriminate]. cbn [bind] in P. injection P as P.
      now apply app_eq_nil in P as [_ P]. }
    rewrite R. f_equal. apply canonical_unique; eauto using reduce_canonical.
    apply same_monomial_trans with (y := ts); [now apply reduce_same|].
    eauto using same_monomial_trans.
  - exfalso. auto.
Qed.

Lemma violation_none l : Forall (fun o : option operator => o = None) l -> forall p, violation p l = None.
Proof. induction 1 as [|o l -> _ IH]; intro p; simpl; auto. destruct p as [[]|]; auto. Qed.

Lemma written_orderly t : orderly (written_of t).
Proof. unfold written_of. destruct (str_eqb _ _); exact I. Qed.

(** The text of [Expression.format]. *)
Lemma format_read F strict x :
  canonical x -> Forall wf x -> Forall (printable F) x ->
  expression_of_str F strict (expr_format F x) = Ok x.
Proof.
  intros Cx Wx Px. destruct x as [|t ts].
  { destruct Cx as [? [? [_ [N _]]]]. congruence. }
  set (l := map (fun u => (@None operator, written_of u)) ts).
  assert (expr_format F (t :: ts) = chain_text (written_of t) l) as E.
  { unfold expr_format. cbn [map]. rewrite join_cons. unfold chain_text. inversion Wx; subst. inversion Px; subst.
    f_equal. { symmetry. now apply printable_written. }
    f_equal. unfold l. rewrite !map_map. apply map_ext_in. intros u I. cbn [fst snd]. f_equal.
    rewrite Forall_forall in *. symmetry. apply printable_written; auto. }
  assert (legal_chain F (written_of t) l) as L.
  { inversion Wx; subst. inversion Px; subst. split; [now apply printable_written|].
    unfold l. apply Forall_forall. intros p I. apply in_map_iff in I as [u [<- I]]. rewrite Forall_forall in *.
    split; [discriminate|]. apply printable_written; auto. }
  unfold expression_of_str. rewrite E.
  assert (standard_str (chain_text (written_of t) l) = chain_text (written_of t) l) as ->.
  { destruct L as [L _]. apply text_ok in L as [R _]. apply reads_nonempty in R. unfold chain_text.
    destruct (text (written_of t)); [congruence|reflexivity]. }
  apply chain_read; auto.
  - intros _. split; [|split].
    + apply violation_none. unfold l. rewrite map_map. apply Forall_forall. intros o I.
      apply in_map_iff in I as [u [<- _]]. reflexivity.
    + apply written_orderly.
    + unfold l. apply Forall_forall. intros p I. apply in_map_iff in I as [u [<- I]]. apply written_orderly.
  - assert (chain_denote (written_of t) l = t :: ts) as ->; [|apply same_monomial_refl].
    unfold chain_denote, l. rewrite map_map. cbn [fst snd apply_op].
    inversion Wx; subst. inversion Px; subst.
    destruct (printable_written F t) as [_ [_ ->]]; auto. simpl. f_equal.
    clear - H2 H4. induction ts as [|u us IH]; auto. inversion H2; subst. inversion H4; subst. simpl.
    destruct (printable_written F u) as [_ [_ ->]]; auto. simpl. f_equal. auto.
Qed.

(** The text of [standard(terms)]: a product of bracketed terms. *)
Lemma terms_read F r z :
  Forall wf r -> Forall (printable F) r -> r <> [] -> canonical z -> same_monomial z r ->
  expression_of_terms F r = Ok z.
Proof.
  intros Wx Px Nr Cz Sz. destruct r as [|t ts]; [congruence|].
  set (grp := fun u => WGroup (written_of u) [] 1).
  set (l := map (fun u => (Some Multiply, grp u)) ts).
  assert (forall u, wf u -> printable F u ->
    legal F (grp u) /\ text (grp u) = lit "(" ++ format_term F u ++ lit ")" /\ denote (grp u) = [u]) as G.
  { intros u Wu Pu. destruct (printable_written F u Wu Pu) as [H1 [H2 H3]]. unfold grp. split; [|split].
    - simpl. auto.
    - cbn [text map concat]. rewrite H2, app_nil_r.
      change (sup (Qc_of_Z 1)) with (@nil ascii). now rewrite app_nil_r.
    - cbn [denote map concat]. rewrite H3, app_nil_r. apply power_1. }
  assert (standard_terms F (t :: ts) = chain_text (grp t) l) as E.
  { unfold standard_terms. cbn [map]. rewrite join_cons. unfold chain_text. inversion Wx; subst. inversion Px; subst.
    f_equal. { symmetry. now apply G. }
    f_equal. unfold l. rewrite !map_map. apply map_ext_in. intros u I. cbn [fst snd]. f_equal.
    rewrite Forall_forall in *. symmetry. apply G; auto. }
  unfold expression_of_terms. rewrite E.
  apply chain_read; auto.
  - inversion Wx; subst. inversion Px; subst. split; [now apply G|].
    unfold l. apply Forall_forall. intros p I. apply in_map_iff in I as [u [<- I]]. rewrite Forall_forall in *.
    split; [discriminate|]. apply G; auto.
  - discriminate.
  - assert (chain_denote (grp t) l = t :: ts) as ->; [|now apply same_monomial_sym].
    unfold chain_denote, l. rewrite map_map. cbn [fst snd apply_op].
    inversion Wx; subst. inversion Px; subst.
    destruct (G t) as [_ [_ ->]]; auto. cbn [app]. f_equal.
    clear - H2 H4 G. induction ts as [|u us IH]; auto. inversion H2; subst. inversion H4; subst.
    cbn [map concat]. destruct (G u) as [_ [_ ->]]; auto. cbn [app]. f_equal. auto.
Qed.

(** * Arithmetic *)

Lemma product_ok F x y z :
  Forall wf x -> Forall wf y -> x ++ y <> [] ->
  canonical z -> same_monomial z (x ++ y) -> Forall (printable F) z ->
  expr_mul F x y = Ok z.
Proof.
  intros Wx Wy N Cz Sz Pz. unfold expr_mul.
  assert (Forall wf (x ++ y)) as W by (apply Forall_app; auto).
  destruct (reduce_total _ N) as [r R]. rewrite R. cbn [bind].
  assert (r = z) as ->.
  { apply canonical_unique; eauto using reduce_canonical.
    apply same_monomial_sym in Sz. eapply same_monomial_trans; [|exact Sz]. now apply reduce_same. }
  apply terms_read; auto using same_monomial_refl; eauto using reduce_wf.
  destruct Cz as [? [? [_ [Nz _]]]]. auto.
Qed.

Lemma mapM_inverse F y :
  Forall wf y -> mapM (fun t => term_pow F t (- (1))%Qc) y = Ok (inverse y).
Proof.
  rewrite inverse_power. induction 1 as [|t y W _ IH]; auto. cbn [mapM].
  change (- (1))%Qc with (Qc_of_Z (-1)) in *. rewrite term_pow_int by (auto; discriminate).
  cbn [bind]. rewrite IH. reflexivity.
Qed.

Lemma wf_power n ts : n <> 0%Z -> Forall wf ts -> Forall wf (power n ts).
Proof.
  intros Nn W. rewrite power_map. apply Forall_forall. intros t I. apply in_map_iff in I as [u [<- I]].
  apply wf_raise; auto. rewrite Forall_forall in W. auto.
Qed.

Lemma quotient_ok F x y z :
  Forall wf x -> Forall wf y -> x ++ y <> [] ->
  canonical z -> same_monomial z (x ++ inverse y) -> Forall (printable F) z ->
  expr_div F x y = Ok z.
Proof.
  intros Wx Wy N Cz Sz Pz. unfold expr_div. rewrite mapM_inverse by auto. cbn [bind].
  apply (product_ok F x (inverse y) z); auto.
  - rewrite inverse_power. apply wf_power; auto. discriminate.
  - intro E. apply app_eq_nil in E as [-> E]. apply map_eq_nil in E. subst. now apply N.
Qed.

Lemma power_ok F x n z :
  Forall wf x -> x <> [] -> n <> 0%Z ->
  Forall (fun t => fpow F (coef t) (Qc_of_Z n) = Some (Qc_zpow (coef t) n)
                   /\ fl F (expo t) = expo t
                   /\ fl F (expo t * Qc_of_Z n)%Qc = (expo t * Qc_of_Z n)%Qc) x ->
  canonical z -> same_monomial z (power n x) -> Forall (printable F) z ->
  expr_pow F x (Qc_of_Z n) = Ok z.
Proof.
  intros Wx N Nn H Cz Sz Pz. unfold expr_pow. rewrite (Qc_eqb_neq (Qc_of_Z n) 0) by now apply Qc_of_Z_neq_0.
  assert (mapM (fun t => term_fpow F t (Qc_of_Z n)) x = Ok (power n x)) as ->.
  { clear - Wx Nn H. induction H as [|t x [H1 [H2 H3]] _ IH]; auto. inversion Wx; subst. cbn [mapM].
    unfold term_fpow at 1, frac_fpow. rewrite H1. cbn [bind]. rewrite H2, H3, IH by auto. cbn [bind].
    destruct (wf_raise n t Nn) as [K1 [K2 K3]]; auto. rewrite init_id; auto. }
  cbn [bind]. rewrite <- (app_nil_l (power n x)).
  apply (product_ok F [] (power n x) z); auto.
  - now apply wf_power.
  - simpl. intro E. apply map_eq_nil in E. auto.
Qed.

Lemma all2_Forall2 {A} (f : A -> A -> bool) l m : all2 f l m = true <-> Forall2 (fun a b => f a b = true) l m.
Proof.
  revert m; induction l as [|a l IH]; intros [|b m]; simpl; split; intro H; try discriminate; auto;
    try (inversion H; fail).
  - apply andb_true_iff in H as [H1 H2]. constructor; auto. now apply IH.
  - inversion H; subst. apply andb_true_iff. split; auto. now apply IH.
Qed.

Lemma term_eqb_refl F t : term_eqb F t t = true.
Proof. unfold term_eqb. now rewrite str_eqb_refl, !Qc_eqb_refl. Qed.

Lemma term_eqb_eq F s t :
  (fl F (coef s) = fl F (coef t) -> coef s = coef t) ->
  (fl F (expo s) = fl F (expo t) -> expo s = expo t) ->
  term_eqb F s t = true -> s = t.
Proof.
  intros H1 H2. unfold term_eqb.
  destruct (str_eqb_spec (base t) (base s)); [|discriminate].
  destruct (Qc_eqb_spec (fl F (expo t)) (fl F (expo s))); [|discriminate].
  destruct (Qc_eqb_spec (fl F (coef t)) (fl F (coef s))); [|discriminate].
  intros _. destruct s as [c b x], t as [c' b' x']; simpl in *. f_equal; auto.
Qed.

Lemma eqb_refl F x : expr_eqb F x x = true.
Proof.
  unfold expr_eqb. rewrite Nat.eqb_refl. simpl. apply all2_Forall2.
  induction (sort_by by_key x); constructor; auto using term_eqb_refl.
Qed.

Lemma eqb_perm F x y : exact_on F (x ++ y) -> expr_eqb F x y = true -> Permutation x y.
Proof.
  intros Ex H. unfold expr_eqb in H. apply andb_true_iff in H as [_ H]. apply all2_Forall2 in H.
  assert (sort_by by_key x = sort_by by_key y) as E.
  { assert (forall t, In t (sort_by by_key x) -> In t x) as Ix
      by (intros t; apply (Permutation_in t (sort_by_perm by_key x))).
    assert (forall t, In t (sort_by by_key y) -> In t y) as Iy
      by (intros t; apply (Permutation_in t (sort_by_perm by_key y))).
    revert H Ix Iy. generalize (sort_by by_key x) (sort_by by_key y). intros l m H.
    induction H as [|s t l m H _ IH]; intros Ix Iy; auto.
    assert (s = t) as ->.
    { destruct (Ex s t) as [H1 H2]; [apply in_or_app; left; apply Ix; now left
        |apply in_or_app; right; apply Iy; now left|]. now apply (term_eqb_eq F). }
    f_equal. apply IH; intros; [apply Ix|apply Iy]; now right. }
  eapply perm_trans; [apply Permutation_sym, sort_by_perm|]. rewrite E. apply sort_by_perm.
Qed.

Lemma eqb_algebraic F x y :
  canonical x -> canonical y -> exact_on F (x ++ y) ->
  (expr_eqb F x y = true <-> same_monomial x y).
Proof.
  intros Cx Cy Ex. split; intro H.
  - apply same_monomial_perm. now apply (eqb_perm F).
  - rewrite (canonical_unique x y Cx Cy H). apply eqb_refl.
Qed.

(** * Indexing *)

Lemma getitem_nonneg x i t :
  (0 <= i < Z.of_nat (length x))%Z ->
  (expr_getitem x i = Ok t <-> nth_error x (Z.to_nat i) = Some t).
Proof.
  intro H. unfold expr_getitem, py_index.
  destruct (i >? Z.of_nat (length x))%Z eqn:E1; [lia|].
  replace (i <? 0)%Z with false by lia. replace (i <? 0)%Z with false by lia.
  replace ((0 <=? i) && (i <? Z.of_nat (length x)))%Z with true by lia.
  destruct (nth_error x (Z.to_nat i)); split; congruence.
Qed.

Lemma getitem_neg x i t :
  (- Z.of_nat (length x) <= i < 0)%Z ->
  (expr_getitem x i = Ok t <-> nth_error x (Z.to_nat (i + Z.of_nat (length x))) = Some t).
Proof.
  intro H. unfold expr_getitem, py_index.
  destruct (i >? Z.of_nat (length x))%Z eqn:E1; [lia|].
  replace (i <? 0)%Z with true by lia.
  replace (i + Z.of_nat (length x) <? 0)%Z with false by lia.
  replace ((0 <=? i + Z.of_nat (length x)) && (i + Z.of_nat (length x) <? Z.of_nat (length x)))%Z with true by lia.
  destruct (nth_error x _); split; congruence.
Qed.

Lemma getitem_out x i :
  (Z.of_nat (length x) <= i \/ i < - 2 * Z.of_nat (length x))%Z -> expr_getitem x i = Err IndexError.
Proof.
  intro H. unfold expr_getitem, py_index.
  destruct (i >? Z.of_nat (length x))%Z eqn:E1; auto.
  destruct (i <? 0)%Z eqn:E2.
  - replace (i + Z.of_nat (length x) <? 0)%Z with true by lia.
    replace ((0 <=? i + Z.of_nat (length x) + Z.of_nat (length x))
             && (i + Z.of_nat (length x) + Z.of_nat (length x) <? Z.of_nat (length x)))%Z with false by lia.
    reflexivity.
  - rewrite E2. replace ((0 <=? i) && (i <? Z.of_nat (length x)))%Z with false by lia. reflexivity.
Qed.

Lemma getitem_wraps x i t :
  (- 2 * Z.of_nat (length x) <= i < - Z.of_nat (length x))%Z ->
  (expr_getitem x i = Ok t <-> nth_error x (Z.to_nat (i + 2 * Z.of_nat (length x))) = Some t).
Proof.
  intro H. unfold expr_getitem, py_index.
  destruct (i >? Z.of_nat (length x))%Z eqn:E1; [lia|].
  replace (i <? 0)%Z with true by lia.
  replace (i + Z.of_nat (length x) <? 0)%Z with true by lia.
  replace ((0 <=? i + Z.of_nat (length x) + Z.of_nat (length x))
             && (i + Z.of_nat (length x) + Z.of_nat (length x) <? Z.of_nat (length x)))%Z with true by lia.
  replace (i + 2 * Z.of_nat (length x))%Z with (i + Z.of_nat (length x) + Z.of_nat (length x))%Z by lia.
  destruct (nth_error x _); split; congruence.
Qed.
