(** Group laws, refutations and examples for the symbolic module. *)

From Coq Require Import String Ascii List Bool ZArith NArith QArith Qcanon Lia Permutation Sorted Relations.
From Verif Require Import Py PyFacts SymbolicModel SymbolicSpec SymbolicReduceProofs.
From Verif Require Import SymbolicRx SymbolicParseProofs SymbolicChainProofs SymbolicTermProofs.
From Verif Require Import SymbolicExprProofs.
Import ListNotations.
Open Scope list_scope.
Open Scope py_scope.

Lemma reduce_to_canonical ts :
  Forall wf ts -> ts <> [] -> exists x, reduce ts = Ok x /\ canonical x.
Proof. intros W N. destruct (reduce_total ts N) as [x R]. eauto using reduce_canonical. Qed.

Lemma reduce_value_in :
  forall (M : Type) (op : M -> M -> M) (e : M),
  (forall x y z, op x (op y z) = op (op x y) z) -> (forall x y, op x y = op y x) ->
  (forall x, op e x = x) ->
  forall (C : Qc -> M) (E : str -> Qc -> M) (P : Qc -> Prop),
  C 1%Qc = e -> (forall a b, C (a * b)%Qc = op (C a) (C b)) ->
  P 0%Qc -> P 1%Qc -> (forall p q, P p -> P q -> P (p + q)%Qc) ->
  (forall b, E b 0%Qc = e) ->
  (forall b p q, P p -> P q -> E b (p + q)%Qc = op (E b p) (E b q)) ->
  (forall p, E (lit "1") p = e) ->
  forall ts x, Forall wf ts -> Forall (fun t => P (expo t)) ts -> reduce ts = Ok x ->
  value_in op e C E x = value_in op e C E ts.
Proof.
  intros M op e H1 H2 H3 C E P H4 H5 H6 H7 H8 H9 H10 H11 ts x W HP R.
  apply (value_same op e H1 H2 H3 C E P); auto.
  - apply (before_P P) with (ts := ts); auto.
  - now apply reduce_same.
Qed.

Lemma equality_of_reduced F xs ys x y :
  Forall wf xs -> Forall wf ys -> reduce xs = Ok x -> reduce ys = Ok y ->
  exact_on F (x ++ y) ->
  (expr_eqb F x y = true <-> same_monomial xs ys).
Proof.
  intros Wx Wy Rx Ry Ex. rewrite eqb_algebraic by (eauto using reduce_canonical).
  assert (Sx := reduce_same _ _ Wx Rx). assert (Sy := reduce_same _ _ Wy Ry).
  split; intro H; eauto 6 using same_monomial_trans, same_monomial_sym.
Qed.

Lemma identical_equal F xs ys x y :
  Forall wf xs -> Forall wf ys -> reduce xs = Ok x -> reduce ys = Ok y ->
  same_monomial xs ys -> expr_eqb F x y = true.
Proof.
  intros Wx Wy Rx Ry S. assert (x = y) as -> by (now apply (reduce_unique xs ys)). apply eqb_refl.
Qed.

Lemma term_eqb_iff F s t :
  term_eqb F s t = true <->
  fl F (coef s) = fl F (coef t) /\ base s = base t /\ fl F (expo s) = fl F (expo t).
Proof.
  unfold term_eqb. rewrite !andb_true_iff.
  rewrite <- !(reflect_iff _ _ (Qc_eqb_spec _ _)), <- (reflect_iff _ _ (str_eqb_spec _ _)).
  intuition congruence.
Qed.

Lemma equality_sym F x y : expr_eqb F x y = true -> expr_eqb F y x = true.
Proof.
  unfold expr_eqb. rewrite !andb_true_iff, !all2_Forall2, !Nat.eqb_eq. intros [L H]. split; auto.
  induction H; constructor; auto. rewrite term_eqb_iff in *. intuition congruence.
Qed.

Lemma equality_trans F x y z : expr_eqb F x y = true -> expr_eqb F y z = true -> expr_eqb F x z = true.
Proof.
  unfold expr_eqb. rewrite !andb_true_iff, !all2_Forall2, !Nat.eqb_eq. intros [L H] [M K].
  split; [congruence|]. revert K. generalize (sort_by by_key z). clear - H.
  induction H as [|a b l m H1 H2 IH]; intros n K; inversion K; subst; constructor; auto.
  rewrite term_eqb_iff in *. intuition congruence.
Qed.

Lemma equality_equivalence F : equivalence expression (fun x y => expr_eqb F x y = true).
Proof. split; red; eauto using eqb_refl, equality_sym, equality_trans. Qed.

Lemma reduce_permutation xs ys : Forall wf xs -> Permutation xs ys -> reduce xs = reduce ys.
Proof.
  intros W P. assert (Forall wf ys) as Wy by (eapply Permutation_Forall; eauto).
  destruct xs as [|x xs]; [apply Permutation_nil in P; now subst|].
  destruct (reduce_total (x :: xs)) as [r R]; [discriminate|].
  destruct (reduce_total ys) as [s S].
  { intros ->. apply Permutation_sym, Permutation_nil in P. discriminate. }
  rewrite R, S. f_equal. apply (reduce_unique (x :: xs) ys); auto. now apply same_monomial_perm.
Qed.

Lemma reduce_same_eq xs ys :
  Forall wf xs -> Forall wf ys -> xs <> [] -> ys <> [] -> same_monomial xs ys -> reduce xs = reduce ys.
Proof.
  intros Wx Wy Nx Ny S. destruct (reduce_total xs Nx) as [r R]. destruct (reduce_total ys Ny) as [s T].
  rewrite R, T. f_equal. now apply (reduce_unique xs ys).
Qed.

Lemma product_comm F x y : Forall wf x -> Forall wf y -> expr_mul F x y = expr_mul F y x.
Proof.
  intros Wx Wy. unfold expr_mul. rewrite (reduce_permutation (x ++ y) (y ++ x)); auto.
  - apply Forall_app; auto.
  - apply Permutation_app_comm.
Qed.

Lemma canonical_wf_nonempty x : canonical x -> x <> [].
Proof. intros [? [? [_ [N _]]]]. exact N. Qed.

Lemma canonical_of_wf xs a : Forall wf xs -> xs <> [] -> canonical a -> same_monomial a xs -> Forall wf a.
Proof.
  intros W N Ca Sa. destruct (reduce_total xs N) as [r R].
  assert (a = r) as ->.
  { apply canonical_unique; eauto using reduce_canonical, same_monomial_trans, same_monomial_sym, reduce_same. }
  eauto using reduce_wf.
Qed.

Lemma app_not_nil {A} (x y : list A) : x <> [] -> x ++ y <> [].
Proof. intros N E. apply app_eq_nil in E as [E _]. auto. Qed.

Lemma product_assoc F x y z a b :
  Forall wf x -> Forall wf y -> Forall wf z -> x <> [] -> y <> [] -> z <> [] ->
  canonical a -> same_monomial a (x ++ y) -> Forall (printable F) a ->
  canonical b -> same_monomial b (y ++ z) -> Forall (printable F) b ->
  expr_mul F x y = Ok a /\ expr_mul F y z = Ok b /\ expr_mul F a z = expr_mul F x b.
Proof.
  intros Wx Wy Wz Nx Ny Nz Ca Sa Pa Cb Sb Pb.
  assert (Forall wf a) as Wa by
    (apply (canonical_of_wf (x ++ y)); auto using app_not_nil; apply Forall_app; auto).
  assert (Forall wf b) as Wb by
    (apply (canonical_of_wf (y ++ z)); auto using app_not_nil; apply Forall_app; auto).
  split; [apply product_ok; auto using app_not_nil|].
  split; [apply product_ok; auto using app_not_nil|].
  unfold expr_mul. rewrite (reduce_same_eq (a ++ z) (x ++ b)); auto.
  - apply Forall_app; auto.
  - apply Forall_app; auto.
  - apply app_not_nil. now apply canonical_wf_nonempty.
  - now apply app_not_nil.
  - apply same_monomial_trans with (y := (x ++ y) ++ z).
    + apply same_monomial_app; auto using same_monomial_refl.
    + rewrite <- app_assoc. apply same_monomial_app; auto using same_monomial_refl, same_monomial_sym.
Qed.

Lemma wf_one : wf (mkTerm 1 (lit "1") 1).
Proof. repeat split; discriminate. Qed.

Lemma one_neutral x : same_monomial x (x ++ [mkTerm 1 (lit "1") 1]).
Proof. apply same_monomial_sym, same_neutral, same_monomial_refl. Qed.

Lemma product_identity F x :
  canonical x -> Forall wf x -> Forall (printable F) x ->
  expr_mul F x [mkTerm 1 (lit "1") 1] = Ok x /\ expr_mul F [mkTerm 1 (lit "1") 1] x = Ok x.
Proof.
  intros Cx Wx Px.
  assert (expr_mul F x [mkTerm 1 (lit "1") 1] = Ok x) as E.
  { apply product_ok; auto using wf_one, one_neutral. apply app_not_nil. now apply canonical_wf_nonempty. }
  split; auto. rewrite product_comm; auto using wf_one.
Qed.

Lemma total_coef_power n ts : total_coef (power n ts) = Qc_zpow (total_coef ts) n.
Proof.
  induction ts as [|t ts IH]; [symmetry; apply Qc_zpow_1_l|].
  unfold power. cbn [map]. rewrite !total_coef_cons. fold (power n ts). rewrite IH. cbn [coef].
  now rewrite Qc_zpow_mul.
Qed.

Lemma total_expo_power b n ts : total_expo b (power n ts) = (total_expo b ts * Qc_of_Z n)%Qc.
Proof.
  induction ts as [|t ts IH]; [unfold total_expo; simpl; ring|].
  unfold power. cbn [map]. rewrite !total_expo_cons. fold (power n ts). rewrite IH. cbn [base expo].
  destruct (str_eqb b (base t)); ring.
Qed.

Lemma same_inverse x y : Forall wf y -> same_monomial ((x ++ y) ++ inverse y) x.
Proof.
  intro W. rewrite inverse_power. split.
  - rewrite !total_coef_app, total_coef_power, Qc_zpow_m1. field. now apply total_coef_neq_0.
  - intros b _. rewrite !total_expo_app, total_expo_power. change (Qc_of_Z (-1)) with (- (1))%Qc. ring.
Qed.

Lemma canonical_one : canonical [mkTerm 1 (lit "1") 1].
Proof.
  exists [mkTerm 1 (lit "1") 1], []. split; [reflexivity|]. split; [discriminate|]. split.
  - right. exists (mkTerm 1 (lit "1") 1). auto.
  - repeat constructor.
Qed.

Lemma self_quotient F x :
  fl F 1%Qc = 1%Qc -> Forall wf x -> x <> [] -> expr_div F x x = Ok [mkTerm 1 (lit "1") 1].
Proof.
  intros F1 W N. apply quotient_ok; auto using app_not_nil, canonical_one.
  - apply same_monomial_sym. apply (same_monomial_trans _ (([] ++ x) ++ inverse x)).
    + apply same_monomial_refl.
    + apply (same_monomial_trans _ []); [now apply same_inverse|]. apply (one_neutral []).
  - constructor; auto. split; [reflexivity|]. split; [reflexivity|]. split; [exact F1|]. left. auto.
Qed.

Lemma product_cancel F x y a :
  canonical x -> Forall wf x -> Forall wf y -> y <> [] -> Forall (printable F) x ->
  canonical a -> same_monomial a (x ++ y) -> Forall (printable F) a ->
  expr_mul F x y = Ok a /\ expr_div F a y = Ok x.
Proof.
  intros Cx Wx Wy Ny Px Ca Sa Pa.
  assert (x <> []) as Nx by now apply canonical_wf_nonempty.
  assert (Forall wf a) as Wa by
    (apply (canonical_of_wf (x ++ y)); auto using app_not_nil; apply Forall_app; auto).
  split; [apply product_ok; auto using app_not_nil|].
  apply quotient_ok; auto.
  - apply app_not_nil. now apply canonical_wf_nonempty.
  - apply same_monomial_sym. apply (same_monomial_trans _ ((x ++ y) ++ inverse y)).
    + apply same_monomial_app; auto using same_monomial_refl.
    + now apply same_inverse.
Qed.

Lemma power_algebra m n xs ys :
  power n (xs ++ ys) = power n xs ++ power n ys /\ power n (power m xs) = power (m * n) xs.
Proof. split; [apply power_app|apply power_mul]. Qed.

Lemma term_pow_frac F t p :
  wf t -> coef t = 1%Qc -> p <> 0%Qc -> (forall q, fpow F 1 q = Some 1%Qc) ->
  term_pow F t p = Ok (mkTerm 1 (base t) (expo t * p)%Qc).
Proof.
  intros [W1 [W2 W3]] E Np H. unfold term_pow, frac_pow. rewrite E, H.
  assert (Qc_eqb 1 0 = false) as -> by reflexivity. cbn [andb].
  rewrite Qc_zpow_1_l. destruct (Qc_is_int p); cbn [bind];
    rewrite init_id; auto using Qc_mul_neq_0; discriminate.
Qed.

Lemma zeroth_power_refuted : exists t,
  wf t /\ base t = lit "a" /\ expo t = Qc_of_Z 2 /\ forall F,
  exists u, term_pow F t 0 = Ok u /\ base u = lit "a" /\ expo u = 1%Qc.
Proof.
  exists (mkTerm 1 (lit "a") (Qc_of_Z 2)). split; [repeat split; discriminate|].
  split; [reflexivity|]. split; [reflexivity|]. intro F. eexists. split; [reflexivity|].
  split; reflexivity.
Qed.

Lemma default_accepts F x0 l :
  legal_chain F x0 l ->
  exists ts, parse F false (chain_text x0 l) = Ok ts /\ Forall wf ts
             /\ same_monomial ts (chain_denote x0 l).
Proof.
  intro L. destruct (parse_written F false x0 l L) as [[ts [E [W [S _]]]]|[H _]]; [eauto|discriminate].
Qed.

Lemma strict_accepts F x0 l :
  legal_chain F x0 l -> orderly_chain x0 l ->
  exists ts, parse F true (chain_text x0 l) = Ok ts /\ Forall wf ts
             /\ same_monomial ts (chain_denote x0 l).
Proof.
  intros L O. destruct (parse_written F true x0 l L) as [[ts [E [W [S _]]]]|[_ [H _]]]; [eauto|tauto].
Qed.

Lemma strict_rejects F x0 l :
  legal_chain F x0 l -> ~ orderly_chain x0 l ->
  exists e, (e = RatioError \/ e = ProductError) /\ parse F true (chain_text x0 l) = Err e.
Proof.
  intros L O. destruct (parse_written F true x0 l L) as [[ts [E [W [S H]]]]|[_ [_ H]]]; auto. tauto.
Qed.

Lemma strict_first_error F x0 l e :
  legal_chain F x0 l -> violation None (map fst l) = Some e ->
  parse F true (chain_text x0 l) = Err e.
Proof.
  intros L V. unfold parse. rewrite init_id; try discriminate.
  - cbn [base]. rewrite resolve_S. cbn [expo base]. assert (H := loop_written F true 1 x0 l).
    change (Qc_of_Z 1) with 1%Qc in H. rewrite H by (auto; discriminate). now rewrite V.
  - destruct L as [L _]. apply text_ok in L as [R _]. apply reads_nonempty in R. unfold chain_text.
    destruct (text x0); [congruence|discriminate].
Qed.

Lemma getitem_correct x i :
  (0 <= i < Z.of_nat (length x) -> forall t,
     expr_getitem x i = Ok t <-> nth_error x (Z.to_nat i) = Some t)%Z
  /\ (- Z.of_nat (length x) <= i < 0 -> forall t,
     expr_getitem x i = Ok t <-> nth_error x (Z.to_nat (i + Z.of_nat (length x))) = Some t)%Z
  /\ (Z.of_nat (length x) <= i \/ i < - 2 * Z.of_nat (length x) ->
     expr_getitem x i = Err IndexError)%Z.
Proof.
  split; [intros H t; now apply getitem_nonneg|]. split; [intros H t; now apply getitem_neg|].
  apply getitem_out.
Qed.

Lemma hash_ok F (V : Type) (H : list (Qc * str * Qc) -> V) x y :
  canonical x -> canonical y -> exact_on F (x ++ y) ->
  expr_eqb F x y = true -> expr_hash H x = expr_hash H y.
Proof.
  intros Cx Cy Ex E. apply (eqb_algebraic F) in E; auto.
  now rewrite (canonical_unique x y Cx Cy E).
Qed.

Lemma create_str_halts F s : create_str F s <> Err OutOfFuel.
Proof. apply create_halts. apply Nat.lt_succ_diag_r. Qed.

(** * Deciding the side conditions on concrete lists *)

Definition is_letter (c : ascii) : bool :=
  let n := N_of_ascii c in
  ((97 <=? n) && (n <=? 122) || (65 <=? n) && (n <=? 90))%N || Ascii.eqb c "#" || Ascii.eqb c "_".

Lemma is_letter_letter c : is_letter c = true -> letter c.
Proof.
  unfold is_letter, letter. rewrite !orb_true_iff, !andb_true_iff, !N.leb_le, !Ascii.eqb_eq. tauto.
Qed.

Lemma legal_base_dec l d :
  l <> [] -> forallb is_letter l = true ->
  forallb (fun c => (48 <=? N_of_ascii c) && (N_of_ascii c <=? 57))%N d = true -> legal_base (l ++ d).
Proof.
  intros N Hl Hd. exists l, d. split; [auto|]. split; [auto|]. rewrite forallb_forall in *. split; apply Forall_forall; intros c I.
  - now apply is_letter_letter, Hl.
  - apply Hd in I. unfold digit. apply andb_true_iff in I as [I1 I2]. rewrite N.leb_le in *. auto.
Qed.

Lemma not_starts p s : str_eqb (firstn (length p) s) p = false -> ~ starts_with p s.
Proof.
  intros H [r ->]. rewrite firstn_app, Nat.sub_diag, firstn_all in H. simpl in H.
  rewrite app_nil_r, str_eqb_refl in H. discriminate.
Qed.

(** Equality of computed results, up to the proof component of [Qc]. *)
Definition term_is (s t : term) : bool :=
  Qc_eqb (coef s) (coef t) && str_eqb (base s) (base t) && Qc_eqb (expo s) (expo t).
Fixpoint terms_are (x y : list term) : bool :=
  match x, y with
  | [], [] => true
  | s :: x', t :: y' => term_is s t && terms_are x' y'
  | _, _ => false
  end.

Lemma term_is_eq s t : term_is s t = true -> s = t.
Proof.
  destruct s, t. unfold term_is. simpl. rewrite !andb_true_iff. intros [[A B] C].
  apply (reflect_iff _ _ (Qc_eqb_spec _ _)) in A. apply (reflect_iff _ _ (Qc_eqb_spec _ _)) in C.
  apply (reflect_iff _ _ (str_eqb_spec _ _)) in B. congruence.
Qed.

Lemma terms_are_eq x : forall y, terms_are x y = true -> x = y.
Proof.
  induction x as [|s x IH]; destruct y as [|t y]; simpl; try discriminate; auto.
  rewrite andb_true_iff. intros [H1 H2]. apply term_is_eq in H1. apply IH in H2. congruence.
Qed.

Lemma computes (r : res expression) y :
  match r with Ok x => terms_are x y | Err _ => false end = true -> r = Ok y.
Proof. destruct r; [|discriminate]. intro H. f_equal. now apply terms_are_eq. Qed.

Lemma computes_term (r : res term) y :
  match r with Ok x => term_is x y | Err _ => false end = true -> r = Ok y.
Proof. destruct r; [|discriminate]. intro H. f_equal. now apply term_is_eq. Qed.

Lemma computes_some (r : option Qc) y :
  match r with Some x => Qc_eqb x y | None => false end = true -> r = Some y.
Proof.
  destruct r; [|discriminate]. intro H. f_equal. now apply (reflect_iff _ _ (Qc_eqb_spec _ _)).
Qed.

Ltac compute_eq :=
  solve [ apply Qc_is_canon; vm_compute; reflexivity
        | apply computes; vm_compute; reflexivity
        | apply computes_term; vm_compute; reflexivity
        | vm_compute; reflexivity ].

Ltac decide_legal :=
  match goal with |- legal_base ?b => rewrite <- (app_nil_r b); apply (legal_base_dec b []) end;
  [discriminate|reflexivity|reflexivity].

Local Definition T (c : Q) (b : string) (e : Q) : term := mkTerm (Q2Qc c) (lit b) (Q2Qc e).

Ltac wf_list := repeat (constructor; [repeat split; discriminate|]); try apply Forall_nil.
Ltac canon_by ts :=
  match goal with |- canonical ?x =>
    apply (reduce_canonical ts); [wf_list|compute_eq] end.

Lemma example_canonical : canonical [T 6 "1" 1; T 1 "a" (1#2)].
Proof. canon_by [T 6 "1" 1; T 1 "a" (1#2)]. Qed.

Lemma equality_refuted : exists x y,
  canonical x /\ canonical y /\ expr_eqb F64 x y = true /\ ~ same_monomial x y.
Proof.
  exists [T (1#3) "1" 1; T 1 "a" 1],
    [T (6004799503160661 # 18014398509481984) "1" 1; T 1 "a" 1].
  split; [canon_by [T (1#3) "1" 1; T 1 "a" 1]|].
  split; [canon_by [T (6004799503160661 # 18014398509481984) "1" 1; T 1 "a" 1]|].
  split; [compute_eq|].
  intros [H _]. vm_compute in H. discriminate H.
Qed.

Lemma product_refuted : exists x y z,
  expression_of_str F64 false (lit "a / 5") = Ok x /\ expression_of_str F64 false (lit "b") = Ok y
  /\ expr_mul F64 x y = Ok z /\ ~ same_monomial z (x ++ y).
Proof.
  exists [T (1#5) "1" 1; T 1 "a" 1], [T 1 "b" 1].
  eexists. split; [compute_eq|]. split; [compute_eq|].
  split; [vm_compute; reflexivity|].
  intros [H _]. vm_compute in H. discriminate H.
Qed.

Lemma example_power :
  let x := [T (3#2) "1" 1; T 1 "a" (1#2)] in
  canonical x /\ Forall wf x /\ Forall (printable F64) x
  /\ expr_mul F64 x x = Ok [T (9#4) "1" 1; T 1 "a" 1]
  /\ expr_pow F64 x (Qc_of_Z 2) = Ok [T (9#4) "1" 1; T 1 "a" 1]
  /\ Forall (fun t => fpow F64 (coef t) (Qc_of_Z 2) = Some (Qc_zpow (coef t) 2)
                   /\ fl F64 (expo t) = expo t
                   /\ fl F64 (expo t * Qc_of_Z 2)%Qc = (expo t * Qc_of_Z 2)%Qc) x.
Proof.
  split; [canon_by [T (3#2) "1" 1; T 1 "a" (1#2)]|]. split; [wf_list|]. split.
  { apply Forall_cons; [|apply Forall_cons; [|apply Forall_nil]];
      (split; [reflexivity|]; split; [reflexivity|]; split; [compute_eq|]).
    - left. auto.
    - right. split; [reflexivity|]. split; [decide_legal|apply not_starts; reflexivity]. }
  split; [compute_eq|]. split; [compute_eq|].
  apply Forall_cons; [|apply Forall_cons; [|apply Forall_nil]];
    (split; [apply computes_some; vm_compute; reflexivity|]; split; compute_eq).
Qed.

Lemma example_wf : wf (T 3 "a" (1#2)) /\ wf (T 1 "a" (1#2)) /\ forall q, fpow F64 1 q = Some 1%Qc.
Proof.
  split; [repeat split; discriminate|]. split; [repeat split; discriminate|].
  intro q. simpl. destruct (Qc_is_int q); [|reflexivity]. f_equal.
  assert (round64 1 = 1%Qc) as -> by (compute_eq). rewrite Qc_zpow_1_l.
  compute_eq.
Qed.

Lemma round_trip_refuted : exists x y,
  canonical x /\ Forall wf x
  /\ expression_of_str F64 false (expr_format F64 x) = Ok y /\ ~ same_monomial x y.
Proof.
  exists [T 1 "a" (1#12)]. eexists. split; [canon_by [T 1 "a" (1#12)]|]. split; [wf_list|].
  split; [compute_eq|]. intros [H _]. vm_compute in H. discriminate H.
Qed.

Lemma example_print :
  let x := [T (5#2) "1" 1; T 1 "m" 2; T 1 "kg" (2#3); T 1 "s" (-2#1)] in
  canonical x /\ Forall wf x /\ Forall (printable F64) x
  /\ expr_format F64 x = lit "5/2 m^2 kg^2/3 s^-2".
Proof.
  split; [canon_by [T (5#2) "1" 1; T 1 "m" 2; T 1 "kg" (2#3); T 1 "s" (-2#1)]|].
  split; [wf_list|]. split; [|compute_eq].
  repeat (apply Forall_cons; [split; [reflexivity|]; split; [reflexivity|]; split; [compute_eq|]|]); try apply Forall_nil.
  1: left; auto.
  all: right; split; [reflexivity|]; split; [decide_legal|apply not_starts; reflexivity].
Qed.

Lemma find_bounds_refuted : exists s i j, find_bounds s = Some (i, j) /\ ~ first_group s i j.
Proof.
  exists (lit ")(a)"), 1%nat, 2%nat. split; [reflexivity|].
  intros [_ [_ [_ [H _]]]]. vm_compute in H. discriminate H.
Qed.

Lemma example_bounds :
  no_early_close (lit "ab((c) d)(e)") /\ find_bounds (lit "ab((c) d)(e)") = Some (2, 9)%nat.
Proof.
  split; [|reflexivity]. intros p q E.
  destruct p as [|a [|b [|c p]]]; simpl in E; injection E as; subst; try discriminate.
  simpl. auto.
Qed.

Lemma hash_refuted : exists x y,
  expression_of_str F64 false (lit "a / 3") = Ok x /\ expression_of_str F64 false (lit "1/3 a") = Ok y
  /\ expr_eqb F64 x y = true
  /\ expr_hash (fun d => d) x <> expr_hash (fun d => d) y.
Proof.
  eexists. eexists. split; [compute_eq|]. split; [compute_eq|].
  split; [compute_eq|]. vm_compute. discriminate.
Qed.

Lemma example_halts : exists e, expression_of_str F64 false (lit "((a") = Err e
  /\ exists x, expression_of_str F64 false (lit ")(a)") = x.
Proof. eexists. split; [compute_eq|]. eexists. reflexivity. Qed.

Lemma example_chain :
  let x0 := WVar (lit "a") 1 in
  let g := WGroup (WVar (lit "b") (Q2Qc (1#2))) [(Some Divide, WNum (Q2Qc (5#2)))] (-2) in
  let l := [(Some Divide, g); (None, WVar (lit "c2") (Q2Qc (-3#1)))] in
  legal_chain F64 x0 l /\ chain_text x0 l = lit "a / (b^1/2 / 5/2)^-2 c2^-3"
  /\ orderly_chain x0 l /\ ~ orderly_chain x0 (l ++ [(Some Divide, x0); (Some Multiply, x0)]).
Proof.
  cbv zeta. split; [|split; [|split]].
  - split.
    + split; [decide_legal|]. split; [apply not_starts; reflexivity|]. split; [discriminate|reflexivity].
    + constructor; [|constructor; [|constructor]]; (split; [discriminate|]).
      * cbn [snd legal]. split; [discriminate|]. split.
        { split; [decide_legal|]. split; [apply not_starts; reflexivity|]. split; [discriminate|reflexivity]. }
        split; [|exact I]. split; [discriminate|]. cbn [snd legal]. split; [discriminate|].
        split; [compute_eq|reflexivity].
      * split; [apply (legal_base_dec (lit "c") (lit "2")); [discriminate|reflexivity|reflexivity]|].
        split; [apply not_starts; reflexivity|]. split; [discriminate|reflexivity].
  - vm_compute. reflexivity.
  - split; [reflexivity|]. split; [exact I|]. repeat constructor.
  - intros [H _]. discriminate H.
Qed.
