(** Proofs about further operations on terms and expressions. *)

From Coq Require Import String Ascii List Bool ZArith NArith QArith Qcanon Lia Permutation.
From Verif Require Import Py PyFacts SymbolicModel SymbolicSpec SymbolicReduceProofs SymbolicExprProofs SymbolicLawProofs TermsModel TermsSpec.
Import ListNotations.
Open Scope list_scope.
Open Scope nat_scope.

Lemma mapM_inv {A B} (f : A -> res B) l m : mapM f l = Ok m -> Forall2 (fun a b => f a = Ok b) l m.
Proof.
  revert m. induction l as [|a l IH]; intros m H; cbn [mapM] in H; [injection H as <-; constructor|].
  destruct (f a) as [b|e] eqn:E; [|discriminate]. cbn [bind] in H. destruct (mapM f l) as [r|e] eqn:Q; [|discriminate]. cbn [bind] in H.
  injection H as <-. constructor; auto.
Qed.
Lemma mapM_ok {A B} (f : A -> res B) (g : A -> B) l : (forall x, In x l -> f x = Ok (g x)) -> mapM f l = Ok (map g l).
Proof.
  induction l as [|a l IH]; intro H; [reflexivity|]. cbn [mapM map]. rewrite (H a) by now left. cbn [bind]. rewrite IH; [reflexivity|].
  intros x I. apply H. now right.
Qed.

(** ** Every expression is in canonical form *)

Lemma pow_wf F t p u : term_pow F t p = Ok u -> wf u.
Proof. unfold term_pow. destruct (frac_pow F (coef t) p); [|discriminate]. intro H. injection H as <-. apply wf_init. Qed.
Lemma fpow_wf F t p u : term_fpow F t p = Ok u -> wf u.
Proof. unfold term_fpow. destruct (frac_fpow F (coef t) p); [|discriminate]. intro H. injection H as <-. apply wf_init. Qed.
Definition op_term (o : operand) : term := match o with Simple t | Group t => t end.
Lemma lift_wf f o u : lift_pow f o = Ok u -> (forall t v, f t = Ok v -> wf v) -> wf (op_term u).
Proof.
  intros H W. destruct o as [t|t]; cbn in H; destruct (f t) eqn:E; try discriminate; injection H as <-; cbn; now apply (W t).
Qed.
Lemma evaluate_wf F op o u : evaluate F op o = Ok u -> wf (op_term o) -> wf (op_term u).
Proof.
  intros H W. destruct op as [[| |]|]; cbn in H.
  - now injection H as <-.
  - apply (lift_wf _ _ _ H). intros t v. apply pow_wf.
  - apply (lift_wf _ _ _ H). intros t v. apply fpow_wf.
  - now injection H as <-.
Qed.
Lemma loop_wf F strict e : forall fuel s prev l, parse_loop F strict e fuel s prev = Ok l -> Forall (fun o => wf (op_term o)) l.
Proof.
  induction fuel as [|f IH]; intros s prev l H; destruct s as [|c s]; cbn [parse_loop] in H; try (injection H as <-; constructor); [discriminate|].
  destruct (match operator_parse (c :: s) with Some (o, r) => (Some o, r) | None => (None, c :: s) end) as [op s1].
  destruct (operator_error strict op prev); [discriminate|]. destruct (operand_parse F s1) as [[[o rest]|]|]; cbn [bind] in H; try discriminate.
  destruct (lift_pow (fun t => term_pow F t e) o) as [o1|] eqn:E1; cbn [bind] in H; [|discriminate].
  destruct (evaluate F op o1) as [o2|] eqn:E2; cbn [bind] in H; [|discriminate].
  destruct (parse_loop F strict e f rest op) as [more|] eqn:E3; cbn [bind] in H; [|discriminate]. injection H as <-. constructor.
  - apply (evaluate_wf F op o1 o2 E2). apply (lift_wf _ _ _ E1). intros t v. apply pow_wf.
  - now apply (IH rest op).
Qed.
Lemma resolve_wf F strict : forall fuel cur ts, resolve F strict fuel cur = Ok ts -> Forall wf ts /\ ts <> [].
Proof.
  induction fuel as [|f IH]; intros cur ts H; cbn [resolve] in H; [discriminate|].
  destruct (parse_loop F strict (expo cur) (S (length (base cur))) (base cur) None) as [ops|] eqn:E1; cbn [bind] in H; [|discriminate].
  destruct (mapM _ ops) as [tss|] eqn:E2; cbn [bind] in H; [|discriminate]. injection H as <-. split; [|intro K; now apply app_eq_nil in K as [_ K]].
  apply Forall_app. split; [|constructor; [apply wf_init|constructor]].
  apply mapM_inv in E2. apply loop_wf in E1. induction E2 as [|o l ops tss Ho E2 IH2]; [constructor|].
  inversion E1; subst. cbn [concat]. apply Forall_app. split; [|now apply IH2].
  destruct o as [t|t]; [injection Ho as <-; constructor; [assumption|constructor]|]. now destruct (IH t l Ho).
Qed.
Lemma parse_wf F strict s ts : parse F strict s = Ok ts -> Forall wf ts /\ ts <> [].
Proof. apply resolve_wf. Qed.
Lemma text_canonical F strict s x : expression_of_str F strict s = Ok x -> canonical x /\ Forall wf x.
Proof.
  unfold expression_of_str. destruct (parse F strict (standard_str s)) as [ts|] eqn:E; cbn [bind]; [|discriminate].
  destruct (parse_wf F strict _ ts E) as [W _]. intro H. split; [now apply (reduce_canonical ts)|now apply (reduce_wf ts)].
Qed.
Lemma terms_canonical F ts x : expression_of_terms F ts = Ok x -> canonical x /\ Forall wf x.
Proof.
  unfold expression_of_terms. destruct (parse F false (standard_terms F ts)) as [us|] eqn:E; cbn [bind]; [|discriminate].
  destruct (parse_wf F false _ us E) as [W _]. intro H. split; [now apply (reduce_canonical us)|now apply (reduce_wf us)].
Qed.
Lemma reachable_canonical F x : reachable F x -> canonical x /\ Forall wf x.
Proof.
  intros [s strict y H|a b y _ _ H|a b y _ _ H|a p y _ H].
  - now apply (text_canonical F strict s).
  - unfold expr_mul in H. destruct (reduce (a ++ b)); [|discriminate]. now apply (terms_canonical F _ _ H).
  - unfold expr_div in H. destruct (mapM _ b); [|discriminate]. cbn [bind] in H. destruct (reduce _); [|discriminate]. now apply (terms_canonical F _ _ H).
  - unfold expr_pow in H. destruct (Qc_eqb p 0); [discriminate|]. destruct (mapM _ a); [|discriminate]. cbn [bind] in H.
    destruct (reduce _); [|discriminate]. now apply (terms_canonical F _ _ H).
Qed.
Lemma valid_canonical F a x : valid F a -> as_expression F a = Ok x -> canonical x /\ Forall wf x.
Proof.
  destruct a as [s|y]; cbn; intros V H; [now apply (text_canonical F false s)|]. injection H as <-. now apply (reachable_canonical F).
Qed.

(** ** Applying a function to the bases *)

Section Apply.
Context {M : Type} (op : M -> M -> M) (e : M) (pw : M -> Qc -> M) (u : str -> M).
Hypothesis assoc : forall x y z, op x (op y z) = op (op x y) z.
Hypothesis comm : forall x y, op x y = op y x.
Hypothesis unit : forall x, op e x = x.
Notation E := (fun b p => pw (u b) p).
Notation V := (value_in op e (fun _ => e) E).

Lemma V_cons t ts : V (t :: ts) = op (E (base t) (expo t)) (V ts).
Proof. cbn. now rewrite unit. Qed.
Lemma V_app xs ys : V (xs ++ ys) = op (V xs) (V ys).
Proof. induction xs as [|t xs IH]; [cbn; now rewrite unit|]. cbn [app]. rewrite !V_cons, IH. apply assoc. Qed.
Lemma fold_V ts : forall a, fold_left (fun r be => (do a <- r; do p <- Ok (pw (fst be) (snd be)); Ok (op a p))%py)
    (combine (map (fun t => u (base t)) ts) (map expo ts)) (Ok a) = Ok (op a (V ts)).
Proof.
  induction ts as [|t ts IH]; intro a; [cbn; now rewrite comm, unit|]. cbn [map combine fold_left]. cbn [bind fst snd].
  rewrite IH, V_cons. now rewrite assoc.
Qed.
Lemma apply_value x : x <> [] ->
  apply (fun m p => Ok (pw m p)) (fun a b => Ok (op a b)) (fun b => Ok (u b)) x = Ok (V x).
Proof.
  intro N. unfold apply. rewrite (mapM_ok _ (fun t => u (base t))) by reflexivity. cbn [bind]. destruct x as [|t x]; [congruence|].
  cbn [map]. cbn [bind]. rewrite fold_V. now rewrite V_cons.
Qed.
Hypothesis pw_0 : forall b, pw (u b) 0%Qc = e.
Hypothesis pw_add : forall b p q, pw (u b) (p + q)%Qc = op (pw (u b) p) (pw (u b) q).
Hypothesis pw_one : forall p, pw (u (lit "1")) p = e.
Lemma V_reduce ts x : Forall wf ts -> reduce ts = Ok x -> V x = V ts.
Proof.
  intros W R. apply (reduce_value_in M op e assoc comm unit (fun _ => e) E (fun _ => True)); auto.
  apply Forall_forall. auto.
Qed.
Lemma V_product F x y z : Forall wf x -> Forall wf y -> x ++ y <> [] -> canonical z -> same_monomial z (x ++ y) -> Forall (printable F) z ->
  expr_mul F x y = Ok z /\ V z = op (V x) (V y).
Proof.
  intros Wx Wy N C S P. split; [now apply product_ok|]. rewrite <- V_app. apply V_reduce; [now apply Forall_app|].
  destruct (reduce_total (x ++ y) N) as [r R]. rewrite R. f_equal.
  assert (Forall wf (x ++ y)) as W by now apply Forall_app.
  apply canonical_unique; [now apply (reduce_canonical (x ++ y))|exact C|].
  eapply same_monomial_trans; [now apply (reduce_same (x ++ y))|]. now apply same_monomial_sym.
Qed.
End Apply.

(** ** Differences *)

Lemma same_spec s t : reflect (s = t) (term_same s t).
Proof.
  unfold term_same. destruct s as [c b e], t as [c' b' e']. cbn.
  destruct (Qc_eqb_spec c c') as [->|N]; [|constructor; congruence]. destruct (str_eqb_spec b b') as [->|N]; [|constructor; congruence].
  destruct (Qc_eqb_spec e e') as [->|N]; constructor; congruence.
Qed.
Lemma difference_in t x y : In t (expr_difference x y) <-> In t x /\ ~ In t y.
Proof.
  unfold expr_difference. rewrite filter_In. split; intros [I N]; (split; [exact I|]).
  - intro J. apply negb_true_iff in N. assert (existsb (term_same t) y = true) as K; [|congruence].
    apply existsb_exists. exists t. split; [exact J|]. now destruct (same_spec t t).
  - apply negb_true_iff. destruct (existsb (term_same t) y) eqn:Q; [|reflexivity]. exfalso. apply N.
    apply existsb_exists in Q as (s & J & S). destruct (same_spec t s) as [->|]; [exact J|discriminate].
Qed.
Lemma canonical_NoDup x : canonical x -> NoDup x.
Proof.
  intros (consts & vars & -> & _ & C & Fv & ND & _). apply NoDup_base in ND.
  destruct C as [->|(c & -> & B & _)]; [exact ND|]. cbn. constructor; [|exact ND].
  intro I. rewrite Forall_forall in Fv. destruct (Fv c I) as [K _]. congruence.
Qed.
Lemma difference_nil x y : expr_difference x y = [] <-> incl x y.
Proof.
  split.
  - intros H t I. destruct (existsb (term_same t) y) eqn:Q.
    + apply existsb_exists in Q as (s & J & S). destruct (same_spec t s) as [->|]; [exact J|discriminate].
    + assert (In t (expr_difference x y)) as K; [|rewrite H in K; destruct K]. apply difference_in. split; [exact I|].
      intro J. assert (existsb (term_same t) y = true) as K; [|congruence]. apply existsb_exists. exists t. split; [exact J|]. now destruct (same_spec t t).
  - intro I. destruct (expr_difference x y) as [|t l] eqn:Q; [reflexivity|]. assert (In t (expr_difference x y)) as K by (rewrite Q; now left).
    apply difference_in in K as [K N]. exfalso. apply N, I, K.
Qed.

(** ** Evaluating terms *)

Lemma prod_values (rho : str -> Qc) F ts : Forall wf ts -> integral ts -> rho (lit "1") = 1%Qc -> (forall b, rho b <> 0%Qc) ->
  mapM (fun t => (do u <- (if str_eqb (base t) (lit "1") then Ok t else term_call F t (rho (base t))); term_number u)%py) ts
  = Ok (map (fun t => (coef t * Qc_zpow (rho (base t)) (Qc_num (expo t)))%Qc) ts).
Proof.
  intros W I O NZ. apply mapM_ok. intros t J. unfold integral in I. rewrite Forall_forall in W, I. destruct (W t J) as (Wc & We & Wb). destruct (I t J) as [z Ez].
  destruct (str_eqb_spec (base t) (lit "1")) as [B|B].
  - cbn [bind]. unfold term_number. rewrite B, str_eqb_refl, O, Qc_zpow_1_l. f_equal. ring.
  - unfold term_call. rewrite (str_eqb_neq _ _ B). unfold frac_pow. rewrite Ez, Qc_is_int_of_Z, Qc_num_of_Z, (Qc_eqb_neq _ _ (NZ (base t))). cbn [andb bind].
    unfold term_number, init. cbn [base coef]. rewrite str_eqb_refl. rewrite Qc_eqb_neq; [reflexivity|].
    intro K. apply Qcmult_integral in K as [K|K]; [contradiction|]. now apply (Qc_zpow_neq_0 (rho (base t)) z).
Qed.

(** ** Styles *)

Lemma trunc_of_Z z : Qc_trunc (Qc_of_Z z) = z.
Proof. unfold Qc_trunc. rewrite Qc_num_of_Z, Qc_den_of_Z. apply Z.quot_1_r. Qed.
Lemma dec_int z : dec_of_Qc (Qc_of_Z z) = dec_of_Z z.
Proof. unfold dec_of_Qc. now rewrite Qc_is_int_of_Z, Qc_num_of_Z. Qed.
Lemma coef_ok F t : fl F (coef t) = coef t -> format_coef F t = coef_text t.
Proof.
  intro X. unfold format_coef, coef_text. rewrite X.
  assert ((if Qc_eqb (coef t) (Qc_of_Z (Qc_trunc (coef t))) then dec_of_Z (Qc_trunc (coef t)) else dec_of_Qc (coef t)) = dec_of_Qc (coef t)) as D.
  { destruct (Qc_eqb_spec (coef t) (Qc_of_Z (Qc_trunc (coef t)))) as [E|]; [|reflexivity].
    rewrite E at 2. now rewrite dec_int. }
  rewrite D. destruct (str_eqb (base t) (lit "1")); cbn [negb andb]; [reflexivity|].
  destruct (Qc_eqb (coef t) 1); [reflexivity|]. destruct (Qc_is_int (coef t)); reflexivity.
Qed.
Lemma occurs_spec p s : occurs p s = true <-> exists a b, s = a ++ p ++ b.
Proof.
  induction s as [|c s IH]; cbn [occurs].
  - rewrite orb_false_r. split.
    + intro H. destruct (str_eqb_spec p (firstn (length p) [])) as [E|]; [|discriminate]. rewrite firstn_nil in E. subst. now exists [], [].
    + intros (a & b & E). symmetry in E. apply app_eq_nil in E as [-> E]. apply app_eq_nil in E as [-> ->]. reflexivity.
  - rewrite orb_true_iff. split.
    + intros [H|H].
      * destruct (str_eqb_spec p (firstn (length p) (c :: s))) as [E|]; [|discriminate].
        exists [], (skipn (length p) (c :: s)). cbn [app]. rewrite E at 1. now rewrite firstn_skipn.
      * apply IH in H as (a & b & ->). now exists (c :: a), b.
    + intros (a & b & E). destruct a as [|d a].
      * left. cbn [app] in E. rewrite E, firstn_app, firstn_all, Nat.sub_diag. cbn. rewrite app_nil_r. apply str_eqb_refl.
      * right. injection E as -> E. apply IH. now exists a, b.
Qed.
Lemma styled_plain F t : fl F (coef t) = coef t -> styled_term F None t = Ok (term_text (lit "^") [] t) /\ styled_term F (Some []) t = Ok (term_text (lit "^") [] t)
  /\ format_term F t = term_text (lit "^") [] t.
Proof.
  intro X. unfold styled_term, format_term, term_text, styled_expo, format_expo, expo_text. rewrite (coef_ok F t X).
  destruct (str_eqb (base t) (lit "1")); [repeat split; reflexivity|]. cbn [orb]. destruct (Qc_eqb (expo t) 1); cbn [bind]; rewrite ?app_nil_r; repeat split; reflexivity.
Qed.
Lemma lower_letters c : (lower c = "t"%char <-> c = "t"%char \/ c = "T"%char) /\ (lower c = "e"%char <-> c = "e"%char \/ c = "E"%char)
  /\ (lower c = "x"%char <-> c = "x"%char \/ c = "X"%char).
Proof. destruct c as [[] [] [] [] [] [] [] []]; vm_compute; intuition discriminate. Qed.
Lemma tex_spec s : occurs (lit "tex") (map lower s) = true <-> mentions_tex s.
Proof.
  rewrite occurs_spec. split.
  - intros (a & b & E). apply map_eq_app in E as (a' & r & -> & <- & E).
    destruct r as [|t [|e [|x r]]]; cbn in E; try discriminate. injection E as Et Ee Ex _.
    exists a', t, e, x, r. split; [reflexivity|]. split; [now apply lower_letters|]. split; now apply lower_letters.
  - intros (a & t & e & x & b & -> & T & E & X). exists (map lower a), (map lower b). rewrite map_app. cbn [map].
    apply lower_letters in T, E, X. rewrite T, E, X. reflexivity.
Qed.
Lemma styled_tex F s t : fl F (coef t) = coef t -> occurs (lit "tex") (map lower s) = true -> styled_term F (Some s) t = Ok (term_text (lit "^{") (lit "}") t).
Proof.
  intros X O. unfold styled_term, term_text, styled_expo, expo_text. rewrite (coef_ok F t X).
  destruct (str_eqb (base t) (lit "1")); [reflexivity|]. cbn [orb]. destruct (Qc_eqb (expo t) 1); [reflexivity|].
  destruct s as [|c s]; [discriminate O|]. now rewrite O.
Qed.
Lemma styled_other F s t : fl F (coef t) = coef t -> s <> [] -> occurs (lit "tex") (map lower s) = false ->
  styled_term F (Some s) t = if negb (str_eqb (base t) (lit "1")) && negb (Qc_eqb (expo t) 1) then Err ValueError else Ok (term_text (lit "^") [] t).
Proof.
  intros X N O. unfold styled_term, term_text, styled_expo, expo_text. rewrite (coef_ok F t X).
  destruct (str_eqb (base t) (lit "1")); [reflexivity|]. cbn [orb negb andb]. destruct (Qc_eqb (expo t) 1); [reflexivity|].
  destruct s as [|c s]; [congruence|]. now rewrite O.
Qed.

(** * Separators *)

Lemma depth_app s t : depth (s ++ t) = (depth s + depth t)%Z.
Proof. induction s as [|c s IH]; cbn [depth app]; [reflexivity|]. rewrite IH. lia. Qed.

Lemma strips t : strip_separators (lit "(" ++ t ++ lit ")") = Ok t.
Proof.
  unfold strip_separators. cbn [lit list_ascii_of_string app].
  assert (last ("("%char :: t ++ [")"%char]) "("%char = ")"%char) as ->.
  { change ("("%char :: t ++ [")"%char]) with (("("%char :: t) ++ [")"%char]). apply last_last. }
  cbn [Ascii.eqb Bool.eqb andb remove_first]. rewrite rev_app_distr. cbn [rev app remove_first Ascii.eqb Bool.eqb].
  now rewrite rev_involutive.
Qed.

Lemma keeps s : s <> [] -> (forall t, s <> lit "(" ++ t ++ lit ")") -> strip_separators s = Ok s.
Proof.
  intros N H. destruct s as [|c s]; [congruence|]. unfold strip_separators.
  destruct (Ascii.eqb_spec "(" c); auto. destruct (Ascii.eqb_spec ")" (last (c :: s) c)) as [E|]; auto.
  exfalso. subst c. destruct (exists_last (l := s)) as [t [d ->]].
  - intros ->. discriminate E.
  - change ("("%char :: t ++ [d]) with (("("%char :: t) ++ [d]) in E. rewrite last_last in E. subst d. now apply (H t).
Qed.

(** Depths along a prefix never return to zero, so they stay positive. *)
Lemma depth_positive s : forall n, n < length s ->
  (forall k, 0 < k <= S n -> depth (firstn k ("("%char :: s)) <> 0%Z) -> (0 < depth (firstn (S n) ("("%char :: s)))%Z.
Proof.
  induction n as [|n IH]; intros L H.
  - reflexivity.
  - assert (0 < depth (firstn (S n) ("("%char :: s)))%Z as P.
    { apply IH; [lia|]. intros k K. apply H. lia. }
    assert (depth (firstn (S (S n)) ("("%char :: s)) <> 0%Z) as Q by (apply H; lia).
    assert (exists c, firstn (S (S n)) ("("%char :: s) = firstn (S n) ("("%char :: s) ++ [c]) as [c E].
    { cbn [firstn]. clear - L. revert n L. induction s as [|d s IH]; intros n L; [cbn in L; lia|].
      destruct n as [|n]; [exists d; reflexivity|]. destruct (IH n) as [c E]; [cbn in L; lia|].
      exists c. cbn [firstn app] in *. injection E as E. now rewrite E. }
    rewrite E, depth_app in *. cbn [depth] in *. destruct (Ascii.eqb c "("), (Ascii.eqb c ")"); lia.
Qed.

Lemma enclosed s : first_group s 0 (length s) -> exists t, s = lit "(" ++ t ++ lit ")" /\ depth t = 0%Z.
Proof.
  intros (H1 & _ & H2 & H3 & H4). destruct s as [|c s]; [discriminate H1|]. injection H1 as ->.
  unfold substr in *. cbn [skipn] in *. rewrite !Nat.sub_0_r in *. rewrite firstn_all in H3.
  destruct (exists_last (l := s)) as [t [d ->]].
  { intros ->. discriminate H3. }
  cbn [length] in *. rewrite app_length in *. cbn [length] in *.
  assert (0 < depth (firstn (S (length t)) ("("%char :: t ++ [d])))%Z as P.
  { apply depth_positive; [rewrite app_length; cbn; lia|]. intros k K. rewrite <- (Nat.sub_0_r k). apply H4. lia. }
  cbn [firstn] in P. rewrite firstn_app, firstn_all, Nat.sub_diag, app_nil_r in P.
  cbn [depth Ascii.eqb Bool.eqb] in P, H3. rewrite depth_app in H3. cbn [depth] in H3. exists t.
  destruct (Ascii.eqb_spec d "("), (Ascii.eqb_spec d ")"); try lia. subst d. split; [reflexivity|lia].
Qed.
