(** Proofs about observers. *)

From Coq Require Import String Ascii List Bool ZArith QArith Qcanon Lia.
From Verif Require Import Py PyFacts PyDict SymbolicModel SymbolicSpec SymbolicRx SymbolicReduceProofs ObserverModel ObserverSpec.
From Verif Require AliasedModel AliasedSpec AliasedProofs AliasedGroupProofs SpellingModel ObservingModel.
Import ListNotations.
Open Scope list_scope.
Open Scope nat_scope.

(** * Bases of terms contain no operators *)

Lemma composed_spec n : reflect (composed n) (composition_str n).
Proof.
  unfold composition_str, composed. apply iff_reflect. rewrite orb_true_iff, !existsb_exists. split.
  - intros [H|H]; [left|right]; eexists; (split; [exact H|reflexivity]).
  - intros [[c [H E]]|[c [H E]]]; apply Ascii.eqb_eq in E; subst; auto.
Qed.
Lemma composed_no n : ~ composed n -> composition_str n = false.
Proof. destruct (composed_spec n); tauto. Qed.
Lemma composed_yes n : composed n -> composition_str n = true.
Proof. destruct (composed_spec n); tauto. Qed.

Definition plain (t : term) : Prop := composition_str (base t) = false.
Lemma star_chars p s x r : In (x, r) (rx_star p s) -> forallb p x = true.
Proof.
  revert x r. induction s as [|c s IH]; intros x r; cbn.
  - intros [E|[]]. now injection E as <- <-.
  - destruct (p c) eqn:P.
    + rewrite in_app_iff. intros [H|[E|[]]].
      * apply in_map_iff in H as ((y & t) & E & H). injection E as <- <-. cbn. rewrite P. eapply IH, H.
      * now injection E as <- <-.
    + intros [E|[]]. now injection E as <- <-.
Qed.
Definition quiet (c : ascii) : bool := negb (is_chr "/" c || is_chr "*" c).
Lemma plain_quiet s : forallb quiet s = true -> composition_str s = false.
Proof.
  unfold composition_str. induction s as [|c s IH]; [reflexivity|]. cbn [forallb existsb]. rewrite andb_true_iff. unfold quiet at 1.
  rewrite negb_true_iff, orb_false_iff. intros [[A B] H]. apply IH, orb_false_iff in H as [C D]. now rewrite A, B, C, D.
Qed.
Lemma quiet_sub (p : ascii -> bool) s : (forall c, p c = true -> quiet c = true) -> forallb p s = true -> forallb quiet s = true.
Proof. intros H. rewrite !forallb_forall. auto. Qed.
Lemma quiet_base c : is_base_chr c = true -> quiet c = true.
Proof. destruct c as [[] [] [] [] [] [] [] []]; vm_compute; congruence. Qed.
Lemma quiet_digit c : is_digit c = true -> quiet c = true.
Proof. destruct c as [[] [] [] [] [] [] [] []]; vm_compute; congruence. Qed.
Lemma base_plain s b r : In (b, r) (rx_base s) -> composition_str b = false.
Proof.
  intros H. unfold rx_base in H. apply In_bind in H as (l & t & H1 & H). apply In_bind in H as (d & u & H2 & H).
  destruct H as [E|[]]. injection E as <- <-. apply plain_quiet. rewrite forallb_app, andb_true_iff. split.
  - unfold rx_plus in H1. apply In_bind in H1 as (c & v & Hc & H1). apply In_bind in H1 as (x & w & Hx & H1).
    destruct H1 as [E|[]]. injection E as <- <-. cbn [forallb]. rewrite andb_true_iff. split.
    + unfold rx_cls in Hc. destruct s as [|c' s']; [destruct Hc|]. destruct (is_base_chr c') eqn:E; [|destruct Hc].
      destruct Hc as [X|[]]. injection X as <- <-. now apply quiet_base.
    + eapply quiet_sub; [exact quiet_base|]. eapply star_chars, Hx.
  - eapply quiet_sub; [exact quiet_digit|]. eapply star_chars, H2.
Qed.
Lemma run_in {A} m (r : rx A) s a t : rx_run m r s = Some (a, t) -> In (a, t) (r s).
Proof.
  destruct m; cbn [rx_run]; intros H.
  - destruct (r s); [discriminate|]. cbn in H. injection H as ->. now left.
  - now apply find_some in H as [H _].
Qed.
Lemma init_base c b e : composition_str b = false -> plain (init c b e).
Proof. intros H. unfold plain, init. cbn [base]. destruct b; [reflexivity|exact H]. Qed.
Lemma simplex_plain F md s t r : match_simplex F md s = Ok (Some (t, r)) -> plain t.
Proof.
  unfold match_simplex. intros H.
  assert (C : forall c x, with_rest (build_constant F c) x = Ok (Some (t, r)) -> plain t).
  { intros [c e] x. unfold with_rest, build_constant. destruct (rat_value c); [|discriminate]. cbn [bind].
    destruct (std e); [|discriminate]. cbn [bind]. destruct (frac_pow _ _ _); [|discriminate]. cbn [bind].
    intros E. injection E as <- _. now apply init_base. }
  assert (B : forall v x, rx_run md rx_variable s = Some (v, x) -> with_rest (build_variable v) x = Ok (Some (t, r)) -> plain t).
  { intros [[c b] e] x Rn. apply run_in in Rn. unfold rx_variable in Rn. apply In_bind in Rn as (c' & t1 & _ & Rn).
    apply In_bind in Rn as (b' & t2 & Hb & Rn). apply In_bind in Rn as (e' & t3 & _ & Rn). destruct Rn as [E|[]].
    injection E as <- <- <- <-. unfold with_rest, build_variable. destruct (std _); [|discriminate]. cbn [bind].
    destruct (std _); [|discriminate]. cbn [bind]. intros E. injection E as <- _. apply init_base. eapply base_plain, Hb. }
  destruct (rx_run md rx_variable s) as [[v rv]|] eqn:V; destruct (rx_run md rx_constant s) as [[c rc]|].
  - destruct (Nat.eqb _ _); eauto.
  - eauto.
  - eauto.
  - discriminate.
Qed.
Lemma power_plain F t p u : term_pow F t p = Ok u -> plain t -> plain u.
Proof.
  unfold term_pow. destruct (frac_pow _ _ _); [|discriminate]. cbn [bind]. intros E H. injection E as <-. now apply init_base.
Qed.
Lemma fpower_plain F t p u : term_fpow F t p = Ok u -> plain t -> plain u.
Proof.
  unfold term_fpow. destruct (frac_fpow _ _ _); [|discriminate]. cbn [bind]. intros E H. injection E as <-. now apply init_base.
Qed.
Definition plain_operand (o : operand) : Prop := match o with Simple t => plain t | Group _ => True end.
Lemma lift_plain f o o' : (forall t u, f t = Ok u -> plain t -> plain u) -> lift_pow f o = Ok o' -> plain_operand o -> plain_operand o'.
Proof.
  intros H. destruct o as [t|t]; cbn; destruct (f t) eqn:E; try discriminate; cbn; intros X; injection X as <-; [|auto]. cbn. eauto.
Qed.
Lemma loop_plain F strict e : forall fuel s prev l, parse_loop F strict e fuel s prev = Ok l -> Forall plain_operand l.
Proof.
  induction fuel as [|f IH]; intros s prev l; destruct s as [|c s]; cbn [parse_loop].
  - intros E. injection E as <-. constructor.
  - discriminate.
  - intros E. injection E as <-. constructor.
  - set (x := match operator_parse (c :: s) with Some (o, r) => (Some o, r) | None => (None, c :: s) end). destruct x as [op s1].
    destruct (operator_error _ _ _); [discriminate|]. destruct (operand_parse F s1) as [[[o rest]|]|] eqn:P; try discriminate. cbn [bind].
    destruct (lift_pow _ o) as [o1|] eqn:L; [|discriminate]. cbn [bind]. destruct (evaluate F op o1) as [o2|] eqn:V; [|discriminate]. cbn [bind].
    destruct (parse_loop F strict e f rest op) as [more|] eqn:M; [|discriminate]. cbn [bind]. intros E. injection E as <-.
    constructor; [|now apply IH in M].
    assert (plain_operand o) as Po.
    { unfold operand_parse, search in P. destruct (match_simplex F Match (strip s1)) as [[[t r]|]|] eqn:X; try discriminate; cbn [bind] in P.
      - injection P as <- _. eapply simplex_plain, X.
      - destruct (match_complex _ _ _) as [[[t r]|]|]; try discriminate; cbn [bind] in P. injection P as <- _. exact I. }
    assert (plain_operand o1) as P1 by (eapply lift_plain; [|exact L|exact Po]; intros t u Ht; exact (power_plain _ _ _ _ Ht)).
    unfold evaluate in V. destruct op as [[]|]; try (injection V as <-; exact P1).
    + eapply lift_plain; [|exact V|exact P1]. intros t u Ht; exact (power_plain _ _ _ _ Ht).
    + eapply lift_plain; [|exact V|exact P1]. intros t u Ht; exact (fpower_plain _ _ _ _ Ht).
Qed.
Lemma mapM_Forall {A B} (f : A -> res B) (P : A -> Prop) (Q : B -> Prop) l m :
  (forall a b, P a -> f a = Ok b -> Q b) -> Forall P l -> mapM f l = Ok m -> Forall Q m.
Proof.
  intros H F. revert m. induction F as [|a l Pa F IH]; cbn [mapM]; intros m E; [injection E as <-; constructor|].
  destruct (f a) as [b|] eqn:Ea; [|discriminate]. cbn [bind] in E. destruct (mapM f l) as [bs|]; [|discriminate]. cbn [bind] in E.
  injection E as <-. constructor; eauto.
Qed.
Lemma resolve_plain F strict : forall fuel cur l, resolve F strict fuel cur = Ok l -> Forall plain l.
Proof.
  induction fuel as [|f IH]; intros cur l; [discriminate|]. cbn [resolve].
  destruct (parse_loop _ _ _ _ _ _) as [ops|] eqn:P; [|discriminate]. cbn [bind].
  destruct (mapM _ ops) as [tss|] eqn:M; [|discriminate]. cbn [bind]. intros E. injection E as <-.
  apply loop_plain in P. apply Forall_app. split.
  - apply Forall_concat. eapply mapM_Forall; [|exact P|exact M]. intros [t|t] b Hp Eb; cbn in Eb.
    + injection Eb as <-. constructor; [exact Hp|constructor].
    + eapply IH, Eb.
  - constructor; [|constructor]. now apply init_base.
Qed.
Lemma rdict_keys t d k : In k (map fst (rdict_add t d)) -> k = base t \/ In k (map fst d).
Proof.
  induction d as [|[h [c e]] d IH]; cbn [rdict_add map fst].
  - intros [<-|[]]. now left.
  - destruct (str_eqb (base t) h); cbn [map fst]; intros [<-|H]; auto.
    + right. now left.
    + right. now right.
    + right. now left.
    + destruct (IH H); auto. right. now right.
Qed.
Lemma fold_keys ts d k : In k (map fst (fold_left (fun d t => rdict_add t d) ts d)) -> In k (map base ts) \/ In k (map fst d).
Proof.
  revert d. induction ts as [|t ts IH]; intros d; cbn [fold_left map]; [auto|]. intros H. apply IH in H as [H|H].
  - left. now right.
  - apply rdict_keys in H as [->|H]; [left; now left|auto].
Qed.
Lemma insert_in {A} (le : A -> A -> bool) x l y : In y (insert_by le x l) -> y = x \/ In y l.
Proof.
  induction l as [|z l IH]; cbn; [intros [<-|[]]; auto|]. destruct (le x z); cbn; intros [<-|H]; auto. apply IH in H as [H|H]; auto.
Qed.
Lemma sort_in {A} (le : A -> A -> bool) l y : In y (sort_by le l) -> In y l.
Proof.
  unfold sort_by. induction l as [|z l IH]; cbn; [auto|]. intros H. apply insert_in in H as [->|H]; auto.
Qed.
Lemma reduce_plain ts x : reduce ts = Ok x -> Forall plain ts -> Forall plain x.
Proof.
  unfold reduce. intros H P. set (d := fold_left (fun (d : rdict) t => rdict_add t d) ts []) in *. destruct (map (fun kv => fst (snd kv)) d) as [|y ys]; [discriminate|].
  set (vars := sort_by by_expo_reverse _) in H.
  assert (V : Forall plain vars).
  { apply Forall_forall. intros t I. apply sort_in, sort_in in I. apply in_map_iff in I as (kv & <- & I). apply filter_In in I as [I _].
    apply init_base. assert (J : In (fst kv) (map fst d)) by now apply in_map. apply fold_keys in J as [J|[]].
    apply in_map_iff in J as (t & <- & J). rewrite Forall_forall in P. now apply P. }
  assert (K : forall c, plain (init c [] 1)) by (intros; now apply init_base).
  destruct vars; [injection H as <-; auto|]. destruct (Qc_eqb _ 1); injection H as <-; auto.
Qed.
Lemma expression_plain F strict s x : expression_of_str F strict s = Ok x -> Forall plain x.
Proof.
  unfold expression_of_str, parse. destruct (resolve _ _ _ _) as [ts|] eqn:R; [|discriminate]. cbn [bind]. intros H.
  eapply reduce_plain; [exact H|]. eapply resolve_plain, R.
Qed.

(** * Observable names *)

Section Known.
Context (F : flops) (mkset : list str -> list str) (SO : AliasedSpec.set_order mkset).
Context (observable : list (list str)) (unobservable : list str).
Notation known := (observables mkset observable unobservable).

Lemma set_in l a : In a (mkset l) <-> In a l.
Proof. apply SO. Qed.
Lemma known_spec n : AliasedModel.groups_contains mkset known n = true <-> available_name observable unobservable n.
Proof.
  unfold AliasedModel.groups_contains, observables, available_name.
  assert (K : forall g, In g (AliasedModel.groups_without mkset (AliasedModel.groups_init mkset (map (fun g => Many g) observable)) unobservable) <->
    exists h, In h observable /\ g = mkset (mkset h) /\ forall u, In u unobservable -> ~ In u h).
  { intros g. unfold AliasedModel.groups_without, AliasedModel.groups_init. rewrite map_map, in_map_iff. split.
    - intros (h' & <- & I). apply filter_In in I as [I C]. apply in_map_iff in I as (h & <- & I). exists h. split; [exact I|]. split; [reflexivity|].
      apply andb_true_iff in C as [C _]. rewrite forallb_forall in C. intros u Hu Hh. specialize (C u Hu). apply negb_true_iff, AliasedProofs.gin_false in C.
      apply C. apply set_in. exact Hh.
    - intros (h & I & -> & N). exists (mkset h). split; [reflexivity|]. apply filter_In. split; [apply in_map_iff; now exists h|].
      apply andb_true_iff. split.
      + apply forallb_forall. intros u Hu. apply negb_true_iff, AliasedProofs.gin_false. intros Hh. apply (proj1 (set_in _ _)) in Hh. eapply N; eauto.
      + apply negb_true_iff. destruct (existsb _ unobservable) eqn:E; [|reflexivity]. apply existsb_exists in E as (u & Hu & E). exfalso.
        assert (In u (mkset h)) as J.
        { apply (proj1 (AliasedProofs.geq_same _ _ (proj1 (SO _)) (proj1 (SO _)))) with (a := u) in E. apply E. apply (set_in [u]). now left. }
        rewrite set_in in J. eapply N; eauto. }
  split.
  - intros H. destruct (AliasedModel.groups_find mkset _ n) as [g|] eqn:E; [|discriminate].
    apply AliasedGroupProofs.groups_find_some in E as [I J]; [|exact SO]. apply K in I as (h & I & -> & N). exists h. split; [exact I|]. split; [|exact N].
    now rewrite !set_in in J.
  - intros (h & I & J & N). destruct (AliasedModel.groups_find mkset _ n) as [g|] eqn:E; [reflexivity|]. exfalso.
    eapply (AliasedGroupProofs.groups_find_none mkset SO _ _ E (mkset (mkset h))); [apply K; eauto|]. now rewrite !set_in.
Qed.
Lemma known_cases n : {available_name observable unobservable n} + {~ available_name observable unobservable n}.
Proof. destruct (AliasedModel.groups_contains mkset known n) eqn:E; [left|right]; rewrite <- known_spec; congruence. Qed.

Lemma all_true_total {A} (f : A -> res bool) (P : A -> Prop) l :
  (forall x, In x l -> exists b, f x = Ok b /\ (b = true <-> P x)) -> exists b, all_true f l = Ok b /\ (b = true <-> Forall P l).
Proof.
  induction l as [|x l IH]; intros H; cbn [all_true].
  - exists true. split; [reflexivity|]. split; auto.
  - destruct (H x (or_introl eq_refl)) as (b & -> & E). cbn [bind]. destruct b.
    + destruct IH as (b & -> & E'); [intros; apply H; now right|]. exists b. split; [reflexivity|]. rewrite E'. split.
      * intros. constructor; [now apply E|assumption].
      * now inversion 1.
    + exists false. split; [reflexivity|]. split; [discriminate|]. inversion 1; subst. now apply E.
Qed.
Lemma observes_known fuel n : available_name observable unobservable n -> observes F mkset (S fuel) known n = Ok true.
Proof. intros H. cbn [observes]. apply known_spec in H. now rewrite H. Qed.
Lemma observes_plain fuel n : composition_str n = false -> ~ available_name observable unobservable n ->
  observes F mkset (S fuel) known n = Ok false.
Proof.
  intros C H. cbn [observes]. destruct (AliasedModel.groups_contains mkset known n) eqn:E; [now apply known_spec in E|]. now rewrite C.
Qed.
Lemma observes_composed fuel n : ~ available_name observable unobservable n -> composition_str n = true ->
  match expression_of_str F false n with
  | Err e => observes F mkset (S (S fuel)) known n = Err e
  | Ok x => exists b, observes F mkset (S (S fuel)) known n = Ok b
            /\ (b = true <-> Forall (fun t => available_name observable unobservable (base t)) x)
  end.
Proof.
  intros H C. remember (S fuel) as f. cbn [observes].
  destruct (AliasedModel.groups_contains mkset known n) eqn:E; [now apply known_spec in E|]. rewrite C.
  destruct (expression_of_str F false n) as [x|e] eqn:X; [|reflexivity]. cbn [bind]. apply all_true_total.
  intros t I. apply expression_plain in X. rewrite Forall_forall in X. apply X in I. subst f.
  destruct (known_cases (base t)) as [K|K].
  - exists true. split; [now apply observes_known|tauto].
  - exists false. split; [now apply observes_plain|]. split; [discriminate|tauto].
Qed.
End Known.

(** * Expressions as they are written *)

Lemma vars_coef_one vars : Forall (fun t => base t <> lit "1" /\ coef t = 1%Qc /\ expo t <> 0%Qc) vars -> total_coef vars = 1%Qc.
Proof.
  induction 1 as [|t l (_ & C & _) _ IH]; [reflexivity|]. rewrite total_coef_cons, C, IH. apply Qcmult_1_l.
Qed.
Lemma canonical_bases (P : str -> Prop) x ts : canonical x -> same_monomial x ts -> ~ P (lit "1") ->
  (Forall (fun t => P (base t)) x <->
   total_coef ts = 1%Qc /\ (exists b, b <> lit "1" /\ total_expo b ts <> 0%Qc)
   /\ forall b, b <> lit "1" -> total_expo b ts <> 0%Qc -> P b).
Proof.
  intros (consts & vars & -> & N & Hc & Hv & ND & _) [Sc Se] P1. rewrite <- Sc. rewrite total_coef_app, (vars_coef_one _ Hv), Qcmult_1_r.
  assert (T : forall b, b <> lit "1" -> total_expo b ts = total_expo b vars).
  { intros b Nb. rewrite <- (Se b Nb), total_expo_app, (total_expo_zero b consts); [apply Qcplus_0_l|].
    intros t I. destruct Hc as [->|(c & -> & Bc & _)]; [destruct I|]. destruct I as [<-|[]]. congruence. }
  assert (In_expo : forall t, In t vars -> total_expo (base t) vars = expo t) by (intros; now apply total_expo_In).
  assert (Out : forall b, total_expo b vars <> 0%Qc -> exists t, In t vars /\ base t = b).
  { intros b H. destruct (in_dec str_eq_dec b (map base vars)) as [I|I].
    - apply in_map_iff in I as (t & E & I). eauto.
    - exfalso. apply H, total_expo_zero. intros t It E. apply I. apply in_map_iff. eauto. }
  rewrite Forall_app. rewrite Forall_forall in Hv. split.
  - intros [A B]. assert (consts = []) as ->.
    { destruct Hc as [->|(c & -> & Bc & _)]; [reflexivity|]. inversion A; subst. congruence. }
    split; [reflexivity|]. split.
    + destruct vars as [|t vars]; [now destruct N|]. exists (base t). destruct (Hv t (or_introl eq_refl)) as (N1 & _ & Ne).
      split; [exact N1|]. rewrite T, In_expo by (auto; now left). exact Ne.
    + intros b Nb Hb. rewrite T in Hb by exact Nb. apply Out in Hb as (t & I & <-). rewrite Forall_forall in B. now apply B.
  - intros (C & (b & Nb & Hb) & A). split.
    + destruct Hc as [->|(c & -> & _ & _ & Hc)]; [constructor|]. exfalso. rewrite total_coef_cons in C.
      change (total_coef []) with 1%Qc in C. rewrite Qcmult_1_r in C. rewrite T in Hb by exact Nb. rewrite (Hc C) in Hb. now apply Hb.
    + apply Forall_forall. intros t I. destruct (Hv t I) as (N1 & _ & Ne). apply A; [exact N1|]. now rewrite T, In_expo.
Qed.

(** * Names *)

From Verif Require RuntimeProofs.

Lemma plain_one n : plain_name n -> n <> lit "1".
Proof.
  intros [(l & d & E & N & L & _) _] ->. destruct l as [|c l]; [congruence|]. cbn in E. injection E as <- E. inversion L as [|? ? X]; subst.
  destruct X as [X|[X|[X|X]]]; try discriminate; cbn in X; lia.
Qed.
Lemma plain_expression F n : plain_name n -> expression_of_str F false n = Ok [mkTerm 1 n 1].
Proof.
  intros P. assert (L : legal_chain F (WVar n 1) []).
  { split; [|constructor]. destruct P as [P1 P2]. cbn. split; [exact P1|]. split; [exact P2|]. split; [discriminate|reflexivity]. }
  destruct (RuntimeProofs.product_read F _ _ L) as (x & E & C & _ & S).
  assert (chain_text (WVar n 1) [] = n) as T by (cbn; now rewrite !app_nil_r). rewrite T in E. rewrite E. f_equal.
  apply canonical_unique; [exact C| |exact S]. exists [], [mkTerm 1 n 1].
  split; [reflexivity|]. split; [discriminate|]. split; [now left|]. split.
  - constructor; [|constructor]. cbn. split; [now apply plain_one|]. split; [reflexivity|discriminate].
  - split; repeat constructor. intros [].
Qed.

(** The table of names. *)
Fixpoint distinct (l : list str) : bool :=
  match l with [] => true | x :: l' => negb (existsb (str_eqb x) l') && distinct l' end.
Lemma distinct_NoDup l : distinct l = true -> NoDup l.
Proof.
  induction l as [|x l IH]; cbn [distinct]; [constructor|]. rewrite andb_true_iff, negb_true_iff. intros [A B]. constructor; [|now apply IH].
  intros I. rewrite (proj2 (existsb_exists _ _)) in A; [discriminate|]. exists x. split; [exact I|apply str_eqb_refl].
Qed.
Definition plain_nameb (n : str) : bool :=
  match n with
  | [] => false
  | _ => forallb is_base_chr n && negb (existsb (is_chr "q") n)
  end.
Lemma reference_distinct : distinct (concat reference) = true.
Proof. vm_compute. reflexivity. Qed.
Lemma reference_heads : forallb (fun g => plain_nameb (hd [] g)) reference = true.
Proof. vm_compute. reflexivity. Qed.

Lemma plain_nameb_ok n : plain_nameb n = true -> plain_name n.
Proof.
  intros H. destruct n as [|c n]; [discriminate|]. cbn [plain_nameb] in H. apply andb_true_iff in H as [A B]. split.
  - exists (c :: n), []. rewrite app_nil_r. split; [reflexivity|]. split; [discriminate|]. split; [|constructor].
    apply Forall_forall. intros x I. rewrite forallb_forall in A. apply A in I. unfold is_base_chr in I. unfold letter.
    rewrite !orb_true_iff, !andb_true_iff, !N.leb_le in I. unfold code in I.
    destruct I as [[[I|I]|I]|I]; [now left|right; now left| |]; apply Ascii.eqb_eq in I; subst; auto.
  - intros [r E]. rewrite negb_true_iff in B. rewrite E in B. cbn in B. discriminate.
Qed.
Section Reference.
Context (mkset : list str -> list str) (SO : AliasedSpec.set_order mkset).
Lemma definitions_nodup : NoDup (map fst name_definitions).
Proof. apply distinct_NoDup. vm_compute. reflexivity. Qed.
Lemma names_total : exists m, AliasedModel.namemap mkset name_definitions = Ok m.
Proof. apply AliasedGroupProofs.namemap_total; [exact SO|]. apply distinct_NoDup. vm_compute. reflexivity. Qed.
Lemma names_get_in g n : In g reference -> In n g -> names_get mkset n = hd [] g.
Proof.
  intros I J. unfold names_get. destruct names_total as [m E]. rewrite E.
  rewrite (proj2 (AliasedGroupProofs.namemap_spec mkset SO name_definitions m definitions_nodup E n (hd [] g))); [reflexivity|].
  exists g. split; [|now right]. unfold name_definitions. apply in_map_iff. now exists g.
Qed.
Lemma names_get_out n : ~ in_reference n -> names_get mkset n = n.
Proof.
  intros N. unfold names_get. destruct names_total as [m E]. rewrite E.
  destruct (AliasedModel.nm_get m n) as [v|] eqn:G; [|reflexivity]. exfalso.
  apply (AliasedGroupProofs.namemap_spec mkset SO name_definitions m definitions_nodup E) in G as (l & I & J).
  unfold name_definitions in I. apply in_map_iff in I as (g & X & I). injection X as <- <-. apply N. exists g. split; [exact I|].
  destruct J as [->|J]; [|exact J]. pose proof reference_heads as H. rewrite forallb_forall in H. apply H in I. destruct g; [discriminate|now left].
Qed.
Lemma head_in g : In g reference -> In (hd [] g) g /\ plain_name (hd [] g).
Proof.
  intros I. pose proof reference_heads as H. rewrite forallb_forall in H. apply H in I. split; [destruct g; [discriminate|now left]|now apply plain_nameb_ok].
Qed.
Lemma concat_unique {A} (l : list (list A)) g h x : NoDup (concat l) -> In g l -> In h l -> In x g -> In x h -> g = h.
Proof.
  induction l as [|a l IH]; intros N I J Ix Jx; [destruct I|]. cbn in N.
  assert (D : forall y, In y a -> ~ In y (concat l)).
  { intros y Ia Il. apply in_split in Ia as (p & q & ->). rewrite <- app_assoc in N. cbn in N. apply NoDup_remove_2 in N. apply N.
    rewrite !in_app_iff. auto. }
  assert (N' : NoDup (concat l)) by (clear - N; induction a; [exact N|]; inversion N; auto).
  assert (C : forall k, In k l -> In x k -> In x (concat l)) by (intros k Ik Ixk; apply in_concat; eauto).
  destruct I as [->|I], J as [->|J]; auto.
  - exfalso. eapply D; eauto.
  - exfalso. eapply D; eauto.
Qed.
Lemma reference_unique g h n : In g reference -> In h reference -> In n g -> In n h -> g = h.
Proof. apply concat_unique, distinct_NoDup, reference_distinct. Qed.

(** The group of a name. *)
Lemma reference_dec n : {in_reference n} + {~ in_reference n}.
Proof.
  destruct (existsb (fun g => existsb (str_eqb n) g) reference) eqn:E; [left|right].
  - apply existsb_exists in E as (g & I & E). apply existsb_exists in E as (m & J & E).
    destruct (str_eqb_spec n m) as [->|]; [|discriminate]. now exists g.
  - intros (g & I & J). assert (existsb (fun g => existsb (str_eqb n) g) reference = true) as X; [|congruence].
    apply existsb_exists. exists g. split; [exact I|]. apply existsb_exists. exists n. split; [exact J|].
    now destruct (str_eqb_spec n n).
Qed.
Lemma aliases_find_spec n m : In m (aliases_find mkset n) <-> (exists g, In g reference /\ In n g /\ In m g) \/ (~ in_reference n /\ m = n).
Proof.
  unfold aliases_find. destruct (AliasedModel.groups_find mkset _ n) as [g|] eqn:E.
  - apply AliasedGroupProofs.groups_find_some in E as [I J]; [|exact SO]. unfold AliasedModel.groups_init in I. rewrite map_map in I.
    apply in_map_iff in I as (h & <- & I). change (AliasedModel.group_of mkset (Many h)) with (mkset h) in *.
    rewrite (set_in mkset SO) in J. rewrite (set_in mkset SO). split.
    + intros H. left. eauto.
    + intros [(g & Ig & Jn & Jm)|[N _]]; [|exfalso; apply N; exists h; auto]. now rewrite (reference_unique h g n).
  - pose proof (AliasedGroupProofs.groups_find_none mkset SO _ _ E) as K. split.
    + intros [<-|[]]. right. split; [|reflexivity]. intros (g & I & J). apply (K (mkset g)).
      * unfold AliasedModel.groups_init. rewrite map_map. apply in_map_iff. exists g. split; [reflexivity|exact I].
      * now apply set_in.
    + intros [(g & I & J & _)|[_ ->]]; [|now left]. exfalso. apply (K (mkset g)).
      * unfold AliasedModel.groups_init. rewrite map_map. apply in_map_iff. exists g. split; [reflexivity|exact I].
      * now apply set_in.
Qed.
Lemma find_same n m : In m (aliases_find mkset n) <-> same_name n m.
Proof.
  rewrite aliases_find_spec. unfold same_name. split.
  - intros [H|[_ ->]]; auto.
  - intros [<-|H]; [|now left]. destruct (reference_dec n) as [(g & I & J)|N]; [left; eauto|now right].
Qed.
End Reference.

(** * Evaluation *)

Section Evaluation.
Context (F : flops) (mkset : list str -> list str) (SO : AliasedSpec.set_order mkset).
Context (names unobservable : list str) (NP : forall n, In n names -> in_reference n \/ plain_name n).
Notation av := (available_name (map (aliases_find mkset) names) unobservable).
Lemma evaluated_known key : av key -> exists n, evaluated F mkset key = Ok [(n, 1%Qc)] /\ av n /\ same_name key n.
Proof.
  intros (g & I & J & U). pose proof I as Ig. apply in_map_iff in I as (m & <- & I).
  apply (aliases_find_spec mkset SO) in J as [(h & Ih & Im & Ik)|[N ->]].
  - exists (hd [] h). unfold evaluated. rewrite (names_get_in mkset SO h) by assumption. destruct (head_in h Ih) as [Hh Ph].
    rewrite (plain_expression F _ Ph). split; [reflexivity|]. split.
    + exists (aliases_find mkset m). split; [exact Ig|]. split; [|exact U].
      apply aliases_find_spec; [exact SO|]. left. eauto.
    + right. exists h. split; [exact Ih|]. split; [exact Ik|exact Hh].
  - exists m. unfold evaluated. rewrite (names_get_out mkset SO) by assumption. destruct (NP m I) as [X|P]; [contradiction|].
    rewrite (plain_expression F _ P). split; [reflexivity|]. split; [|now left]. exists (aliases_find mkset m). split; [exact Ig|]. split; [|exact U].
    apply aliases_find_spec; [exact SO|]. right. auto.
Qed.
Lemma evaluated_composed key : ~ in_reference key -> ~ av key ->
  forall fuel, 2 <= fuel -> observes F mkset fuel (observables mkset (map (aliases_find mkset) names) unobservable) key = Ok true ->
  exists x, expression_of_str F false key = Ok x /\ evaluated F mkset key = Ok (map (fun t => (base t, expo t)) x) /\ Forall (fun t => av (base t)) x.
Proof.
  intros R A fuel L H. destruct fuel as [|[|fuel]]; [lia|lia|]. destruct (composition_str key) eqn:C.
  - pose proof (observes_composed F mkset SO (map (aliases_find mkset) names) unobservable fuel key A C) as K.
    destruct (expression_of_str F false key) as [x|] eqn:X; [|congruence]. destruct K as (b & E & K). exists x. split; [reflexivity|]. split.
    + unfold evaluated. rewrite (names_get_out mkset SO) by exact R. now rewrite X.
    + apply K. congruence.
  - rewrite (observes_plain F mkset SO) in H by assumption. discriminate.
Qed.
Lemma evaluates fuel key : 2 <= fuel -> (in_reference key -> av key) ->
  observes F mkset fuel (observables mkset (map (aliases_find mkset) names) unobservable) key = Ok true ->
  exists l, evaluated F mkset key = Ok l /\ Forall (fun t => av (fst t)) l
    /\ (av key -> exists n, l = [(n, 1%Qc)] /\ same_name key n).
Proof.
  intros L R H. destruct (known_cases mkset SO (map (aliases_find mkset) names) unobservable key) as [K|K].
  - destruct (evaluated_known key K) as (n & E & A & S). exists [(n, 1%Qc)]. split; [exact E|].
    split; [constructor; [exact A|constructor]|]. intros _. exists n. split; [reflexivity|exact S].
  - assert (~ in_reference key) as N by (intros X; exact (K (R X))).
    destruct (evaluated_composed key N K fuel L H) as (x & _ & E & A). eexists. split; [exact E|]. split; [|intros Z; contradiction].
    rewrite Forall_map. exact A.
Qed.
End Evaluation.

(** * Sources *)

Section Sources.
Context (find_data : str -> res (option str)) (bare : str -> bool) (parent : str -> str) (join : str -> str -> str)
        (exists_ : str -> bool) (resolve : str -> str) (cwd : str).
Notation upd := (update find_data bare parent join exists_ resolve).
Notation hist := (history find_data bare parent join exists_ resolve).
Notation mk := (make_observer find_data bare parent join exists_ resolve cwd).

(** The cached path of the data is that of the current source. *)
Definition coherent (s : sources) : Prop :=
  forall d, s_datapath s = Some d -> find_data (s_source s) = Ok (Some d).
Lemma build_source s source config system r s' : build_context find_data bare parent join exists_ resolve s source config system = (r, s') ->
  coherent s ->
  coherent s' /\ s_source s' = (if given source then or_str source [] else s_source s)
  /\ s_config s' = (if given config then config else s_config s).
Proof.
  unfold build_context. set (s1 := if given config then _ else s).
  set (s2 := if given source then _ else s1). intros H C.
  assert (C2 : coherent s2 /\ s_source s2 = (if given source then or_str source [] else s_source s)
    /\ s_config s2 = (if given config then config else s_config s)).
  { subst s2 s1. destruct (given source), (given config); cbn; (split; [|split; reflexivity]); try exact C; intros d; discriminate. }
  destruct C2 as (C2 & S2 & K2). clearbody s2. rewrite <- S2, <- K2. clear s1 S2 K2 C.
  assert (D : forall r s3, datapath find_data s2 = (r, s3) -> coherent s3 /\ s_source s3 = s_source s2 /\ s_config s3 = s_config s2).
  { unfold datapath. intros r0 s3. destruct (s_datapath s2) eqn:P.
    - intros E. injection E as <- <-. auto.
    - destruct (find_data (s_source s2)) as [p|e] eqn:Fd; intros E; injection E as <- <-; [|auto]. split; [|auto].
      intros d. cbn. intros ->. exact Fd. }
  assert (Q : forall s3 d r s4, confpath bare parent join exists_ resolve s3 d = (r, s4) ->
    coherent s3 -> coherent s4 /\ s_source s4 = s_source s3 /\ s_config s4 = s_config s3).
  { unfold confpath. intros s3 d r0 s4. destruct (s_confpath s3); [intros E; injection E as <- <-; auto|].
    destruct (match s_config s3 with Some c => _ | None => _ end); intros E; injection E as <- <-; auto. }
  destruct (datapath find_data s2) as [[[d|]|e] s3]; destruct (D _ _ eq_refl) as (C3 & S3 & K3); rewrite <- S3, <- K3.
  - destruct (confpath bare parent join exists_ resolve s3 d) as [[[c|]|e] s4] eqn:E; apply Q in E as (C4 & S4 & K4); try assumption;
      injection H as <- <-; auto.
  - injection H as <- <-. auto.
  - injection H as <- <-. auto.
Qed.
Lemma update_source s source config r s' : upd s source config = (r, s') -> coherent s ->
  coherent s' /\ s_source s' = latest (s_source s) (settings [source])
  /\ s_config s' = (match settings [config] with [] => s_config s | _ => config end).
Proof.
  unfold update. destruct (build_context _ _ _ _ _ _ s source config None) as [r0 s0] eqn:B. intros H C.
  apply build_source in B as (C0 & S0 & K0); [|exact C].
  assert (C1 : coherent s' /\ s_source s' = s_source s0 /\ s_config s' = s_config s0).
  { destruct r0 as [[b|]|e]; injection H as <- <-; auto. }
  destruct C1 as (C1 & -> & ->). split; [exact C1|]. rewrite S0, K0. split.
  - destruct source as [[|c s1]|]; reflexivity.
  - destruct config as [[|c s1]|]; reflexivity.
Qed.

Lemma settings_app l m : settings (l ++ m) = settings l ++ settings m.
Proof. unfold settings. now rewrite map_app, concat_app. Qed.
Lemma latest_app {A} (x : A) l m : latest x (l ++ m) = latest (latest x l) m.
Proof.
  unfold latest. revert x. induction m as [|y m IH] using rev_ind; intros x; [now rewrite app_nil_r|]. rewrite app_assoc, !last_last. reflexivity.
Qed.
Lemma history_source l : forall s, coherent s ->
  coherent (hist s l) /\ s_source (hist s l) = latest (s_source s) (settings (map fst l))
  /\ s_config (hist s l) = latest (s_config s) (map Some (settings (map snd l))).
Proof.
  induction l as [|[a b] l IH]; intros s C; [auto|].
  change (hist s ((a, b) :: l)) with (hist (snd (upd s a b)) l). destruct (upd s a b) as [r s1] eqn:U. cbn [snd].
  apply update_source in U as (C1 & S1 & K1); [|exact C]. destruct (IH s1 C1) as (C2 & S2 & K2). split; [exact C2|].
  rewrite S2, K2, S1, K1. cbn [map fst snd]. change (a :: map fst l) with ([a] ++ map fst l). change (b :: map snd l) with ([b] ++ map snd l).
  rewrite !settings_app, map_app, !latest_app. split; [reflexivity|]. f_equal. destruct b as [[|c b]|]; reflexivity.
Qed.
Lemma make_coherent config source system : coherent (snd (mk config source system))
  /\ s_source (snd (mk config source system)) = or_str source cwd /\ s_config (snd (mk config source system)) = config.
Proof.
  unfold make_observer. destruct (build_context _ _ _ _ _ _ _ None None system) as [r s] eqn:B.
  apply build_source in B as (C & S & K); [|intros d; discriminate]. destruct r as [[b|]|e]; cbn; auto.
Qed.

(** What an update does to the context. *)
Lemma update_context s source config r s' d : upd s source config = (r, s') -> coherent s ->
  find_data (s_source s') = Ok (Some d) -> s_config s' <> None -> r = Ok tt ->
  exists b, s_context s' = Some b /\ b_data b = d /\ b_system b = lit "mks"
  /\ (given config = true -> s_config s' = config /\ exists c, config = Some c /\ configuration bare parent join exists_ resolve d c = Some (b_conf b)).
Proof.
  intros U C Fd K R. subst r. pose proof (update_source _ _ _ _ _ U C) as (C' & S' & K').
  unfold update in U. destruct (build_context _ _ _ _ _ _ s source config None) as [r0 s0] eqn:B.
  pose proof (build_source _ _ _ _ _ _ B C) as (C0 & S0 & K0).
  assert (E : s_source s' = s_source s0 /\ s_config s' = s_config s0).
  { destruct r0 as [[b|]|e]; [injection U as <-; auto|injection U as <-; auto|discriminate]. }
  destruct E as [E1 E2]. rewrite E1 in Fd. rewrite E2 in K. unfold build_context in B.
  set (s1 := if given config then _ else s) in B. set (s2 := if given source then _ else s1) in B.
  assert (C2 : coherent s2 /\ s_source s2 = s_source s0 /\ s_config s2 = s_config s0 /\ (given config = true -> s_confpath s2 = None)).
  { rewrite S0, K0. subst s2 s1. destruct (given source), (given config); cbn; (split; [|split; [reflexivity|split; [reflexivity|intros; congruence || reflexivity]]]);
      try exact C; intros x; discriminate. }
  destruct C2 as (C2 & S2 & K2 & N2). clearbody s2. clear s1.
  assert (D : exists s3, datapath find_data s2 = (Ok (Some d), s3) /\ s_config s3 = s_config s2 /\ s_confpath s3 = s_confpath s2).
  { unfold datapath. destruct (s_datapath s2) as [p|] eqn:P.
    - pose proof (C2 p P) as Q. rewrite S2, Fd in Q. injection Q as <-. eauto.
    - rewrite S2, Fd. eexists. split; [reflexivity|]. auto. }
  destruct D as (s3 & D & K3 & N3). rewrite D in B.
  destruct (confpath bare parent join exists_ resolve s3 d) as [[[c|]|e] s4] eqn:Q; injection B as <- <-.
  - injection U as <-. eexists. split; [reflexivity|]. cbn. split; [reflexivity|]. split; [reflexivity|]. intros G.
    destruct config as [[|x cfg]|]; try discriminate. split; [exact K'|]. exists (x :: cfg). split; [reflexivity|].
    unfold confpath in Q. rewrite N3, (N2 G) in Q. rewrite K3, K2, K0 in Q. cbn [given] in Q. unfold configuration.
    destruct (bare (x :: cfg) && exists_ (join (parent d) (x :: cfg))); [injection Q as <- _; reflexivity|].
    destruct (exists_ (resolve (x :: cfg))); [|discriminate]. injection Q as <- _. reflexivity.
  - exfalso. unfold confpath in Q. destruct (s_confpath s3); [discriminate|]. rewrite K3, K2 in Q.
    destruct (s_config s4) as [c|] eqn:Kc; [|congruence].
    destruct (bare c && exists_ (join (parent d) c)); [discriminate|]. destruct (exists_ (resolve c)); discriminate.
  - discriminate.
Qed.
Lemma update_fails s source config e s' : upd s source config = (Err e, s') -> s_context s' = s_context s.
Proof.
  unfold update. destruct (build_context _ _ _ _ _ _ s source config None) as [r0 s0] eqn:B. unfold build_context in B.
  set (s1 := if given config then _ else s) in B. set (s2 := if given source then _ else s1) in B.
  assert (X : s_context s2 = s_context s) by (subst s2 s1; destruct (given source), (given config); reflexivity). clearbody s2.
  assert (D : forall r s3, datapath find_data s2 = (r, s3) -> s_context s3 = s_context s2).
  { unfold datapath. intros r s3. destruct (s_datapath s2); [intros E; injection E as _ <-; reflexivity|].
    destruct (find_data _); intros E; injection E as _ <-; reflexivity. }
  assert (Q : forall s3 d r s4, confpath bare parent join exists_ resolve s3 d = (r, s4) -> s_context s4 = s_context s3).
  { unfold confpath. intros s3 d r s4. destruct (s_confpath s3); [intros E; injection E as _ <-; reflexivity|].
    destruct (match s_config s3 with Some c => _ | None => _ end); intros E; injection E as _ <-; reflexivity. }
  destruct (datapath find_data s2) as [[[d|]|x] s3]; pose proof (D _ _ eq_refl) as D3.
  - destruct (confpath bare parent join exists_ resolve s3 d) as [[[c|]|x] s4] eqn:E; apply Q in E; injection B as <- <-; intros U; try discriminate.
    injection U as _ <-. congruence.
  - injection B as <- <-. discriminate.
  - injection B as <- <-. intros U. injection U as _ <-. congruence.
Qed.
End Sources.

(** * Access *)

Section Access.
Context {V IX SC : Type} (F : flops) (mkset : list str -> list str) (SO : AliasedSpec.set_order mkset).
Context (defaults : list (str * V)) (names : list str) (mapped : str -> bool) (unobservable : list str).
Notation context := (ObservingModel.context V IX SC).
Notation get := (@observer_getitem V IX SC F mkset defaults names mapped unobservable).

(** The tables of names in a context hold the names of its quantities, and
    some table of its constraints. *)
Definition named (ks : list str) (c : context) : Prop :=
  (ObservingModel.c_observable c = None \/ ObservingModel.c_observable c = Some (map (aliases_find mkset) names))
  /\ (ObservingModel.c_constraints c = None \/ exists d, ObservingModel.c_constraints c = Some d /\ map fst d = ks)
  /\ map fst (d_update str_eqb defaults (ObservingModel.c_user c)) = ks
  /\ (ObservingModel.c_available c = None \/ ObservingModel.c_available c = Some (map (aliases_find mkset) (names ++ ks)))
  /\ (ObservingModel.c_keys c = None \/ ObservingModel.c_keys c = Some (concat (map (aliases_find mkset) (names ++ ks)))).
Lemma named_observable ks c : named ks c ->
  fst (ObservingModel.observable (aliases_find mkset) names c) = map (aliases_find mkset) names
  /\ named ks (snd (ObservingModel.observable (aliases_find mkset) names c)).
Proof.
  intros N. unfold ObservingModel.observable. destruct N as ([O|O] & N); rewrite O; cbn; (split; [reflexivity|]).
  - split; [now right|]. exact N.
  - split; [now right|]. exact N.
Qed.
Lemma named_constraints ks c : named ks c ->
  map fst (fst (ObservingModel.constraints defaults c)) = ks /\ named ks (snd (ObservingModel.constraints defaults c)).
Proof.
  intros N. unfold ObservingModel.constraints. destruct N as (O & [K|(d & K & E)] & U & N); rewrite K; cbn.
  - split; [exact U|]. split; [exact O|]. split; [right; eexists; split; [reflexivity|exact U]|]. now split.
  - split; [exact E|]. split; [exact O|]. split; [right; eauto|]. now split.
Qed.
Lemma named_available ks c : named ks c ->
  fst (ObservingModel.available defaults (aliases_find mkset) names c) = map (aliases_find mkset) (names ++ ks)
  /\ named ks (snd (ObservingModel.available defaults (aliases_find mkset) names c)).
Proof.
  intros N. unfold ObservingModel.available. destruct (ObservingModel.c_available c) as [a|] eqn:A.
  - destruct N as (O & K & U & [X|X] & Y); rewrite A in X; [discriminate|]. injection X as ->. split; [reflexivity|].
    split; [exact O|]. split; [exact K|]. split; [exact U|]. split; [now right|exact Y].
  - destruct (ObservingModel.constraints defaults c) as [d c1] eqn:C. pose proof (named_constraints ks c N) as [E1 N1]. rewrite C in E1, N1. cbn in E1, N1.
    destruct (ObservingModel.observable (aliases_find mkset) names c1) as [o c2] eqn:B. pose proof (named_observable ks c1 N1) as [E2 N2].
    rewrite B in E2, N2. cbn in E2, N2. subst o. cbn [fst snd]. rewrite E1, map_app. split; [reflexivity|].
    destruct N2 as (O & K & U & _ & Y). split; [exact O|]. split; [exact K|]. split; [exact U|]. split; [right; cbn; now rewrite map_app|exact Y].
Qed.
Lemma named_keys ks c : named ks c ->
  fst (ObservingModel.keys defaults (aliases_find mkset) names c) = concat (map (aliases_find mkset) (names ++ ks))
  /\ named ks (snd (ObservingModel.keys defaults (aliases_find mkset) names c)).
Proof.
  intros N. unfold ObservingModel.keys. destruct (ObservingModel.c_keys c) as [a|] eqn:A.
  - destruct N as (O & K & U & X & [Y|Y]); rewrite A in Y; [discriminate|]. injection Y as ->. split; [reflexivity|].
    split; [exact O|]. split; [exact K|]. split; [exact U|]. split; [exact X|now right].
  - destruct (ObservingModel.available defaults (aliases_find mkset) names c) as [d c1] eqn:C. pose proof (named_available ks c N) as [E1 N1].
    rewrite C in E1, N1. cbn in E1, N1. subst d. cbn [fst snd]. split; [reflexivity|].
    destruct N1 as (O & K & U & X & _). split; [exact O|]. split; [exact K|]. split; [exact U|]. split; [exact X|now right].
Qed.
Lemma named_contains ks c k : named ks c ->
  (fst (ObservingModel.contains defaults (aliases_find mkset) names c k) = true <-> exists n, In n (names ++ ks) /\ same_name n k)
  /\ named ks (snd (ObservingModel.contains defaults (aliases_find mkset) names c k)).
Proof.
  intros N. unfold ObservingModel.contains. destruct (ObservingModel.keys defaults (aliases_find mkset) names c) as [l c1] eqn:C.
  pose proof (named_keys ks c N) as [E1 N1]. rewrite C in E1, N1. cbn in E1, N1. subst l. cbn [fst snd]. split; [|exact N1].
  rewrite existsb_exists. split.
  - intros (m & I & E). destruct (str_eqb_spec k m) as [<-|]; [|discriminate]. apply in_concat in I as (g & I & J).
    apply in_map_iff in I as (n & <- & I). exists n. split; [exact I|]. now apply (find_same mkset SO).
  - intros (n & I & E). exists k. split; [|now destruct (str_eqb_spec k k)]. apply in_concat. exists (aliases_find mkset n).
    split; [apply in_map; exact I|]. now apply (find_same mkset SO).
Qed.
Lemma named_fresh (user : list (str * V)) :
  named (map fst (d_update str_eqb defaults (d_of str_eqb user))) (ObservingModel.constrain (@ObservingModel.new_context V IX SC) user false).
Proof. split; [now left|]. split; [now left|]. split; [reflexivity|]. split; now left. Qed.

Lemma not_available k : (forall n, In n names -> ~ same_name n k) -> ~ available_name (map (aliases_find mkset) names) unobservable k.
Proof.
  intros H (g & I & J & _). apply in_map_iff in I as (n & <- & I). apply (H n I). now apply (find_same mkset SO).
Qed.
Lemma no_suggestions (l : list (list str)) k : suggestions (map (fun g => Many g) l) k = [].
Proof.
  assert (E : forall s, existsb (is_string s) (map (fun g => Many g) l) = false).
  { intros s. induction l as [|g l IH]; [reflexivity|]. cbn. exact IH. }
  assert (N : forall ss, filter (fun w => existsb (fun e => is_string e w) ss) (map (fun g => Many g) l) = []).
  { intros ss. assert (Z : forall g, existsb (fun e => is_string e (Many g)) ss = false) by (intros g; induction ss as [|x ss IH]; [reflexivity|exact IH]).
    clear E. induction l as [|g l IH]; [reflexivity|]. cbn [map filter]. rewrite Z. exact IH. }
  unfold suggestions. now rewrite E, !N.
Qed.
Lemma get_unknown fuel ks c w k : named ks c -> unknown_name (names ++ ks) k -> 1 <= fuel ->
  exists c', get fuel (mkObserver c w) k = (Err (match w with None => KeyError | Some _ => TypeError end),
                                        mkObserver c' (Some (match w with None => map (fun g => Many g) (map (aliases_find mkset) (names ++ ks)) | Some w => w end)))
             /\ named ks c'.
Proof.
  intros N [C U] Fu. apply composed_no in C. unfold observer_getitem. cbn [o_context o_words].
  destruct (ObservingModel.observable (aliases_find mkset) names c) as [o c1] eqn:O. pose proof (named_observable ks c N) as [E1 N1].
  rewrite O in E1, N1. cbn in E1, N1. subst o.
  destruct fuel as [|fuel]; [lia|]. rewrite (observes_plain F mkset SO); [|exact C|].
  2: { apply not_available. intros n I. apply U. apply in_or_app. now left. }
  destruct (ObservingModel.contains defaults (aliases_find mkset) names c1 k) as [b c2] eqn:K. pose proof (named_contains ks c1 k N1) as [E2 N2].
  rewrite K in E2, N2. cbn in E2, N2. assert (b = false) as ->.
  { destruct b; [|reflexivity]. destruct (proj1 E2 eq_refl) as (n & I & S). now apply U in S. }
  unfold check_spelling. cbn [o_context o_words].
  destruct (ObservingModel.available defaults (aliases_find mkset) names c2) as [a c3] eqn:A. pose proof (named_available ks c2 N2) as [E3 N3].
  rewrite A in E3, N3. cbn in E3, N3. subst a. destruct w as [w|].
  - exists c3. split; [reflexivity|exact N3].
  - exists c3. rewrite no_suggestions. split; [reflexivity|exact N3].
Qed.
Lemma get_known fuel ks c w k : named ks c -> composition_str k = false -> 1 <= fuel ->
  (forall k, mapped k = true <-> exists n, In n names /\ same_name n k) ->
  (exists n, In n names /\ same_name n k) \/ In k ks ->
  exists x, fst (get fuel (mkObserver c w) k) = Ok x /\ x <> Nothing.
Proof.
  intros N C Fu M H. unfold observer_getitem. cbn [o_context o_words].
  destruct (ObservingModel.observable (aliases_find mkset) names c) as [o c1] eqn:O. pose proof (named_observable ks c N) as [E1 N1].
  rewrite O in E1, N1. cbn in E1, N1. subst o. destruct fuel as [|fuel]; [lia|].
  destruct (known_cases mkset SO (map (aliases_find mkset) names) unobservable k) as [A|A].
  - rewrite (observes_known F mkset SO) by exact A. eexists. split; [reflexivity|discriminate].
  - rewrite (observes_plain F mkset SO) by assumption.
    destruct (ObservingModel.contains defaults (aliases_find mkset) names c1 k) as [b c2] eqn:K. pose proof (named_contains ks c1 k N1) as [E2 N2].
    rewrite K in E2, N2. cbn in E2, N2. assert (b = true) as ->.
    { apply E2. destruct H as [(n & I & S)|I]; [exists n|exists k]; (split; [apply in_or_app; auto|]); [exact S|now left]. }
    unfold get_quantity. destruct (mapped k) eqn:Mk; [eexists; split; [reflexivity|discriminate]|].
    destruct H as [H|I]; [apply M in H; congruence|].
    destruct (ObservingModel.constraints defaults c2) as [d c3] eqn:D. pose proof (named_constraints ks c2 N2) as [E3 _]. rewrite D in E3. cbn in E3.
    cbn [fst snd]. destruct (d_get str_eqb d k) as [v|] eqn:G; [eexists; split; [reflexivity|discriminate]|].
    apply (d_get_none str_eqb str_eqb_spec) in G. rewrite E3 in G. contradiction.
Qed.
End Access.

(** * Metadata *)

Section Metadata.
Context {A : Type} (F : flops) (mkset : list str -> list str)
        (get_attribute : str -> option A) (mul : A -> A -> res A) (pow : A -> Qc -> res A) (truth : A -> bool) (d : A -> Qc)
        (Dm : forall a b c, mul a b = Ok c -> d c = (d a + d b)%Qc) (Dp : forall a e c, pow a e = Ok c -> d c = (e * d a)%Qc).
Lemma product_exponent l : forall a c, product get_attribute mul pow a l = Ok c -> d c = (d a + exponent_in get_attribute d l)%Qc.
Proof.
  induction l as [|[b e] l IH]; intros a c; cbn [product].
  - intros E. injection E as <-. cbn. now rewrite Qcplus_0_r.
  - unfold power_of. cbn [fst snd]. destruct (get_attribute b) as [x|] eqn:G; [|discriminate].
    destruct (pow x e) as [y|] eqn:P; [|discriminate]. cbn [bind]. destruct (mul a y) as [z|] eqn:M; [|discriminate]. cbn [bind]. intros H.
    apply IH in H. rewrite H, (Dm _ _ _ M), (Dp _ _ _ P). cbn [exponent_in fold_right fst snd]. rewrite G. fold (exponent_in get_attribute d l). ring.
Qed.
Lemma metadata_exponent target u b l : (get_attribute target = None \/ exists a, get_attribute target = Some a /\ truth a = false) ->
  evaluated F mkset target = Ok ((b, 1%Qc) :: l) -> get_metadata F mkset get_attribute mul pow truth target = Ok (Some u) ->
  d u = exponent_in get_attribute d ((b, 1%Qc) :: l).
Proof.
  intros N E G. assert (G' : match get_attribute b, l with
                       | o, [] => Ok o
                       | Some a, _ => rmap Some (product get_attribute mul pow a l)
                       | None, _ => Err TypeError
                       end = Ok (Some u)).
  { unfold get_metadata in G. destruct N as [N|(a & N & T)]; rewrite N in G; [|rewrite T in G]; rewrite E in G; exact G. }
  cbn [exponent_in fold_right fst snd]. fold (exponent_in get_attribute d l). destruct (get_attribute b) as [a|].
  - destruct l as [|t l].
    + injection G' as <-. cbn. ring.
    + destruct (product get_attribute mul pow a (t :: l)) as [c|] eqn:P; [|discriminate]. injection G' as <-.
      apply product_exponent in P. rewrite P. ring.
  - destruct l; discriminate.
Qed.
End Metadata.
