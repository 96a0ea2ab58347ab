(** Parsing of written expressions: chains, nested groups and exponents. *)

From Coq Require Import String Ascii List Bool ZArith NArith QArith Qcanon Lia Permutation.
From Verif Require Import Py PyFacts SymbolicModel SymbolicSpec SymbolicReduceProofs.
From Verif Require Import SymbolicRx SymbolicParseProofs.
Import ListNotations.
Open Scope list_scope.
Open Scope nat_scope.
Open Scope py_scope.

(** * Separators *)

Lemma space_star t :
  head_ok is_space t -> rx_star is_space (" "%char :: t) = [([" "%char], t); ([], " "%char :: t)].
Proof. intro H. cbn [rx_star]. change (is_space " ") with true. cbv iota. rewrite star_none by auto. reflexivity. Qed.

Lemma first_space t :
  head_ok is_space t -> first (rx_star is_space) (" "%char :: t) [" "%char] t.
Proof. intro H. unfold first. rewrite space_star by auto. eexists. reflexivity. Qed.

Lemma head_ok_app p (t r : str) : t <> [] -> head_ok p t -> head_ok p (t ++ r).
Proof. destruct t; simpl; auto; congruence. Qed.

Lemma cls_miss c d s : Ascii.eqb c d = false -> rx_cls (is_chr c) (d :: s) = [].
Proof. intro H. apply none_cls. exact H. Qed.

Lemma step_multiply F t o r :
  reads F t o -> okrest r -> operator_parse (lit " * " ++ t ++ r) = Some (Multiply, t ++ r).
Proof.
  intros [Hn [[H1 [H2 H3]] [_ _]]] Hr.
  apply (head_ok_app _ t r) in H1, H2, H3; auto.
  unfold operator_parse. change (lit " * " ++ t ++ r) with (" "%char :: "*"%char :: " "%char :: t ++ r).
  rewrite (first_run rx_multiply _ tt (t ++ r)); auto.
  eapply first_bind. { apply first_space. auto; reflexivity. }
  eapply first_bind. { apply first_cls. reflexivity. }
  eapply first_bind. { apply first_space. auto; reflexivity. }
  apply first_look. unfold not_starting. destruct (t ++ r) as [|c s]; auto.
  cbn [head_ok] in H3. now rewrite H3.
Qed.

Lemma step_divide F t o r :
  reads F t o -> okrest r -> operator_parse (lit " / " ++ t ++ r) = Some (Divide, t ++ r).
Proof.
  intros [Hn [[H1 [H2 H3]] [_ _]]] Hr.
  apply (head_ok_app _ t r) in H1, H2, H3; auto.
  unfold operator_parse. change (lit " / " ++ t ++ r) with (" "%char :: "/"%char :: " "%char :: t ++ r).
  rewrite (none_run rx_multiply).
  2: { unfold rx_multiply, rx_bind. rewrite space_star by reflexivity. cbn [flat_map fst snd].
       rewrite !cls_miss by reflexivity. reflexivity. }
  rewrite (first_run rx_divide _ tt (t ++ r)); auto.
  eapply first_bind. { apply first_space. auto; reflexivity. }
  eapply first_bind. { apply first_cls. reflexivity. }
  eapply first_bind. { apply first_space. auto; reflexivity. }
  apply first_look. unfold not_starting. destruct (t ++ r) as [|c s]; auto.
  cbn [head_ok] in H2. now rewrite H2.
Qed.

Lemma step_none F t o r :
  reads F t o -> okrest r -> operator_parse (lit " " ++ t ++ r) = None.
Proof.
  intros [Hn [[H1 [H2 H3]] [_ H]]] Hr. destruct (H r Hr) as [HS _].
  apply (head_ok_app _ t r) in H1, H2, H3; auto.
  unfold operator_parse. change (lit " " ++ t ++ r) with (" "%char :: t ++ r).
  rewrite (none_run rx_multiply), (none_run rx_divide), (none_run rx_sqrt); auto;
    unfold rx_multiply, rx_divide, rx_sqrt, rx_bind at 1;
    rewrite space_star by auto; cbn [flat_map fst snd].
  - rewrite !none_bind'; auto; apply rx_text_none; auto; intros [w E]; discriminate E.
  - rewrite !none_bind'; auto; apply none_cls; auto; reflexivity.
  - rewrite !none_bind'; auto; apply none_cls; auto; reflexivity.
Qed.

Lemma strip_space s : strip (" "%char :: s) = strip s.
Proof.
  reflexivity.
Qed.

(** * Token lists *)

Definition tok : Type := option operator * (str * operand).
Definition tail_text (l : list tok) : str :=
  concat (map (fun p => sep (fst p) ++ fst (snd p)) l).
Definition tok_ok (F : flops) (p : tok) : Prop :=
  plain_op (fst p) /\ reads F (fst (snd p)) (snd (snd p)).

Lemma sep_head o : exists s, sep o = " "%char :: s.
Proof. destruct o as [[]|]; simpl; eexists; reflexivity. Qed.

Lemma tail_okrest F l : Forall (tok_ok F) l -> okrest (tail_text l).
Proof.
  induction 1 as [|p l [_ [Hn [_ [Ht _]]]] _ IH]; [split; simpl; auto|].
  unfold tail_text. cbn [map concat]. split.
  - destruct (sep_head (fst p)) as [s ->]. reflexivity.
  - apply head_ok_rev_app.
    + destruct (sep_head (fst p)) as [s ->]. discriminate.
    + apply rev_app_head; auto.
    + apply IH.
Qed.

Fixpoint loop_spec (F : flops) (strict : bool) (e : Qc) (prev : option operator)
  (l : list tok) : res (list operand) :=
  match l with
  | [] => Ok []
  | (op, (_, o)) :: l' =>
      match operator_error strict op prev with
      | Some x => Err x
      | None =>
          do o1 <- lift_pow (fun t => term_pow F t e) o;
          do o2 <- evaluate F op o1;
          do more <- loop_spec F strict e op l';
          Ok (o2 :: more)
      end
  end.

Lemma parse_loop_S F strict e f s prev :
  s <> [] ->
  parse_loop F strict e (S f) s prev =
  let '(op, s1) := match operator_parse s with
                   | Some (o, r) => (Some o, r)
                   | None => (None, s)
                   end in
  match operator_error strict op prev with
  | Some x => Err x
  | None =>
      do m <- operand_parse F s1;
      match m with
      | None => Err ParsingValueError
      | Some (o, rest) =>
          do o1 <- lift_pow (fun t => term_pow F t e) o;
          do o2 <- evaluate F op o1;
          do more <- parse_loop F strict e f rest op;
          Ok (o2 :: more)
      end
  end.
Proof. destruct s; [congruence|reflexivity]. Qed.

Lemma reads_parse_space F t o r :
  reads F t o -> okrest r -> operand_parse F (lit " " ++ t ++ r) = Ok (Some (o, r)).
Proof.
  intros H Hr. rewrite <- (reads_parse F t o r H Hr). unfold operand_parse.
  change (lit " " ++ t ++ r) with (" "%char :: t ++ r). now rewrite strip_space.
Qed.

Lemma loop_tail F strict e l : Forall (tok_ok F) l ->
  forall fuel prev, length l < fuel ->
  parse_loop F strict e fuel (tail_text l) prev = loop_spec F strict e prev l.
Proof.
  induction 1 as [|[op [t o]] l [Hp H] Hl IH]; intros fuel prev Hf.
  - destruct fuel; [lia|reflexivity].
  - destruct fuel as [|fuel]; [lia|]. simpl in Hp, H, Hf.
    assert (okrest (tail_text l)) as Hr by (eapply tail_okrest; eauto).
    match goal with |- context [tail_text ?y] =>
      replace (tail_text y) with (sep op ++ t ++ tail_text l)
        by (unfold tail_text; cbn [map concat fst snd]; now rewrite <- app_assoc) end.
    rewrite parse_loop_S by (destruct (sep_head op) as [w ->]; discriminate).
    cbn [loop_spec].
    destruct op as [[]|].
    + change (sep (Some Multiply)) with (lit " * "). rewrite (step_multiply F t o) by auto. cbv iota beta.
      destruct (operator_error _ _ _); auto.
      rewrite (reads_parse F t o _ H Hr). cbn [bind].
      destruct (lift_pow _ o); auto. cbn [bind]. destruct (evaluate F _ _); auto. cbn [bind].
      rewrite IH by lia. reflexivity.
    + change (sep (Some Divide)) with (lit " / "). rewrite (step_divide F t o) by auto. cbv iota beta.
      destruct (operator_error _ _ _); auto.
      rewrite (reads_parse F t o _ H Hr). cbn [bind].
      destruct (lift_pow _ o); auto. cbn [bind]. destruct (evaluate F _ _); auto. cbn [bind].
      rewrite IH by lia. reflexivity.
    + now destruct Hp.
    + change (sep None) with (lit " "). rewrite (step_none F t o) by auto. cbv iota beta.
      destruct (operator_error _ _ _); auto.
      rewrite (reads_parse_space F t o _ H Hr). cbn [bind].
      destruct (lift_pow _ o); auto. cbn [bind]. destruct (evaluate F _ _); auto. cbn [bind].
      rewrite IH by lia. reflexivity.
Qed.

Lemma loop_chain F strict e t0 o0 l fuel :
  reads F t0 o0 -> Forall (tok_ok F) l -> length l + 1 < fuel ->
  parse_loop F strict e fuel (t0 ++ tail_text l) None = loop_spec F strict e None ((None, (t0, o0)) :: l).
Proof.
  intros H Hl Hf. destruct fuel as [|fuel]; [lia|].
  assert (okrest (tail_text l)) as Hr by (eapply tail_okrest; eauto).
  assert (reads F t0 o0) as R by exact H. destruct H as [Hn [[H1 [H2 H3]] Ht]].
  rewrite parse_loop_S by (destruct t0; [congruence|discriminate]).
  destruct Ht as [Ht1 Ht]. destruct (Ht _ Hr) as [HS _].
  rewrite operator_none; try (apply head_ok_app; auto; fail); auto. cbv iota beta.
  cbn [loop_spec].
  destruct (operator_error _ _ _); auto.
  rewrite (reads_parse F t0 o0 _ R Hr). cbn [bind].
  destruct (lift_pow _ o0); auto. cbn [bind]. destruct (evaluate F _ _); auto. cbn [bind].
  rewrite loop_tail by (auto; lia). reflexivity.
Qed.

(** * Written expressions *)

Definition written_ind' (P : written -> Prop)
  (Hv : forall b e, P (WVar b e)) (Hn : forall q, P (WNum q))
  (Hg : forall x0 l n, P x0 -> Forall (fun p => P (snd p)) l -> P (WGroup x0 l n)) :
  forall x, P x :=
  fix go x := match x with
              | WVar b e => Hv b e
              | WNum q => Hn q
              | WGroup x0 l n =>
                  Hg x0 l n (go x0)
                    ((fix gol l : Forall (fun p => P (snd p)) l :=
                        match l with
                        | [] => Forall_nil _
                        | p :: l' => Forall_cons p (go (snd p)) (gol l')
                        end) l)
              end.

Lemma legal_group F x0 l n : legal F (WGroup x0 l n) <-> n <> 0%Z /\ legal_chain F x0 l.
Proof.
  unfold legal_chain. simpl. split; intros [H1 [H2 H3]]; split; auto; split; auto.
  - induction l as [|p l IH]; constructor; tauto.
  - induction l as [|p l IH]; [exact I|]. inversion H3 as [|? ? H4 H5]; subst. split; [exact H4|exact (IH H5)].
Qed.

Lemma orderly_group x0 l n : orderly (WGroup x0 l n) <-> orderly_chain x0 l.
Proof.
  unfold orderly_chain. simpl. split; intros [H1 [H2 H3]]; split; auto; split; auto; clear H1.
  - induction l as [|p l IH]; constructor; tauto.
  - induction l as [|p l IH]; [exact I|]. inversion H3 as [|? ? H4 H5]; subst. split; [exact H4|exact (IH H5)].
Qed.

Definition operand_of (x : written) : operand :=
  match x with
  | WVar b e => Simple (mkTerm 1 b e)
  | WNum q => Simple (mkTerm q (lit "1") 1)
  | WGroup x0 l n => Group (mkTerm 1 (chain_text x0 l) (Qc_of_Z n))
  end.

Lemma no_bracket_balanced s : forallb (fun c => negb (is_chr "(" c) && negb (is_chr ")" c)) s = true -> balanced s.
Proof.
  intro H. rewrite forallb_forall in H. apply balanced_flat; intro I; apply H in I; discriminate I.
Qed.

Lemma forallb_impl {A} (p q : A -> bool) l :
  (forall x, p x = true -> q x = true) -> forallb p l = true -> forallb q l = true.
Proof. intros H. rewrite !forallb_forall. auto. Qed.

Lemma digits_balanced s : forallb is_digit s = true -> balanced s.
Proof.
  intro H. apply no_bracket_balanced. revert H. apply forallb_impl. intros c. by_char c.
Qed.

Lemma balanced_one c : c <> "("%char -> c <> ")"%char -> balanced [c].
Proof. intros. apply balanced_flat; intros [|[]]; auto. Qed.

Lemma dec_Z_balanced z : balanced (dec_of_Z z).
Proof.
  destruct z; unfold dec_of_Z; try apply digits_balanced, dec_of_N_spec.
  apply (balanced_app [_]); [apply balanced_one; discriminate|apply digits_balanced, dec_of_N_spec].
Qed.

Lemma dec_Qc_balanced q : balanced (dec_of_Qc q).
Proof.
  unfold dec_of_Qc. destruct (Qc_is_int q); [apply dec_Z_balanced|].
  apply balanced_app; [apply dec_Z_balanced|]. apply (balanced_app [_]).
  - apply balanced_one; discriminate.
  - apply digits_balanced, dec_of_N_spec.
Qed.

Lemma sup_balanced e : balanced (sup e).
Proof.
  unfold sup. destruct (Qc_eqb e 1); [apply balanced_flat; auto|].
  apply (balanced_app [_]); [apply balanced_one; discriminate|apply dec_Qc_balanced].
Qed.

Lemma legal_balanced b : legal_base b -> balanced b.
Proof.
  intro L. destruct (legal_split b L) as [l [d [-> [_ [Fl Fd]]]]].
  apply balanced_app; [|now apply digits_balanced].
  apply no_bracket_balanced. revert Fl. apply forallb_impl. intro c. by_char c.
Qed.

Lemma sep_balanced o : balanced (sep o).
Proof. destruct o as [[]|]; apply no_bracket_balanced; reflexivity. Qed.

Lemma concat_balanced ls : Forall balanced ls -> balanced (concat ls).
Proof. induction 1; simpl; [apply balanced_flat; auto|now apply balanced_app]. Qed.

Lemma var_text F b e : legal_base b -> format_term F (mkTerm 1 b e) = b ++ sup e.
Proof.
  intro L. unfold format_term, format_coef, format_expo, sup. cbn [base coef expo].
  rewrite str_eqb_neq by now apply legal_not_one. rewrite Qc_eqb_refl. reflexivity.
Qed.

Lemma num_text F q : fl F q = q -> format_term F (mkTerm q (lit "1") 1) = dec_of_Qc q.
Proof.
  intro Eq. unfold format_term, format_coef. cbn [base coef]. rewrite str_eqb_refl.
  cbn [negb andb]. destruct (Qc_eqb_spec (fl F q) (Qc_of_Z (Qc_trunc q))) as [E|]; auto.
  rewrite Eq in E. rewrite E at 2. now rewrite dec_of_Qc_Z.
Qed.

Lemma reads_nonempty F t o : reads F t o -> t <> [].
Proof. now intros [H _]. Qed.

Lemma text_ok F x : legal F x -> reads F (text x) (operand_of x) /\ balanced (text x).
Proof.
  induction x as [b e|q|x0 l n IH0 IH] using written_ind'; intro H.
  - destruct H as [L [NS [Ne He]]]. cbn [text operand_of]. split.
    + rewrite <- (var_text F) by auto. now apply reads_variable.
    + apply balanced_app; [now apply legal_balanced|apply sup_balanced].
  - destruct H as [Nq [Eq Hq]]. cbn [text operand_of]. split.
    + rewrite <- (num_text F q Eq). now apply reads_constant.
    + apply dec_Qc_balanced.
  - apply legal_group in H as [Nn [H0 Hl]].
    assert (balanced (chain_text x0 l)) as B.
    { apply balanced_app; [now apply IH0|]. apply concat_balanced.
      rewrite Forall_forall in *. intros s I. apply in_map_iff in I as [p [<- I]].
      apply balanced_app; [apply sep_balanced|]. apply IH; auto. now apply Hl. }
    change (text (WGroup x0 l n)) with (lit "(" ++ chain_text x0 l ++ lit ")" ++ sup (Qc_of_Z n)).
    split.
    + apply reads_group; auto. unfold chain_text.
      destruct (text x0) eqn:E; [|discriminate]. exfalso.
      destruct (IH0 H0) as [R _]. now apply reads_nonempty in R.
    + rewrite !app_assoc. apply balanced_app; [|apply sup_balanced].
      rewrite <- !app_assoc. now apply balanced_wrap.
Qed.

(** * Integral powers *)

Definition raise_t (n : Z) (t : term) : term :=
  mkTerm (Qc_zpow (coef t) n) (base t) (expo t * Qc_of_Z n)%Qc.
Definition raise (n : Z) (o : operand) : operand :=
  match o with Simple t => Simple (raise_t n t) | Group t => Group (raise_t n t) end.
Definition term_of (o : operand) : term := match o with Simple t | Group t => t end.
Definition sgn (o : option operator) : Z := match o with Some Divide => (-1)%Z | _ => 1%Z end.

Lemma Qc_of_Z_neq_0 n : n <> 0%Z -> Qc_of_Z n <> 0%Qc.
Proof. intros N E. change 0%Qc with (Qc_of_Z 0) in E. now apply Qc_of_Z_inj in E. Qed.

Lemma Qc_mul_neq_0 a b : a <> 0%Qc -> b <> 0%Qc -> (a * b)%Qc <> 0%Qc.
Proof. intros Ha Hb E. apply Qcmult_integral in E. tauto. Qed.

Lemma wf_raise n t : n <> 0%Z -> wf t -> wf (raise_t n t).
Proof.
  intros Nn [H1 [H2 H3]]. unfold wf, raise_t; simpl.
  auto using Qc_zpow_neq_0, Qc_mul_neq_0, Qc_of_Z_neq_0.
Qed.

Lemma term_pow_int F t n : wf t -> n <> 0%Z -> term_pow F t (Qc_of_Z n) = Ok (raise_t n t).
Proof.
  intros W Nn. destruct (wf_raise n t Nn W) as [H1 [H2 H3]]. destruct W as [W1 _].
  unfold term_pow, frac_pow. rewrite Qc_is_int_of_Z, Qc_num_of_Z, (Qc_eqb_neq (coef t) 0) by auto.
  simpl. rewrite init_id; auto.
Qed.

Lemma raise_lift F o n :
  wf (term_of o) -> n <> 0%Z ->
  lift_pow (fun t => term_pow F t (Qc_of_Z n)) o = Ok (raise n o).
Proof. intros W Nn. destruct o as [t|t]; simpl in *; now rewrite term_pow_int. Qed.

Lemma raise_t_raise m n t : raise_t n (raise_t m t) = raise_t (m * n) t.
Proof.
  unfold raise_t; simpl. rewrite Qc_zpow_pow, Qc_of_Z_mul. f_equal. ring.
Qed.

Lemma raise_1 t : raise_t 1 t = t.
Proof.
  destruct t as [c b e]. unfold raise_t; simpl. rewrite Qc_zpow_1_r. f_equal.
  change (Qc_of_Z 1) with 1%Qc. ring.
Qed.

Lemma raise_step F o n op :
  wf (term_of o) -> n <> 0%Z -> plain_op op ->
  (do o1 <- lift_pow (fun t => term_pow F t (Qc_of_Z n)) o; evaluate F op o1) = Ok (raise (n * sgn op) o).
Proof.
  intros W Nn Hp. rewrite raise_lift by auto. cbn [bind].
  assert (forall o, raise 1 o = o) as R1 by (intros []; simpl; now rewrite raise_1).
  assert (forall o m, raise n (raise m o) = raise (m * n) o) as _ by (intros [] m; simpl; now rewrite raise_t_raise).
  destruct op as [[]|]; cbn [evaluate sgn]; try (rewrite Z.mul_1_r; reflexivity).
  - change (- (1))%Qc with (Qc_of_Z (-1)). rewrite raise_lift by
      (try discriminate; destruct o; simpl in *; now apply wf_raise).
    destruct o; simpl; now rewrite raise_t_raise.
  - now destruct Hp.
Qed.

(** * The loop on a written chain *)

Definition toks (l : list (option operator * written)) : list tok :=
  map (fun p => (fst p, (text (snd p), operand_of (snd p)))) l.

Lemma tail_toks l : tail_text (toks l) = concat (map (fun p => sep (fst p) ++ text (snd p)) l).
Proof. unfold tail_text, toks. rewrite map_map. reflexivity. Qed.

Lemma wf_operand F x : legal F x -> wf (term_of (operand_of x)).
Proof.
  destruct x as [b e|q|x0 l n]; intro H; unfold wf.
  - destruct H as [L [_ [Ne _]]]. simpl. split; [discriminate|auto using legal_nonempty].
  - destruct H as [Nq _]. simpl. split; [auto|]. split; discriminate.
  - apply legal_group in H as [Nn [H0 _]]. simpl. split; [discriminate|]. split.
    + now apply Qc_of_Z_neq_0.
    + unfold chain_text. apply text_ok in H0 as [R _]. apply reads_nonempty in R.
      destruct (text x0); [congruence|discriminate].
Qed.

Definition raised (n : Z) (p : option operator * written) : operand :=
  raise (n * sgn (fst p)) (operand_of (snd p)).

Lemma loop_spec_written F strict n l : n <> 0%Z ->
  Forall (fun p => plain_op (fst p) /\ legal F (snd p)) l ->
  forall prev,
  loop_spec F strict (Qc_of_Z n) prev (toks l)
  = match (if strict then violation prev (map fst l) else None) with
    | Some e => Err e
    | None => Ok (map (raised n) l)
    end.
Proof.
  intro Nn. induction 1 as [|[op x] l [Hp Hx] _ IH]; intro prev.
  - destruct strict; reflexivity.
  - cbn [fst snd] in *. cbn [toks map loop_spec fst snd]. fold (toks l).
    assert (W := wf_operand F x Hx). assert (R := raise_step F (operand_of x) n op W Nn Hp).
    assert (forall K : operand -> res (list operand),
      (do o1 <- lift_pow (fun t => term_pow F t (Qc_of_Z n)) (operand_of x);
       do o2 <- evaluate F op o1; K o2) = K (raise (n * sgn op) (operand_of x))) as R'.
    { intro K. destruct (lift_pow _ _); [|discriminate R]. cbn [bind] in *. now rewrite R. }
    rewrite (R' (fun o2 => do more <- loop_spec F strict (Qc_of_Z n) op (toks l); Ok (o2 :: more))).
    rewrite (IH op). unfold operator_error. destruct strict; [|reflexivity].
    cbn [violation]. destruct prev as [[]|], op as [[]|]; auto;
      destruct (violation _ _); reflexivity.
Qed.

Lemma chain_length F l :
  Forall (fun p => plain_op (fst p) /\ legal F (snd p)) l ->
  length l <= length (tail_text (toks l)).
Proof.
  rewrite tail_toks. induction 1 as [|p l _ _ IH]; simpl; auto.
  rewrite !app_length. destruct (sep_head (fst p)) as [s ->]. simpl. lia.
Qed.

Lemma loop_written F strict n x0 l :
  n <> 0%Z -> legal_chain F x0 l ->
  parse_loop F strict (Qc_of_Z n) (S (length (chain_text x0 l))) (chain_text x0 l) None
  = match (if strict then violation None (map fst l) else None) with
    | Some e => Err e
    | None => Ok (map (raised n) ((None, x0) :: l))
    end.
Proof.
  intros Nn [H0 Hl]. unfold chain_text. rewrite <- tail_toks.
  destruct (text_ok F x0 H0) as [R _].
  rewrite (loop_chain F strict _ _ (operand_of x0)); auto.
  - change ((None, (text x0, operand_of x0)) :: toks l) with (toks ((None, x0) :: l)).
    rewrite loop_spec_written; auto.
    constructor; auto. simpl. split; [discriminate|auto].
  - unfold toks. apply Forall_forall. intros p I. apply in_map_iff in I as [q [<- I]].
    rewrite Forall_forall in Hl. apply Hl in I as [Hp Hq]. split; auto. now apply text_ok.
  - assert (L := chain_length F l Hl). unfold toks at 1. rewrite map_length, app_length.
    apply reads_nonempty in R. destruct (text x0); [congruence|]. simpl. lia.
Qed.

(** * Algebra of powers *)

Lemma power_map n ts : power n ts = map (raise_t n) ts.
Proof. reflexivity. Qed.

Lemma power_app n a b : power n (a ++ b) = power n a ++ power n b.
Proof. apply map_app. Qed.

Lemma power_mul m n ts : power n (power m ts) = power (m * n) ts.
Proof. rewrite !power_map, map_map. apply map_ext. intro. apply raise_t_raise. Qed.

Lemma power_1 ts : power 1 ts = ts.
Proof. rewrite power_map. rewrite (map_ext _ (fun t => t)); [apply map_id|apply raise_1]. Qed.

Lemma inverse_power ts : inverse ts = power (-1) ts.
Proof.
  apply map_ext. intro t. rewrite Qc_zpow_m1. f_equal.
  change (Qc_of_Z (-1)) with (- (1))%Qc. ring.
Qed.

Lemma apply_op_power o ts : apply_op o ts = power (sgn o) ts.
Proof. destruct o as [[]|]; simpl; rewrite ?power_1; auto using inverse_power. Qed.

(** * Resolution *)

Definition outcome (strict : bool) (ord : Prop) (den : list term) (r : res (list term)) : Prop :=
  (exists ts, r = Ok ts /\ Forall wf ts /\ same_monomial ts den /\ (strict = true -> ord))
  \/ (strict = true /\ ~ ord /\ exists e, (e = RatioError \/ e = ProductError) /\ r = Err e).

Definition pick F strict fuel (o : operand) : res (list term) :=
  match o with Simple t => Ok [t] | Group g => resolve F strict fuel g end.

Definition resolves (F : flops) (strict : bool) (x : written) : Prop :=
  legal F x -> forall n fuel, n <> 0%Z -> length (text x) <= fuel ->
  outcome strict (orderly x) (power n (denote x)) (pick F strict fuel (raise n (operand_of x))).

Lemma violation_kind prev l e : violation prev l = Some e -> e = RatioError \/ e = ProductError.
Proof.
  revert prev; induction l as [|o l IH]; intros prev H; [discriminate|].
  cbn [violation] in H.
  destruct prev as [[]|], o as [[]|]; try (now apply IH in H); injection H as <-; auto.
Qed.

Lemma same_neutral ts us : same_monomial ts us -> same_monomial (ts ++ [mkTerm 1 (lit "1") 1]) us.
Proof.
  intros [H1 H2]. split.
  - rewrite total_coef_app, H1. unfold total_coef; simpl. ring.
  - intros b Hb. rewrite total_expo_app, H2, total_expo_cons by auto.
    simpl base. rewrite str_eqb_neq by auto. rewrite total_expo_nil. ring.
Qed.

Lemma mapM_pick F strict n fuel (l : list (option operator * written)) :
  n <> 0%Z ->
  Forall (fun p => resolves F strict (snd p)) l ->
  Forall (fun p => plain_op (fst p) /\ legal F (snd p)) l ->
  Forall (fun p => length (text (snd p)) <= fuel) l ->
  outcome strict (Forall (fun p => orderly (snd p)) l)
    (power n (concat (map (fun p => apply_op (fst p) (denote (snd p))) l)))
    (do tss <- mapM (pick F strict fuel) (map (raised n) l); Ok (concat tss)).
Proof.
  intros Nn HR HL HF. induction l as [|[o x] l IH].
  - left. exists []. split; [reflexivity|]. split; [constructor|].
    split; [apply same_monomial_refl|constructor].
  - inversion HR as [|? ? R1 R2]; subst. inversion HL as [|? ? [L0 L1] L2]; subst.
    inversion HF as [|? ? F1 F2]; subst. cbn [fst snd] in *.
    specialize (IH R2 L2 F2). cbn [map mapM concat fst snd].
    assert (n * sgn o <> 0)%Z as Ns by (destruct o as [[]|]; simpl; lia).
    specialize (R1 L1 (n * sgn o)%Z fuel Ns F1). unfold raised at 1. cbn [fst snd].
    destruct R1 as [[ts [E [W [S O]]]]|[Hs [NO [e [He E]]]]]; rewrite E; cbn [bind].
    + destruct IH as [[us [E' [W' [S' O']]]]|[Hs [NO [e [He E']]]]].
      * destruct (mapM _ _) as [tss|]; [|discriminate E']. cbn [bind] in *. injection E' as <-.
        left. exists (ts ++ concat tss). split; [reflexivity|]. split; [now apply Forall_app|].
        split; [|intro; constructor; auto].
        rewrite power_app. apply same_monomial_app; auto.
        rewrite apply_op_power, power_mul. now rewrite Z.mul_comm.
      * right. split; auto. split; [intro H; inversion H; auto|]. exists e. split; auto.
        destruct (mapM _ _) as [tss|e']; [discriminate E'|]. cbn [bind] in *. congruence.
    + right. split; auto. split; [intro H; inversion H; auto|]. exists e. auto.
Qed.

Lemma resolve_S F strict f cur :
  resolve F strict (S f) cur =
  do ops <- parse_loop F strict (expo cur) (S (length (base cur))) (base cur) None;
  do tss <- mapM (pick F strict f) ops;
  Ok (concat tss ++ [init (coef cur) [] 1]).
Proof. reflexivity. Qed.

Lemma tail_lengths l fuel :
  length (concat (map (fun p : option operator * written => sep (fst p) ++ text (snd p)) l)) <= fuel ->
  Forall (fun p => length (text (snd p)) <= fuel) l.
Proof.
  induction l as [|p l IH]; intro H; constructor; cbn [map concat] in H; rewrite !app_length in H.
  - lia.
  - apply IH. lia.
Qed.

Lemma resolve_chain F strict x0 l :
  resolves F strict x0 -> Forall (fun p => resolves F strict (snd p)) l ->
  legal_chain F x0 l -> forall n fuel, n <> 0%Z -> length (chain_text x0 l) <= fuel ->
  outcome strict (orderly_chain x0 l) (power n (chain_denote x0 l))
    (resolve F strict (S fuel) (mkTerm 1 (chain_text x0 l) (Qc_of_Z n))).
Proof.
  intros R0 R [L0 L] n fuel Nn Hf. rewrite resolve_S. cbn [expo base coef].
  rewrite loop_written by (auto; split; auto).
  assert (outcome strict (Forall (fun p => orderly (snd p)) ((None, x0) :: l))
    (power n (concat (map (fun p => apply_op (fst p) (denote (snd p))) ((None, x0) :: l))))
    (do tss <- mapM (pick F strict fuel) (map (raised n) ((None, x0) :: l)); Ok (concat tss))) as O.
  { unfold chain_text in Hf. rewrite app_length in Hf. apply mapM_pick; auto.
    - constructor; auto. split; [discriminate|auto].
    - constructor; [simpl; lia|]. apply tail_lengths. lia. }
  set (v := if strict then violation None (map fst l) else None).
  destruct v as [e|] eqn:V; cbn [bind].
  - right. unfold v in V. destruct strict; [|discriminate]. split; auto.
    split; [intros [H _]; congruence|]. exists e. eauto using violation_kind.
  - destruct O as [[ts [E [W [S O]]]]|[Hs [NO [e [He E]]]]].
    + destruct (mapM _ _) as [tss|]; [|discriminate E]. cbn [bind] in *. injection E as E.
      left. exists (concat tss ++ [init 1 [] 1]). split; [reflexivity|]. split; [|split].
      * apply Forall_app. split; [now rewrite E|]. constructor; auto using wf_init.
      * change (init 1 [] 1) with (mkTerm 1 (lit "1") 1). rewrite E. apply same_neutral.
        exact S.
      * intro Hs. specialize (O Hs). inversion O; subst. repeat split; auto.
    + right. split; auto. split.
      * intros [_ [H1 H2]]. apply NO. constructor; auto.
      * exists e. split; auto. destruct (mapM _ _) as [tss|e']; [discriminate E|].
        cbn [bind] in *. congruence.
Qed.

Lemma resolves_all F strict x : resolves F strict x.
Proof.
  induction x as [b e|q|x0 l n IH0 IH] using written_ind'; intros L m fuel Nm Hf.
  - left. exists [raise_t m (mkTerm 1 b e)]. split; [reflexivity|].
    split; [constructor; auto; apply wf_raise; auto; exact (wf_operand F (WVar b e) L)|].
    split; [apply same_monomial_refl|]. simpl; auto.
  - left. exists [raise_t m (mkTerm q (lit "1") 1)]. split; [reflexivity|].
    split; [constructor; auto; apply wf_raise; auto; exact (wf_operand F (WNum q) L)|].
    split; [apply same_monomial_refl|]. simpl; auto.
  - apply legal_group in L as [Nn L].
    assert (pick F strict fuel (raise m (operand_of (WGroup x0 l n)))
            = resolve F strict fuel (mkTerm 1 (chain_text x0 l) (Qc_of_Z (n * m)))) as ->.
    { cbn [operand_of raise pick]. unfold raise_t. cbn [coef base expo].
      now rewrite Qc_zpow_1_l, Qc_of_Z_mul. }
    change (text (WGroup x0 l n)) with (lit "(" ++ chain_text x0 l ++ lit ")" ++ sup (Qc_of_Z n)) in Hf.
    rewrite !app_length in Hf. simpl in Hf. destruct fuel as [|fuel]; [lia|].
    assert (n * m <> 0)%Z as Nnm by lia.
    assert (H := resolve_chain F strict x0 l IH0 IH L (n * m)%Z fuel Nnm ltac:(lia)).
    change (denote (WGroup x0 l n)) with (power n (chain_denote x0 l)). rewrite power_mul.
    destruct H as [[ts [E [W [S O]]]]|[Hs [NO E]]].
    + left. exists ts. split; [auto|]. split; [auto|]. split; [auto|].
      intro Hs. apply orderly_group. auto.
    + right. split; auto. split; auto. intro H. apply NO, (orderly_group x0 l n), H.
Qed.

Theorem parse_written F strict x0 l :
  legal_chain F x0 l ->
  outcome strict (orderly_chain x0 l) (chain_denote x0 l) (parse F strict (chain_text x0 l)).
Proof.
  intro L. unfold parse. rewrite <- (power_1 (chain_denote x0 l)).
  assert (chain_text x0 l <> []) as Nt.
  { destruct L as [L _]. apply text_ok in L as [R _]. apply reads_nonempty in R. unfold chain_text.
    destruct (text x0); [congruence|discriminate]. }
  rewrite init_id by (auto; discriminate). cbn [base]. change 1%Qc with (Qc_of_Z 1) at 2.
  apply resolve_chain; auto.
  - apply resolves_all.
  - apply Forall_forall. intros. apply resolves_all.
Qed.
