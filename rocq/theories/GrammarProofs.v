(** Proofs about expressions as users write them. *)

From Coq Require Import String Ascii List Bool ZArith NArith QArith Qcanon Lia.
From Verif Require Import Py PyFacts SymbolicModel SymbolicSpec SymbolicReduceProofs SymbolicRx.
From Verif Require Import SymbolicParseProofs SymbolicChainProofs SymbolicExprProofs DecimalSpec DecimalProofs GrammarSpec.
Import ListNotations.
Open Scope list_scope.
Open Scope nat_scope.
Open Scope py_scope.

(** * Joints *)

Lemma blanks_space n : forallb is_space (blanks n) = true.
Proof. induction n; cbn; auto. Qed.

Lemma star_blanks n v x u :
  In (x, u) (rx_star is_space (blanks n ++ v)) -> head_ok is_space v -> exists k, u = blanks k ++ v.
Proof.
  revert x u; induction n as [|n IH]; intros x u I Hv.
  - cbn [blanks repeat app] in I. rewrite star_none in I by auto. destruct I as [I|[]]. injection I as _ <-. now exists 0.
  - cbn [blanks repeat app rx_star] in I. change (is_space " ") with true in I. cbv iota in I.
    apply in_app_or in I as [I|[I|[]]].
    + apply in_map_iff in I as [[y w] [E I]]. injection E as _ <-. eauto.
    + injection I as _ <-. now exists (S n).
Qed.

Lemma first_blanks n v : head_ok is_space v -> first (rx_star is_space) (blanks n ++ v) (blanks n) v.
Proof. intro H. apply first_star; auto using blanks_space. Qed.

Lemma blanks_head n v (p : ascii -> bool) : p " "%char = false -> head_ok p v -> head_ok p (blanks n ++ v).
Proof. intros Hs H. destruct n; cbn; auto. Qed.

Lemma any_parts F t o r : reads_any F t o -> okafter r ->
  head_ok is_space (t ++ r) /\ head_ok (is_chr "*") (t ++ r) /\ head_ok (is_chr "/") (t ++ r)
  /\ ~ starts_with (lit "sqrt") (t ++ r).
Proof.
  intros [Hn [[H1 [H2 H3]] [_ H]]] Hr. destruct (H r Hr) as [HS _].
  split; [|split; [|split]]; auto using head_ok_app.
Qed.

Lemma op_times F t o r i j :
  reads_any F t o -> okafter r -> operator_parse (joint_text (Times i j) ++ t ++ r) = Some (Multiply, t ++ r).
Proof.
  intros R Hr. destruct (any_parts F t o r R Hr) as [H1 [H2 [H3 _]]].
  unfold operator_parse. cbn [joint_text]. rewrite <- !app_assoc.
  rewrite (first_run rx_multiply _ tt (t ++ r)); auto.
  eapply first_bind; [apply first_blanks; reflexivity|].
  eapply first_bind; [apply first_cls; reflexivity|].
  eapply first_bind; [apply first_blanks; exact H1|].
  apply first_look. unfold not_starting. destruct (t ++ r) as [|c s]; auto. cbn [head_ok] in *. now rewrite ?H2, ?H3.
Qed.

Lemma op_over F t o r i j :
  reads_any F t o -> okafter r -> operator_parse (joint_text (Over i j) ++ t ++ r) = Some (Divide, t ++ r).
Proof.
  intros R Hr. destruct (any_parts F t o r R Hr) as [H1 [H2 [H3 _]]].
  unfold operator_parse. cbn [joint_text]. rewrite <- !app_assoc.
  rewrite (none_run rx_multiply).
  2: { unfold rx_multiply. apply none_bind. intros x u I. apply star_blanks in I as [k ->]; [|reflexivity].
       apply none_bind', none_cls. apply blanks_head; reflexivity. }
  rewrite (first_run rx_divide _ tt (t ++ r)); auto.
  eapply first_bind; [apply first_blanks; reflexivity|].
  eapply first_bind; [apply first_cls; reflexivity|].
  eapply first_bind; [apply first_blanks; exact H1|].
  apply first_look. unfold not_starting. destruct (t ++ r) as [|c s]; auto. cbn [head_ok] in *. now rewrite ?H2, ?H3.
Qed.

Lemma op_none F t o r n :
  reads_any F t o -> okafter r -> operator_parse (blanks n ++ t ++ r) = None.
Proof.
  intros R Hr. destruct (any_parts F t o r R Hr) as [H1 [H2 [H3 H4]]]. unfold operator_parse.
  rewrite (none_run rx_multiply), (none_run rx_divide), (none_run rx_sqrt); auto.
  - apply none_bind. intros x u I. apply star_blanks in I as [k ->]; auto. apply none_bind', rx_text_none.
    destruct k; auto. intros [w E]. discriminate E.
  - apply none_bind. intros x u I. apply star_blanks in I as [k ->]; auto. apply none_bind', none_cls.
    apply blanks_head; auto.
  - apply none_bind. intros x u I. apply star_blanks in I as [k ->]; auto. apply none_bind', none_cls.
    apply blanks_head; auto.
Qed.

Lemma strip_blanks n s : strip (blanks n ++ s) = strip s.
Proof. induction n; auto. Qed.

Lemma any_parse F t o r n :
  reads_any F t o -> okafter r -> operand_parse F (blanks n ++ t ++ r) = Ok (Some (o, r)).
Proof.
  intros R Hr. destruct (any_parts F t o r R Hr) as [H1 _]. destruct R as [Hn [_ [Ht H]]].
  unfold operand_parse. rewrite strip_blanks, strip_id; auto.
  - now apply H.
  - apply head_ok_rev_app; auto. apply Hr.
Qed.

(** * Token lists *)

Definition gtok : Type := link * (str * operand).
Definition gtail (l : list gtok) : str := concat (map (fun p => link_text (fst p) ++ fst (snd p)) l).
Definition follows (j : joint) (t : str) : Prop :=
  match j with
  | Glued => exists s, t = "("%char :: s
  | Over O O => head_ok is_digit t
  | _ => True
  end.
Definition link_follows (k : link) (t : str) : Prop :=
  match k with Join j => follows j t | Rooted _ _ => True end.
Definition gtok_ok (F : flops) (p : gtok) : Prop :=
  link_follows (fst p) (fst (snd p)) /\ reads_any F (fst (snd p)) (snd (snd p)).

Lemma joint_calm F j t o r : reads_any F t o -> follows j t -> calm (joint_text j ++ t ++ r).
Proof.
  intros [Hn _] H.
  assert (forall v, calm (" "%char :: v)) as B by (intro; left; repeat split).
  destruct j as [n|[|i] j|[|i] j|]; cbn [joint_text blanks repeat app] in *; auto.
  - left. repeat split.
  - right. eexists. split; [reflexivity|]. destruct j as [|j]; cbn [repeat app]; [|reflexivity].
    destruct t as [|c t]; [congruence|exact H].
  - destruct H as [s ->]. left. repeat split.
Qed.

Lemma link_calm F k t o r : reads_any F t o -> link_follows k t -> calm (link_text k ++ t ++ r).
Proof.
  destruct k as [j|i j]; cbn [link_text link_follows]; [apply joint_calm|]. intros _ _. left. repeat split.
Qed.

Lemma op_root i j w : head_ok is_space w -> operator_parse (root_text i j ++ w) = Some (Sqrt, w).
Proof.
  intro H. unfold operator_parse, root_text. rewrite <- !app_assoc.
  rewrite (none_run rx_multiply), (none_run rx_divide).
  - rewrite (first_run rx_sqrt _ tt w); auto.
    eapply first_bind; [apply first_blanks; reflexivity|].
    eapply first_bind with (a := tt) (t := blanks j ++ w).
    { unfold lit. cbn [list_ascii_of_string rx_text].
      do 4 (eapply first_bind; [apply first_cls; reflexivity|]). apply first_ret. }
    eapply first_bind; [now apply first_blanks|apply first_ret].
  - apply none_bind. intros x u I. apply star_blanks in I as [n ->]; [|reflexivity]. apply none_bind', none_cls.
    apply blanks_head; reflexivity.
  - apply none_bind. intros x u I. apply star_blanks in I as [n ->]; [|reflexivity]. apply none_bind', none_cls.
    apply blanks_head; reflexivity.
Qed.

Lemma gtail_after F l : Forall (gtok_ok F) l -> okafter (gtail l).
Proof.
  induction 1 as [|p l [Hf H] _ IH]; [split; [left; exact I|exact I]|].
  unfold gtail. cbn [map concat]. fold (gtail l). rewrite <- app_assoc. split.
  - eapply link_calm; eauto.
  - destruct H as [Hn [_ [Ht _]]]. rewrite app_assoc. apply head_ok_rev_app.
    + intro E. apply app_eq_nil in E as [_ E]. congruence.
    + apply rev_app_head; auto.
    + apply IH.
Qed.

Definition spec_of (l : list gtok) : list tok := map (fun p => (link_op (fst p), snd p)) l.

Lemma gloop F strict e l : Forall (gtok_ok F) l ->
  forall fuel prev, length l < fuel ->
  parse_loop F strict e fuel (gtail l) prev = loop_spec F strict e prev (spec_of l).
Proof.
  induction 1 as [|[j [t o]] l [Hf H] Hl IH]; intros fuel prev Hn.
  - destruct fuel; [lia|reflexivity].
  - destruct fuel as [|fuel]; [cbn in Hn; lia|]. cbn [fst snd length] in *.
    assert (okafter (gtail l)) as Hr by (eapply gtail_after; eauto).
    match goal with |- context [gtail ?y] =>
      replace (gtail y) with (link_text j ++ t ++ gtail l)
        by (unfold gtail; cbn [map concat fst snd]; now rewrite <- app_assoc) end.
    assert (link_text j ++ t ++ gtail l <> []) as Ne.
    { destruct H as [Nt _]. intro E. apply app_eq_nil in E as [_ E]. apply app_eq_nil in E as [E _]. congruence. }
    rewrite parse_loop_S by exact Ne.
    cbn [spec_of map loop_spec fst snd]. fold (spec_of l).
    assert (exists n, (match operator_parse (link_text j ++ t ++ gtail l) with
                       | Some (o, r) => (Some o, r) | None => (None, link_text j ++ t ++ gtail l) end)
                      = (link_op j, blanks n ++ t ++ gtail l)) as [n ->].
    { destruct j as [[n|i k|i k|]|i k]; cbn [link_op joint_op link_text].
      - exists (S n). cbn [joint_text]. now rewrite (op_none F t o).
      - exists 0. now rewrite (op_times F t o).
      - exists 0. now rewrite (op_over F t o).
      - exists 0. cbn [joint_text]. change (@nil ascii) with (blanks 0). now rewrite (op_none F t o).
      - exists 0. rewrite op_root; auto. now apply (any_parts F t o (gtail l)). }
    destruct (operator_error _ _ _); auto.
    rewrite (any_parse F t o _ n H Hr). cbn [bind].
    destruct (lift_pow _ o); auto. cbn [bind]. destruct (evaluate F _ _); auto. cbn [bind].
    rewrite IH by lia. reflexivity.
Qed.

(** * Phrases *)

Definition phrase_ind' (P : phrase -> Prop)
  (Hf : forall x, P (Simply x))
  (Hb : forall i k x0 l p, P x0 -> Forall (fun q => P (snd q)) l -> P (Bracket i k x0 l p)) :
  forall x, P x :=
  fix go x := match x with
              | Simply x => Hf x
              | Bracket i k x0 l p =>
                  Hb i k x0 l p (go x0)
                    ((fix gol l : Forall (fun q => P (snd q)) l :=
                        match l with
                        | [] => Forall_nil _
                        | q :: l' => Forall_cons q (go (snd q)) (gol l')
                        end) l)
              end.

Lemma proper_bracket F i k x0 l p : proper F (Bracket i k x0 l p) <-> whole p /\ proper_chain F x0 l.
Proof.
  unfold proper_chain. cbn [proper]. split; intros [H1 [H2 H3]]; split; auto; split; auto.
  - induction l as [|q l IH]; constructor; tauto.
  - induction l as [|q l IH]; [exact I|]. inversion H3 as [|? ? H4 H5]; subst. split; [exact H4|exact (IH H5)].
Qed.

Lemma spelled_bracket F i k x0 l p : spelled F (Bracket i k x0 l p) <-> sound p /\ spelled_chain F x0 l.
Proof.
  unfold spelled_chain. cbn [spelled]. split; intros [H1 [H2 H3]]; split; auto; split; auto.
  - induction l as [|q l IH]; constructor; tauto.
  - induction l as [|q l IH]; [exact I|]. inversion H3 as [|? ? H4 H5]; subst. split; [exact H4|exact (IH H5)].
Qed.

Lemma bare_bracket i k x0 l p : bare (Bracket i k x0 l p) <-> bare_chain x0 l.
Proof.
  unfold bare_chain. cbn [bare]. split; intros [H2 H3]; split; auto.
  - induction l as [|q l IH]; constructor; tauto.
  - induction l as [|q l IH]; [exact I|]. inversion H3 as [|? ? H4 H5]; subst. split; [exact H4|exact (IH H5)].
Qed.

Lemma whole_sound p : whole p -> sound p /\ value_of p = Qc_of_Z (exponent_of p) /\ exponent_of p <> 0%Z.
Proof.
  intros [H [z E]]. unfold exponent_of. rewrite E, Qc_num_of_Z. split; [exact H|]. split; [reflexivity|].
  intros ->. destruct H as [N1 _]. apply N1. rewrite E. reflexivity.
Qed.

Lemma proper_spelled F x : proper F x -> spelled F x.
Proof.
  induction x as [x|i k x0 l p IH0 IH] using phrase_ind'; intro H; [exact H|].
  apply proper_bracket in H as [Hp [H0 Hl]]. apply spelled_bracket. split; [now apply whole_sound|]. split; auto.
  rewrite Forall_forall in *. intros q I. destruct (Hl q I). auto.
Qed.

Lemma proper_spelled_chain F x0 l : proper_chain F x0 l -> spelled_chain F x0 l.
Proof.
  intros [H0 Hl]. split; [now apply proper_spelled|]. eapply Forall_impl; [|exact Hl].
  intros p [H1 H2]. split; auto. now apply proper_spelled.
Qed.

Lemma order_bracket i k x0 l p : in_order (Bracket i k x0 l p) <-> chain_in_order x0 l.
Proof.
  unfold chain_in_order. cbn [in_order]. split; intros [H1 [H2 H3]]; split; auto; split; auto; clear H1.
  - induction l as [|q l IH]; constructor; tauto.
  - induction l as [|q l IH]; [exact I|]. inversion H3 as [|? ? H4 H5]; subst. split; [exact H4|exact (IH H5)].
Qed.

Definition phrase_operand (F : flops) (x : phrase) : operand :=
  match x with
  | Simply x => Simple (simple_term F x)
  | Bracket i k x0 l p => Group (mkTerm 1 (phrases_text i k x0 l) (value_of p))
  end.

(** * Coefficients and exponents *)

Definition rat_frac (f : fraction) : rat := mkRat (f_sign f) (f_over f) (RDen [f_under f]).
Definition arat (a : amount) : option rat :=
  match a with Unwritten => None | Decimal n => Some (rat_of n) | Fraction f => Some (rat_frac f) end.

Lemma fraction_app f v : fraction_text f ++ v = opt_text (f_sign f) ++ f_over f ++ "/"%char :: f_under f :: v.
Proof. unfold fraction_text. now rewrite <- !app_assoc. Qed.

Lemma fraction_first f v : legal_fraction f -> first rx_rational (fraction_text f ++ v) (rat_frac f) v.
Proof.
  intros [Hs [No [Ho [Hu _]]]]. rewrite fraction_app. apply digits_all in Ho.
  assert (is_digit (f_under f) = true) as Du by now apply digit_digit.
  unfold rx_rational. eapply first_bind with (a := f_sign f).
  { destruct (f_sign f) as [k|] eqn:E; cbn [opt_text app].
    - apply first_opt, first_cls. now apply (sign_chr (Some k)).
    - apply first_opt_none, none_cls. apply digit_head; auto using digit_not_sign. }
  eapply first_bind; [apply first_look|].
  { destruct (f_over f) as [|c w]; [congruence|]. cbn in *. apply andb_true_iff in Ho as [-> _]. reflexivity. }
  eapply first_bind; [apply first_star; [exact Ho|reflexivity]|].
  eapply first_bind; [|apply first_ret]. apply first_alt_l.
  eapply first_bind; [apply first_cls; reflexivity|].
  eapply first_bind; [now apply first_plus_lazy|apply first_ret].
Qed.

Lemma fraction_rat f : legal_fraction f -> rat_value (rat_frac f) = Ok (fraction_value f).
Proof.
  intros [Hs [No [Ho [Hu Nu]]]]. unfold rat_value, rat_frac. cbn [r_tail r_num r_sign].
  assert (Forall digit [f_under f]) as Fu by auto.
  rewrite number_val in Nu by auto. destruct (N.eqb_spec (digits_val [f_under f]) 0) as [E|_]; [rewrite E in Nu; now destruct Nu|].
  f_equal. unfold fraction_value. rewrite !number_val by auto. rewrite <- (minus_sign (f_sign f) Hs).
  assert (forall q, (if is_minus (f_sign f) then (- q)%Qc else q)
          = (Qc_of_Z (if is_minus (f_sign f) then -1 else 1) * q)%Qc) as ->.
  { intro q. destruct (is_minus (f_sign f)).
    - change (Qc_of_Z (-1)) with (- (1))%Qc. ring.
    - change (Qc_of_Z 1) with 1%Qc. ring. }
  apply Qc_is_canon. unfold Qcdiv, Qcinv, Qcmult, Qc_of_N, Qc_of_Z. cbn [this Q2Qc]. rewrite !Qred_correct.
  rewrite inject_Z_mult. unfold Qdiv. ring.
Qed.

Lemma arat_std a : sound a -> std (arat a) = Ok (value_of a).
Proof. intros [_ H]. destruct a; cbn [arat std]; [reflexivity|now apply numeral_rat|now apply fraction_rat]. Qed.

Lemma amount_first a r : sound a -> (forall n, a = Decimal n -> after n r) -> a <> Unwritten ->
  exists x, arat a = Some x /\ first rx_rational (amount_text a ++ r) x r.
Proof.
  intros [_ H] A N1. destruct a as [|n|f]; [congruence| |].
  - exists (rat_of n). split; [reflexivity|]. apply numeral_first; auto.
  - exists (rat_frac f). split; [reflexivity|]. now apply fraction_first.
Qed.

Lemma exponent_first p r : sound p -> calm r -> first (rx_opt rx_exponent) (exponent_text p ++ r) (arat p) r.
Proof.
  intros H Hr. destruct p as [|n|f].
  - apply first_opt_none. now apply calm_exponent.
  - destruct (amount_first (Decimal n) r H) as [x [-> X]]; [intros; now apply stops_after|discriminate|].
    cbn [exponent_text app]. apply first_opt. eapply first_bind; [apply first_cls; reflexivity|exact X].
  - destruct (amount_first (Fraction f) r H) as [x [-> X]]; [discriminate|discriminate|].
    cbn [exponent_text app]. apply first_opt. eapply first_bind; [apply first_cls; reflexivity|exact X].
Qed.

Definition amount_chr (c : ascii) : Prop := numeral_chr c \/ c = "/"%char.
Lemma amount_chrs a : sound a -> a <> Unwritten ->
  Forall amount_chr (amount_text a) /\ exists c s, amount_text a = c :: s /\ numeral_chr c.
Proof.
  intros [_ H] N1. destruct a as [|n|f]; [congruence| |].
  - destruct (numeral_chrs n H) as [C _]. destruct (numeral_ends n H) as [E _]. split; [|exact E].
    eapply Forall_impl; [|exact C]. unfold amount_chr. auto.
  - destruct H as [Hs [No [Ho [Hu _]]]].
    assert (forall d, Forall digit d -> Forall numeral_chr d) as D.
    { intros d H. eapply Forall_impl; [|exact H]. intros c Hc. right; left. now apply digit_digit. }
    assert (Forall numeral_chr (opt_text (f_sign f))) as S by (destruct Hs as [->|[->| ->]]; repeat constructor).
    assert (forall l, Forall numeral_chr l -> Forall amount_chr l) as W.
    { intros l H. eapply Forall_impl; [|exact H]. unfold amount_chr. auto. }
    cbn [amount_text]. unfold fraction_text. split.
    + apply Forall_app. split; auto. apply Forall_app. split; auto. apply Forall_app. split; auto.
      constructor; [right; reflexivity|constructor].
    + destruct (f_sign f) as [k|]; cbn [opt_text app].
      * inversion S; subst. eauto.
      * apply D in Ho. destruct (f_over f) as [|c w]; [congruence|]. inversion Ho; subst. cbn. eauto.
Qed.

Lemma amount_chr_facts c : amount_chr c -> is_space c = false /\ c <> "("%char /\ c <> ")"%char.
Proof.
  intros [H| ->]; [|repeat split; discriminate]. unfold numeral_chr in H.
  destruct c as [[] [] [] [] [] [] [] []]; vm_compute in H; repeat split; try reflexivity; intuition discriminate.
Qed.

Lemma amount_last a : sound a -> a <> Unwritten -> head_ok is_space (rev (amount_text a)).
Proof.
  intros H N1. destruct (amount_chrs a H N1) as [C _]. apply Forall_rev in C.
  destruct (rev (amount_text a)); cbn; auto. inversion C; subst. now apply amount_chr_facts.
Qed.

Lemma amount_nonempty a : sound a -> a <> Unwritten -> amount_text a <> [].
Proof. intros H N1. destruct (amount_chrs a H N1) as [_ [c [s [-> _]]]]. discriminate. Qed.

Lemma exponent_last p t : sound p -> t <> [] -> head_ok is_space (rev t) -> head_ok is_space (rev (t ++ exponent_text p)).
Proof.
  intros H Nt Ht. destruct p as [|n|f]; cbn [exponent_text]; [now rewrite app_nil_r| |];
    (apply rev_app_head; [discriminate|]; apply (rev_app_head _ ["^"%char]);
      [apply amount_nonempty; auto; discriminate|apply amount_last; auto; discriminate]).
Qed.

Lemma amount_balanced a : sound a -> balanced (amount_text a).
Proof.
  intro H. destruct a as [|n|f]; [apply balanced_flat; auto| |];
    (destruct (amount_chrs _ H ltac:(discriminate)) as [C _]; rewrite Forall_forall in C;
     apply balanced_flat; intro I; apply C in I; apply amount_chr_facts in I; tauto).
Qed.

Lemma expo_balanced p : sound p -> balanced (exponent_text p).
Proof.
  intro H. assert (B := amount_balanced p H). destruct p; cbn [exponent_text]; [exact B| |];
    (apply (balanced_app [_]); [apply balanced_one; discriminate|exact B]).
Qed.

Lemma numeral_balanced n : legal_numeral n -> balanced (numeral_text n).
Proof.
  intro L. apply balanced_flat; intro I; destruct (numeral_chrs n L) as [H _]; rewrite Forall_forall in H; apply H in I;
    unfold numeral_chr in I; vm_compute in I; intuition discriminate.
Qed.

Lemma factor_balanced F x : legal_factor F x -> balanced (factor_text x).
Proof.
  destruct x as [n|n b p]; intro H.
  - apply numeral_balanced, H.
  - destruct H as [L [_ [Hn Hp]]]. cbn [factor_text]. apply balanced_app; [|apply balanced_app].
    + destruct n as [c|]; [apply numeral_balanced; now apply Hn|apply balanced_flat; auto].
    + now apply legal_balanced.
    + destruct p as [q|]; [|apply balanced_flat; auto].
      apply (balanced_app [_]); [apply balanced_one; discriminate|]. apply numeral_balanced. now apply Hp.
Qed.

Lemma simple_balanced F x : legal_simple F x -> balanced (simple_text x).
Proof.
  destruct x as [x|f|n p|c b p]; intro H; cbn [simple_text].
  - eapply factor_balanced; exact H.
  - destruct H as [L _]. change (fraction_text f) with (amount_text (Fraction f)).
    assert (forall c, In c (amount_text (Fraction f)) -> amount_chr c) as C.
    { intros c I. destruct (Qc_eq_dec (fraction_value f) 0) as [E|E].
      - destruct L as [Hs [No [Ho [Hu _]]]]. cbn [amount_text] in I. unfold fraction_text in I.
        rewrite Forall_forall in Ho.
        apply in_app_or in I as [I|I]; [destruct Hs as [X|[X|X]]; rewrite X in I; cbn in I; [destruct I|..]; destruct I as [<-|[]]; left; left; reflexivity|].
        apply in_app_or in I as [I|I]; [left; right; left; apply digit_digit; auto|].
        destruct I as [<-|[<-|[]]]; [right; reflexivity|left; right; left; now apply digit_digit].
      - destruct (amount_chrs (Fraction f) (conj E L) ltac:(discriminate)) as [A _]. rewrite Forall_forall in A. auto. }
    apply balanced_flat; intro I; apply C in I; apply amount_chr_facts in I; tauto.
  - destruct H as [L [_ [_ [_ [[S _] _]]]]]. apply balanced_app; [now apply numeral_balanced|now apply expo_balanced].
  - destruct H as [L [_ [Sc [Sp _]]]]. apply balanced_app; [now apply amount_balanced|].
    apply balanced_app; [now apply legal_balanced|now apply expo_balanced].
Qed.

Lemma joint_balanced j : balanced (joint_text j).
Proof.
  assert (forall n, ~ In "("%char (blanks n) /\ ~ In ")"%char (blanks n)) as B.
  { intro n. split; intro I; apply repeat_spec in I; discriminate. }
  destruct j; cbn [joint_text].
  - apply balanced_flat; apply B.
  - apply balanced_app; [apply balanced_flat; apply B|]. apply (balanced_app (lit "*")); [apply balanced_one; discriminate|apply balanced_flat; apply B].
  - apply balanced_app; [apply balanced_flat; apply B|]. apply (balanced_app (lit "/")); [apply balanced_one; discriminate|apply balanced_flat; apply B].
  - apply balanced_flat; auto.
Qed.

(** * Simple phrases *)

(** No variable starts at a number before an exponent. *)
Lemma variable_none_caret n v :
  legal_numeral n -> n_power n = None -> rx_variable (numeral_text n ++ "^"%char :: v) = [].
Proof.
  intros L E. assert (NB := numeral_no_base n L E). unfold rx_variable. apply none_bind. intros a w I. apply none_bind'.
  assert (exists x, w = x ++ "^"%char :: v /\ exists u, numeral_text n = u ++ x) as [x [-> [u Eu]]].
  { assert (consumes (rx_opt rx_rational) (fun c => numeric c = true)) as C by apply consumes_opt, rational_consumes.
    apply C in I as [u [E' F]]. symmetry in E'.
    destruct (split_prefix _ _ _ _ _ E' F) as [x [Eu ->]]; eauto. cbn. discriminate. }
  rewrite Eu in NB. apply Forall_app in NB as [_ NB]. apply none_bind', none_plus.
  destruct x as [|k x]; [reflexivity|]. now inversion NB.
Qed.

(** No variable starts at a fraction. *)
Lemma variable_none_fraction f r : legal_fraction f -> calm r -> rx_variable (fraction_text f ++ r) = [].
Proof.
  intros L Hr. destruct L as [Hs [No [Ho [Hu _]]]].
  assert (no_base (fraction_text f)) as NB.
  { unfold fraction_text. apply Forall_app. split; [destruct Hs as [->|[->| ->]]; repeat constructor|].
    apply Forall_app. split; [now apply digits_no_base, digits_all|].
    constructor; [reflexivity|]. constructor; [|constructor]. apply digit_not_base. now apply digit_digit. }
  destruct Hr as [Hr|[v [-> Hv]]]; [now apply variable_none_number|].
  unfold rx_variable. apply none_bind. intros a u I. apply none_bind', none_bind', none_plus.
  unfold rx_opt in I. apply in_app_or in I as [I|I].
  - apply in_map_iff in I as [[x u'] [J I]]. injection J as _ <-. cbn [snd].
    apply rational_stroke in I as [[w [Ew Nw]]|[w [c [d [Ew [Hc [Nw Fd]]]]]]].
    + destruct (app_mid _ _ _ _ _ Ew Nw) as [e [Ee ->]]. rewrite Ee in NB. apply Forall_app in NB as [_ NB].
      destruct e as [|k e]; [reflexivity|]. now inversion NB.
    + assert (~ In "/"%char (opt_text (f_sign f) ++ f_over f)) as Nf.
      { intro J. apply in_app_or in J as [J|J].
        - destruct Hs as [X|[X|X]]; rewrite X in J; cbn in J; intuition discriminate.
        - rewrite Forall_forall in Ho. apply Ho in J. unfold digit in J. cbn in J. lia. }
      rewrite fraction_app, app_assoc in Ew.
      destruct (app_mid _ _ _ _ _ Ew Nw) as [e [E1 E2]].
      destruct e as [|k e]; cbn in E2.
      * injection E2 as _ E2. destruct d as [|k d]; cbn in E2; [subst u'; reflexivity|].
        injection E2 as E3 _. inversion Fd; subst. discriminate.
      * injection E2 as E3 _. subst k. exfalso. apply Nf. rewrite E1. apply in_or_app. right. left. reflexivity.
  - destruct I as [I|[]]. injection I as _ <-. rewrite fraction_app. unfold fraction_text in NB.
    destruct (opt_text (f_sign f)) as [|k t]; cbn [app] in *; [|now inversion NB].
    destruct (f_over f) as [|k t]; [congruence|]. now inversion NB.
Qed.

Lemma reads_number F t q :
  t <> [] -> (exists c s, t = c :: s /\ numeral_chr c) -> head_ok is_space (rev t) -> q <> 0%Qc ->
  (forall r, calm r -> match_simplex F Match (t ++ r) = Ok (Some (init q [] 1, r))) ->
  reads_any F t (Simple (mkTerm q (lit "1") 1)).
Proof.
  intros N1 [c [s [E Hc]]] Hl Nq H. destruct (chr_facts c Hc) as [H1 [H2 [H3 H4]]].
  split; [exact N1|]. split; [rewrite E; auto|]. split; [exact Hl|]. intros r Hr. split.
  - rewrite E. intros [w Ew]. injection Ew as -> _. tauto.
  - destruct Hr as [Hr _]. unfold search. rewrite H by auto. cbn [bind].
    unfold init. now rewrite (Qc_eqb_neq _ 0) by auto.
Qed.

Lemma fraction_ends f : legal_fraction f ->
  (exists c s, fraction_text f = c :: s /\ numeral_chr c) /\ head_ok is_space (rev (fraction_text f)).
Proof.
  intros [Hs [No [Ho [Hu _]]]]. split.
  - unfold fraction_text. destruct Hs as [->|[->| ->]]; cbn [opt_text app].
    + destruct (f_over f) as [|c w]; [congruence|]. inversion Ho; subst. cbn. do 2 eexists. split; [reflexivity|].
      right; left. now apply digit_digit.
    + do 2 eexists. split; [reflexivity|]. left. reflexivity.
    + do 2 eexists. split; [reflexivity|]. left. reflexivity.
  - unfold fraction_text. rewrite !app_assoc. rewrite rev_app_distr. cbn.
    assert (numeral_chr (f_under f)) as C by (right; left; now apply digit_digit). now apply chr_facts.
Qed.

Lemma reads_part F f :
  legal_fraction f -> fl F (fraction_value f) <> 0%Qc ->
  reads_any F (fraction_text f) (Simple (mkTerm (fl F (fraction_value f)) (lit "1") 1)).
Proof.
  intros L N1. destruct (fraction_ends f L) as [E Hl]. apply reads_number; auto.
  - destruct E as [c [s [-> _]]]. discriminate.
  - intros r Hr. unfold match_simplex. rewrite none_run by now apply variable_none_fraction.
    assert (first rx_constant (fraction_text f ++ r) (rat_frac f, None) r) as C.
    { eapply first_bind; [now apply fraction_first|].
      eapply first_bind; [apply first_opt_none, calm_exponent, Hr|apply first_ret]. }
    rewrite (first_run _ _ _ _ C). unfold build_constant. rewrite fraction_rat by auto. cbn [bind std]. unfold frac_pow.
    change (Qc_is_int 1) with true. cbv iota. change (Qc_ltb 1 0) with false. rewrite andb_false_r.
    change (Qc_num 1) with 1%Z. rewrite Qc_zpow_1_r. reflexivity.
Qed.

Lemma caret_text p : p <> Unwritten -> exponent_text p = "^"%char :: amount_text p.
Proof. destruct p; [congruence|reflexivity|reflexivity]. Qed.

Lemma caret_after n v : after n ("^"%char :: v).
Proof.
  split; [reflexivity|]. intros _. split; [apply none_bind', none_cls; reflexivity|].
  split; [apply head_no_slash; reflexivity|reflexivity].
Qed.

Lemma reads_power F n p :
  legal_simple F (Number n p) -> reads_any F (simple_text (Number n p)) (Simple (simple_term F (Number n p))).
Proof.
  intros [L [E [Nv [Np [W N1]]]]]. destruct (whole_sound p W) as [S [Ev Nz]]. cbn [simple_text simple_term].
  destruct (numeral_ends n L) as [[c [s [En Hc]]] Hl]. apply reads_number; auto.
  - rewrite En. discriminate.
  - rewrite En. cbn. eauto.
  - apply exponent_last; auto. rewrite En. discriminate.
  - intros r Hr. rewrite <- app_assoc. unfold match_simplex. rewrite none_run.
    2: { rewrite caret_text by auto. cbn [app]. now apply variable_none_caret. }
    assert (first rx_constant (numeral_text n ++ exponent_text p ++ r) (rat_of n, arat p) r) as C.
    { eapply first_bind.
      - apply numeral_first; auto. rewrite caret_text by auto. apply caret_after.
      - eapply first_bind; [now apply exponent_first|apply first_ret]. }
    rewrite (first_run _ _ _ _ C). unfold build_constant. rewrite numeral_rat, arat_std by auto. cbn [bind].
    unfold frac_pow. rewrite Ev, Qc_is_int_of_Z, Qc_num_of_Z, (Qc_eqb_neq (numeral_value n) 0) by auto. reflexivity.
Qed.

Lemma reads_raised F c b p :
  legal_simple F (Raised c b p) -> reads_any F (simple_text (Raised c b p)) (Simple (simple_term F (Raised c b p))).
Proof.
  intros [L [NS [Sc [Sp HL]]]]. cbn [simple_text simple_term].
  assert (Nb := legal_nonempty b L). destruct (legal_head b L) as [k [s [Eb Hk]]].
  assert (forall r (q : ascii -> bool), q "^"%char = false -> head_ok q r -> head_ok q (exponent_text p ++ r)) as EH.
  { intros r q Hq H. destruct p; cbn; auto. }
  assert (c = Unwritten \/ c <> Unwritten) as D by (destruct c; [auto|right; discriminate|right; discriminate]).
  split; [|split; [|split; [|intros r Hr; split]]].
  - intro E. apply app_eq_nil in E as [_ E]. apply app_eq_nil in E as [E _]. congruence.
  - destruct D as [->|D].
    + cbn [amount_text app]. rewrite Eb. cbn [app head_ok]. split; [now apply base_not_space|]. split; now apply base_not_chr.
    + destruct (amount_chrs c Sc D) as [_ [x [y [-> Hx]]]]. destruct (chr_facts x Hx) as [H1 [H2 [H3 _]]]. cbn. auto.
  - apply rev_app_head.
    + intro E. apply app_eq_nil in E as [E _]. congruence.
    + apply exponent_last; auto. now apply base_last.
  - rewrite <- !app_assoc. destruct D as [->|D].
    + cbn [amount_text app]. apply (no_sqrt b); auto. destruct Hr as [Hr _]. apply EH; auto using calm_base.
    + destruct (amount_chrs c Sc D) as [_ [x [y [-> Hx]]]]. destruct (chr_facts x Hx) as [_ [_ [_ H4]]].
      intros [w E]. injection E as -> _. tauto.
  - destruct Hr as [Hr _]. rewrite <- !app_assoc. unfold search, match_simplex.
    assert (head_ok is_digit (exponent_text p ++ r)) as E1 by (apply EH; auto using calm_digit).
    assert (head_ok is_sign (exponent_text p ++ r)) as E2 by (apply EH; auto using calm_sign).
    assert (head_ok is_base_chr (exponent_text p ++ r)) as E3 by (apply EH; auto using calm_base).
    assert (forall n, c = Decimal n -> after n (b ++ exponent_text p ++ r)) as A.
    { intros n En. split.
      - apply base_head_ok; auto using base_not_digit.
      - intro E. split; [apply base_no_power; eauto|].
        split; [apply head_no_slash|]; apply base_head_ok; auto; intros z Hz; apply base_not_chr; auto. }
    assert (first rx_variable (amount_text c ++ b ++ exponent_text p ++ r) (arat c, b, arat p) r) as V.
    { unfold rx_variable. eapply first_bind with (a := arat c) (t := b ++ exponent_text p ++ r).
      - destruct D as [->|D].
        + cbn [amount_text app arat]. apply first_opt_none. apply rational_none_base, legal_head, L.
        + destruct (amount_first c (b ++ exponent_text p ++ r) Sc A D) as [x [-> X]]. now apply first_opt.
      - eapply first_bind; [now apply first_base|].
        eapply first_bind; [now apply exponent_first|apply first_ret]. }
    rewrite (first_run _ _ _ _ V).
    assert (with_rest (build_variable (arat c, b, arat p)) r = Ok (Some (mkTerm (value_of c) b (value_of p), r))) as B.
    { unfold build_variable. rewrite !arat_std by auto. cbn [bind]. unfold with_rest. cbn [bind].
      rewrite init_id; auto; [apply Sc|apply Sp]. }
    assert (match rx_run Match rx_constant (amount_text c ++ b ++ exponent_text p ++ r) with
            | Some (_, rc) => length rc <> length r | None => True end) as X.
    { destruct D as [->|D].
      - cbn [amount_text app]. rewrite none_run; auto. apply constant_none_base, legal_head, L.
      - destruct (amount_first c (b ++ exponent_text p ++ r) Sc A D) as [x [_ X]].
        assert (first rx_constant (amount_text c ++ b ++ exponent_text p ++ r) (x, None) (b ++ exponent_text p ++ r)) as C.
        { eapply first_bind; [exact X|]. eapply first_bind; [apply first_opt_none|apply first_ret].
          apply none_bind', none_cls, base_head_ok; auto. intros z Hz. now apply base_not_chr. }
        rewrite (first_run _ _ _ _ C). rewrite !app_length. destruct b; [congruence|]. cbn [length]. lia. }
    destruct (rx_run Match rx_constant _) as [[q rc]|]; [|now rewrite B].
    destruct (Nat.eqb_spec (length r) (length rc)); [congruence|]. now rewrite B.
Qed.

Lemma reads_simple F x :
  legal_simple F x -> reads_any F (simple_text x) (Simple (simple_term F x)) /\ wf (simple_term F x).
Proof.
  destruct x as [x|f|n p|c b p]; intro H.
  - now apply reads_any_factor.
  - destruct H as [L N1]. split; [now apply reads_part|]. split; [exact N1|]. split; discriminate.
  - split; [now apply reads_power|]. split; [apply H|]. split; discriminate.
  - split; [now apply reads_raised|]. destruct H as [L [_ [[Sc _] [[Sp _] _]]]]. split; [exact Sc|]. split; [exact Sp|].
    now apply legal_nonempty.
Qed.

(** A bracket and its exponent. *)
Lemma reads_bracket F t p :
  t <> [] -> balanced t -> sound p ->
  reads_any F (lit "(" ++ t ++ lit ")" ++ exponent_text p) (Group (mkTerm 1 t (value_of p))).
Proof.
  intros Hn Hf Hp. assert (Nq := proj1 Hp).
  split; [|split; [|split; [|intros r H; split]]].
  - discriminate.
  - repeat split.
  - rewrite (app_assoc t), app_assoc. apply exponent_last; auto; [discriminate|].
    rewrite app_assoc, rev_app_distr. reflexivity.
  - intros [w E]. discriminate E.
  - set (u := exponent_text p ++ r).
    assert ((lit "(" ++ t ++ lit ")" ++ exponent_text p) ++ r = "("%char :: (t ++ lit ")") ++ u) as ->.
    { unfold u. rewrite <- !app_assoc. reflexivity. }
    unfold search. rewrite simplex_none_open. cbn [bind].
    unfold match_complex.
    assert (find_bounds ("("%char :: (t ++ lit ")") ++ u) = Some (0, length t + 2)) as ->.
    { unfold find_bounds.
      change (bounds_go ("("%char :: (t ++ lit ")") ++ u) 0 None 0)
        with (bounds_go ((t ++ lit ")") ++ u) 1 (Some 0) 1).
      apply bounds_go_init. exists (S (length t)). destruct Hf as [Ho Hc].
      rewrite <- app_assoc. split; [rewrite !app_length; simpl; lia|].
      assert (firstn (S (length t)) (t ++ lit ")" ++ u) = t ++ lit ")") as ->.
      { replace (S (length t)) with (length t + 1) by lia.
        rewrite firstn_app_2. reflexivity. }
      rewrite depth_app, Ho. repeat split.
      - intros k Hk. rewrite firstn_app. replace (k - length t) with 0 by lia.
        rewrite firstn_O, app_nil_r. specialize (Hc k). lia.
      - f_equal. lia. }
    assert (match_simplex F FullMatch (firstn 0 ("("%char :: (t ++ lit ")") ++ u)) = Ok None)
      as -> by reflexivity.
    cbn [bind].
    assert (skipn (length t + 2) ("("%char :: (t ++ lit ")") ++ u) = u) as ->.
    { replace (length t + 2) with (length ("("%char :: t ++ lit ")"))
        by (simpl; rewrite app_length; simpl; lia).
      change ("("%char :: (t ++ lit ")") ++ u) with (("("%char :: t ++ lit ")") ++ u).
      rewrite skipn_app, skipn_all, Nat.sub_diag. reflexivity. }
    change (0 + 1) with 1. assert (substr 1 (length t + 2 - 1) ("("%char :: (t ++ lit ")") ++ u) = t) as ->.
    { unfold substr. simpl skipn. rewrite <- app_assoc.
      replace (length t + 2 - 1 - 1) with (length t + 0) by lia.
      rewrite firstn_app_2. simpl. now rewrite app_nil_r. }
    destruct H as [H _]. assert (X := exponent_first p r Hp H). fold u in X. destruct X as [tl X].
    assert (exists rest, (match rx_run Match rx_exponent u with
              | Some (x, rest) => (Some x, rest) | None => (None, u) end) = (arat p, rest) /\ rest = r) as [rest [-> ->]].
    { exists r. split; [|reflexivity]. unfold rx_opt in X. unfold rx_run. destruct (rx_exponent u) as [|[x w] tl'] eqn:E.
      - cbn in X. injection X as -> -> _. reflexivity.
      - cbn in X. injection X as <- <- _. reflexivity. }
    cbn [Nat.eqb negb]. rewrite arat_std by auto. cbn [bind]. rewrite init_id; auto.
Qed.

Lemma blanks_balanced n : balanced (blanks n).
Proof. apply balanced_flat; intro I; apply repeat_spec in I; discriminate. Qed.

Lemma phrase_ok F x :
  spelled F x -> reads_any F (phrase_text x) (phrase_operand F x) /\ balanced (phrase_text x).
Proof.
  induction x as [x|i k x0 l p IH0 IH] using phrase_ind'; intro H.
  - cbn [phrase_text phrase_operand]. split; [now apply reads_simple|eapply simple_balanced; exact H].
  - apply spelled_bracket in H as [Hp [H0 Hl]].
    assert (balanced (phrases_text i k x0 l)) as B.
    { apply balanced_app; [apply blanks_balanced|]. apply balanced_app; [now apply IH0|].
      apply balanced_app; [|apply blanks_balanced]. apply concat_balanced.
      rewrite Forall_forall in *. intros s I. apply in_map_iff in I as [q [<- I]].
      apply balanced_app; [apply joint_balanced|]. apply IH; auto. now apply Hl. }
    change (phrase_text (Bracket i k x0 l p)) with (lit "(" ++ phrases_text i k x0 l ++ lit ")" ++ exponent_text p).
    split.
    + cbn [phrase_operand]. apply reads_bracket; auto. unfold phrases_text.
      destruct (IH0 H0) as [[N1 _] _]. intro E. apply app_eq_nil in E as [_ E]. apply app_eq_nil in E as [E _]. auto.
    + rewrite !app_assoc. apply balanced_app.
      * rewrite <- !app_assoc. now apply balanced_wrap.
      * now apply expo_balanced.
Qed.

Lemma spelled_follows F j x : fits j x -> spelled F x -> follows j (phrase_text x).
Proof.
  intros H Hx. destruct j as [n|i k|[|i] [|k]|]; cbn in *; auto.
  - destruct (phrase_text x) as [|c s]; [exact I|]. cbn. specialize (H c s eq_refl).
    destruct (is_digit c) eqn:D; auto. exfalso. apply H. assert (forallb is_digit [c] = true) as X by (cbn; now rewrite D). apply all_digits in X. now inversion X.
  - destruct H as [i [k [x0 [l [p ->]]]]]. eexists. reflexivity.
Qed.

(** * The loop on a chain of phrases *)

Definition ptoks (F : flops) (l : list (joint * phrase)) : list gtok :=
  map (fun p => (Join (fst p), (phrase_text (snd p), phrase_operand F (snd p)))) l.

Lemma ptoks_text F l : gtail (ptoks F l) = concat (map (fun p => joint_text (fst p) ++ phrase_text (snd p)) l).
Proof. unfold gtail, ptoks. rewrite map_map. reflexivity. Qed.

Lemma ptoks_ok F l : Forall (fun p => fits (fst p) (snd p) /\ spelled F (snd p)) l -> Forall (gtok_ok F) (ptoks F l).
Proof.
  intro H. apply Forall_forall. intros p I. apply in_map_iff in I as [q [<- I]].
  rewrite Forall_forall in H. apply H in I as [H1 H2]. split; cbn [fst snd link_follows].
  - eapply spelled_follows; eauto.
  - now apply phrase_ok.
Qed.

Lemma no_sqrt_blanks u k : ~ starts_with (lit "sqrt") u -> ~ starts_with (lit "sqrt") (u ++ blanks k).
Proof.
  intros H [r E]. apply H. clear H.
  destruct u as [|a [|b [|c [|d u]]]]; cbn in E; try (destruct k as [|[|[|[|k]]]]; cbn in E; discriminate E).
  injection E as -> -> -> -> _. exists u. reflexivity.
Qed.

Lemma lstrip_head_ok s : head_ok is_space s -> lstrip s = s.
Proof. destruct s as [|c s]; auto. cbn. now intros ->. Qed.

Lemma lstrip_blanks k s : lstrip (blanks k ++ s) = lstrip s.
Proof. induction k; auto. Qed.

Lemma rev_blanks k : rev (blanks k) = blanks k.
Proof.
  induction k as [|k IH]; auto. cbn [blanks repeat rev]. fold (blanks k). rewrite IH.
  change [" "%char] with (blanks 1). unfold blanks. rewrite <- repeat_app, Nat.add_comm. reflexivity.
Qed.

Lemma strip_end s k : s <> [] -> head_ok is_space s -> head_ok is_space (rev s) -> strip (s ++ blanks k) = s.
Proof.
  intros Hn H1 H2. unfold strip, rstrip.
  rewrite (lstrip_head_ok (s ++ blanks k)) by (apply head_ok_app; auto).
  rewrite rev_app_distr, rev_blanks, lstrip_blanks, lstrip_head_ok by auto. apply rev_involutive.
Qed.

Lemma padded_parse F t o r i k :
  reads_any F t o -> okafter r -> operand_parse F (blanks i ++ t ++ r ++ blanks k) = Ok (Some (o, r)).
Proof.
  intros R Hr. destruct (any_parts F t o r R Hr) as [H1 _]. destruct R as [Hn [_ [Ht H]]].
  assert (t ++ r <> []) as N2 by (destruct t; [congruence|discriminate]).
  unfold operand_parse. rewrite strip_blanks, app_assoc, strip_end; auto.
  - now apply H.
  - apply head_ok_rev_app; auto. apply Hr.
Qed.

Lemma padded_op_none F t o r i k :
  reads_any F t o -> okafter r -> operator_parse (blanks i ++ t ++ r ++ blanks k) = None.
Proof.
  intros R Hr. destruct (any_parts F t o r R Hr) as [H1 [H2 [H3 H4]]]. unfold operator_parse.
  assert (t ++ r <> []) as N2 by (destruct R as [Hn _]; destruct t; [congruence|discriminate]).
  rewrite app_assoc with (l := t).
  assert (head_ok is_space ((t ++ r) ++ blanks k)) as Hs by (apply head_ok_app; auto).
  rewrite (none_run rx_multiply), (none_run rx_divide), (none_run rx_sqrt); auto.
  - apply none_bind. intros x u I. apply star_blanks in I as [n ->]; auto. apply none_bind', rx_text_none.
    destruct n; [now apply no_sqrt_blanks|]. intros [w E]. discriminate E.
  - apply none_bind. intros x u I. apply star_blanks in I as [n ->]; auto. apply none_bind', none_cls.
    apply blanks_head; auto using head_ok_app.
  - apply none_bind. intros x u I. apply star_blanks in I as [n ->]; auto. apply none_bind', none_cls.
    apply blanks_head; auto using head_ok_app.
Qed.

Lemma gloop_chain F strict e i k t0 o0 l fuel :
  reads_any F t0 o0 -> Forall (gtok_ok F) l -> length l + 1 < fuel ->
  parse_loop F strict e fuel (blanks i ++ t0 ++ gtail l ++ blanks k) None
  = loop_spec F strict e None ((None, (t0, o0)) :: spec_of l).
Proof.
  intros R Hl Hf. destruct fuel as [|fuel]; [lia|].
  assert (okafter (gtail l)) as Hr by (eapply gtail_after; eauto).
  rewrite parse_loop_S.
  2: { destruct R as [Nt _]. intro E. apply app_eq_nil in E as [_ E]. apply app_eq_nil in E as [E _]. congruence. }
  rewrite (padded_op_none F t0 o0) by auto. cbv iota beta. cbn [loop_spec].
  destruct (operator_error _ _ _); auto.
  rewrite (padded_parse F t0 o0 _ _ _ R Hr). cbn [bind].
  destruct (lift_pow _ o0); auto. cbn [bind]. destruct (evaluate F _ _); auto. cbn [bind].
  rewrite gloop by (auto; lia). reflexivity.
Qed.


Definition praised (F : flops) (n : Z) (p : option operator * phrase) : operand :=
  raise (n * sgn (fst p)) (phrase_operand F (snd p)).
Definition opped (l : list (joint * phrase)) : list (option operator * phrase) :=
  map (fun p => (joint_op (fst p), snd p)) l.

Lemma wf_phrase F x : spelled F x -> wf (term_of (phrase_operand F x)).
Proof.
  destruct x as [x|i k x0 l p]; intro H.
  - now apply reads_simple.
  - apply spelled_bracket in H as [Hp [H0 _]]. split; [discriminate|]. split.
    + apply Hp.
    + cbn. destruct (phrase_ok F x0 H0) as [[N1 _] _]. intro E. apply app_eq_nil in E as [_ E]. apply app_eq_nil in E as [E _]. auto.
Qed.

Lemma joint_plain j : plain_op (joint_op j).
Proof. destruct j; discriminate. Qed.

Lemma loop_spec_phrases F strict n l : n <> 0%Z ->
  Forall (fun p => plain_op (fst p) /\ proper F (snd p)) l ->
  forall prev,
  loop_spec F strict (Qc_of_Z n) prev (map (fun p => (fst p, (phrase_text (snd p), phrase_operand F (snd p)))) l)
  = match (if strict then violation prev (map fst l) else None) with
    | Some e => Err e
    | None => Ok (map (praised F n) l)
    end.
Proof.
  intro Nn. induction 1 as [|[op x] l [Hp Hx] _ IH]; intro prev.
  - destruct strict; reflexivity.
  - cbn [fst snd] in *. cbn [map loop_spec fst snd].
    assert (W := wf_phrase F x (proper_spelled F x Hx)). assert (R := raise_step F (phrase_operand F x) n op W Nn Hp).
    set (tl := map _ l). fold tl in IH.
    assert (forall K : operand -> res (list operand),
      (do o1 <- lift_pow (fun t => term_pow F t (Qc_of_Z n)) (phrase_operand F x);
       do o2 <- evaluate F op o1; K o2) = K (raise (n * sgn op) (phrase_operand F x))) as R'.
    { intro K. destruct (lift_pow _ _); [|discriminate R]. cbn [bind] in *. now rewrite R. }
    rewrite (R' (fun o2 => do more <- loop_spec F strict (Qc_of_Z n) op tl; Ok (o2 :: more))).
    rewrite (IH op). unfold operator_error. destruct strict; [|reflexivity].
    cbn [violation]. destruct prev as [[]|], op as [[]|]; auto;
      destruct (violation _ _); reflexivity.
Qed.

Lemma gchain_length F l : Forall (gtok_ok F) l -> length l <= length (gtail l).
Proof.
  induction 1 as [|p l [_ [Nt _]] _ IH]; cbn [length]; auto. unfold gtail in *. cbn [map concat].
  rewrite !app_length. destruct (fst (snd p)); [congruence|]. cbn [length]. lia.
Qed.

Definition otoks (F : flops) (l : list (option operator * phrase)) : list tok :=
  map (fun p => (fst p, (phrase_text (snd p), phrase_operand F (snd p)))) l.

Lemma loop_tokens F strict e i k x0 l :
  spelled_chain F x0 l ->
  parse_loop F strict e (S (length (phrases_text i k x0 l))) (phrases_text i k x0 l) None
  = loop_spec F strict e None (otoks F ((None, x0) :: opped l)).
Proof.
  intros [H0 Hl]. assert (K := ptoks_ok F l Hl). assert (G := gchain_length F _ K).
  destruct (phrase_ok F x0 H0) as [R _]. unfold phrases_text. rewrite <- (ptoks_text F).
  rewrite (gloop_chain F strict _ _ _ _ (phrase_operand F x0)); auto.
  - unfold spec_of, ptoks, otoks, opped. cbn [map fst snd]. rewrite !map_map. reflexivity.
  - rewrite !app_length. destruct R as [Nt _]. destruct (phrase_text x0); [congruence|]. cbn [length]. lia.
Qed.

Lemma opped_joints l : map fst (opped l) = joints l.
Proof. unfold opped, joints. now rewrite map_map. Qed.

Lemma loop_phrases F strict n i k x0 l :
  n <> 0%Z -> proper_chain F x0 l ->
  parse_loop F strict (Qc_of_Z n) (S (length (phrases_text i k x0 l))) (phrases_text i k x0 l) None
  = match (if strict then violation None (joints l) else None) with
    | Some e => Err e
    | None => Ok (map (praised F n) ((None, x0) :: opped l))
    end.
Proof.
  intros Nn [H0 Hl]. rewrite loop_tokens by (apply proper_spelled_chain; split; auto).
  unfold otoks. rewrite loop_spec_phrases; auto.
  - cbn [map fst violation]. now rewrite opped_joints.
  - constructor; [split; [discriminate|auto]|]. apply Forall_forall. intros p I.
    apply in_map_iff in I as [q [<- I]]. rewrite Forall_forall in Hl. split; [apply joint_plain|now apply Hl].
Qed.

(** * Resolution *)

Definition settles (F : flops) (strict : bool) (x : phrase) : Prop :=
  proper F x -> forall n fuel, n <> 0%Z -> length (phrase_text x) <= fuel ->
  outcome strict (in_order x) (power n (meaning F x)) (pick F strict fuel (raise n (phrase_operand F x))).

Lemma mapM_phrases F strict n fuel (l : list (option operator * phrase)) :
  n <> 0%Z ->
  Forall (fun p => settles F strict (snd p)) l ->
  Forall (fun p => plain_op (fst p) /\ proper F (snd p)) l ->
  Forall (fun p => length (phrase_text (snd p)) <= fuel) l ->
  outcome strict (Forall (fun p => in_order (snd p)) l)
    (power n (concat (map (fun p => apply_op (fst p) (meaning F (snd p))) l)))
    (do tss <- mapM (pick F strict fuel) (map (praised F n) l); Ok (concat tss)).
Proof.
  intros Nn HR HL HF. induction l as [|[o x] l IH].
  - left. exists []. split; [reflexivity|]. split; [constructor|].
    split; [apply same_monomial_refl|constructor].
  - inversion HR as [|? ? R1 R2]; subst. inversion HL as [|? ? [L0 L1] L2]; subst.
    inversion HF as [|? ? F1 F2]; subst. cbn [fst snd] in *.
    specialize (IH R2 L2 F2). cbn [map mapM concat fst snd].
    assert (n * sgn o <> 0)%Z as Ns by (destruct o as [[]|]; simpl; lia).
    specialize (R1 L1 (n * sgn o)%Z fuel Ns F1). unfold praised at 1. cbn [fst snd].
    destruct R1 as [[ts [E [W [S O]]]]|[Hs [NO [e [He E]]]]]; rewrite E; cbn [bind].
    + destruct IH as [[us [E' [W' [S' O']]]]|[Hs [NO [e [He E']]]]].
      * destruct (mapM _ _) as [tss|]; [|discriminate E']. cbn [bind] in *. injection E' as <-.
        left. exists (ts ++ concat tss). split; [reflexivity|]. split; [now apply Forall_app|].
        split; [|intro; constructor; auto].
        rewrite power_app. apply same_monomial_app; auto.
        rewrite apply_op_power, power_mul. now rewrite Z.mul_comm.
      * right. split; auto. split; [intro H; inversion H; auto|]. exists e. split; auto.
        destruct (mapM _ _) as [tss|e']; [discriminate E'|]. cbn [bind] in *. congruence.
    + right. split; auto. split; [intro H; inversion H; auto|]. exists e. auto.
Qed.

Lemma phrase_lengths (l : list (joint * phrase)) fuel :
  length (concat (map (fun p => joint_text (fst p) ++ phrase_text (snd p)) l)) <= fuel ->
  Forall (fun p => length (phrase_text (snd p)) <= fuel) (opped l).
Proof.
  induction l as [|p l IH]; intro H; constructor; cbn [map concat] in H; rewrite !app_length in H.
  - cbn [snd]. lia.
  - apply IH. lia.
Qed.

Lemma joined_op j ts : joined j ts = apply_op (joint_op j) ts.
Proof. destruct j; reflexivity. Qed.

Lemma settle_chain F strict i k x0 l :
  settles F strict x0 -> Forall (fun p => settles F strict (snd p)) l ->
  proper_chain F x0 l -> forall n fuel, n <> 0%Z -> length (phrases_text i k x0 l) <= fuel ->
  outcome strict (chain_in_order x0 l) (power n (phrases_meaning F x0 l))
    (resolve F strict (S fuel) (mkTerm 1 (phrases_text i k x0 l) (Qc_of_Z n))).
Proof.
  intros R0 R [L0 L] n fuel Nn Hf. rewrite resolve_S. cbn [expo base coef].
  rewrite loop_phrases by (auto; split; auto).
  assert (outcome strict (Forall (fun p => in_order (snd p)) ((None, x0) :: opped l))
    (power n (concat (map (fun p => apply_op (fst p) (meaning F (snd p))) ((None, x0) :: opped l))))
    (do tss <- mapM (pick F strict fuel) (map (praised F n) ((None, x0) :: opped l)); Ok (concat tss))) as O.
  { unfold phrases_text in Hf. rewrite !app_length in Hf. apply mapM_phrases; auto.
    - constructor; auto. apply Forall_forall. intros p I. apply in_map_iff in I as [q [<- I]].
      rewrite Forall_forall in R. now apply R.
    - constructor; [split; [discriminate|auto]|]. apply Forall_forall. intros p I. apply in_map_iff in I as [q [<- I]].
      rewrite Forall_forall in L. split; [apply joint_plain|now apply L].
    - constructor; [cbn [snd]; lia|]. apply phrase_lengths. lia. }
  set (v := if strict then violation None (joints l) else None).
  destruct v as [e|] eqn:V; cbn [bind].
  - right. unfold v in V. destruct strict; [|discriminate]. split; auto.
    split; [intros [H _]; congruence|]. exists e. eauto using violation_kind.
  - destruct O as [[ts [E [W [S O]]]]|[Hs [NO [e [He E]]]]].
    + destruct (mapM _ _) as [tss|]; [|discriminate E]. cbn [bind] in *. injection E as E.
      left. exists (concat tss ++ [init 1 [] 1]). split; [reflexivity|]. split; [|split].
      * apply Forall_app. split; [now rewrite E|]. constructor; auto using wf_init.
      * change (init 1 [] 1) with (mkTerm 1 (lit "1") 1). rewrite E. apply same_neutral.
        assert (phrases_meaning F x0 l = concat (map (fun p => apply_op (fst p) (meaning F (snd p))) ((None, x0) :: opped l))) as ->; auto.
        unfold phrases_meaning, opped. cbn [map concat fst snd apply_op]. f_equal. rewrite map_map. f_equal.
        apply map_ext. intro. apply joined_op.
      * intro Hs. specialize (O Hs). inversion O as [|? ? O1 O2]; subst. unfold v in V. split; [exact V|]. split; [exact O1|].
        apply Forall_forall. intros p I. rewrite Forall_forall in O2.
        apply (O2 (joint_op (fst p), snd p)). unfold opped. apply in_map_iff. eauto.
    + right. split; auto. split.
      * intros [_ [H1 H2]]. apply NO. constructor; auto. apply Forall_forall. intros p I.
        apply in_map_iff in I as [q [<- I]]. rewrite Forall_forall in H2. now apply H2.
      * exists e. split; auto. destruct (mapM _ _) as [tss|e']; [discriminate E|].
        cbn [bind] in *. congruence.
Qed.

Lemma settles_all F strict x : settles F strict x.
Proof.
  induction x as [x|i k x0 l p IH0 IH] using phrase_ind'; intros L m fuel Nm Hf.
  - left. exists [raise_t m (simple_term F x)]. split; [reflexivity|].
    split; [constructor; auto; apply wf_raise; auto; exact (wf_phrase F (Simply x) (proper_spelled _ _ L))|].
    split; [apply same_monomial_refl|]. simpl; auto.
  - apply proper_bracket in L as [Hp L]. destruct (whole_sound p Hp) as [_ [Ev Nz]].
    assert (pick F strict fuel (raise m (phrase_operand F (Bracket i k x0 l p)))
            = resolve F strict fuel (mkTerm 1 (phrases_text i k x0 l) (Qc_of_Z (exponent_of p * m)))) as ->.
    { cbn [phrase_operand raise pick]. unfold raise_t. cbn [coef base expo].
      now rewrite Qc_zpow_1_l, Qc_of_Z_mul, Ev. }
    change (phrase_text (Bracket i k x0 l p)) with (lit "(" ++ phrases_text i k x0 l ++ lit ")" ++ exponent_text p) in Hf.
    rewrite !app_length in Hf. cbn [lit length] in Hf. destruct fuel as [|fuel]; [simpl in Hf; lia|].
    assert (exponent_of p * m <> 0)%Z as Nnm by lia.
    assert (length (phrases_text i k x0 l) <= fuel) as Hf' by (simpl in Hf; lia).
    assert (H := settle_chain F strict i k x0 l IH0 IH L (exponent_of p * m)%Z fuel Nnm Hf').
    change (meaning F (Bracket i k x0 l p)) with (power (exponent_of p) (phrases_meaning F x0 l)). rewrite power_mul.
    destruct H as [[ts [E [W [S O]]]]|[Hs [NO E]]].
    + left. exists ts. split; [auto|]. split; [auto|]. split; [auto|].
      intro Hs. apply order_bracket. auto.
    + right. split; auto. split; auto. intro H. apply NO, (order_bracket i k x0 l p), H.
Qed.

Lemma phrases_nonempty F i k x0 l : spelled F x0 -> phrases_text i k x0 l <> [].
Proof.
  intro L. destruct (phrase_ok F x0 L) as [[N1 _] _]. intro E. apply app_eq_nil in E as [_ E]. apply app_eq_nil in E as [E _]. auto.
Qed.

Theorem parse_phrases F strict i k x0 l :
  proper_chain F x0 l ->
  outcome strict (chain_in_order x0 l) (phrases_meaning F x0 l) (parse F strict (phrases_text i k x0 l)).
Proof.
  intro L. unfold parse. rewrite <- (power_1 (phrases_meaning F x0 l)).
  assert (phrases_text i k x0 l <> []) as Nt by (eapply phrases_nonempty; apply proper_spelled; apply L).
  rewrite init_id by (auto; discriminate). cbn [base]. change 1%Qc with (Qc_of_Z 1) at 2.
  apply settle_chain; auto.
  - apply settles_all.
  - apply Forall_forall. intros. apply settles_all.
Qed.

(** * Rational exponents *)

Definition raise_q (q : Qc) (t : term) : term := mkTerm (coef t) (base t) (expo t * q).
Definition rq (q : Qc) (o : operand) : operand :=
  match o with Simple t => Simple (raise_q q t) | Group t => Group (raise_q q t) end.
Definition one (t : term) : Prop := coef t = 1%Qc.

Lemma wf_raise_q q t : q <> 0%Qc -> wf t -> wf (raise_q q t).
Proof. intros Nq [H1 [H2 H3]]. unfold wf, raise_q; simpl. auto using Qc_mul_neq_0. Qed.

Lemma term_pow_one F t q : powers_of_one F -> one t -> wf t -> q <> 0%Qc -> term_pow F t q = Ok (raise_q q t).
Proof.
  intros P O W Nq. destruct (wf_raise_q q t Nq W) as [H1 [H2 H3]]. unfold one in O.
  unfold term_pow, frac_pow. rewrite O. change (Qc_eqb 1 0) with false. cbn [andb].
  assert ((if Qc_is_int q then Ok (Qc_zpow 1 (Qc_num q)) else match fpow F 1 q with Some c => Ok c | None => Err TypeError end) = Ok 1%Qc) as ->.
  { destruct (Qc_is_int q); [now rewrite Qc_zpow_1_l|]. now rewrite P. }
  cbn [bind]. rewrite init_id by (auto; discriminate). unfold raise_q. now rewrite O.
Qed.

Lemma rq_lift F o q : powers_of_one F -> one (term_of o) -> wf (term_of o) -> q <> 0%Qc ->
  lift_pow (fun t => term_pow F t q) o = Ok (rq q o).
Proof. intros P O W Nq. destruct o as [t|t]; simpl in *; now rewrite term_pow_one. Qed.

Lemma raise_q_q a b t : raise_q b (raise_q a t) = raise_q (a * b) t.
Proof. unfold raise_q; simpl. f_equal. ring. Qed.

Definition qs (o : option operator) : Qc := Qc_of_Z (sgn o).
Lemma qs_neq o : plain_op o -> qs o <> 0%Qc.
Proof. destruct o as [[]|]; intro; discriminate. Qed.

Lemma rq_step F o q op : powers_of_one F -> one (term_of o) -> wf (term_of o) -> q <> 0%Qc -> plain_op op ->
  (do o1 <- lift_pow (fun t => term_pow F t q) o; evaluate F op o1) = Ok (rq (q * qs op) o).
Proof.
  intros P O W Nq Hp. rewrite rq_lift by auto. cbn [bind].
  destruct op as [[]|]; cbn [evaluate]; unfold qs; cbn [sgn];
    try (change (Qc_of_Z 1) with 1%Qc; replace (q * 1)%Qc with q by ring; reflexivity).
  - rewrite rq_lift; auto; try discriminate.
    + change (Qc_of_Z (-1)) with (- (1))%Qc. destruct o; simpl; now rewrite raise_q_q.
    + destruct o; exact O.
    + destruct o; simpl in *; now apply wf_raise_q.
  - now destruct Hp.
Qed.

Lemma bare_one F x : bare x -> one (term_of (phrase_operand F x)).
Proof. destruct x as [x|]; intro H; [|reflexivity]. destruct H as [b [p [->|[q ->]]]]; reflexivity. Qed.

Definition qraised (F : flops) (q : Qc) (p : option operator * phrase) : operand :=
  rq (q * qs (fst p)) (phrase_operand F (snd p)).

Lemma loop_spec_bare F strict q l : powers_of_one F -> q <> 0%Qc ->
  Forall (fun p => plain_op (fst p) /\ spelled F (snd p) /\ bare (snd p)) l ->
  forall prev,
  loop_spec F strict q prev (otoks F l)
  = match (if strict then violation prev (map fst l) else None) with
    | Some e => Err e
    | None => Ok (map (qraised F q) l)
    end.
Proof.
  intros P Nq. induction 1 as [|[op x] l [Hp [Hx Hb]] _ IH]; intro prev.
  - destruct strict; reflexivity.
  - cbn [fst snd] in *. cbn [otoks map loop_spec fst snd]. fold (otoks F l).
    assert (R := rq_step F (phrase_operand F x) q op P (bare_one F x Hb) (wf_phrase F x Hx) Nq Hp).
    assert (forall K : operand -> res (list operand),
      (do o1 <- lift_pow (fun t => term_pow F t q) (phrase_operand F x);
       do o2 <- evaluate F op o1; K o2) = K (rq (q * qs op) (phrase_operand F x))) as R'.
    { intro K. destruct (lift_pow _ _); [|discriminate R]. cbn [bind] in *. now rewrite R. }
    rewrite (R' (fun o2 => do more <- loop_spec F strict q op (otoks F l); Ok (o2 :: more))).
    rewrite (IH op). unfold operator_error. destruct strict; [|reflexivity].
    cbn [violation]. destruct prev as [[]|], op as [[]|]; auto;
      destruct (violation _ _); reflexivity.
Qed.

Lemma loop_bare F strict q i k x0 l :
  powers_of_one F -> q <> 0%Qc -> spelled_chain F x0 l -> bare_chain x0 l ->
  parse_loop F strict q (S (length (phrases_text i k x0 l))) (phrases_text i k x0 l) None
  = match (if strict then violation None (joints l) else None) with
    | Some e => Err e
    | None => Ok (map (qraised F q) ((None, x0) :: opped l))
    end.
Proof.
  intros P Nq [H0 Hl] [B0 Bl]. rewrite loop_tokens by (split; auto). rewrite loop_spec_bare; auto.
  - cbn [map fst violation]. now rewrite opped_joints.
  - constructor; [split; [discriminate|auto]|]. apply Forall_forall. intros p I.
    apply in_map_iff in I as [r [<- I]]. rewrite Forall_forall in *. split; [apply joint_plain|].
    split; [now apply Hl|now apply (Bl r)].
Qed.

Lemma times_app e a b : times_exponent e (a ++ b) = times_exponent e a ++ times_exponent e b.
Proof. apply map_app. Qed.
Lemma times_times a b ts : times_exponent b (times_exponent a ts) = times_exponent (a * b) ts.
Proof. unfold times_exponent. rewrite map_map. apply map_ext. intro t. simpl. f_equal. ring. Qed.
Lemma times_1 ts : times_exponent 1 ts = ts.
Proof.
  unfold times_exponent. rewrite (map_ext _ (fun t => t)); [apply map_id|]. intros [c b e]. simpl. f_equal. ring.
Qed.

Lemma op_times_one o ts : plain_op o -> Forall one ts -> apply_op o ts = times_exponent (qs o) ts.
Proof.
  intros Hp H. destruct o as [[]|]; cbn [apply_op]; unfold qs; cbn [sgn]; try (change (Qc_of_Z 1) with 1%Qc; now rewrite times_1).
  - unfold inverse, times_exponent. apply map_ext_in. intros t I. rewrite Forall_forall in H. rewrite (H t I).
    f_equal. change (Qc_of_Z (-1)) with (- (1))%Qc. ring.
Qed.

Lemma one_joined j ts : Forall one ts -> Forall one (joined j ts).
Proof.
  intro H. rewrite joined_op, op_times_one; auto using joint_plain. apply Forall_forall. intros t I.
  apply in_map_iff in I as [u [<- I]]. rewrite Forall_forall in H. now apply (H u).
Qed.

Lemma bases_one F x : bare x -> Forall one (bases F x).
Proof.
  induction x as [x|i k x0 l p IH0 IH] using phrase_ind'; intro H.
  - destruct H as [b [p [->|[q ->]]]]; (constructor; [reflexivity|constructor]).
  - apply bare_bracket in H as [H0 Hl]. cbn [bases]. apply Forall_forall. intros t I.
    apply in_map_iff in I as [u [<- I]]. change (one u). revert u I. apply Forall_forall. apply Forall_app. split; auto.
    apply Forall_concat. apply Forall_forall. intros ts I. apply in_map_iff in I as [r [<- I]]. apply one_joined.
    rewrite Forall_forall in IH, Hl. apply IH; auto.
Qed.

Definition settles_q (F : flops) (strict : bool) (x : phrase) : Prop :=
  spelled F x -> bare x -> forall q fuel, q <> 0%Qc -> length (phrase_text x) <= fuel ->
  outcome strict (in_order x) (times_exponent q (bases F x)) (pick F strict fuel (rq q (phrase_operand F x))).

Lemma mapM_bare F strict q fuel (l : list (option operator * phrase)) :
  q <> 0%Qc ->
  Forall (fun p => settles_q F strict (snd p)) l ->
  Forall (fun p => plain_op (fst p) /\ spelled F (snd p) /\ bare (snd p)) l ->
  Forall (fun p => length (phrase_text (snd p)) <= fuel) l ->
  outcome strict (Forall (fun p => in_order (snd p)) l)
    (times_exponent q (concat (map (fun p => apply_op (fst p) (bases F (snd p))) l)))
    (do tss <- mapM (pick F strict fuel) (map (qraised F q) l); Ok (concat tss)).
Proof.
  intros Nq HR HL HF. induction l as [|[o x] l IH].
  - left. exists []. split; [reflexivity|]. split; [constructor|].
    split; [apply same_monomial_refl|constructor].
  - inversion HR as [|? ? R1 R2]; subst. inversion HL as [|? ? [L0 [L1 L3]] L2]; subst.
    inversion HF as [|? ? F1 F2]; subst. cbn [fst snd] in *.
    specialize (IH R2 L2 F2). cbn [map mapM concat fst snd].
    assert (q * qs o <> 0)%Qc as Ns by (apply Qc_mul_neq_0; auto using qs_neq).
    specialize (R1 L1 L3 (q * qs o)%Qc fuel Ns F1). unfold qraised at 1. cbn [fst snd].
    destruct R1 as [[ts [E [W [S O]]]]|[Hs [NO [e [He E]]]]]; rewrite E; cbn [bind].
    + destruct IH as [[us [E' [W' [S' O']]]]|[Hs [NO [e [He E']]]]].
      * destruct (mapM _ _) as [tss|]; [|discriminate E']. cbn [bind] in *. injection E' as <-.
        left. exists (ts ++ concat tss). split; [reflexivity|]. split; [now apply Forall_app|].
        split; [|intro; constructor; auto].
        rewrite times_app. apply same_monomial_app; auto.
        rewrite op_times_one, times_times by auto using bases_one. now rewrite Qcmult_comm.
      * right. split; auto. split; [intro H; inversion H; auto|]. exists e. split; auto.
        destruct (mapM _ _) as [tss|e']; [discriminate E'|]. cbn [bind] in *. congruence.
    + right. split; auto. split; [intro H; inversion H; auto|]. exists e. auto.
Qed.

Lemma settle_bare F strict i k x0 l :
  powers_of_one F ->
  settles_q F strict x0 -> Forall (fun p => settles_q F strict (snd p)) l ->
  spelled_chain F x0 l -> bare_chain x0 l ->
  forall q fuel, q <> 0%Qc -> length (phrases_text i k x0 l) <= fuel ->
  outcome strict (chain_in_order x0 l) (times_exponent q (phrases_bases F x0 l))
    (resolve F strict (S fuel) (mkTerm 1 (phrases_text i k x0 l) q)).
Proof.
  intros P R0 R [L0 L] [B0 B] q fuel Nq Hf. rewrite resolve_S. cbn [expo base coef].
  rewrite loop_bare by (auto; split; auto).
  assert (outcome strict (Forall (fun p => in_order (snd p)) ((None, x0) :: opped l))
    (times_exponent q (concat (map (fun p => apply_op (fst p) (bases F (snd p))) ((None, x0) :: opped l))))
    (do tss <- mapM (pick F strict fuel) (map (qraised F q) ((None, x0) :: opped l)); Ok (concat tss))) as O.
  { unfold phrases_text in Hf. rewrite !app_length in Hf. apply mapM_bare; auto.
    - constructor; auto. apply Forall_forall. intros p I. apply in_map_iff in I as [r [<- I]].
      rewrite Forall_forall in R. now apply R.
    - constructor; [split; [discriminate|auto]|]. apply Forall_forall. intros p I. apply in_map_iff in I as [r [<- I]].
      rewrite Forall_forall in *. split; [apply joint_plain|]. split; [now apply L|now apply (B r)].
    - constructor; [cbn [snd]; lia|]. apply phrase_lengths. lia. }
  set (v := if strict then violation None (joints l) else None).
  destruct v as [e|] eqn:V; cbn [bind].
  - right. unfold v in V. destruct strict; [|discriminate]. split; auto.
    split; [intros [H _]; congruence|]. exists e. eauto using violation_kind.
  - destruct O as [[ts [E [W [S O]]]]|[Hs [NO [e [He E]]]]].
    + destruct (mapM _ _) as [tss|]; [|discriminate E]. cbn [bind] in *. injection E as E.
      left. exists (concat tss ++ [init 1 [] 1]). split; [reflexivity|]. split; [|split].
      * apply Forall_app. split; [now rewrite E|]. constructor; auto using wf_init.
      * change (init 1 [] 1) with (mkTerm 1 (lit "1") 1). rewrite E. apply same_neutral.
        assert (phrases_bases F x0 l = concat (map (fun p => apply_op (fst p) (bases F (snd p))) ((None, x0) :: opped l))) as ->; auto.
        unfold phrases_bases, opped. cbn [map concat fst snd apply_op]. f_equal. rewrite map_map. f_equal.
        apply map_ext. intro. apply joined_op.
      * intro Hs. specialize (O Hs). inversion O as [|? ? O1 O2]; subst. unfold v in V. split; [exact V|]. split; [exact O1|].
        apply Forall_forall. intros p I. rewrite Forall_forall in O2.
        apply (O2 (joint_op (fst p), snd p)). unfold opped. apply in_map_iff. eauto.
    + right. split; auto. split.
      * intros [_ [H1 H2]]. apply NO. constructor; auto. apply Forall_forall. intros p I.
        apply in_map_iff in I as [r [<- I]]. rewrite Forall_forall in H2. now apply H2.
      * exists e. split; auto. destruct (mapM _ _) as [tss|e']; [discriminate E|].
        cbn [bind] in *. congruence.
Qed.

Lemma settles_q_all F strict x : powers_of_one F -> settles_q F strict x.
Proof.
  intro P. induction x as [x|i k x0 l p IH0 IH] using phrase_ind'; intros L B q fuel Nq Hf.
  - left. exists [raise_q q (simple_term F x)]. split; [reflexivity|].
    split; [constructor; auto; apply wf_raise_q; auto; exact (wf_phrase F (Simply x) L)|].
    split; [apply same_monomial_refl|]. simpl; auto.
  - apply spelled_bracket in L as [Hp L]. apply bare_bracket in B. assert (Nz := proj1 Hp).
    change (pick F strict fuel (rq q (phrase_operand F (Bracket i k x0 l p))))
      with (resolve F strict fuel (mkTerm 1 (phrases_text i k x0 l) (value_of p * q))).
    change (phrase_text (Bracket i k x0 l p)) with (lit "(" ++ phrases_text i k x0 l ++ lit ")" ++ exponent_text p) in Hf.
    rewrite !app_length in Hf. cbn [lit length] in Hf. destruct fuel as [|fuel]; [simpl in Hf; lia|].
    assert (value_of p * q <> 0)%Qc as Nnm by now apply Qc_mul_neq_0.
    assert (length (phrases_text i k x0 l) <= fuel) as Hf' by (simpl in Hf; lia).
    assert (H := settle_bare F strict i k x0 l P IH0 IH L B (value_of p * q)%Qc fuel Nnm Hf').
    change (bases F (Bracket i k x0 l p)) with (times_exponent (value_of p) (phrases_bases F x0 l)). rewrite times_times.
    destruct H as [[ts [E [W [S O]]]]|[Hs [NO E]]].
    + left. exists ts. split; [auto|]. split; [auto|]. split; [auto|].
      intro Hs. apply order_bracket. auto.
    + right. split; auto. split; auto. intro H. apply NO, (order_bracket i k x0 l p), H.
Qed.

Theorem parse_bare F strict i k x0 l :
  powers_of_one F -> spelled_chain F x0 l -> bare_chain x0 l ->
  outcome strict (chain_in_order x0 l) (phrases_bases F x0 l) (parse F strict (phrases_text i k x0 l)).
Proof.
  intros P L B. unfold parse. rewrite <- (times_1 (phrases_bases F x0 l)).
  assert (phrases_text i k x0 l <> []) as Nt by (eapply phrases_nonempty; apply L).
  rewrite init_id by (auto; discriminate). cbn [base].
  apply settle_bare; auto; try discriminate.
  - now apply settles_q_all.
  - apply Forall_forall. intros. now apply settles_q_all.
Qed.

(** * Square roots *)

Lemma gloop_lead F strict e i j k t0 o0 l fuel :
  reads_any F t0 o0 -> Forall (gtok_ok F) l -> length l + 1 < fuel ->
  parse_loop F strict e fuel (root_text i j ++ t0 ++ gtail l ++ blanks k) None
  = loop_spec F strict e None ((Some Sqrt, (t0, o0)) :: spec_of l).
Proof.
  intros R Hl Hf. destruct fuel as [|fuel]; [lia|].
  assert (okafter (gtail l)) as Hr by (eapply gtail_after; eauto).
  rewrite parse_loop_S.
  2: { destruct R as [Nt _]. intro E. apply app_eq_nil in E as [_ E]. apply app_eq_nil in E as [E _]. congruence. }
  destruct (any_parts F t0 o0 _ R Hr) as [H1 _].
  rewrite op_root.
  2: { rewrite app_assoc. apply head_ok_app; auto. destruct R as [Hn _]. destruct t0; [congruence|discriminate]. }
  cbv iota beta. cbn [loop_spec].
  destruct (operator_error _ _ _); auto.
  change (t0 ++ gtail l ++ blanks k) with (blanks 0 ++ t0 ++ gtail l ++ blanks k).
  rewrite (padded_parse F t0 o0 _ _ _ R Hr). cbn [bind].
  destruct (lift_pow _ o0); auto. cbn [bind]. destruct (evaluate F _ _); auto. cbn [bind].
  rewrite gloop by (auto; lia). reflexivity.
Qed.

Definition ltoks (F : flops) (l : list (link * phrase)) : list gtok :=
  map (fun p => (fst p, (phrase_text (snd p), phrase_operand F (snd p)))) l.

Lemma ltoks_text F l : gtail (ltoks F l) = concat (map (fun p => link_text (fst p) ++ phrase_text (snd p)) l).
Proof. unfold gtail, ltoks. rewrite map_map. reflexivity. Qed.

Lemma ltoks_ok F l :
  Forall (fun p => link_fits F (fst p) (snd p) /\ spelled F (snd p) /\ bare (snd p)) l -> Forall (gtok_ok F) (ltoks F l).
Proof.
  intro H. apply Forall_forall. intros p I. apply in_map_iff in I as [q [<- I]].
  rewrite Forall_forall in H. apply H in I as [H1 [H2 _]]. split; cbn [fst snd].
  - destruct (fst q); cbn [link_follows link_fits] in *; auto. eapply spelled_follows; eauto.
  - now apply phrase_ok.
Qed.

(** The factor an operator puts on exponents. *)
Definition qop (o : option operator) : Qc :=
  match o with Some Divide => (- (1))%Qc | Some Sqrt => Q2Qc (1 # 2) | _ => 1%Qc end.
Lemma qop_neq o : qop o <> 0%Qc.
Proof. destruct o as [[]|]; discriminate. Qed.

Lemma operand_exponent F x : expo (term_of (phrase_operand F x)) = written_exponent F x.
Proof. destruct x; reflexivity. Qed.

Lemma op_step F x op : powers_of_one F -> spelled F x -> bare x -> (op = Some Sqrt -> exact_half F x) ->
  (do o1 <- lift_pow (fun t => term_pow F t 1) (phrase_operand F x); evaluate F op o1)
  = Ok (rq (qop op) (phrase_operand F x)).
Proof.
  intros P Sx Bx Hx. assert (W := wf_phrase F x Sx). assert (O := bare_one F x Bx).
  assert (forall o : operand, rq 1 o = o) as R1.
  { intros [[c b e]|[c b e]]; simpl; unfold raise_q; simpl; do 2 f_equal; ring. }
  rewrite rq_lift by (auto; discriminate). cbn [bind]. rewrite R1.
  destruct op as [[]|]; cbn [evaluate qop]; try (now rewrite R1).
  - rewrite rq_lift by (auto; discriminate). reflexivity.
  - destruct (Hx eq_refl) as [H1 H2]. rewrite <- operand_exponent in H1, H2.
    assert (term_fpow F (term_of (phrase_operand F x)) (Q2Qc (1 # 2)) = Ok (raise_q (Q2Qc (1 # 2)) (term_of (phrase_operand F x)))) as T.
    { unfold term_fpow, frac_fpow. unfold one in O. rewrite O, P. cbn [bind]. rewrite H1, H2.
      destruct (wf_raise_q (Q2Qc (1 # 2)) _ ltac:(discriminate) W) as [_ [W2 _]]. destruct W as [_ [_ W3]].
      rewrite init_id by (auto; discriminate). unfold raise_q. now rewrite O. }
    destruct (phrase_operand F x) as [t|t]; cbn [lift_pow rq term_of] in *; now rewrite T.
Qed.

Definition oraised (F : flops) (p : option operator * phrase) : operand := rq (qop (fst p)) (phrase_operand F (snd p)).

Lemma loop_spec_rooted F strict l : powers_of_one F ->
  Forall (fun p => spelled F (snd p) /\ bare (snd p) /\ (fst p = Some Sqrt -> exact_half F (snd p))) l ->
  forall prev,
  loop_spec F strict 1 prev (otoks F l)
  = match (if strict then violation prev (map fst l) else None) with
    | Some e => Err e
    | None => Ok (map (oraised F) l)
    end.
Proof.
  intros P. induction 1 as [|[op x] l [Sx [Bx Hx]] _ IH]; intro prev.
  - destruct strict; reflexivity.
  - cbn [fst snd] in *. cbn [otoks map loop_spec fst snd]. fold (otoks F l).
    assert (R := op_step F x op P Sx Bx Hx).
    assert (forall K : operand -> res (list operand),
      (do o1 <- lift_pow (fun t => term_pow F t 1) (phrase_operand F x);
       do o2 <- evaluate F op o1; K o2) = K (rq (qop op) (phrase_operand F x))) as R'.
    { intro K. destruct (lift_pow _ _); [|discriminate R]. cbn [bind] in *. now rewrite R. }
    rewrite (R' (fun o2 => do more <- loop_spec F strict 1 op (otoks F l); Ok (o2 :: more))).
    rewrite (IH op). unfold operator_error. destruct strict; [|reflexivity].
    cbn [violation]. destruct prev as [[]|], op as [[]|]; auto;
      destruct (violation _ _); reflexivity.
Qed.

Lemma mapM_rooted F strict fuel (l : list (option operator * phrase)) :
  powers_of_one F ->
  Forall (fun p => spelled F (snd p) /\ bare (snd p)) l ->
  Forall (fun p => length (phrase_text (snd p)) <= fuel) l ->
  outcome strict (Forall (fun p => in_order (snd p)) l)
    (concat (map (fun p => times_exponent (qop (fst p)) (bases F (snd p))) l))
    (do tss <- mapM (pick F strict fuel) (map (oraised F) l); Ok (concat tss)).
Proof.
  intros P HL HF. induction l as [|[o x] l IH].
  - left. exists []. split; [reflexivity|]. split; [constructor|].
    split; [apply same_monomial_refl|constructor].
  - inversion HL as [|? ? [L1 L3] L2]; subst.
    inversion HF as [|? ? F1 F2]; subst. cbn [fst snd] in *.
    specialize (IH L2 F2). cbn [map mapM concat fst snd].
    assert (R1 := settles_q_all F strict x P L1 L3 (qop o) fuel (qop_neq o) F1). unfold oraised at 1. cbn [fst snd].
    destruct R1 as [[ts [E [W [S O]]]]|[Hs [NO [e [He E]]]]]; rewrite E; cbn [bind].
    + destruct IH as [[us [E' [W' [S' O']]]]|[Hs [NO [e [He E']]]]].
      * destruct (mapM _ _) as [tss|]; [|discriminate E']. cbn [bind] in *. injection E' as <-.
        left. exists (ts ++ concat tss). split; [reflexivity|]. split; [now apply Forall_app|].
        split; [|intro; constructor; auto]. apply same_monomial_app; auto.
      * right. split; auto. split; [intro H; inversion H; auto|]. exists e. split; auto.
        destruct (mapM _ _) as [tss|e']; [discriminate E'|]. cbn [bind] in *. congruence.
    + right. split; auto. split; [intro H; inversion H; auto|]. exists e. auto.
Qed.

Definition lead_op (lead : option nat) : option operator := match lead with Some _ => Some Sqrt | None => None end.
Definition linked_ops (l : list (link * phrase)) : list (option operator * phrase) :=
  map (fun p => (link_op (fst p), snd p)) l.

Lemma loop_rooted F strict lead i k x0 l :
  powers_of_one F -> rooted_chain F lead x0 l ->
  parse_loop F strict 1 (S (length (rooted_text lead i k x0 l))) (rooted_text lead i k x0 l) None
  = match (if strict then violation None (map (fun p => link_op (fst p)) l) else None) with
    | Some e => Err e
    | None => Ok (map (oraised F) ((lead_op lead, x0) :: linked_ops l))
    end.
Proof.
  intros P [H0 [B0 [E0 Hl]]]. assert (K := ltoks_ok F l Hl). assert (G := gchain_length F _ K).
  destruct (phrase_ok F x0 H0) as [R _].
  assert (parse_loop F strict 1 (S (length (rooted_text lead i k x0 l))) (rooted_text lead i k x0 l) None
          = loop_spec F strict 1 None (otoks F ((lead_op lead, x0) :: linked_ops l))) as ->.
  { unfold rooted_text. rewrite <- (ltoks_text F).
    assert (spec_of (ltoks F l) = otoks F (linked_ops l)) as E.
    { unfold spec_of, ltoks, otoks, linked_ops. rewrite !map_map. reflexivity. }
    assert (phrase_text x0 <> []) as Nt by apply R.
    destruct lead as [j|].
    - rewrite (gloop_lead F strict _ _ _ _ _ (phrase_operand F x0)); auto.
      + rewrite E. reflexivity.
      + rewrite !app_length. destruct (phrase_text x0); [congruence|]. cbn [length]. lia.
    - rewrite (gloop_chain F strict _ _ _ _ (phrase_operand F x0)); auto.
      + rewrite E. reflexivity.
      + rewrite !app_length. destruct (phrase_text x0); [congruence|]. cbn [length]. lia. }
  rewrite loop_spec_rooted; auto.
  - assert (violation None (map fst ((lead_op lead, x0) :: linked_ops l)) = violation None (map (fun p => link_op (fst p)) l)) as ->; auto.
    unfold linked_ops. cbn [map fst]. rewrite map_map. cbn [fst]. destruct lead; cbn [lead_op violation]; auto.
    destruct (map (fun x : link * phrase => link_op (fst x)) l) as [|[[]|] ?]; reflexivity.
  - constructor.
    + cbn [fst snd]. split; auto. split; auto. intro E. apply E0. destruct lead; discriminate.
    + apply Forall_forall. intros p I. apply in_map_iff in I as [r [<- I]]. rewrite Forall_forall in Hl.
      destruct (Hl r I) as [H1 [H2 H3]]. cbn [fst snd]. split; auto. split; auto. intro E.
      destruct (fst r) as [j|? ?]; [|exact H1]. destruct j; discriminate E.
Qed.

Theorem parse_rooted F strict lead i k x0 l :
  powers_of_one F -> rooted_chain F lead x0 l ->
  outcome strict (rooted_in_order x0 l) (rooted_bases F lead x0 l) (parse F strict (rooted_text lead i k x0 l)).
Proof.
  intros P L. assert (L' := L). destruct L' as [L0 [B0 [E0 L1]]]. unfold parse.
  assert (rooted_text lead i k x0 l <> []) as Nt.
  { destruct (phrase_ok F x0 L0) as [[N1 _] _]. unfold rooted_text. intro E. apply app_eq_nil in E as [_ E].
    apply app_eq_nil in E as [E _]. auto. }
  rewrite init_id by (auto; discriminate). cbn [base]. rewrite resolve_S. cbn [expo base coef].
  rewrite loop_rooted by auto.
  assert (outcome strict (Forall (fun p => in_order (snd p)) ((lead_op lead, x0) :: linked_ops l))
    (concat (map (fun p => times_exponent (qop (fst p)) (bases F (snd p))) ((lead_op lead, x0) :: linked_ops l)))
    (do tss <- mapM (pick F strict (length (rooted_text lead i k x0 l))) (map (oraised F) ((lead_op lead, x0) :: linked_ops l)); Ok (concat tss))) as O.
  { apply mapM_rooted; auto.
    - constructor; auto. apply Forall_forall. intros p I. apply in_map_iff in I as [r [<- I]].
      rewrite Forall_forall in L1. now apply (L1 r).
    - assert (length (phrase_text x0 ++ concat (map (fun p => link_text (fst p) ++ phrase_text (snd p)) l))
              <= length (rooted_text lead i k x0 l)) as Q.
      { unfold rooted_text. rewrite !app_length. lia. }
      rewrite app_length in Q. constructor; [cbn [snd]; lia|].
      revert Q. generalize (length (rooted_text lead i k x0 l)). clear. intros n Q.
      assert (length (concat (map (fun p => link_text (fst p) ++ phrase_text (snd p)) l)) <= n) as Q' by lia. clear Q.
      induction l as [|p l IH]; [constructor|]. cbn [map concat] in Q'. rewrite !app_length in Q'. constructor.
      + cbn [snd]. lia.
      + apply IH. lia. }
  set (v := if strict then violation None (map (fun p => link_op (fst p)) l) else None).
  destruct v as [e|] eqn:V; cbn [bind].
  - right. unfold v in V. destruct strict; [|discriminate]. split; auto.
    split; [intros [H _]; congruence|]. exists e. eauto using violation_kind.
  - destruct O as [[ts [E [W [S O]]]]|[Hs [NO [e [He E]]]]].
    + destruct (mapM _ _) as [tss|]; [|discriminate E]. cbn [bind] in *. injection E as E.
      left. exists (concat tss ++ [init 1 [] 1]). split; [reflexivity|]. split; [|split].
      * apply Forall_app. split; [now rewrite E|]. constructor; auto using wf_init.
      * change (init 1 [] 1) with (mkTerm 1 (lit "1") 1). rewrite E. apply same_neutral.
        assert (rooted_bases F lead x0 l = concat (map (fun p => times_exponent (qop (fst p)) (bases F (snd p))) ((lead_op lead, x0) :: linked_ops l))) as ->; auto.
        unfold rooted_bases, linked_ops. cbn [map concat fst snd]. f_equal.
        -- destruct lead; cbn [lead_op qop]; [reflexivity|now rewrite times_1].
        -- rewrite map_map. f_equal. apply map_ext_in. intros p I. cbn [fst snd]. rewrite Forall_forall in L1.
           destruct (L1 p I) as [_ [_ B]]. destruct (fst p) as [j|? ?]; cbn [linked link_op]; [|reflexivity].
           rewrite joined_op, op_times_one by auto using joint_plain, bases_one. f_equal. destruct j; reflexivity.
      * intro Hs. specialize (O Hs). inversion O as [|? ? O1 O2]; subst. unfold v in V. split; [exact V|]. split; [exact O1|].
        apply Forall_forall. intros p I. rewrite Forall_forall in O2.
        apply (O2 (link_op (fst p), snd p)). unfold linked_ops. apply in_map_iff. eauto.
    + right. split; auto. split.
      * intros [_ [H1 H2]]. apply NO. constructor; auto. apply Forall_forall. intros p I.
        apply in_map_iff in I as [r [<- I]]. rewrite Forall_forall in H2. now apply H2.
      * exists e. split; auto. destruct (mapM _ _) as [tss|e']; [discriminate E|].
        cbn [bind] in *. congruence.
Qed.
