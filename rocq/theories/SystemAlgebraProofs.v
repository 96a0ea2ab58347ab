(** Products and powers of expressions with half-integral exponents. *)

From Coq Require Import String Ascii List Bool ZArith QArith Qcanon Qpower Znumtheory Lia.
From Verif Require Import Py PyFacts SymbolicModel SymbolicSpec SymbolicReduceProofs SymbolicParseProofs
  SymbolicChainProofs SymbolicExprProofs SymbolicLawProofs MetricTables MetricModel SystemModel.
Import ListNotations.
Open Scope list_scope.

(** * Rounding is exact on half-integers *)

Lemma round_pos_exact n j : (0 < n)%Z -> (Z.log2 n <= 52)%Z -> (0 <= j <= 1)%Z ->
  (round64_pos n (2 ^ j) * inject_Z (2 ^ j) == inject_Z n)%Q.
Proof.
  intros Hn L J. unfold round64_pos. rewrite Z.log2_pow2 by lia.
  set (e := (Z.log2 n - j - 52)%Z). assert (0 <= Z.log2 n)%Z as L0 by apply Z.log2_nonneg.
  assert (scaled n (2 ^ j) e = (n * 2 ^ (- e), 2 ^ j)%Z) as Es.
  { unfold scaled. destruct (Z.leb_spec 0 e) as [H|H]; [|reflexivity].
    assert (e = 0)%Z as -> by (unfold e in *; lia). now rewrite Z.opp_0, Z.pow_0_r, !Z.mul_1_r. }
  assert (n * 2 ^ (- e) = n * 2 ^ (- e - j) * 2 ^ j)%Z as Ed.
  { rewrite <- Z.mul_assoc, <- Z.pow_add_r by (unfold e; lia). f_equal. f_equal. lia. }
  assert (2 ^ j <> 0)%Z as Nj by (apply Z.pow_nonzero; lia).
  rewrite Es.
  assert (n * 2 ^ (- e) / 2 ^ j = n * 2 ^ (- e - j))%Z as Eq by (rewrite Ed; now apply Z.div_mul).
  assert (n * 2 ^ (- e) / 2 ^ j <? 2 ^ 52 = false)%Z as ->.
  { apply Z.ltb_ge. rewrite Eq. pose proof (Z.log2_spec n Hn) as [H _].
    apply Z.le_trans with (2 ^ Z.log2 n * 2 ^ (- e - j))%Z.
    - rewrite <- Z.pow_add_r by (unfold e; lia). apply Z.pow_le_mono_r; unfold e; lia.
    - apply Z.mul_le_mono_nonneg_r; auto. apply Z.pow_nonneg. lia. }
  rewrite Es.
  assert (round_half_even (n * 2 ^ (- e)) (2 ^ j) = n * 2 ^ (- e - j))%Z as ->.
  { unfold round_half_even. rewrite Eq. assert ((n * 2 ^ (- e)) mod 2 ^ j = 0)%Z as -> by (rewrite Ed; now apply Z.mod_mul).
    assert (2 * 0 <? 2 ^ j = true)%Z as -> by (apply Z.ltb_lt; assert (0 < 2 ^ j)%Z by (apply Z.pow_pos_nonneg; lia); lia).
    reflexivity. }
  rewrite inject_Z_mult, !Zpower_Qpower by (unfold e; lia). rewrite <- !Qmult_assoc. rewrite <- !Qpower_plus by discriminate.
  assert ((- e - j) + (e + j) = 0)%Z as -> by lia. cbn. ring.
Qed.

(** A half-integer [k/2] with [|k|] at most [B]. *)
Definition halves (B : Z) (q : Qc) : Prop := exists k, (q * Qc_of_Z 2)%Qc = Qc_of_Z k /\ (Z.abs k <= B)%Z.

Lemma double_half q k : (q * Qc_of_Z 2)%Qc = Qc_of_Z k -> q = Q2Qc (k # 2).
Proof.
  intro H. apply Qc_is_canon. cbn [this Q2Qc]. rewrite Qred_correct.
  assert (this (q * Qc_of_Z 2)%Qc == this (Qc_of_Z k))%Q as E by now rewrite H.
  unfold Qcmult, Qc_of_Z in E. cbn [this Q2Qc] in E. rewrite !Qred_correct in E.
  rewrite <- (Qmult_inj_r _ _ (2 # 1)) by discriminate. rewrite E. unfold Qeq. cbn. lia.
Qed.
Lemma half_parts q k : (q * Qc_of_Z 2)%Qc = Qc_of_Z k ->
  (exists n, k = (2 * n)%Z /\ Qc_num q = n /\ Qc_den q = 1%positive)
  \/ (Z.odd k = true /\ Qc_num q = k /\ Qc_den q = 2%positive).
Proof.
  intro H. apply double_half in H. subst q. destruct (Z.odd k) eqn:O.
  - right. split; [reflexivity|]. assert (Qred (k # 2) = (k # 2)) as E.
    { apply Qred_identity. cbn [Qnum Qden]. apply Zgcd_1_rel_prime. apply rel_prime_sym.
      apply prime_rel_prime; [exact prime_2|]. intros [c Hc]. rewrite Hc, Z.odd_mul in O. cbn in O.
      rewrite andb_false_r in O. discriminate. }
    unfold Qc_num, Qc_den, Q2Qc. cbn [this]. rewrite E. auto.
  - left. exists (k / 2)%Z. assert (k = 2 * (k / 2))%Z as Ek.
    { rewrite <- Z.negb_even in O. apply negb_false_iff in O. apply Z.even_spec in O as [m ->].
      rewrite (Z.mul_comm 2 m), Z.div_mul by lia. lia. }
    split; [exact Ek|]. assert (Q2Qc (k # 2) = Qc_of_Z (k / 2)) as ->.
    { apply Qc_is_canon. unfold Qc_of_Z. cbn [this Q2Qc]. rewrite !Qred_correct. unfold Qeq. cbn [Qnum Qden inject_Z]. lia. }
    split; [apply Qc_num_of_Z|apply Qc_den_of_Z].
Qed.

Lemma halves_den B q : halves B q -> (Zpos (Qc_den q) < 10)%Z.
Proof. intros (k & H & _). destruct (half_parts q k H) as [(n & _ & _ & ->)|(_ & _ & ->)]; lia. Qed.

Lemma round_pos_exact' n d : (0 < n)%Z -> (n <= 2 ^ 52)%Z -> d = 1%positive \/ d = 2%positive ->
  (round64_pos n (Zpos d) == n # d)%Q.
Proof.
  intros Hn L D. assert (Z.log2 n <= 52)%Z as L2.
  { rewrite <- (Z.log2_pow2 52) by lia. now apply Z.log2_le_mono. }
  destruct D as [->| ->].
  - pose proof (round_pos_exact n 0 Hn L2 ltac:(lia)) as H. rewrite Z.pow_0_r in H.
    rewrite Qmult_1_r in H. rewrite H. reflexivity.
  - pose proof (round_pos_exact n 1 Hn L2 ltac:(lia)) as H. rewrite Z.pow_1_r in H.
    rewrite <- (Qmult_inj_r _ _ (inject_Z 2)) by discriminate. rewrite H. unfold Qeq. cbn. lia.
Qed.

Lemma round_exact q : (Z.abs (Qc_num q) <= 2 ^ 52)%Z -> Qc_den q = 1%positive \/ Qc_den q = 2%positive -> round64 q = q.
Proof.
  intros L D. unfold round64. destruct (Qc_num q) as [|p|p] eqn:N.
  - apply Qc_is_canon. cbn [this]. unfold Qc_num in N. unfold Qeq. rewrite N. reflexivity.
  - apply Qc_is_canon. cbn [this Q2Qc]. rewrite Qred_correct, round_pos_exact' by (auto; lia).
    unfold Qc_num, Qc_den in *. rewrite <- N. now destruct (this q).
  - apply Qc_is_canon. unfold Qcopp. cbn [this Q2Qc]. rewrite !Qred_correct, round_pos_exact' by (auto; cbn in L; lia).
    unfold Qc_num, Qc_den in *. destruct q as [[a b] c]. cbn [this Qnum Qden] in *. subst a. unfold Qeq. cbn. lia.
Qed.
Lemma halves_exact B q : (B <= 2 ^ 52)%Z -> halves B q -> round64 q = q.
Proof.
  intros HB (k & H & L). apply round_exact.
  - destruct (half_parts q k H) as [(n & -> & -> & _)|(_ & -> & _)]; lia.
  - destruct (half_parts q k H) as [(n & _ & _ & ->)|(_ & _ & ->)]; auto.
Qed.

Lemma halves_le A B q : (A <= B)%Z -> halves A q -> halves B q.
Proof. intros L (k & H & K). exists k. split; auto. lia. Qed.
Lemma halves_add A B p q : halves A p -> halves B q -> halves (A + B) (p + q)%Qc.
Proof.
  intros (k & H & K) (l & I & L). exists (k + l)%Z. split; [|lia]. rewrite Qc_of_Z_add, <- H, <- I. ring.
Qed.
Lemma halves_scale A p n : halves A p -> halves (A * Z.abs n) (p * Qc_of_Z n)%Qc.
Proof.
  intros (k & H & K). exists (k * n)%Z. split; [rewrite Qc_of_Z_mul, <- H; ring|]. rewrite Z.abs_mul.
  apply Z.mul_le_mono_nonneg_r; lia.
Qed.
Lemma halves_0 B : (0 <= B)%Z -> halves B 0%Qc.
Proof. intro. exists 0%Z. split; [ring_simplify; reflexivity|]. lia. Qed.
Lemma halves_Z n : halves (2 * Z.abs n) (Qc_of_Z n).
Proof. exists (n * 2)%Z. split; [now rewrite Qc_of_Z_mul|]. lia. Qed.

(** * Expressions without constants *)

(** Terms with coefficient 1, a half-integral exponent and a base that can be
    written (or the unit 1). *)
Definition plain (t : term) : Prop :=
  coef t = 1%Qc /\ (exists B, halves B (expo t))
  /\ (base t = lit "1" \/ (legal_base (base t) /\ ~ starts_with (lit "sqrt") (base t))).
(** Expressions in canonical form made of such terms. *)
Definition fine (x : list term) : Prop := canonical x /\ Forall wf x /\ Forall plain x.

Lemma fine_nonempty x : fine x -> x <> [].
Proof. intros [C _]. now apply canonical_wf_nonempty. Qed.

Lemma total_coef_plain ts : Forall plain ts -> total_coef ts = 1%Qc.
Proof.
  induction 1 as [|t ts [H _] _ IH]; [reflexivity|]. rewrite total_coef_cons, H, IH. ring.
Qed.
Lemma total_halves ts : Forall plain ts -> forall b, exists B, halves B (total_expo b ts).
Proof.
  induction 1 as [|t ts (_ & (B & HB) & _) _ IH]; intro b.
  - exists 0%Z. rewrite total_expo_nil. now apply halves_0.
  - rewrite total_expo_cons. destruct (IH b) as (C & HC). destruct (str_eqb b (base t)).
    + exists (B + C)%Z. now apply halves_add.
    + exists (0 + C)%Z. apply halves_add; [now apply halves_0|exact HC].
Qed.

Lemma one_halves : halves 2 1%Qc.
Proof. exists 2%Z. split; [ring|lia]. Qed.
Lemma fl_one : fl F64 1 = 1%Qc.
Proof. apply (halves_exact 2 1); [lia|exact one_halves]. Qed.
Lemma plain_one : plain (mkTerm 1 (lit "1") 1).
Proof. split; [reflexivity|]. split; [exists 2%Z; exact one_halves|now left]. Qed.

(** Every nonempty list of plain terms has a canonical form made of plain
    terms. *)
Lemma fine_of ts z : Forall wf ts -> Forall plain ts -> ts <> [] -> canonical z -> same_monomial z ts -> fine z.
Proof.
  intros W P N C [Sc Se].
  assert (Forall wf z) as Wz by (eapply (canonical_of_wf ts); eauto; split; auto).
  split; [exact C|]. split; [exact Wz|].
  destruct (canonical_parts z C) as (vs & Hv & Nv & _ & Ez & Tz).
  rewrite Sc, (total_coef_plain ts P), Qc_eqb_refl in Ez.
  assert (Forall plain vs) as Pv.
  { apply Forall_forall. intros t I. rewrite Forall_forall in Hv. destruct (Hv t I) as (Hb & H1 & H0).
    assert (expo t = total_expo (base t) ts) as E.
    { rewrite <- (total_expo_In vs t Nv I), Tz by auto. now apply Se. }
    split; [exact H1|]. split; [rewrite E; now apply total_halves|]. right.
    destruct (in_dec str_eq_dec (base t) (map base ts)) as [J|J].
    - apply in_map_iff in J as (u & Eu & J). rewrite Forall_forall in P. destruct (P u J) as (_ & _ & [Hu|Hu]); [congruence|].
      now rewrite <- Eu.
    - exfalso. apply H0. rewrite E. apply total_expo_zero. intros u J' Eu. apply J. apply in_map_iff. eauto. }
  rewrite Ez. destruct vs as [|v vs]; [constructor; [exact plain_one|constructor]|exact Pv].
Qed.

Lemma fine_exists ts : Forall wf ts -> Forall plain ts -> ts <> [] ->
  exists z, reduce ts = Ok z /\ fine z /\ same_monomial z ts.
Proof.
  intros W P N. destruct (reduce_total ts N) as [z R]. exists z. split; [exact R|].
  assert (same_monomial z ts) as Sz by (now apply reduce_same).
  split; [|exact Sz]. apply (fine_of ts); auto. eapply reduce_canonical; eauto.
Qed.

Lemma fine_unique x y : fine x -> fine y -> (forall b, b <> lit "1" -> total_expo b x = total_expo b y) -> x = y.
Proof.
  intros (Cx & _ & Px) (Cy & _ & Py) H. apply canonical_unique; auto. split; auto.
  now rewrite !total_coef_plain.
Qed.

(** What is written in plain terms is read back. *)
Lemma fine_printable x : fine x -> Forall (printable F64) x.
Proof.
  intros (C & _ & P). destruct (canonical_parts x C) as (vs & Hv & _ & _ & Ez & _).
  rewrite (total_coef_plain x P), Qc_eqb_refl in Ez.
  rewrite Forall_forall in *. intros t I. destruct (P t I) as (H1 & (B & H2) & H3).
  split; [eapply halves_den; eauto|]. rewrite H1. split; [reflexivity|]. split; [exact fl_one|].
  destruct vs as [|v vs].
  - rewrite Ez in I. destruct I as [<-|[]]. left. auto.
  - right. rewrite Ez in I. destruct (Hv t I) as (Hb & _). destruct H3; [congruence|]. auto.
Qed.

Lemma plain_app x y : Forall plain x -> Forall plain y -> Forall plain (x ++ y).
Proof. intros. apply Forall_app. auto. Qed.

(** * Products, powers and lists *)

Lemma mul_fine x y : fine x -> fine y ->
  exists z, expr_mul F64 x y = Ok z /\ fine z /\ same_monomial z (x ++ y).
Proof.
  intros Fx Fy. assert (x ++ y <> []) as N by (apply app_not_nil; now apply fine_nonempty).
  destruct Fx as (Cx & Wx & Px), Fy as (Cy & Wy & Py).
  destruct (fine_exists (x ++ y)) as (z & _ & Fz & Sz); [apply Forall_app; auto|now apply plain_app|exact N|].
  exists z. split; [|auto]. apply product_ok; auto; [now destruct Fz|]. now apply fine_printable.
Qed.

Lemma plain_power n x : Forall plain x -> Forall plain (power n x).
Proof.
  unfold power. intro P. apply Forall_forall. intros t I. apply in_map_iff in I as (u & <- & I).
  rewrite Forall_forall in P. destruct (P u I) as (H1 & (B & H2) & H3). split; [|split]; cbn [coef expo base].
  - rewrite H1. apply Qc_zpow_1_l.
  - exists (B * Z.abs n)%Z. now apply halves_scale.
  - exact H3.
Qed.
Lemma pow_fine x n B : fine x -> n <> 0%Z -> Forall (fun t => halves B (expo t)) x -> (B * (1 + Z.abs n) <= 2 ^ 52)%Z ->
  exists z, expr_pow F64 x (Qc_of_Z n) = Ok z /\ fine z /\ same_monomial z (power n x).
Proof.
  intros Fx Nn H L. assert (x <> []) as N by now apply fine_nonempty. assert (FX := Fx). destruct Fx as (Cx & Wx & Px).
  assert (0 <= B)%Z as B0.
  { destruct x as [|t x]; [congruence|]. inversion H as [|? ? (k & _ & K) _]; subst. lia. }
  destruct (fine_exists (power n x)) as (z & _ & Fz & Sz).
  - now apply wf_power.
  - now apply plain_power.
  - intro E. apply map_eq_nil in E. auto.
  - exists z. split; [|auto]. apply power_ok; auto; [|now destruct Fz|now apply fine_printable].
    rewrite Forall_forall in *. intros t I. destruct (Px t I) as (H1 & _). split; [|split].
    + rewrite H1. cbn [fpow F64]. rewrite Qc_is_int_of_Z, Qc_num_of_Z.
      assert (round64 1 = 1%Qc) as R1 by exact fl_one.
      now rewrite R1, !Qc_zpow_1_l, R1.
    + apply (halves_exact B); [nia|]. auto.
    + apply (halves_exact (B * Z.abs n)); [nia|]. now apply halves_scale, H.
Qed.

Lemma terms_fine ts : Forall wf ts -> Forall plain ts -> Forall (fun t => base t <> lit "1") ts -> ts <> [] ->
  exists z, expression_of_terms F64 ts = Ok z /\ fine z /\ same_monomial z ts.
Proof.
  intros W P B N. destruct (fine_exists ts W P N) as (z & _ & Fz & Sz). exists z. split; [|auto].
  apply terms_read; auto; [|now destruct Fz].
  rewrite Forall_forall in *. intros t I. destruct (P t I) as (H1 & (C & H2) & H3).
  split; [eapply halves_den; eauto|]. rewrite H1. split; [reflexivity|]. split; [exact fl_one|].
  right. split; [reflexivity|]. destruct H3; auto. now apply B in I.
Qed.

Lemma written_chain x : fine x -> exists x0 l, chain_text x0 l = expr_format F64 x /\ legal_chain F64 x0 l
  /\ chain_denote x0 l = x.
Proof.
  intro Fx. assert (Forall (printable F64) x) as Pr by now apply fine_printable.
  assert (x <> []) as N by now apply fine_nonempty. destruct Fx as (_ & W & _).
  destruct x as [|t ts]; [congruence|]. inversion W as [|? ? Wt Wts]; subst. inversion Pr as [|? ? Pt Pts]; subst.
  exists (written_of t), (map (fun u => (None, written_of u)) ts).
  destruct (printable_written F64 t Wt Pt) as (L1 & T1 & D1).
  assert (forall u, In u ts -> legal F64 (written_of u) /\ text (written_of u) = format_term F64 u /\ denote (written_of u) = [u]) as G.
  { intros u I. rewrite Forall_forall in *. apply printable_written; auto. }
  split; [|split].
  - unfold chain_text, expr_format. cbn [map]. rewrite join_cons, T1, !map_map. f_equal. f_equal.
    apply map_ext_in. intros u I. cbn [fst snd sep]. f_equal. now apply G.
  - split; [exact L1|]. apply Forall_forall. intros p I. apply in_map_iff in I as (u & <- & I). split; [discriminate|]. now apply G.
  - unfold chain_denote. rewrite D1, map_map. cbn [fst snd apply_op app]. f_equal.
    clear - G. induction ts as [|u us IH]; auto. cbn [map concat]. destruct (G u) as (_ & _ & ->); [now left|].
    cbn [app]. f_equal. apply IH. intros v I. apply G. now right.
Qed.

(** A product of bracketed expressions. *)
Lemma parts_fine l : Forall fine l -> l <> [] ->
  exists z, expression_of_parts F64 l = Ok z /\ fine z /\ same_monomial z (concat l).
Proof.
  intros Fl N. assert (exists w, Forall2 (fun x g => text g = lit "(" ++ expr_format F64 x ++ lit ")"
      /\ legal F64 g /\ denote g = x) l w) as (w & Hw).
  { clear N. induction Fl as [|x l Fx _ IH]; [exists []; constructor|]. destruct IH as (w & Hw).
    destruct (written_chain x Fx) as (x0 & k & T1 & L1 & D1). exists (WGroup x0 k 1 :: w). constructor; [|exact Hw].
    split; [|split].
    - cbn [text]. change (sup (Qc_of_Z 1)) with (@nil ascii). rewrite app_nil_r, <- T1. reflexivity.
    - apply legal_group. split; [lia|exact L1].
    - cbn [denote]. rewrite power_1. exact D1. }
  assert (Forall wf (concat l) /\ Forall plain (concat l)) as [W P].
  { clear - Fl. induction Fl as [|x l (_ & Wx & Px) _ [IH1 IH2]]; [split; constructor|]. split; apply Forall_app; auto. }
  assert (concat l <> []) as Nc.
  { destruct l as [|x l]; [congruence|]. inversion Fl as [|? ? Fx _]; subst. cbn [concat]. apply app_not_nil. now apply fine_nonempty. }
  destruct (fine_exists (concat l) W P Nc) as (z & _ & Fz & Sz). exists z. split; [|auto].
  unfold expression_of_parts. destruct l as [|x l]; [congruence|]. inversion Hw as [|? g ? w' Hg Hw' E1 E2]; subst w. destruct Hg as (T1 & L1 & D1).
  assert (chain_text g (map (fun h => (Some Multiply, h)) w')
    = join (lit " * ") (map (fun e => lit "(" ++ expr_format F64 e ++ lit ")") (x :: l))) as <-.
  { unfold chain_text. cbn [map]. rewrite join_cons, T1, !map_map. f_equal. f_equal.
    clear - Hw'. induction Hw' as [|y h l w (T & _) _ IH]; [reflexivity|]. cbn [map fst snd sep]. rewrite T. f_equal. exact IH. }
  apply chain_read; [|discriminate|now destruct Fz|].
  - split; [exact L1|]. clear - Hw'. induction Hw' as [|y h l w (_ & L & _) _ IH]; constructor; auto. split; [discriminate|exact L].
  - apply same_monomial_sym. unfold chain_denote. rewrite D1, map_map. cbn [fst snd apply_op].
    assert (concat (map denote w') = concat l) as E.
    { clear - Hw'. induction Hw' as [|y h l w (_ & _ & D) _ IH]; [reflexivity|]. cbn [map concat]. rewrite D. f_equal. exact IH. }
    assert (map (fun x => denote x) w' = map denote w') as -> by reflexivity. rewrite E. exact Sz.
Qed.

(** * Linear functions of the exponents *)

Definition lin (g : str -> Qc) (ts : list term) : Qc := sumQc (map (fun t => expo t * g (base t))%Qc ts).

Lemma lin_nil g : lin g [] = 0%Qc.
Proof. reflexivity. Qed.
Lemma lin_cons g t ts : lin g (t :: ts) = (expo t * g (base t) + lin g ts)%Qc.
Proof. reflexivity. Qed.
Lemma lin_app g x y : lin g (x ++ y) = (lin g x + lin g y)%Qc.
Proof. unfold lin. now rewrite map_app, sumQc_app. Qed.
Lemma lin_power g n x : lin g (power n x) = (lin g x * Qc_of_Z n)%Qc.
Proof.
  induction x as [|t x IH]; [unfold lin; cbn; ring|]. change (power n (t :: x)) with (raise_t n t :: power n x).
  rewrite !lin_cons, IH. cbn [raise_t expo base]. ring.
Qed.
Lemma lin_ext g h x : (forall t, In t x -> g (base t) = h (base t)) -> lin g x = lin h x.
Proof.
  intro H. unfold lin. f_equal. apply map_ext_in. intros t I. now rewrite H.
Qed.
Lemma total_lin b x : total_expo b x = lin (fun c => if str_eqb b c then 1 else 0)%Qc x.
Proof.
  induction x as [|t x IH]; [reflexivity|]. rewrite total_expo_cons, lin_cons, IH. destruct (str_eqb b (base t)); ring.
Qed.
Lemma lin_value g x : lin g x = value_in Qcplus 0%Qc (fun _ => 0%Qc) (fun b p => (p * g b)%Qc) x.
Proof. induction x as [|t x IH]; [reflexivity|]. rewrite lin_cons, IH. cbn [value_in fold_right]. unfold value_in. ring. Qed.
Lemma lin_reduce g x z : g (lit "1") = 0%Qc -> Forall wf x -> reduce x = Ok z -> lin g z = lin g x.
Proof.
  intros G W R. rewrite !lin_value.
  apply (reduce_value_in Qc Qcplus 0%Qc Qcplus_assoc Qcplus_comm Qcplus_0_l (fun _ => 0%Qc) (fun b p => (p * g b)%Qc) (fun _ => True)); auto.
  - intros. ring.
  - intros. ring.
  - intros. rewrite G. ring.
  - apply Forall_forall. auto.
Qed.
Lemma lin_same g x y : g (lit "1") = 0%Qc -> Forall wf x -> Forall wf y -> x <> [] -> y <> [] -> same_monomial x y -> lin g x = lin g y.
Proof.
  intros G Wx Wy Nx Ny S. destruct (reduce_total x Nx) as [a A], (reduce_total y Ny) as [b B].
  rewrite <- (lin_reduce g x a), <- (lin_reduce g y b) by auto.
  assert (a = b) as ->; [|reflexivity]. apply canonical_unique; eauto using reduce_canonical.
  apply same_monomial_trans with x; [now apply reduce_same|]. apply same_monomial_trans with y; [exact S|].
  apply same_monomial_sym. now apply reduce_same.
Qed.

(** A linear function of powers of expressions given for each base. *)
Lemma lin_concat g h (A : term -> list term) x : (forall t, In t x -> lin g (A t) = (expo t * h (base t))%Qc) ->
  lin g (concat (map A x)) = lin h x.
Proof.
  intro H. induction x as [|t x IH]; [reflexivity|]. cbn [map concat]. rewrite lin_app, lin_cons, IH.
  - rewrite H by now left. reflexivity.
  - intros u I. apply H. now right.
Qed.

(** Bounds. *)
Definition size (ts : list term) : Z := fold_right (fun t n => Z.abs (Qc_num (expo t)) + n)%Z 0%Z ts.
Lemma size_nonneg ts : (0 <= size ts)%Z.
Proof. induction ts as [|t ts IH]; [cbn; lia|]. cbn [size fold_right]; fold (size ts); lia. Qed.
Lemma size_in ts t : In t ts -> (Z.abs (Qc_num (expo t)) <= size ts)%Z.
Proof.
  induction ts as [|u ts IH]; [intros []|]. cbn [size fold_right]; fold (size ts); pose proof (size_nonneg ts).
  intros [->|H']; [lia|]. apply IH in H'. lia.
Qed.
Definition whole (B : Z) (q : Qc) : Prop := exists n, q = Qc_of_Z n /\ (Z.abs n <= B)%Z.
Lemma whole_halves B q : whole B q -> halves (2 * B) q.
Proof. intros (n & -> & L). apply (halves_le (2 * Z.abs n)); [lia|]. apply halves_Z. Qed.
Lemma lin_whole g B ts : (0 <= B)%Z -> Forall (fun t => exists n, expo t = Qc_of_Z n) ts ->
  (forall t, In t ts -> whole B (g (base t))) -> whole (B * size ts) (lin g ts).
Proof.
  intro HB. induction 1 as [|t ts (n & E) _ IH]; intro G.
  - exists 0%Z. split; [reflexivity|]. cbn. lia.
  - rewrite lin_cons. cbn [size fold_right]. fold (size ts). destruct (G t) as (m & Em & Lm); [now left|].
    destruct IH as (k & Ek & Lk); [intros u I; apply G; now right|].
    exists (n * m + k)%Z. rewrite E, Em, Ek, Qc_num_of_Z, Qc_of_Z_add, Qc_of_Z_mul. split; [reflexivity|].
    apply Z.le_trans with (Z.abs (n * m) + Z.abs k)%Z; [apply Z.abs_triangle|]. rewrite Z.abs_mul.
    rewrite Z.mul_add_distr_l. apply Z.add_le_mono; [|exact Lk]. rewrite Z.mul_comm. now apply Z.mul_le_mono_nonneg_r; [lia|].
Qed.
