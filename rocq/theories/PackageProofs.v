(** Proofs of the properties of the package's parameters. *)

From Coq Require Import String Ascii List Bool ZArith NArith QArith Qcanon Lia Relations.
From Verif Require Import Py PyFacts PyDict SymbolicModel RuntimeModel RuntimeSpec RuntimeProofs PackageModel PackageSpec.
Import ListNotations.
Open Scope list_scope.
Open Scope nat_scope.

(** * Numerals *)

Lemma a_digit_iff c : a_digit c <-> is_digit c = true.
Proof.
  split.
  - intros H. repeat (destruct H as [<-|H]; [reflexivity|]). destruct H.
  - intros H. destruct c as [[] [] [] [] [] [] [] []]; try discriminate H; unfold a_digit; cbn; tauto.
Qed.
Lemma digits_iff s : Forall a_digit s <-> Forall (fun c => is_digit c = true) s.
Proof. split; apply Forall_impl; intros c; apply a_digit_iff. Qed.
Lemma digit_val_nat c : is_digit c = true -> Z.of_N (digit_val c) = Z.of_nat (nat_of_ascii c - 48).
Proof. intros H. destruct c as [[] [] [] [] [] [] [] []]; try discriminate H; reflexivity. Qed.
Lemma digits_number_val s : Forall a_digit s -> forall acc,
  Z.of_N (fold_left (fun acc c => (10 * acc + digit_val c)%N) s acc) = (Z.of_N acc * 10 ^ Z.of_nat (length s) + digits_number s)%Z.
Proof.
  induction 1 as [|c s D _ IH]; intros acc; cbn [fold_left digits_number length].
  - change (10 ^ Z.of_nat 0)%Z with 1%Z. lia.
  - rewrite IH, N2Z.inj_add, N2Z.inj_mul, (digit_val_nat c) by now apply a_digit_iff.
    rewrite (Nat2Z.inj_succ (length s)), Z.pow_succ_r by lia. lia.
Qed.
Lemma digits_val_number s : Forall a_digit s -> Z.of_N (digits_val s) = digits_number s.
Proof. intros H. unfold digits_val. rewrite (digits_number_val s H 0%N). cbn [Z.of_N]. lia. Qed.
Lemma digits_number_app s t : digits_number (s ++ t) = (digits_number s * 10 ^ Z.of_nat (length t) + digits_number t)%Z.
Proof.
  induction s as [|c s IH]; cbn [digits_number app]; [lia|].
  rewrite IH, app_length, Nat2Z.inj_add, Z.pow_add_r by lia. lia.
Qed.

Lemma Qc_of_N_Z n : Qc_of_N n = Qc_of_Z (Z.of_N n).
Proof. reflexivity. Qed.
Lemma ten_nonzero : Qc_of_Z 10 <> 0%Qc.
Proof. intros H. discriminate H. Qed.
Lemma zpow_ten_nat n : Qc_zpow (Qc_of_Z 10) (Z.of_nat n) = Qc_of_Z (10 ^ Z.of_nat n).
Proof.
  induction n as [|n IH]; [reflexivity|].
  rewrite Nat2Z.inj_succ. unfold Z.succ. rewrite (Qc_zpow_add _ _ _ ten_nonzero), IH, Qc_zpow_1_r, Z.pow_add_r by lia.
  now rewrite Qc_of_Z_mul.
Qed.
Lemma zpow_neg q z : q <> 0%Qc -> Qc_zpow q (- z) = (/ Qc_zpow q z)%Qc.
Proof.
  intros H. pose proof (Qc_zpow_neq_0 q z H) as N.
  assert (Qc_zpow q (- z) * Qc_zpow q z = 1)%Qc as E by (rewrite <- (Qc_zpow_add _ _ _ H); replace (- z + z)%Z with 0%Z by lia; apply Qc_zpow_0).
  rewrite <- (Qcmult_1_r (Qc_zpow q (- z))), <- (Qcmult_inv_r _ N), Qcmult_assoc, E. ring.
Qed.
Lemma power_zpow z : power_of_ten z = Qc_zpow (Qc_of_Z 10) z.
Proof.
  unfold power_of_ten. destruct (Z.ltb_spec z 0).
  - rewrite <- (Z.opp_involutive z) at 2. rewrite (zpow_neg _ _ ten_nonzero), <- (Z2Nat.id (- z)), zpow_ten_nat by lia. reflexivity.
  - rewrite <- (Z2Nat.id z), zpow_ten_nat by lia. reflexivity.
Qed.

Lemma lstrip_spaces b s : spaces b -> lstrip (b ++ s) = lstrip s.
Proof. induction 1 as [|c b H _ IH]; [reflexivity|]. cbn [app lstrip]. now rewrite H. Qed.
Lemma spaces_rev b : spaces b -> spaces (rev b).
Proof. unfold spaces. rewrite !Forall_forall. intros H x I. apply H. now apply in_rev. Qed.
Lemma lstrip_trimmed s : match s with [] => True | c :: _ => is_space c = false end -> lstrip s = s.
Proof. destruct s as [|c s]; [reflexivity|]. cbn. now intros ->. Qed.
Lemma strip_spaces b v a : spaces b -> spaces a -> trimmed v -> strip (b ++ v ++ a) = v.
Proof.
  intros B A [T1 T2]. unfold strip, rstrip. rewrite lstrip_spaces by exact B.
  destruct v as [|c v].
  - cbn [app]. rewrite <- (app_nil_r a), lstrip_spaces by exact A. reflexivity.
  - assert (lstrip ((c :: v) ++ a) = (c :: v) ++ a) as -> by (apply lstrip_trimmed; exact T1).
    rewrite rev_app_distr, lstrip_spaces by now apply spaces_rev.
    rewrite lstrip_trimmed by exact T2. apply rev_involutive.
Qed.
Lemma lstrip_split s : exists b, spaces b /\ s = b ++ lstrip s /\ match lstrip s with [] => True | c :: _ => is_space c = false end.
Proof.
  induction s as [|c s (b & B & E & T)]; [exists []; repeat split; constructor|]. cbn [lstrip]. destruct (is_space c) eqn:C.
  - exists (c :: b). split; [now constructor|]. split; [cbn; now f_equal|exact T].
  - exists []. split; [constructor|]. split; [reflexivity|exact C].
Qed.
Lemma strip_split s : exists b a, spaces b /\ spaces a /\ s = b ++ strip s ++ a.
Proof.
  destruct (lstrip_split s) as (b & B & E & _). unfold strip, rstrip.
  destruct (lstrip_split (rev (lstrip s))) as (a & A & Ea & _).
  exists b, (rev a). split; [exact B|]. split; [now apply spaces_rev|]. rewrite E at 1. f_equal.
  rewrite <- (rev_involutive (lstrip s)) at 1. rewrite Ea at 1. now rewrite rev_app_distr.
Qed.

(** ** Reading what is written *)
Lemma take_digits_all d r : Forall a_digit d -> match r with [] => True | c :: _ => is_digit c = false end -> take_digits (d ++ r) = (d, r).
Proof.
  intros D R. induction D as [|c d H _ IH]; cbn [app].
  - destruct r as [|c r]; [reflexivity|]. cbn. now rewrite R.
  - cbn [take_digits]. apply a_digit_iff in H. now rewrite H, IH.
Qed.
Definition is_neg (s : option bool) : bool := match s with Some true => true | _ => false end.
Lemma take_sign_text s r : match r with [] => True | c :: _ => c <> "-"%char /\ c <> "+"%char end -> take_sign (sign_text s ++ r) = (is_neg s, r).
Proof.
  intros R. destruct s as [[]|]; try reflexivity. cbn [sign_text app is_neg]. destruct r as [|c r]; [reflexivity|]. cbn.
  destruct (Ascii.eqb_spec c "-"%char); [tauto|]. destruct (Ascii.eqb_spec c "+"%char); [tauto|reflexivity].
Qed.
Lemma digit_cases c : a_digit c -> c <> "-"%char /\ c <> "+"%char /\ c <> "."%char /\ is_space c = false /\ is_expchar c = false.
Proof. intros H. repeat (destruct H as [<-|H]; [repeat split; discriminate|]). destruct H. Qed.
Definition exp_text (e : option (ascii * option bool * str)) : str := match e with Some (c, s, d) => c :: sign_text s ++ d | None => [] end.
Definition exp_value (e : option (ascii * option bool * str)) : Z :=
  match e with Some (_, Some true, d) => (- digits_number d)%Z | Some (_, _, d) => digits_number d | None => 0%Z end.
Definition exp_ok (e : option (ascii * option bool * str)) : Prop :=
  match e with Some (c, _, d) => (c = "e"%char \/ c = "E"%char) /\ Forall a_digit d /\ d <> [] | None => True end.
Definition frac_text (f : option str) : str := match f with Some f => "."%char :: f | None => [] end.
Lemma head_digit d r : d <> [] -> Forall a_digit d -> match d ++ r with [] => True | c :: _ => c <> "-"%char /\ c <> "+"%char end.
Proof. destruct d as [|c d]; [tauto|]. intros _ H. cbn. inversion H as [|? ? D]; subst. apply digit_cases in D. tauto. Qed.
Lemma read_exponent_text e : exp_ok e -> read_exponent (exp_text e) = Some (exp_value e).
Proof.
  destruct e as [[[c s] d]|]; [|reflexivity]. cbn [exp_ok exp_text exp_value]. intros (C & D & N). cbn [read_exponent].
  assert (is_expchar c = true) as -> by (destruct C as [->| ->]; reflexivity).
  rewrite take_sign_text by (rewrite <- (app_nil_r d); now apply head_digit).
  rewrite <- (app_nil_r d) at 1. rewrite take_digits_all by easy. destruct d as [|x d]; [contradiction|].
  f_equal. rewrite digits_val_number by exact D. now destruct s as [[]|].
Qed.
Lemma decimal_text_eq x : decimal_text x = sign_text (d_sign x) ++ d_whole x ++ frac_text (d_frac x) ++ exp_text (d_exp x).
Proof. reflexivity. Qed.
Lemma exp_head e : exp_ok e -> match exp_text e with [] => True | c :: _ => is_digit c = false /\ c <> "."%char end.
Proof. destruct e as [[[c s] d]|]; cbn; [|easy]. intros ([->| ->] & _); easy. Qed.
Definition frac_digits (f : option str) : str := match f with Some f => f | None => [] end.
Lemma with_sign_signed s q : with_sign s q = signed (is_neg s) q.
Proof. now destruct s as [[]|]. Qed.

Lemma trimmed_last s t : t <> [] -> match rev t with [] => True | c :: _ => is_space c = false end ->
  match rev (s ++ t) with [] => True | c :: _ => is_space c = false end.
Proof.
  intros N H. rewrite rev_app_distr. destruct (rev t) as [|c r] eqn:E; [|exact H].
  apply (f_equal (@rev _)) in E. rewrite rev_involutive in E. contradiction.
Qed.
Lemma digits_last d : Forall a_digit d -> match rev d with [] => True | c :: _ => is_space c = false end.
Proof.
  intros D. destruct (rev d) as [|c r] eqn:E; [exact I|]. assert (In c d) as J by (apply in_rev; rewrite E; now left).
  rewrite Forall_forall in D. apply D, digit_cases in J. tauto.
Qed.
Lemma decimal_trimmed x : decimal_ok x -> trimmed (decimal_text x).
Proof.
  intros (W & Fr & X). split.
  - rewrite decimal_text_eq. destruct (d_sign x) as [[]|]; [reflexivity|reflexivity|]. cbn [sign_text app].
    destruct (d_whole x) as [|c w]; [|inversion W as [|? ? D]; subst; apply digit_cases in D; cbn; tauto].
    destruct (d_frac x); [reflexivity|]. now destruct Fr.
  - unfold decimal_text. destruct (d_exp x) as [[[c s] d]|].
    + destruct X as (_ & D & N). rewrite !app_assoc.
      change (c :: sign_text s ++ d) with ((c :: sign_text s) ++ d). rewrite app_assoc. apply trimmed_last; [exact N|now apply digits_last].
    + rewrite app_nil_r. destruct (d_frac x) as [f|].
      * rewrite app_assoc. apply trimmed_last; [discriminate|]. change ("."%char :: f) with (["."%char] ++ f). destruct f as [|c f]; [reflexivity|].
        apply trimmed_last; [discriminate|]. apply digits_last. tauto.
      * rewrite app_nil_r. apply trimmed_last; [exact Fr|now apply digits_last].
Qed.
Lemma decimal_value_eq x : decimal_ok x -> decimal_value x =
  signed (is_neg (d_sign x)) (Qc_of_N (digits_val (d_whole x ++ frac_digits (d_frac x)))
    * Qc_zpow (Qc_of_Z 10) (exp_value (d_exp x) - Z.of_nat (length (frac_digits (d_frac x)))))%Qc.
Proof.
  intros (W & Fr & X). unfold decimal_value. rewrite with_sign_signed. f_equal.
  rewrite Qc_of_N_Z, digits_val_number.
  2:{ apply Forall_app. split; [exact W|]. destruct (d_frac x); [tauto|constructor]. }
  rewrite digits_number_app.
  change (match d_exp x with Some (_, Some true, ds) => (- digits_number ds)%Z | Some (_, _, es) => digits_number es | None => 0%Z end) with (exp_value (d_exp x)).
  rewrite power_zpow. unfold Z.sub. rewrite (Qc_zpow_add _ _ _ ten_nonzero), (zpow_neg _ _ ten_nonzero), zpow_ten_nat.
  rewrite Qc_of_Z_add, Qc_of_Z_mul.
  assert (forall n, Qc_of_Z (10 ^ Z.of_nat n) <> 0%Qc) as Z10 by (intros n; rewrite <- zpow_ten_nat; apply Qc_zpow_neq_0, ten_nonzero).
  destruct (d_frac x) as [f|]; cbn [frac_digits].
  - pose proof (Z10 (length f)) as Zf. unfold Qcdiv. field. exact Zf.
  - change (Qc_of_Z (10 ^ Z.of_nat (length (@nil ascii)))) with 1%Qc. change (Qc_of_Z (digits_number [])) with 0%Qc. field. discriminate.
Qed.
Lemma read_float_text b x a : spaces b -> spaces a -> decimal_ok x -> read_float (b ++ decimal_text x ++ a) = Some (decimal_value x).
Proof.
  intros B A X. unfold read_float. rewrite strip_spaces by (auto using decimal_trimmed).
  rewrite decimal_value_eq by exact X. rewrite decimal_text_eq. pose proof X as (W & Fr & E).
  rewrite take_sign_text.
  2:{ destruct (d_whole x) as [|c w] eqn:Ew.
      - destruct (d_frac x); [cbn; split; discriminate|]. tauto.
      - apply head_digit; [discriminate|exact W]. }
  rewrite take_digits_all by (first [exact W|destruct (d_frac x); [reflexivity|]; cbn; pose proof (exp_head _ E); destruct (exp_text (d_exp x)); tauto]).
  destruct (d_frac x) as [f|]; cbn [frac_text frac_digits app].
  - change (Ascii.eqb "." ".") with true. cbv iota. destruct Fr as [Ff Nf].
    rewrite take_digits_all by (first [exact Ff|pose proof (exp_head _ E); destruct (exp_text (d_exp x)); tauto]).
    rewrite read_exponent_text by exact E. destruct (d_whole x ++ f) eqn:N; [|reflexivity].
    apply app_eq_nil in N. destruct Nf, N; contradiction.
  - pose proof (exp_head _ E) as H. assert ((match exp_text (d_exp x) with c :: r' => if Ascii.eqb c "." then take_digits r' else ([], exp_text (d_exp x)) | [] => ([], []) end) = (@nil ascii, exp_text (d_exp x))) as ->.
    { destruct (exp_text (d_exp x)) as [|c r]; [reflexivity|]. destruct (Ascii.eqb_spec c "."%char); [tauto|reflexivity]. }
    rewrite read_exponent_text by exact E. rewrite app_nil_r. destruct (d_whole x); [contradiction|reflexivity].
Qed.

Lemma read_int_text b x a : spaces b -> spaces a -> decimal_ok x -> is_whole x -> read_int (b ++ decimal_text x ++ a) = Some (decimal_value x).
Proof.
  intros B A X [Fn En]. unfold read_int. rewrite strip_spaces by (auto using decimal_trimmed).
  rewrite decimal_value_eq by exact X. rewrite decimal_text_eq. pose proof X as (W & Fr & E). rewrite Fn, En in *. cbn [frac_text exp_text frac_digits exp_value length Z.of_nat Z.sub].
  rewrite !app_nil_r. rewrite take_sign_text by (rewrite <- (app_nil_r (d_whole x)); now apply head_digit).
  rewrite <- (app_nil_r (d_whole x)) at 1. rewrite take_digits_all by easy. destruct (d_whole x) as [|c w]; [contradiction|].
  change (0 - 0)%Z with 0%Z. rewrite Qc_zpow_0, Qcmult_1_r. reflexivity.
Qed.

(** ** Nothing else is read *)
Lemma take_digits_inv s d r : take_digits s = (d, r) -> s = d ++ r /\ Forall a_digit d.
Proof. intros H. destruct (take_digits_app _ _ _ H) as [E D]. split; [exact E|now apply digits_iff]. Qed.
Lemma take_sign_inv s b r : take_sign s = (b, r) -> exists g, s = sign_text g ++ r /\ is_neg g = b.
Proof.
  destruct s as [|c s]; cbn; [intros [= <- <-]; now exists None|].
  destruct (Ascii.eqb_spec c "-"%char) as [->|]; [|destruct (Ascii.eqb_spec c "+"%char) as [->|]]; intros [= <- <-].
  - now exists (Some true).
  - now exists (Some false).
  - now exists None.
Qed.
Lemma expchar_iff c : is_expchar c = true <-> c = "e"%char \/ c = "E"%char.
Proof.
  split; [|intros [->| ->]; reflexivity].
  intros H. destruct c as [[] [] [] [] [] [] [] []]; try discriminate H; auto.
Qed.
Lemma read_exponent_inv s z : read_exponent s = Some z -> exists e, s = exp_text e /\ exp_ok e /\ z = exp_value e.
Proof.
  destruct s as [|c s]; cbn [read_exponent]; [intros [= <-]; exists None; repeat split|].
  destruct (is_expchar c) eqn:C; [|discriminate]. destruct (take_sign s) as [b r] eqn:S. destruct (take_sign_inv _ _ _ S) as (g & -> & <-).
  destruct (take_digits r) as [d r'] eqn:D. destruct (take_digits_inv _ _ _ D) as [-> Hd]. destruct d as [|x d]; [discriminate|].
  destruct r'; [|discriminate]. intros [= <-]. exists (Some (c, g, x :: d)). cbn [exp_text exp_ok exp_value]. rewrite app_nil_r.
  apply expchar_iff in C. rewrite (digits_val_number _ Hd). repeat split; auto; [discriminate|now destruct g as [[]|]].
Qed.
Lemma read_float_inv s q : read_float s = Some q ->
  exists b x a, s = b ++ decimal_text x ++ a /\ spaces b /\ spaces a /\ decimal_ok x /\ q = decimal_value x.
Proof.
  intros H. assert (exists x, strip s = decimal_text x /\ decimal_ok x) as (x & E & X).
  { unfold read_float in H. destruct (take_sign (strip s)) as [b r] eqn:S. destruct (take_sign_inv _ _ _ S) as (g & -> & _).
    destruct (take_digits r) as [w r1] eqn:D. destruct (take_digits_inv _ _ _ D) as [-> Hw].
    destruct r1 as [|c r1].
    - cbn [app] in H. rewrite app_nil_r in H. destruct w as [|x w]; [discriminate|].
      exists (mkDecimal g (x :: w) None None). split; [reflexivity|]. repeat split; auto. discriminate.
    - destruct (Ascii.eqb_spec c "."%char) as [->|C].
      + destruct (take_digits r1) as [f r2] eqn:D2. destruct (take_digits_inv _ _ _ D2) as [-> Hf].
        destruct (w ++ f) as [|y ds] eqn:N; [discriminate|]. destruct (read_exponent r2) as [z|] eqn:R; [|discriminate].
        destruct (read_exponent_inv _ _ R) as (e & -> & He & _). exists (mkDecimal g w (Some f) e). split; [reflexivity|].
        repeat split; auto. cbn. destruct w, f; try discriminate; [right|left|left]; discriminate.
      + rewrite app_nil_r in H. destruct w as [|y w]; [discriminate|]. destruct (read_exponent (c :: r1)) as [z|] eqn:R; [|discriminate].
        destruct (read_exponent_inv _ _ R) as (e & -> & He & _). exists (mkDecimal g (y :: w) None e). split; [reflexivity|].
        repeat split; auto. discriminate. }
  destruct (strip_split s) as (b & a & B & A & Es). rewrite E in Es. exists b, x, a. split; [exact Es|]. repeat split; auto; try apply X.
  rewrite Es, read_float_text in H by assumption. congruence.
Qed.
Lemma read_int_inv s q : read_int s = Some q ->
  exists b x a, s = b ++ decimal_text x ++ a /\ spaces b /\ spaces a /\ decimal_ok x /\ is_whole x /\ q = decimal_value x.
Proof.
  intros H. assert (exists x, strip s = decimal_text x /\ decimal_ok x /\ is_whole x) as (x & E & X & Wx).
  { unfold read_int in H. destruct (take_sign (strip s)) as [b r] eqn:S. destruct (take_sign_inv _ _ _ S) as (g & -> & _).
    destruct (take_digits r) as [w r1] eqn:D. destruct (take_digits_inv _ _ _ D) as [-> Hw].
    destruct w as [|y w]; [discriminate|]. destruct r1; [|discriminate].
    exists (mkDecimal g (y :: w) None None). split; [reflexivity|]. repeat split; auto. discriminate. }
  destruct (strip_split s) as (b & a & B & A & Es). rewrite E in Es. exists b, x, a. split; [exact Es|]. repeat split; auto; try apply X; try apply Wx.
  rewrite Es, read_int_text in H by assumption. congruence.
Qed.
Lemma decimal_chars x c : decimal_ok x -> In c (decimal_text x) -> a_digit c \/ c = "-"%char \/ c = "+"%char \/ c = "."%char \/ c = "e"%char \/ c = "E"%char.
Proof.
  intros (W & Fr & E). rewrite Forall_forall in W. rewrite decimal_text_eq, !in_app_iff. intros [I|[I|[I|I]]].
  - destruct (d_sign x) as [[]|]; cbn [sign_text In] in I; repeat (destruct I as [<-|I]; [tauto|]); destruct I.
  - left. now apply W.
  - destruct (d_frac x) as [f|]; [|destruct I]. destruct I as [<-|I]; [tauto|]. destruct Fr as [Fr _]. rewrite Forall_forall in Fr. left. now apply Fr.
  - destruct (d_exp x) as [[[e g] d]|]; [|destruct I]. destruct E as (C & D & _). cbn in I. rewrite in_app_iff in I. destruct I as [<-|[I|I]]; [tauto| |].
    + destruct g as [[]|]; cbn [sign_text In] in I; repeat (destruct I as [<-|I]; [tauto|]); destruct I.
    + rewrite Forall_forall in D. left. now apply D.
Qed.
Lemma read_int_not x : decimal_ok x -> ~ is_whole x -> read_int (decimal_text x) = None.
Proof.
  intros X N. destruct (read_int (decimal_text x)) as [q|] eqn:R; [|reflexivity]. exfalso. apply N.
  assert (exists y, decimal_text x = decimal_text y /\ decimal_ok y /\ is_whole y) as (y & E & Y & (F1 & F2)).
  { destruct (read_int_inv _ _ R) as (b & y & a & E & B & A & Y & Wy & _). exists y. split; [|auto].
    rewrite <- (strip_spaces [] (decimal_text x) []) by (auto using decimal_trimmed; constructor). cbn [app]. rewrite app_nil_r, E. now apply strip_spaces; auto using decimal_trimmed. }
  assert (forall c, In c (decimal_text x) -> a_digit c \/ c = "-"%char \/ c = "+"%char) as Chars.
  { rewrite E. rewrite decimal_text_eq, F1, F2. cbn [frac_text exp_text]. rewrite !app_nil_r. intros c I. apply in_app_or in I as [I|I].
    - destruct (d_sign y) as [[]|]; cbn [sign_text In] in I; repeat (destruct I as [<-|I]; [tauto|]); destruct I.
    - destruct Y as (Wy & _). rewrite Forall_forall in Wy. left. now apply Wy. }
  split.
  - destruct (d_frac x) as [f|] eqn:Fx; [|reflexivity]. exfalso. destruct (Chars "."%char) as [D|[D|D]]; try discriminate D.
    + rewrite decimal_text_eq, Fx, !in_app_iff. right. right. left. now left.
    + apply digit_cases in D. tauto.
  - destruct (d_exp x) as [[[c g] d]|] eqn:Ex; [|reflexivity]. exfalso. destruct X as (_ & _ & X). rewrite Ex in X. destruct X as (C & _).
    destruct (Chars c) as [D|[D|D]].
    + rewrite decimal_text_eq, Ex, !in_app_iff. right. right. right. now left.
    + apply a_digit_iff in D. destruct C as [->| ->]; discriminate D.
    + destruct C as [->| ->]; discriminate D.
    + destruct C as [->| ->]; discriminate D.
Qed.
Lemma cast_text b x a : spaces b -> spaces a -> decimal_ok x -> cast (b ++ decimal_text x ++ a) = Some (decimal_value x).
Proof.
  intros B A X. unfold cast. destruct (read_int (b ++ decimal_text x ++ a)) as [q|] eqn:R; [|now apply read_float_text].
  destruct (read_int_inv _ _ R) as (b' & y & a' & E & B' & A' & Y & Wy & ->).
  assert (decimal_text x = decimal_text y) as Exy.
  { rewrite <- (strip_spaces b (decimal_text x) a) by auto using decimal_trimmed. rewrite E. apply strip_spaces; auto using decimal_trimmed. }
  pose proof (read_float_text b x a B A X) as Q. rewrite Exy, read_float_text in Q by assumption. congruence.
Qed.
Lemma cast_inv s q : cast s = Some q -> exists b x a, s = b ++ decimal_text x ++ a /\ spaces b /\ spaces a /\ decimal_ok x /\ q = decimal_value x.
Proof.
  unfold cast. destruct (read_int s) as [z|] eqn:R; [|apply read_float_inv]. intros [= <-].
  destruct (read_int_inv _ _ R) as (b & x & a & H). exists b, x, a. tauto.
Qed.

(** * Lists *)
Lemma lstrip_of_out p b s : Forall (fun c => p c = true) b -> lstrip_of p (b ++ s) = lstrip_of p s.
Proof. induction 1 as [|c b H _ IH]; [reflexivity|]. cbn [app lstrip_of]. now rewrite H. Qed.
Lemma lstrip_of_in p s t : s <> [] -> Forall (fun c => p c = false) s -> lstrip_of p (s ++ t) = s ++ t.
Proof. intros N H. destruct s as [|c s]; [contradiction|]. inversion H as [|? ? C]; subst. cbn. now rewrite C. Qed.
Lemma Forall_rev_ {A} (P : A -> Prop) l : Forall P l -> Forall P (rev l).
Proof. rewrite !Forall_forall. intros H x I. apply H. now apply in_rev. Qed.
Lemma strip_of_out p b v a : Forall (fun c => p c = true) b -> Forall (fun c => p c = true) a -> Forall (fun c => p c = false) v ->
  strip_of p (b ++ v ++ a) = v.
Proof.
  intros B A V. unfold strip_of. rewrite lstrip_of_out by exact B. destruct v as [|c v].
  - cbn [app]. rewrite <- (app_nil_r a), lstrip_of_out by exact A. reflexivity.
  - rewrite lstrip_of_in by (auto; discriminate). rewrite rev_app_distr, lstrip_of_out by now apply Forall_rev_.
    assert (rev (c :: v) <> []) as N by (cbn; now destruct (rev v)).
    rewrite <- (app_nil_r (rev (c :: v))), lstrip_of_in by (auto; now apply Forall_rev_). rewrite app_nil_r. apply rev_involutive.
Qed.
Lemma commas_cons x y l : commas (x :: y :: l) = x ++ ","%char :: commas (y :: l).
Proof. reflexivity. Qed.
Lemma split_commas l : l <> [] -> Forall (without ","%char) l -> split_on ","%char (commas l) = l.
Proof.
  induction l as [|x [|y l] IH]; intros N H; [contradiction| |]; inversion H as [|? ? X Hl]; subst.
  - now apply split_none.
  - rewrite commas_cons, split_cut by exact X. f_equal. apply IH; [discriminate|exact Hl].
Qed.
Definition item_text (p : str * decimal * str) : str := fst (fst p) ++ decimal_text (snd (fst p)) ++ snd p.
Definition item_ok (p : str * decimal * str) : Prop := padding (fst (fst p)) /\ decimal_ok (snd (fst p)) /\ padding (snd p).
Lemma item_chars p c : item_ok p -> In c (item_text p) ->
  c = " "%char \/ c = "'"%char \/ a_digit c \/ c = "-"%char \/ c = "+"%char \/ c = "."%char \/ c = "e"%char \/ c = "E"%char.
Proof.
  intros (B & X & A). unfold item_text. rewrite !in_app_iff. unfold padding in *. rewrite Forall_forall in A, B. intros [I|[I|I]].
  - apply B in I. tauto.
  - apply (decimal_chars _ _ X) in I. tauto.
  - apply A in I. tauto.
Qed.
Lemma commas_in c l : In c (commas l) -> c = ","%char \/ exists s, In s l /\ In c s.
Proof.
  induction l as [|x [|y l] IH]; [intros []|intros I; right; exists x; split; [now left|exact I]|].
  rewrite commas_cons, in_app_iff. intros [I|[<-|I]]; [|tauto|].
  - right. exists x. split; [now left|exact I].
  - destruct (IH I) as [->|(s & J & K)]; [tauto|]. right. exists s. split; [now right|exact K].
Qed.
Lemma decimal_nonempty x : decimal_ok x -> decimal_text x <> [].
Proof.
  intros (_ & Fr & _) E. rewrite decimal_text_eq in E. apply app_eq_nil in E as [_ E]. apply app_eq_nil in E as [E1 E]. apply app_eq_nil in E as [E2 _].
  destruct (d_frac x); [discriminate|contradiction].
Qed.
Lemma commas_nonempty l : l <> [] -> Forall (fun s => s <> []) l -> commas l <> [].
Proof.
  destruct l as [|x [|y l]]; [contradiction| |]; intros _ H; inversion H as [|? ? X]; subst; [exact X|].
  rewrite commas_cons. now destruct x.
Qed.
Lemma string_to_list_text l : Forall item_ok l ->
  string_to_list (lit "[" ++ commas (map item_text l) ++ lit "]") = Some (map (fun p => decimal_value (snd (fst p))) l).
Proof.
  intros H. set (inside := commas (map item_text l)).
  assert (string_to_list (lit "[" ++ inside ++ lit "]") =
     match strip_of (fun c => Ascii.eqb c "[" || Ascii.eqb c "]") (lit "[" ++ inside ++ lit "]") with
     | [] => Some []
     | s => cast_all (map (strip_of (fun c => Ascii.eqb c " " || Ascii.eqb c "'")) (split_on ","%char s))
     end) as ->.
  { unfold string_to_list. cbn [lit app list_ascii_of_string]. change (("["%char :: inside ++ ["]"%char])) with (("["%char :: inside) ++ ["]"%char]).
    rewrite rev_app_distr. reflexivity. }
  rewrite Forall_forall in H.
  rewrite strip_of_out.
  - destruct l as [|p l]; [reflexivity|].
    assert (inside <> []) as N.
    { apply commas_nonempty; [discriminate|]. apply Forall_forall. intros s I. apply in_map_iff in I as (q & <- & I).
      destruct (H q I) as (_ & X & _). intros E. unfold item_text in E. apply app_eq_nil in E as [_ E]. apply app_eq_nil in E as [E _]. exact (decimal_nonempty _ X E). }
    assert (split_on ","%char inside = map item_text (p :: l)) as S.
    { apply split_commas; [discriminate|]. apply Forall_forall. intros s I J. apply in_map_iff in I as (q & <- & I).
      destruct (item_chars q _ (H q I) J) as [D|[D|[D|[D|[D|[D|[D|D]]]]]]]; try discriminate D. apply a_digit_iff in D. discriminate D. }
    clearbody inside. destruct inside as [|y ys]; [contradiction|]. rewrite S.
    assert (forall l, (forall q, In q l -> item_ok q) ->
       cast_all (map (strip_of (fun c => Ascii.eqb c " " || Ascii.eqb c "'")) (map item_text l)) = Some (map (fun p => decimal_value (snd (fst p))) l)) as G;
      [|now apply G].
    clear. induction l as [|p l IH]; intros H; [reflexivity|]. cbn [map cast_all]. destruct (H p (or_introl eq_refl)) as (B & X & A).
    unfold item_text at 1. rewrite strip_of_out.
    + rewrite <- (app_nil_r (decimal_text _)), <- (app_nil_l (decimal_text _ ++ [])), cast_text by (auto; constructor).
      rewrite IH by (intros q I; apply H; now right). reflexivity.
    + revert B. apply Forall_impl. intros c [->| ->]; reflexivity.
    + revert A. apply Forall_impl. intros c [->| ->]; reflexivity.
    + apply Forall_forall. intros c I. apply (decimal_chars _ _ X) in I.
      destruct I as [D|[->|[->|[->|[->| ->]]]]]; try reflexivity. repeat (destruct D as [<-|D]; [reflexivity|]). destruct D.
  - constructor; [reflexivity|constructor].
  - constructor; [reflexivity|constructor].
  - apply Forall_forall. intros c I. apply commas_in in I as [->|(s & I & J)]; [reflexivity|].
    apply in_map_iff in I as (q & <- & I). apply (item_chars q _ (H q I)) in J.
    destruct J as [->|[->|[D|[->|[->|[->|[->| ->]]]]]]]; try reflexivity. repeat (destruct D as [<-|D]; [reflexivity|]). destruct D.
Qed.

(** * Evaluation *)

Lemma reads_unique_type t s v : reads t s v -> convert s t = v \/ (t = TInt /\ convert s t = RStr s /\ exists q, cast s = Some q /\ q <> 0%Qc /\ v = RReal q).
Proof.
  intros R. destruct R as [x X|x X W|x X W Z|s|l H]; cbn [convert].
  - left. rewrite <- (app_nil_r (decimal_text x)), <- (app_nil_l (decimal_text x ++ [])), read_float_text by (auto; constructor). reflexivity.
  - left. rewrite <- (app_nil_r (decimal_text x)), <- (app_nil_l (decimal_text x ++ [])), read_int_text by (auto; constructor). reflexivity.
  - right. rewrite read_int_not by assumption. repeat split. exists (decimal_value x). repeat split; auto.
    rewrite <- (app_nil_r (decimal_text x)), <- (app_nil_l (decimal_text x ++ [])), cast_text by (auto; constructor). reflexivity.
  - now left.
  - left. change (fun p : str * decimal * str => fst (fst p) ++ decimal_text (snd (fst p)) ++ snd p) with item_text. rewrite string_to_list_text by exact H. reflexivity.
Qed.

(** ** The tables *)
Definition proper_nameb (n : str) : bool :=
  match n with [] => false | c :: _ => negb (is_digit c) end && forallb word_letter n
  && negb (str_eqb n (lit "N_PROCS")) && negb (str_eqb n (lit "third")).
Lemma proper_nameb_ok n : proper_nameb n = true -> proper_name n.
Proof.
  unfold proper_nameb, proper_name. rewrite !andb_true_iff, !negb_true_iff, forallb_forall, Forall_forall. intros [[[H1 H2] H3] H4]. split; [|split; [exact H2|split]].
  - destruct n; [discriminate|]. now apply negb_true_iff.
  - intros E. now rewrite E, str_eqb_refl in H3.
  - intros E. now rewrite E, str_eqb_refl in H4.
Qed.
Lemma table_names : forallb proper_nameb (map fst parameters ++ map fst constants) = true.
Proof. vm_compute. reflexivity. Qed.
Lemma table_proper n : In n (map fst parameters) \/ In n (map fst constants) -> proper_name n.
Proof.
  intros H. apply proper_nameb_ok. pose proof table_names as T. rewrite forallb_forall in T. apply T. now apply in_or_app.
Qed.
Fixpoint nodupb (l : list str) : bool := match l with [] => true | a :: l' => negb (existsb (str_eqb a) l') && nodupb l' end.
Lemma nodupb_ok l : nodupb l = true -> NoDup l.
Proof.
  induction l as [|a l IH]; [constructor|]. cbn. rewrite andb_true_iff, negb_true_iff. intros [H K]. constructor; [|now apply IH].
  intros I. assert (existsb (str_eqb a) l = true) as E by (apply existsb_exists; exists a; split; [exact I|apply str_eqb_refl]). congruence.
Qed.
Lemma parameters_nodup : NoDup (map fst parameters).
Proof. apply nodupb_ok. vm_compute. reflexivity. Qed.
Lemma row_get n t d : In (n, (t, d)) parameters -> d_get str_eqb parameters n = Some (t, d).
Proof. apply (d_get_iff str_eqb str_eqb_spec). exact parameters_nodup. Qed.
Lemma row_in n t d : In (n, (t, d)) parameters -> In n (map fst parameters).
Proof. intros H. apply in_map_iff. now exists (n, (t, d)). Qed.

Section User.
Context (u : list (str * str)).
Notation R := (the_run u).
Lemma empty_solution : solves F64 R (fun _ => 0%Qc) (fun _ => 0) (fun _ => False).
Proof. constructor; [intros n H; now apply table_proper|intros n t d []|intros n []]. Qed.

Lemma parameter_step n t d k : In (n, (t, d)) parameters ->
  evaluate F64 R (S (S k)) (RStr n) =
  (let v := convert (match given u n with Some s => s | None => d end) t in if is_instance v t then Ok v else evaluate F64 R k v).
Proof.
  intros H. pose proof (table_proper n (or_introl (row_in _ _ _ H))) as P. rewrite evaluate_S, name_cast by exact P.
  destruct P as (_ & _ & P1 & P2). rewrite evaluate_name_S, (str_eqb_neq _ _ P1), (str_eqb_neq _ _ P2).
  unfold get_argument. change (r_reference R) with parameters. rewrite (row_get _ _ _ H). cbn [bind fst snd]. unfold definition_of. cbn [fst snd].
  change (r_user R) with u. unfold given. destruct (d_get str_eqb u n) as [[|c s]|]; cbv zeta; destruct (is_instance _ t); reflexivity.
Qed.
Lemma reads_step n t d s v : In (n, (t, d)) parameters -> match given u n with Some s => s | None => d end = s -> reads t s v ->
  forall k, evaluate F64 R (S (S (S k))) (RStr n) = Ok v.
Proof.
  intros H E Rd k. rewrite (parameter_step n t d (S k) H), E. destruct (reads_unique_type _ _ _ Rd) as [C|(-> & C & q & Q & Z & ->)]; cbv zeta; rewrite C.
  - assert (is_instance v t = true) as -> by (destruct Rd; reflexivity). reflexivity.
  - cbn [is_instance]. rewrite evaluate_S, Q. destruct (Qc_eqb_spec q 0); [contradiction|reflexivity].
Qed.

Lemma member_step m k : proper_name m -> evaluate F64 R (S (S (S k))) (RStr (lit "config." ++ m)) = evaluate F64 R k (RStr m).
Proof.
  intros P. rewrite (by_definition _ _ _ _ _ empty_solution _ "c"%char "."%char).
  - rewrite resolve_S.
    assert (member (lit "config." ++ m) = Some m) as ->; [|reflexivity].
    unfold member. assert (starts (lit "config.") (lit "config." ++ m) = true) as -> by reflexivity.
    change (skipn 7 (lit "config." ++ m)) with m. assert (forallb is_word m = true) as ->; [|reflexivity].
    apply proper_word in P. apply forallb_forall. rewrite Forall_forall in P. exact P.
  - pose proof (name_trimmed _ P) as [T1 T2]. destruct P as (P & _). split; [reflexivity|].
    rewrite rev_app_distr. destruct (rev m) as [|c r] eqn:E; [|exact T2].
    destruct m as [|e m]; [contradiction|]. cbn in E. now apply app_eq_nil in E as [_ E].
  - cbn. tauto.
  - intros [H|[H|[H|[H|H]]]]; discriminate H.
  - cbn. tauto.
  - reflexivity.
Qed.
Definition special_types : bool :=
  forallb (fun r : str * (rtype * str) =>
    let d := snd (snd r) in
    if starts (lit "config.") d || str_eqb d (lit "third") || str_eqb d (lit "(0.004144/MAS_TIME_NORM)*TAU")
    then match fst (snd r) with TFloat => true | _ => false end
    else if str_eqb d (lit "N_PROCS") then match fst (snd r) with TInt => true | _ => false end else true) parameters.
Lemma special_types_ok : special_types = true.
Proof. vm_compute. reflexivity. Qed.
Lemma special_float n t d : In (n, (t, d)) parameters ->
  starts (lit "config.") d = true \/ d = lit "third" \/ d = lit "(0.004144/MAS_TIME_NORM)*TAU" -> t = TFloat.
Proof.
  intros H D. pose proof special_types_ok as T. unfold special_types in T. rewrite forallb_forall in T. specialize (T _ H). cbn [fst snd] in T.
  assert (starts (lit "config.") d || str_eqb d (lit "third") || str_eqb d (lit "(0.004144/MAS_TIME_NORM)*TAU") = true) as E.
  { destruct D as [->|[->| ->]]; rewrite ?str_eqb_refl, ?orb_true_r; reflexivity. }
  rewrite E in T. now destruct t.
Qed.
Lemma special_int n t : In (n, (t, lit "N_PROCS")) parameters -> t = TInt.
Proof.
  intros H. pose proof special_types_ok as T. unfold special_types in T. rewrite forallb_forall in T. specialize (T _ H). cbn in T. now destruct t.
Qed.
Lemma starts_app p s : starts p (p ++ s) = true.
Proof. induction p as [|c p IH]; [reflexivity|]. cbn. now rewrite Ascii.eqb_refl. Qed.
Lemma config_not_float s : trimmed (lit "config." ++ s) -> read_float (lit "config." ++ s) = None.
Proof.
  intros T. destruct (read_float (lit "config." ++ s)) as [q|] eqn:E; [|reflexivity]. exfalso.
  apply read_float_chars in E. rewrite <- (app_nil_r (lit "config." ++ s)), <- (app_nil_l ((lit "config." ++ s) ++ [])) in E.
  rewrite strip_spaces in E by (auto; constructor). inversion E as [|? ? C]; subst. destruct C as [C|[C|[C|[C|C]]]]; discriminate C.
Qed.

(** ** What is meant is evaluated *)
Lemma default_step n t d : In (n, (t, d)) parameters -> given u n = None -> convert d t = RStr d -> t <> TStr ->
  forall k, evaluate F64 R (S (S k)) (RStr n) = evaluate F64 R k (RStr d).
Proof.
  intros H G C N k. rewrite (parameter_step n t d k H), G, C. cbv zeta. destruct t; try reflexivity. contradiction.
Qed.
Lemma trimmed_config m : proper_name m -> trimmed (lit "config." ++ m).
Proof.
  intros P. pose proof (name_trimmed _ P) as [T1 T2]. destruct P as (P & _). split; [reflexivity|].
  rewrite rev_app_distr. destruct (rev m) as [|c r] eqn:E; [|exact T2].
  destruct m as [|e m]; [contradiction|]. cbn in E. now apply app_eq_nil in E as [_ E].
Qed.
Lemma means_parameter n v : means (given u) n v -> In n (map fst parameters).
Proof. intros H. destruct H; eauto using row_in. Qed.

Lemma evaluate_constant n q k : d_get str_eqb parameters n = None -> proper_name n ->
  compute_constant F64 constants constant_types k n = Ok q -> evaluate F64 R (S (S k)) (RStr n) = Ok (RReal q).
Proof.
  intros N P C. rewrite evaluate_S, name_cast by exact P. destruct P as (_ & _ & P1 & P2).
  rewrite evaluate_name_S, (str_eqb_neq _ _ P1), (str_eqb_neq _ _ P2). unfold get_argument. change (r_reference R) with parameters. rewrite N.
  change (r_constants R) with constants. change (r_types R) with constant_types. rewrite C. reflexivity.
Qed.

Definition rotation_text : str := lit "(0.004144/MAS_TIME_NORM)*TAU".
Definition rotation_value : Qc :=
  (Q2Qc (2388853357545387 # 576460752303423488) / Q2Qc (144587003080685 # 100000000000) * (Qc_of_Z 14959787070000 / Qc_of_Z 29979245800))%Qc.
Definition rotation_terms : list term :=
  [mkTerm (Q2Qc (2388853357545387 # 576460752303423488)) (lit "1") 1%Qc; mkTerm 1%Qc (lit "TAU") 1%Qc; mkTerm 1%Qc (lit "MAS_TIME_NORM") (Qc_of_Z (-1))].
Definition same_terms (x y : list term) : bool :=
  Nat.eqb (length x) (length y)
  && forallb (fun p => Qc_eqb (coef (fst p)) (coef (snd p)) && str_eqb (base (fst p)) (base (snd p)) && Qc_eqb (expo (fst p)) (expo (snd p))) (combine x y).
Lemma same_terms_eq x : forall y, same_terms x y = true -> x = y.
Proof.
  induction x as [|[c b e] x IH]; intros [|[c' b' e'] y]; unfold same_terms; cbn; try discriminate; [reflexivity|].
  rewrite !andb_true_iff. intros (L & ((C & B) & E) & H).
  destruct (Qc_eqb_spec c c') as [->|]; [|discriminate]. destruct (Qc_eqb_spec e e') as [->|]; [|discriminate]. destruct (str_eqb_spec b b') as [->|]; [|discriminate].
  f_equal. apply IH. unfold same_terms. rewrite L. exact H.
Qed.
Lemma rotation_read : expression_of_str F64 false rotation_text = Ok rotation_terms.
Proof.
  assert (match expression_of_str F64 false rotation_text with Ok x => same_terms x rotation_terms | Err _ => false end = true) as H by (vm_compute; reflexivity).
  destruct (expression_of_str F64 false rotation_text) as [x|]; [|discriminate]. f_equal. now apply same_terms_eq.
Qed.
Definition tau_value : Qc := (Qc_of_Z 14959787070000 / Qc_of_Z 29979245800)%Qc.
Definition norm_value : Qc := Q2Qc (144587003080685 # 100000000000).
Lemma tau_constant k : compute_constant F64 constants constant_types (S (S k)) (lit "TAU") = Ok tau_value.
Proof. apply computes_number. vm_compute. reflexivity. Qed.
Lemma norm_constant k : compute_constant F64 constants constant_types (S k) (lit "MAS_TIME_NORM") = Ok norm_value.
Proof. apply computes_number. vm_compute. reflexivity. Qed.
Lemma rotation_evaluated k : evaluate F64 R (8 + k) (RStr rotation_text) = Ok (RReal rotation_value).
Proof.
  change (8 + k) with (S (S (S (5 + k)))).
  assert (In "/"%char rotation_text) as I by (vm_compute; tauto).
  rewrite (by_definition _ _ _ _ _ empty_solution _ "/"%char "/"%char); [|split; reflexivity|exact I|apply over_not_numeral|exact I|reflexivity].
  rewrite resolve_S. assert (member rotation_text = None) as -> by (vm_compute; reflexivity).
  assert (has_char "+" rotation_text = false) as -> by (vm_compute; reflexivity).
  assert (has_char "-" rotation_text = false) as -> by (vm_compute; reflexivity).
  unfold product_of. assert (has_char "*" rotation_text || has_char "/" rotation_text = true) as -> by (vm_compute; reflexivity).
  rewrite rotation_read. unfold rotation_terms. cbn [bind mapM base coef expo].
  assert (evaluate F64 R (5 + k) (RStr (lit "1")) = Ok (RReal 1%Qc)) as ->.
  { change (5 + k) with (S (4 + k)). rewrite evaluate_S. assert (cast (lit "1") = Some 1%Qc) as ->; [|reflexivity].
    rewrite <- (app_nil_r (lit "1")), <- (app_nil_l (lit "1" ++ [])).
    change (lit "1") with (decimal_text (mkDecimal None (lit "1") None None)). rewrite cast_text; [|constructor|constructor|].
    - reflexivity.
    - repeat split; [|discriminate]. constructor; [vm_compute; tauto|constructor]. }
  assert (evaluate F64 R (5 + k) (RStr (lit "TAU")) = Ok (RReal tau_value)) as ->.
  { apply (evaluate_constant (lit "TAU") tau_value (3 + k)); [vm_compute; reflexivity| |apply (tau_constant (1 + k))]. apply proper_nameb_ok. vm_compute. reflexivity. }
  assert (evaluate F64 R (5 + k) (RStr (lit "MAS_TIME_NORM")) = Ok (RReal norm_value)) as ->.
  { apply (evaluate_constant (lit "MAS_TIME_NORM") norm_value (3 + k)); [vm_compute; reflexivity| |apply (norm_constant (2 + k))]. apply proper_nameb_ok. vm_compute. reflexivity. }
  cbn [bind number].
  assert (frac_pow F64 1 1 = Ok 1%Qc) as -> by (apply computes_number; vm_compute; reflexivity).
  assert (frac_pow F64 tau_value 1 = Ok tau_value) as -> by (apply computes_number; vm_compute; reflexivity).
  assert (frac_pow F64 norm_value (Qc_of_Z (-1)) = Ok (/ norm_value)%Qc) as -> by (apply computes_number; vm_compute; reflexivity).
  cbn [bind fold_left]. f_equal. f_equal. unfold rotation_value. fold tau_value norm_value. unfold Qcdiv at 1. ring.
Qed.

Lemma means_evaluated n v : means (given u) n v -> eventually (fun k => evaluate F64 R k (RStr n) = Ok v).
Proof.
  induction 1 as [n t d s v H G Rd|n t d v H G Rd|n t m v H G M IH|n t a b x y H G Ma IHa Mb IHb Z|n t H G|n t H G|n t H G].
  - do 3 apply eventually_step. exists 0. intros k _. apply (reads_step n t d s v H); [now rewrite G|exact Rd].
  - do 3 apply eventually_step. exists 0. intros k _. apply (reads_step n t d d v H); [now rewrite G|exact Rd].
  - pose proof (table_proper m (or_introl (means_parameter _ _ M))) as P.
    assert (t = TFloat) as -> by (apply (special_float _ _ _ H); left; apply starts_app).
    do 5 apply eventually_step. revert IH. apply eventually_mono. intros k E.
    rewrite (default_step n TFloat _ H G); [|cbn [convert]; rewrite config_not_float by (now apply trimmed_config); reflexivity|discriminate].
    now rewrite member_step.
  - pose proof (table_proper a (or_introl (means_parameter _ _ Ma))) as Pa. pose proof (table_proper b (or_introl (means_parameter _ _ Mb))) as Pb.
    assert (t = TFloat) as -> by (apply (special_float _ _ _ H); left; apply starts_app).
    assert (lit "config." ++ a ++ lit " + config." ++ b = (lit "config." ++ a) ++ [" "%char; "+"%char; " "%char] ++ (lit "config." ++ b)) as Et by (rewrite <- !app_assoc; reflexivity).
    assert (forall c m, proper_name m -> is_word c = false -> c <> "."%char -> without c (lit "config." ++ m)) as Wi.
    { intros c m P Wc D. apply without_app. split; [|now apply name_without].
      intros I. repeat (destruct I as [<-|I]; [first [discriminate Wc|congruence]|]). destruct I. }
    assert (gives F64 R (lit "config." ++ a ++ lit " + config." ++ b) (x + y)%Qc) as Gs.
    { rewrite Et. apply (gives_sum _ _ _ _ _ empty_solution "+"%char Qcplus); auto using trimmed_config; try discriminate.
      - apply Wi; [exact Pa|reflexivity|discriminate].
      - apply Wi; [exact Pb|reflexivity|discriminate].
      - unfold gives. do 3 apply eventually_step. revert IHa. apply eventually_mono. intros k E. now rewrite member_step.
      - unfold gives. do 3 apply eventually_step. revert IHb. apply eventually_mono. intros k E. now rewrite member_step. }
    do 2 apply eventually_step. revert Gs. apply eventually_mono. intros k E.
    rewrite (default_step n TFloat _ H G); [exact E| |discriminate].
    cbn [convert]. rewrite config_not_float; [reflexivity|]. rewrite Et. apply trimmed_app; auto using trimmed_config; discriminate.
  - assert (t = TFloat) as -> by (apply (special_float _ _ _ H); auto).
    do 4 apply eventually_step. exists 0. intros k _. rewrite (default_step n TFloat _ H G); [|reflexivity|discriminate].
    rewrite evaluate_S. assert (cast (lit "third") = None) as -> by (vm_compute; reflexivity). rewrite evaluate_name_S. cbn [str_eqb].
    assert (str_eqb (lit "third") (lit "N_PROCS") = false) as -> by reflexivity. rewrite str_eqb_refl. do 2 f_equal.
  - assert (t = TInt) as -> by exact (special_int _ _ H).
    do 4 apply eventually_step. exists 0. intros k _. rewrite (default_step n TInt _ H G); [|reflexivity|discriminate].
    rewrite evaluate_S. assert (cast (lit "N_PROCS") = None) as -> by (vm_compute; reflexivity). rewrite evaluate_name_S, str_eqb_refl. reflexivity.
  - assert (t = TFloat) as -> by (apply (special_float _ _ _ H); auto).
    exists 10. intros k L. replace k with (S (S (8 + (k - 10)))) by lia.
    rewrite (default_step n TFloat _ H G); [apply rotation_evaluated|vm_compute; reflexivity|discriminate].
Qed.

(** ** Everything has a meaning *)
Definition reads_check (t : rtype) (d : str) : bool :=
  match t with
  | TFloat => match read_float d with Some _ => str_eqb (strip d) d | None => false end
  | TInt => match read_int d with Some _ => str_eqb (strip d) d | None => false end
  | TStr => true
  | TList => str_eqb d (lit "[1.0]") || str_eqb d (lit "[0]")
  end.
Lemma strip_same b x a : spaces b -> spaces a -> decimal_ok x -> strip (b ++ decimal_text x ++ a) = b ++ decimal_text x ++ a -> b ++ decimal_text x ++ a = decimal_text x.
Proof. intros B A X E. rewrite <- E. apply strip_spaces; auto using decimal_trimmed. Qed.
Lemma reads_check_ok t d : reads_check t d = true -> exists v, reads t d v.
Proof.
  destruct t; cbn [reads_check].
  - destruct (read_int d) as [q|] eqn:Q; [|discriminate]. destruct (str_eqb_spec (strip d) d) as [E|]; [|discriminate]. intros _.
    destruct (read_int_inv _ _ Q) as (b & x & a & -> & B & A & X & W & _). rewrite (strip_same _ _ _ B A X E). eexists. apply reads_whole; assumption.
  - destruct (read_float d) as [q|] eqn:Q; [|discriminate]. destruct (str_eqb_spec (strip d) d) as [E|]; [|discriminate]. intros _.
    destruct (read_float_inv _ _ Q) as (b & x & a & -> & B & A & X & _). rewrite (strip_same _ _ _ B A X E). eexists. apply reads_real; assumption.
  - intros _. eexists. apply reads_text.
  - intros H. apply orb_true_iff in H as [H|H].
    + assert (d = lit "[1.0]") as -> by (destruct (str_eqb_spec d (lit "[1.0]")); [assumption|discriminate]). eexists. apply (reads_list [([], mkDecimal None (lit "1") (Some (lit "0")) None, [])]). constructor; [|constructor].
      split; [constructor|]. split; [|constructor]. split; [constructor; [vm_compute; tauto|constructor]|]. split; [|exact I]. split; [constructor; [vm_compute; tauto|constructor]|]. left. discriminate.
    + assert (d = lit "[0]") as -> by (destruct (str_eqb_spec d (lit "[0]")); [assumption|discriminate]). eexists. apply (reads_list [([], mkDecimal None (lit "0") None None, [])]). constructor; [|constructor].
      split; [constructor|]. split; [|constructor]. split; [constructor; [vm_compute; tauto|constructor]|]. split; [discriminate|exact I].
Qed.


Definition sum_text : str := lit "config.simStartTime + config.tDel".
Definition default_check (r : str * (rtype * str)) : bool :=
  let d := snd (snd r) in
  reads_check (fst (snd r)) d || str_eqb d (lit "config.simStartTime") || (str_eqb d sum_text && str_eqb (fst r) (lit "simStopTime"))
  || str_eqb d (lit "third") || str_eqb d (lit "N_PROCS") || str_eqb d rotation_text.
Lemma defaults_checked : forallb default_check parameters = true.
Proof. vm_compute. reflexivity. Qed.
Lemma start_row : In (lit "simStartTime", (TFloat, lit "0.0")) parameters.
Proof. apply (d_get_iff str_eqb str_eqb_spec); [exact parameters_nodup|]. vm_compute. reflexivity. Qed.
Lemma step_row : In (lit "tDel", (TFloat, lit "0.01041666666667")) parameters.
Proof. apply (d_get_iff str_eqb str_eqb_spec); [exact parameters_nodup|]. vm_compute. reflexivity. Qed.
Lemma stop_row : In (lit "simStopTime", (TFloat, sum_text)) parameters.
Proof. apply (d_get_iff str_eqb str_eqb_spec); [exact parameters_nodup|]. vm_compute. reflexivity. Qed.
End User.

Section Meanings.
Context (user : str -> option str) (AR : all_read user).
Lemma float_means n d : In (n, (TFloat, d)) parameters -> reads_check TFloat d = true -> exists q, means user n (RReal q).
Proof.
  intros H C. destruct (user n) as [s|] eqn:G.
  - destruct (AR _ _ _ _ H G) as [v Rd]. pose proof Rd as Rd'. inversion Rd'; subst. eexists. exact (means_given user n TFloat _ _ _ H G Rd).
  - destruct (reads_check_ok _ _ C) as [v Rd]. pose proof Rd as Rd'. inversion Rd'; subst. eexists. exact (means_default user n TFloat _ _ H G Rd).
Qed.
Lemma start_means : exists x, means user (lit "simStartTime") (RReal x).
Proof. apply (float_means _ _ start_row). vm_compute. reflexivity. Qed.
Lemma step_means : exists x, means user (lit "tDel") (RReal x).
Proof. apply (float_means _ _ step_row). vm_compute. reflexivity. Qed.
Lemma every_meaning n : In n (map fst parameters) ->
  (n = lit "simStopTime" -> user n = None -> forall x y, means user (lit "simStartTime") (RReal x) -> means user (lit "tDel") (RReal y) -> (x + y <> 0)%Qc) ->
  exists v, means user n v.
Proof.
  intros I Z. apply in_map_iff in I as ([m [t d]] & <- & H). cbn [fst] in *.
  destruct (user m) as [s|] eqn:G; [destruct (AR _ _ _ _ H G) as [v Rd]; exists v; exact (means_given user m t d s v H G Rd)|].
  pose proof defaults_checked as C. rewrite forallb_forall in C. specialize (C _ H). unfold default_check in C. cbn [fst snd] in C.
  rewrite !orb_true_iff in C. destruct C as [[[[[C|C]|C]|C]|C]|C].
  - destruct (reads_check_ok _ _ C) as [v Rd]. exists v. exact (means_default user m t d v H G Rd).
  - destruct (str_eqb_spec d (lit "config.simStartTime")) as [->|]; [|discriminate]. destruct start_means as [x Mx]. exists (RReal x). exact (means_other user m t _ _ H G Mx).
  - apply andb_true_iff in C as [C1 C2]. destruct (str_eqb_spec d sum_text) as [->|]; [|discriminate]. destruct (str_eqb_spec m (lit "simStopTime")) as [->|]; [|discriminate].
    destruct start_means as [x Mx]. destruct step_means as [y My]. exists (RReal (x + y)%Qc).
    apply (means_sum user (lit "simStopTime") t (lit "simStartTime") (lit "tDel") x y H G Mx My). now apply Z.
  - destruct (str_eqb_spec d (lit "third")) as [->|]; [|discriminate]. eexists. exact (means_third user m t H G).
  - destruct (str_eqb_spec d (lit "N_PROCS")) as [->|]; [|discriminate]. eexists. exact (means_processes user m t H G).
  - destruct (str_eqb_spec d rotation_text) as [->|]; [|discriminate]. eexists. exact (means_rotation user m t H G).
Qed.
End Meanings.
Lemma means_functional u n v w : means (given u) n v -> means (given u) n w -> v = w.
Proof.
  intros A B. destruct (eventually_and _ _ (means_evaluated u n v A) (means_evaluated u n w B)) as [N H]. destruct (H N (le_n N)) as [E K]. congruence.
Qed.
