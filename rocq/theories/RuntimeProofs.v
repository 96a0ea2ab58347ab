(** Proofs about runtime parameters. *)

From Coq Require Import String Ascii List Bool ZArith QArith Qcanon Lia.
From Verif Require Import Py PyFacts PyDict SymbolicModel SymbolicSpec SymbolicTermProofs SymbolicReduceProofs SymbolicChainProofs SymbolicExprProofs
  SymbolicLawProofs MeasurableSpec QuantityProofs RuntimeModel RuntimeSpec.
Import SymbolicSpec ListNotations.
Open Scope list_scope.
Open Scope nat_scope.

(** * Splitting *)

Lemma split_none c s : without c s -> split_on c s = [s].
Proof.
  induction s as [|x s IH]; intros H; [reflexivity|]. cbn.
  destruct (Ascii.eqb_spec x c) as [->|N]; [exfalso; apply H; left; reflexivity|].
  rewrite IH; [reflexivity|]. intros I. apply H. now right.
Qed.
Lemma split_cut c a b : without c a -> split_on c (a ++ c :: b) = a :: split_on c b.
Proof.
  induction a as [|x a IH]; intros H; cbn.
  - now rewrite Ascii.eqb_refl.
  - destruct (Ascii.eqb_spec x c) as [->|N]; [exfalso; apply H; left; reflexivity|].
    rewrite IH; [reflexivity|]. intros I. apply H. now right.
Qed.
Lemma split_nonempty c s : split_on c s <> [].
Proof. destruct s as [|x s]; cbn; [discriminate|]. destruct (Ascii.eqb x c); [discriminate|]. destruct (split_on c s); discriminate. Qed.
Lemma split_length c s : length (split_on c s) = S (count_occ ascii_dec s c).
Proof.
  induction s as [|x s IH]; [reflexivity|]. cbn [split_on count_occ].
  destruct (Ascii.eqb_spec x c) as [->|N].
  - destruct (ascii_dec c c); [|contradiction]. cbn. now rewrite IH.
  - destruct (ascii_dec x c); [contradiction|]. pose proof (split_nonempty c s).
    destruct (split_on c s) as [|p ps]; [contradiction|]. exact IH.
Qed.
Lemma split_lines ls : Forall (without newline) ls ->
  split_on newline (concat (map (fun l => l ++ [newline]) ls)) = ls ++ [[]].
Proof.
  induction ls as [|l ls IH]; intros H; [reflexivity|]. inversion H; subst.
  cbn [map concat]. rewrite <- app_assoc. cbn [app]. rewrite split_cut by assumption. rewrite IH by assumption. reflexivity.
Qed.
Lemma hd_split c a : hd [] (split_on c a) = fst (fold_right (fun x '(p, cut) => if Ascii.eqb x c then ([], true) else (x :: p, cut)) ([], false) a).
Proof.
  induction a as [|x a IH]; [reflexivity|]. cbn. destruct (Ascii.eqb x c).
  - destruct (fold_right _ _ a). reflexivity.
  - destruct (fold_right _ _ a) as [p b]. cbn in *. pose proof (split_nonempty c a).
    destruct (split_on c a); [contradiction|]. cbn in *. congruence.
Qed.
Lemma hd_split_app c w s : without c w -> hd [] (split_on c (w ++ s)) = w ++ hd [] (split_on c s).
Proof.
  induction w as [|x w IH]; intros H; [reflexivity|]. cbn.
  destruct (Ascii.eqb_spec x c) as [->|N]; [exfalso; apply H; left; reflexivity|].
  pose proof (split_nonempty c (w ++ s)). assert (without c w) as W by (intros I; apply H; now right).
  specialize (IH W). destruct (split_on c (w ++ s)); [contradiction|]. cbn in *. congruence.
Qed.

(** * Blanks *)

Lemma lstrip_blanks b s : blanks b -> lstrip (b ++ s) = lstrip s.
Proof. induction 1 as [|c b [E _] H IH]; [reflexivity|]. cbn. now rewrite E. Qed.
Lemma blanks_rev b : blanks b -> blanks (rev b).
Proof. unfold blanks. intros H. apply Forall_rev. exact H. Qed.
Lemma strip_blanks b v a : blanks b -> blanks a -> trimmed v -> strip (b ++ v ++ a) = v.
Proof.
  intros Hb Ha [T1 T2]. unfold strip, rstrip. rewrite lstrip_blanks by assumption.
  destruct v as [|c v].
  - cbn. rewrite <- (app_nil_r a), lstrip_blanks by assumption. reflexivity.
  - rewrite (lstrip_id ((c :: v) ++ a)) by exact T1.
    rewrite rev_app_distr. rewrite lstrip_blanks by now apply blanks_rev.
    rewrite lstrip_id; [apply rev_involutive|]. exact T2.
Qed.

(** * Inline comments *)

Lemma cut_comments comments w : (forall c, In c comments -> without c w) ->
  fold_left (fun s c => hd [] (split_on c s)) comments w = w.
Proof.
  induction comments as [|c cs IH]; intros H; [reflexivity|]. cbn.
  rewrite split_none by (apply H; left; reflexivity). cbn. apply IH. intros; apply H; now right.
Qed.
Lemma cut_comment comments w c t : (forall c, In c comments -> without c w) -> In c comments ->
  fold_left (fun s c => hd [] (split_on c s)) comments (w ++ c :: t) = w.
Proof.
  revert t. induction comments as [|c0 cs IH]; intros t H I; [destruct I|]. cbn.
  rewrite hd_split_app by (apply H; left; reflexivity). cbn.
  destruct (Ascii.eqb_spec c c0) as [->|N].
  - cbn. rewrite app_nil_r. apply cut_comments. intros; apply H; now right.
  - pose proof (split_nonempty c0 t). destruct (split_on c0 t) as [|p ps]; [contradiction|]. cbn.
    apply IH; [intros; apply H; now right|]. destruct I as [->|I]; [contradiction|exact I].
Qed.

(** * Files *)

Definition signs_of (comments : list ascii) : list ascii := match comments with [] => ["#"%char] | _ => comments end.
Lemma existsb_in c cs : existsb (Ascii.eqb c) cs = true <-> In c cs.
Proof.
  rewrite existsb_exists. split.
  - intros (x & I & E). apply Ascii.eqb_eq in E. now subst.
  - intros I. exists c. split; [exact I|apply Ascii.eqb_refl].
Qed.
Lemma without_app c a b : without c (a ++ b) <-> without c a /\ without c b.
Proof. unfold without. rewrite in_app_iff. tauto. Qed.
Lemma without_cons c x b : without c (x :: b) <-> x <> c /\ without c b.
Proof. unfold without. cbn. tauto. Qed.
Lemma blanks_newline b : blanks b -> without newline b.
Proof. unfold blanks, without. rewrite Forall_forall. intros H I. destruct (H _ I). contradiction. Qed.
Lemma blanks_equals b : blanks b -> without "="%char b.
Proof. unfold blanks, without. rewrite Forall_forall. intros H I. destruct (H _ I) as [E _]. discriminate E. Qed.

Lemma line_without signs l : without newline (match signs with [] => [] | _ => signs end) -> line_ok signs l -> without newline (line_text l).
Proof.
  intros S. destruct l as [|c t|k b v a n]; cbn.
  - intros _ [].
  - intros [I W]. apply without_cons. split; [|exact W]. intros ->. apply S. destruct signs; [destruct I|exact I].
  - intros (K & _ & Wk & B & A & _ & _ & Wv & _ & N).
    apply without_app. split; [exact Wk|]. apply without_cons. split; [discriminate|].
    rewrite !without_app. repeat split; [now apply blanks_newline|exact Wv|now apply blanks_newline|].
    destruct n as [[c t]|]; [|intros []]. apply without_cons. destruct N as (_ & _ & N1 & _ & N2). now split.
Qed.

Lemma parse_line signs l rest pairs : line_ok signs l ->
  parse_lines signs (line_text l :: rest) pairs =
  parse_lines signs rest (match l with Entry k _ v _ _ => d_set str_eqb pairs k v | _ => pairs end).
Proof.
  destruct l as [|c t|k b v a n]; cbn [line_ok line_text].
  - reflexivity.
  - intros [I _]. cbn. apply existsb_in in I. now rewrite I.
  - intros (K & Ek & Wk & B & A & T & Ev & Wv & C & N).
    destruct k as [|c k]; [contradiction|]. cbn [app]. cbn [parse_lines].
    destruct (existsb (Ascii.eqb c) signs) eqn:X; [apply existsb_in in X; contradiction|].
    set (tail := match n with Some (c, t) => c :: t | None => [] end).
    change (c :: k ++ "="%char :: b ++ v ++ a ++ tail) with ((c :: k) ++ "="%char :: b ++ v ++ a ++ tail).
    rewrite split_cut by exact Ek. rewrite split_none.
    + assert (strip_inline_comments (b ++ v ++ a ++ tail) signs = v) as ->; [|reflexivity].
      unfold strip_inline_comments.
      assert (forall c, In c signs -> without c (b ++ v ++ a)) as W.
      { intros c0 I. destruct (C _ I) as (? & ? & ?). rewrite !without_app. tauto. }
      replace (b ++ v ++ a ++ tail) with ((b ++ v ++ a) ++ tail) by now rewrite <- !app_assoc.
      destruct n as [[c0 t]|]; subst tail.
      * rewrite cut_comment by tauto. now apply strip_blanks.
      * rewrite app_nil_r, cut_comments by assumption. now apply strip_blanks.
    + rewrite !without_app. repeat split; [now apply blanks_equals|exact Ev|now apply blanks_equals|].
      subst tail. destruct n as [[c0 t]|]; [|intros []]. apply without_cons. destruct N as (_ & ? & _ & ? & _). now split.
Qed.

Lemma parse_all signs ls rest pairs : Forall (line_ok signs) ls ->
  parse_lines signs (map line_text ls ++ rest) pairs =
  parse_lines signs rest (d_update str_eqb pairs (entries ls)).
Proof.
  revert pairs. induction ls as [|l ls IH]; intros pairs H; [reflexivity|]. inversion H; subst.
  cbn [map app]. rewrite parse_line by assumption. rewrite IH by assumption.
  unfold entries. cbn [flat_map]. destruct l; reflexivity.
Qed.

Lemma config_ok comments ls : without newline comments -> Forall (line_ok (signs_of comments)) ls ->
  config_file comments (file_text ls) = Ok (d_of str_eqb (entries ls)).
Proof.
  intros N H. unfold config_file. fold (signs_of comments). unfold file_text.
  assert (concat (map (fun l => line_text l ++ [newline]) ls) = concat (map (fun s => s ++ [newline]) (map line_text ls))) as -> by now rewrite map_map.
  rewrite split_lines.
  - rewrite parse_all by assumption. reflexivity.
  - apply Forall_forall. intros s I. apply in_map_iff in I. destruct I as (l & <- & I).
    apply (line_without (signs_of comments)).
    + destruct comments; cbn; [intros [E|[]]; discriminate E|exact N].
    + rewrite Forall_forall in H. now apply H.
Qed.

(** Exactly the files with a bad line are rejected. *)
Lemma first_cut c s : without c s \/ exists a b, s = a ++ c :: b /\ without c a.
Proof.
  induction s as [|x s IH]; [now left|]. destruct (ascii_dec x c) as [->|N]; [right; exists [], s; now split; [|intros []]|].
  destruct IH as [W|(a & b & -> & W)]; [left; intros [E|I]; [congruence|contradiction]|].
  right. exists (x :: a), b. split; [reflexivity|]. intros [E|I]; [congruence|contradiction].
Qed.
Lemma cut_unique c a b l r : a ++ c :: b = l ++ r -> without c a -> without c l -> (r = [] \/ exists r', r = c :: r') -> l = a /\ r = c :: b.
Proof.
  intros E A L R. assert (In c (l ++ r)) as I by (rewrite <- E; apply in_or_app; right; now left).
  apply in_app_or in I as [I|I]; [contradiction|]. destruct R as [->|(r' & ->)]; [contradiction|]. clear I.
  revert l L E. induction a as [|x a IH]; intros [|y l] L E; cbn in E; inversion E; subst.
  - auto.
  - exfalso. apply L. now left.
  - exfalso. apply A. now left.
  - destruct (IH (fun I => A (or_intror I)) l (fun I => L (or_intror I)) H1) as [-> ?]. auto.
Qed.
Lemma split_line_of contents l : In l (split_on newline contents) <-> line_of contents l.
Proof.
  remember (length contents) as n eqn:Hn. assert (length contents <= n) as Le by lia. clear Hn. revert contents Le l.
  induction n as [|n IH]; intros s Le l.
  - destruct s as [|c s]; [|cbn in Le; lia]. cbn. split.
    + intros [<-|[]]. exists [], []. repeat split; auto; intros [].
    + intros (b & a & E & _). symmetry in E. apply app_eq_nil in E as [_ E]. apply app_eq_nil in E as [-> _]. now left.
  - destruct (first_cut newline s) as [W|(a & b & -> & W)].
    + rewrite split_none by exact W. split.
      * intros [<-|[]]. exists [], []. rewrite app_nil_r. repeat split; auto.
      * intros (b & a & -> & L & B & A). fold newline in *. left.
        destruct B as [->|(b' & ->)]; [|exfalso; apply W; rewrite !in_app_iff; left; right; now left].
        destruct A as [->|(a' & ->)]; [now rewrite app_nil_r|exfalso; apply W; rewrite !in_app_iff; right; right; now left].
    + rewrite split_cut by exact W. rewrite app_length in Le. cbn in Le. specialize (IH b). split.
      * intros [<-|I].
        -- exists [], (newline :: b). repeat split; eauto.
        -- apply IH in I as (b' & a' & -> & L & B & A); [|lia]. exists (a ++ newline :: b'), a'. split; [now rewrite <- app_assoc|].
           split; [exact L|]. split; [|exact A]. right. fold newline in *. destruct B as [->|(x & ->)]; [now exists a|]. exists (a ++ newline :: x). now rewrite <- app_assoc.
      * intros (b' & a' & E & L & B & A). fold newline in *. destruct B as [->|(x & ->)].
        -- cbn [app] in E. apply cut_unique in E as [-> _]; auto. now left.
        -- right. apply IH; [lia|].
           destruct (first_cut newline x) as [X|(x1 & x2 & -> & X)].
           ++ rewrite <- app_assoc in E. cbn in E. apply cut_unique in E as [-> E]; eauto. injection E as E.
              exists [], a'. repeat split; auto.
           ++ rewrite <- !app_assoc in E. cbn in E. apply cut_unique in E as [-> E]; eauto. injection E as E.
              exists (x2 ++ [newline]), a'. repeat split; eauto. now rewrite <- app_assoc.
Qed.
Lemma parse_bad signs ls pairs : (exists l, In l ls /\ bad_line signs l) <-> parse_lines signs ls pairs = Err ValueError.
Proof.
  revert pairs. induction ls as [|l ls IH]; intros pairs.
  - cbn. split; [intros (? & [] & _)|discriminate].
  - destruct l as [|c l].
    + cbn [parse_lines]. rewrite <- IH. split.
      * intros (x & [<-|I] & B); [destruct B|]. now exists x.
      * intros (x & I & B). exists x. split; [now right|exact B].
    + cbn [parse_lines]. destruct (existsb (Ascii.eqb c) signs) eqn:X.
      * apply existsb_in in X. rewrite <- IH. split.
        -- intros (x & [<-|I] & B); [destruct B; contradiction|]. now exists x.
        -- intros (x & I & B). exists x. split; [now right|exact B].
      * pose proof (split_length "="%char (c :: l)) as L.
        destruct (split_on "="%char (c :: l)) as [|k [|t [|u us]]] eqn:E.
        -- exfalso. exact (split_nonempty _ _ E).
        -- split; [reflexivity|]. intros _. exists (c :: l). split; [now left|]. split; [|cbn [length] in L; lia].
           intros I. apply existsb_in in I. congruence.
        -- rewrite <- IH. split.
           ++ intros (x & [<-|I] & B); [destruct B as [_ B]; exfalso; apply B; cbn [length] in L; lia|]. now exists x.
           ++ intros (x & I & B). exists x. split; [now right|exact B].
        -- split; [reflexivity|]. intros _. exists (c :: l). split; [now left|]. split; [|cbn [length] in L; lia].
           intros I. apply existsb_in in I. congruence.
Qed.

(** * Numerals *)

Definition numeral_char (c : ascii) : Prop :=
  is_digit c = true \/ c = "+"%char \/ c = "-"%char \/ c = "."%char \/ is_expchar c = true.
Lemma take_digits_app s d r : take_digits s = (d, r) -> s = d ++ r /\ Forall (fun c => is_digit c = true) d.
Proof.
  revert d r. induction s as [|c s IH]; intros d r; cbn.
  - intros [= <- <-]. split; constructor.
  - destruct (is_digit c) eqn:D.
    + destruct (take_digits s) as [d' r'] eqn:E. intros [= <- <-]. destruct (IH _ _ eq_refl) as [-> H]. split; [reflexivity|]. now constructor.
    + intros [= <- <-]. split; [reflexivity|constructor].
Qed.
Lemma take_sign_app s b r : take_sign s = (b, r) -> exists p, s = p ++ r /\ Forall numeral_char p.
Proof.
  destruct s as [|c s]; cbn.
  - intros [= <- <-]. exists []. split; [reflexivity|constructor].
  - destruct (Ascii.eqb_spec c "-"%char) as [->|]; [|destruct (Ascii.eqb_spec c "+"%char) as [->|]]; intros [= <- <-].
    + exists ["-"%char]. split; [reflexivity|]. constructor; [|constructor]. unfold numeral_char. tauto.
    + exists ["+"%char]. split; [reflexivity|]. constructor; [|constructor]. unfold numeral_char. tauto.
    + exists []. split; [reflexivity|constructor].
Qed.
Lemma digits_numeral d : Forall (fun c => is_digit c = true) d -> Forall numeral_char d.
Proof. apply Forall_impl. intros c H. now left. Qed.
Lemma read_int_chars s q : read_int s = Some q -> Forall numeral_char (strip s).
Proof.
  unfold read_int. destruct (take_sign (strip s)) as [b r] eqn:S. destruct (take_sign_app _ _ _ S) as (p & -> & P).
  destruct (take_digits r) as [d r'] eqn:D. destruct (take_digits_app _ _ _ D) as [-> Hd].
  destruct d; [discriminate|]. destruct r'; [|discriminate]. intros _. rewrite app_nil_r. apply Forall_app. split; [exact P|now apply digits_numeral].
Qed.
Lemma read_exponent_chars s z : read_exponent s = Some z -> Forall numeral_char s.
Proof.
  destruct s as [|c s]; [constructor|]. cbn. destruct (is_expchar c) eqn:X; [|discriminate].
  destruct (take_sign s) as [b r] eqn:S. destruct (take_sign_app _ _ _ S) as (p & -> & P).
  destruct (take_digits r) as [d r'] eqn:D. destruct (take_digits_app _ _ _ D) as [-> Hd].
  destruct d; [discriminate|]. destruct r'; [|discriminate]. intros _. constructor; [unfold numeral_char; tauto|].
  rewrite app_nil_r. apply Forall_app. split; [exact P|now apply digits_numeral].
Qed.
Lemma read_float_chars s q : read_float s = Some q -> Forall numeral_char (strip s).
Proof.
  unfold read_float. destruct (take_sign (strip s)) as [b r] eqn:S. destruct (take_sign_app _ _ _ S) as (p & -> & P).
  destruct (take_digits r) as [d r1] eqn:D. destruct (take_digits_app _ _ _ D) as [-> Hd].
  destruct (match r1 with c :: r' => if Ascii.eqb c "." then take_digits r' else ([], r1) | [] => ([], []) end) as [frac r2] eqn:X.
  intros H. assert (exists z, read_exponent r2 = Some z) as [z Z].
  { destruct (d ++ frac); [discriminate|]. destruct (read_exponent r2); [eauto|discriminate]. }
  apply read_exponent_chars in Z. apply Forall_app. split; [exact P|]. apply Forall_app. split; [now apply digits_numeral|].
  destruct r1 as [|c r1]; [constructor|].
  destruct (Ascii.eqb_spec c "."%char) as [->|].
  - destruct (take_digits_app _ _ _ X) as [-> Hf]. constructor; [unfold numeral_char; tauto|]. apply Forall_app. split; [now apply digits_numeral|exact Z].
  - injection X as <- <-. exact Z.
Qed.
Lemma cast_chars s q : cast s = Some q -> Forall numeral_char (strip s).
Proof.
  unfold cast. destruct (read_int s) eqn:E; [intros _; now apply read_int_chars in E|apply read_float_chars].
Qed.
Lemma cast_none s c : trimmed s -> In c s -> ~ numeral_char c -> cast s = None.
Proof.
  intros [T1 T2] I N. destruct (cast s) eqn:E; [|reflexivity]. exfalso. apply cast_chars in E.
  rewrite strip_id in E; [rewrite Forall_forall in E; exact (N (E _ I))| |].
  - destruct s; [exact Logic.I|exact T1].
  - destruct (rev s); [exact Logic.I|exact T2].
Qed.
Lemma space_not_numeral : ~ numeral_char " "%char.
Proof. unfold numeral_char. cbn. intros [H|[H|[H|[H|H]]]]; discriminate H. Qed.
Lemma times_not_numeral : ~ numeral_char "*"%char.
Proof. unfold numeral_char. cbn. intros [H|[H|[H|[H|H]]]]; discriminate H. Qed.
Lemma over_not_numeral : ~ numeral_char "/"%char.
Proof. unfold numeral_char. cbn. intros [H|[H|[H|[H|H]]]]; discriminate H. Qed.

(** * Names *)

Lemma word_same c : word_letter c = is_word c.
Proof. destruct c as [[] [] [] [] [] [] [] []]; reflexivity. Qed.
Lemma proper_word n : proper_name n -> Forall (fun c => is_word c = true) n.
Proof. intros (_ & W & _). rewrite Forall_forall in *. intros c I. rewrite <- word_same. now apply W. Qed.
Lemma word_space c : is_word c = true -> is_space c = false.
Proof. destruct c as [[] [] [] [] [] [] [] []]; intros H; vm_compute in H |- *; congruence. Qed.
Lemma word_cases c : is_word c = true -> c <> "+"%char /\ c <> "-"%char /\ c <> "."%char /\ c <> " "%char /\ c <> "*"%char /\ c <> "/"%char.
Proof. intros H. repeat split; intros ->; discriminate H. Qed.
Lemma name_trimmed n : proper_name n -> trimmed n.
Proof.
  intros P. pose proof (proper_word n P) as W. rewrite Forall_forall in W. split.
  - destruct n as [|c n]; [exact I|]. apply word_space, W. now left.
  - destruct (rev n) as [|c m] eqn:E; [exact I|]. apply word_space, W, in_rev. rewrite E. now left.
Qed.
Lemma name_strip n : proper_name n -> strip n = n.
Proof.
  intros H. apply name_trimmed in H as [H1 H2]. apply strip_id.
  - destruct n; [exact I|exact H1].
  - destruct (rev n); [exact I|exact H2].
Qed.
Lemma name_cast n : proper_name n -> cast n = None.
Proof.
  intros P. unfold cast, read_int, read_float. rewrite name_strip by exact P. pose proof (proper_word n P) as W. destruct P as (H & _).
  destruct n as [|c n]; [contradiction|]. inversion W; subst. destruct (word_cases c) as (N1 & N2 & N3 & _); [assumption|].
  cbn [take_sign]. destruct (Ascii.eqb_spec c "-"%char); [contradiction|]. destruct (Ascii.eqb_spec c "+"%char); [contradiction|].
  cbn [take_digits]. rewrite H. destruct (Ascii.eqb_spec c "."%char); [contradiction|]. reflexivity.
Qed.
Lemma name_without n c : proper_name n -> is_word c = false -> without c n.
Proof. intros P H I. apply proper_word in P. rewrite Forall_forall in P. apply P in I. congruence. Qed.
Lemma not_key r n c F fuel : (forall m, In m (map fst (r_reference r)) \/ In m (map fst (r_constants r)) -> proper_name m) ->
  In c n -> is_word c = false -> get_argument F r (S fuel) n = Ok None.
Proof.
  intros K I W. unfold get_argument.
  assert (forall (V : Type) (d : list (str * V)), (forall m, In m (map fst d) -> proper_name m) -> d_get str_eqb d n = None) as G.
  { intros V d Hd. apply (d_get_none str_eqb str_eqb_spec). intros J. apply Hd in J. exact (name_without _ _ J W I). }
  rewrite G by auto. cbn [compute_constant]. rewrite G by auto. reflexivity.
Qed.
Lemma has_char_in c s : has_char c s = true <-> In c s.
Proof. apply existsb_in. Qed.
Lemma has_char_not c s : without c s -> has_char c s = false.
Proof. intros H. destruct (has_char c s) eqn:E; [|reflexivity]. apply has_char_in in E. contradiction. Qed.

(** * Products *)

Lemma product_read F x0 l : legal_chain F x0 l ->
  exists x, expression_of_str F false (chain_text x0 l) = Ok x /\ canonical x /\ Forall wf x /\ same_monomial x (chain_denote x0 l).
Proof.
  intros L. destruct (default_accepts F x0 l L) as (ts & E & W & S).
  assert (ts <> []) as N.
  { intros ->. destruct (parse F false (chain_text x0 l)) eqn:P; [|discriminate]. injection E as ->.
    unfold parse in P. cbn [resolve] in P. destruct (parse_loop _ _ _ _ _ _); [|discriminate].
    cbn [bind] in P. destruct (mapM _ _); [|discriminate]. cbn [bind] in P. injection P as P.
    now apply app_eq_nil in P as [_ P]. }
  destruct (reduce_total ts N) as [x R]. exists x. unfold expression_of_str.
  assert (standard_str (chain_text x0 l) = chain_text x0 l) as ->.
  { destruct L as [L _]. apply text_ok in L as [T _]. apply reads_nonempty in T. unfold chain_text.
    destruct (text x0); [congruence|reflexivity]. }
  rewrite E. cbn [bind]. split; [exact R|]. split; [eauto using reduce_canonical|]. split; [eauto using reduce_wf|].
  apply (same_monomial_trans _ ts); [now apply reduce_same|exact S].
Qed.
Lemma total_integral b ts : integral ts -> exists z, total_expo b ts = Qc_of_Z z.
Proof.
  induction 1 as [|t ts [z E] H [w IH]].
  - exists 0%Z. reflexivity.
  - rewrite total_expo_cons, IH. destruct (str_eqb b (base t)).
    + exists (z + w)%Z. rewrite Qc_of_Z_add. now rewrite E.
    + exists w. ring.
Qed.
Lemma canonical_like x ts : canonical x -> same_monomial x ts -> integral ts ->
  integral x /\ forall t, In t x -> base t = lit "1" \/ In (base t) (map base ts).
Proof.
  intros C S I. destruct (canonical_parts x C) as (vs & Fv & Nv & _ & E & Tv).
  assert (forall t, In t x -> (base t = lit "1" /\ expo t = 1%Qc) \/ In t vs) as Cases.
  { intros t J. rewrite E in J. destruct vs as [|v vs].
    - destruct J as [<-|[]]. left. now split.
    - destruct (Qc_eqb (total_coef x) 1).
      + now right.
      + destruct J as [<-|J]; [left; now split|now right]. }
  destruct S as [_ S]. rewrite Forall_forall in Fv.
  assert (forall t, In t vs -> expo t = total_expo (base t) ts) as Ev.
  { intros t J. destruct (Fv t J) as (B & _ & _). rewrite <- S, <- Tv by assumption. symmetry. now apply total_expo_In. }
  split.
  - apply Forall_forall. intros t J. destruct (Cases t J) as [[_ ->]|K]; [exists 1%Z; reflexivity|].
    rewrite Ev by assumption. now apply total_integral.
  - intros t J. destruct (Cases t J) as [[-> _]|K]; [now left|]. right.
    destruct (in_dec str_eq_dec (base t) (map base ts)) as [Y|Y]; [exact Y|].
    exfalso. destruct (Fv t K) as (_ & _ & X). apply X. rewrite Ev by assumption. now apply total_expo_absent.
Qed.
Definition guard (rho : str -> Qc) (b : str) : Qc :=
  let q := if str_eqb b (lit "1") then 1%Qc else rho b in if Qc_eqb q 0 then 1%Qc else q.
Lemma guard_sizing rho : sizing (guard rho).
Proof.
  split; [reflexivity|]. intros b. unfold guard. destruct (Qc_eqb_spec (if str_eqb b (lit "1") then 1%Qc else rho b) 0); [discriminate|assumption].
Qed.
Lemma value_ext rho sigma ts : (forall t, In t ts -> rho (base t) = sigma (base t)) -> value rho ts = value sigma ts.
Proof.
  intros H. unfold value. f_equal. apply map_ext_in. intros t I. now rewrite H.
Qed.
Lemma product_value F rho x0 l : product_ok F rho x0 l ->
  exists x, expression_of_str F false (chain_text x0 l) = Ok x /\ Forall wf x /\ integral x /\ x <> [] /\
    (forall t, In t x -> base t <> lit "1" -> In (base t) (atom_names (AProduct x0 l)) /\ rho (base t) <> 0%Qc) /\
    value (fun b => if str_eqb b (lit "1") then 1%Qc else rho b) x = atom_value rho (AProduct x0 l).
Proof.
  intros (L & I & Z & _). destruct (product_read F x0 l L) as (x & E & C & W & S). exists x.
  destruct (canonical_like x _ C S I) as [Ix B].
  assert (forall t, In t x -> base t <> lit "1" -> In (base t) (atom_names (AProduct x0 l)) /\ rho (base t) <> 0%Qc) as Names.
  { intros t J N. destruct (B t J) as [K|K]; [contradiction|]. split.
    - cbn [atom_names]. apply filter_In. split; [exact K|]. now rewrite str_eqb_neq by exact N.
    - apply in_map_iff in K as (u & Eu & K). rewrite Forall_forall in Z. destruct (Z _ K) as [Y|Y]; rewrite Eu in Y; [contradiction|exact Y]. }
  split; [exact E|]. split; [exact W|]. split; [exact Ix|]. split; [now apply canonical_wf_nonempty|]. split; [exact Names|].
  cbn [atom_value].
  rewrite (value_ext _ (guard rho) x), (value_ext _ (guard rho) (chain_denote x0 l)).
  - apply value_monomial; auto using guard_sizing.
  - intros t J. rewrite Forall_forall in Z. unfold guard. destruct (str_eqb_spec (base t) (lit "1")) as [_|N]; [reflexivity|].
    destruct (Z _ J) as [Y|Y]; [contradiction|]. destruct (Qc_eqb_spec (rho (base t)) 0); [contradiction|reflexivity].
  - intros t J. unfold guard. destruct (str_eqb_spec (base t) (lit "1")) as [_|N]; [reflexivity|].
    destruct (Names t J N) as [_ Y]. destruct (Qc_eqb_spec (rho (base t)) 0); [contradiction|reflexivity].
Qed.
Lemma fold_mult l a : fold_left Qcmult l a = (a * prodQc l)%Qc.
Proof.
  revert a. induction l as [|x l IH]; intros a; cbn [fold_left].
  - unfold prodQc. cbn. ring.
  - rewrite IH. unfold prodQc. cbn [fold_right]. ring.
Qed.

(** * Evaluation *)

Definition eventually (P : nat -> Prop) : Prop := exists N, forall n, N <= n -> P n.
Lemma eventually_and P Q : eventually P -> eventually Q -> eventually (fun n => P n /\ Q n).
Proof. intros [N H] [M K]. exists (N + M). intros n L. split; [apply H|apply K]; lia. Qed.
Lemma eventually_step (P : nat -> Prop) : eventually (fun n => P (S n)) -> eventually P.
Proof. intros [N H]. exists (S N). intros n L. destruct n; [lia|]. apply H. lia. Qed.
Lemma eventually_mono (P Q : nat -> Prop) : (forall n, P n -> Q n) -> eventually P -> eventually Q.
Proof. intros H [N K]. exists N. auto. Qed.
Lemma eventually_all {A} (P : A -> nat -> Prop) l : (forall x, In x l -> eventually (P x)) -> eventually (fun n => forall x, In x l -> P x n).
Proof.
  induction l as [|a l IH]; intros H; [exists 0; intros ? _ ? []|].
  destruct (eventually_and _ _ (H a (or_introl eq_refl)) (IH (fun x I => H x (or_intror I)))) as [N K].
  exists N. intros n L x [<-|I]; destruct (K n L) as [K1 K2]; [exact K1|now apply K2].
Qed.
Lemma eventually_pos : eventually (fun n => exists m, n = S m).
Proof. exists 1. intros n L. destruct n; [lia|]. eauto. Qed.

(** One step of each function. *)
Lemma evaluate_S F r k s : evaluate F r (S k) (RStr s) =
  match cast s with
  | Some q => if Qc_eqb q 0 then evaluate_name F r k s else Ok (RReal q)
  | None => evaluate_name F r k s
  end.
Proof. reflexivity. Qed.
Lemma evaluate_name_S F r k s : evaluate_name F r (S k) s =
  (if str_eqb s (lit "N_PROCS") then Ok RNone
   else if str_eqb s (lit "third") then Ok (RReal (Q2Qc (1 # 3)))
   else
     do a <- get_argument F r k s;
     match a with
     | Some (v, true) => Ok v
     | Some (v, false) => evaluate F r k v
     | None => resolve_definition F r k s
     end)%py.
Proof. reflexivity. Qed.
Definition product_of F r k s : res rvalue :=
  (if has_char "*" s || has_char "/" s then
     do x <- expression_of_str F false s;
     do l <- mapM (fun t =>
               do v <- evaluate F r k (RStr (base t));
               do q <- number v;
               do p <- frac_pow F q (expo t);
               Ok (coef t * p)%Qc) x;
     match l with
     | [] => Err TypeError
     | q :: qs => Ok (RReal (fold_left Qcmult qs q))
     end
   else Err TypeError)%py.
Definition sum_of F r k s (op : Qc -> Qc -> Qc) c : res Qc :=
  (do l <- mapM (fun p => evaluate F r k (RStr (strip p))) (split_on c s);
   match l with
   | a :: b :: _ => do x <- number a; do y <- number b; Ok (op x y)
   | _ => Err IndexError
   end)%py.
Lemma resolve_S F r k s : resolve_definition F r (S k) s =
  (match member s with
   | Some name => evaluate F r k (RStr name)
   | None =>
       if has_char "+" s then
         do q <- sum_of F r k s Qcplus "+"%char; if Qc_eqb q 0 then product_of F r k s else Ok (RReal q)
       else if has_char "-" s then
         do q <- sum_of F r k s Qcminus "-"%char; if Qc_eqb q 0 then product_of F r k s else Ok (RReal q)
       else product_of F r k s
   end)%py.
Proof. reflexivity. Qed.

Section Evaluating.
Context (F : flops) (r : run) (rho : str -> Qc) (rank : str -> nat) (known : str -> Prop) (S0 : solves F r rho rank known).

(** Constants *)
Definition constant_ok (n : str) : Prop := eventually (fun k => compute_constant F (r_constants r) (r_types r) k n = Ok (rho n)).

Lemma known_constant n : known n -> d_get str_eqb (r_reference r) n = None -> In n (map fst (r_constants r)).
Proof.
  intros K R. destruct (solves_constant _ _ _ _ _ S0 n K R) as (text & t & E & _).
  apply (d_get_in str_eqb str_eqb_spec) in E. apply in_map_iff. now exists (n, text).
Qed.

Lemma strip_keeps c s : In c s -> is_space c = false -> In c (strip s).
Proof.
  assert (forall s, In c s -> is_space c = false -> In c (lstrip s)) as H.
  { clear s. induction s as [|x s IH]; intros J N; [exact J|]. cbn. destruct (is_space x) eqn:X; [|exact J].
    apply IH; [|exact N]. destruct J as [->|J]; [congruence|exact J]. }
  intros J N. unfold strip, rstrip. rewrite <- in_rev. apply H; [|exact N]. rewrite <- in_rev. now apply H.
Qed.
Lemma numeral_without t s q c : numeral t s q -> is_space c = false -> ~ numeral_char c -> without c s.
Proof.
  intros N P C I. apply (strip_keeps c) in I; [|exact P].
  assert (Forall numeral_char (strip s)) as H by (destruct t; cbn in N; [apply read_int_chars in N|apply read_float_chars in N| |]; tauto).
  rewrite Forall_forall in H. exact (C (H _ I)).
Qed.
Lemma starts_in p s c : starts p s = true -> In c p -> In c s.
Proof.
  revert s. induction p as [|x p IH]; intros s H I; [destruct I|]. destruct s as [|y s]; [discriminate|].
  cbn in H. apply andb_prop in H as [H1 H2]. apply Ascii.eqb_eq in H1. subst y. destruct I as [->|I]; [now left|]. right. eauto.
Qed.
Lemma starts_firstn p s : starts p s = true -> firstn (length p) s = p.
Proof.
  revert s. induction p as [|x p IH]; intros s H; [reflexivity|]. destruct s as [|y s]; [discriminate|].
  cbn in H. apply andb_prop in H as [H1 H2]. apply Ascii.eqb_eq in H1. subst y. cbn. now rewrite IH.
Qed.
Lemma substring_in p s c : substring_of p s = true -> In c p -> In c s.
Proof.
  induction s as [|y s IH]; cbn [substring_of]; intros H I; apply orb_prop in H as [H|H].
  - exact (starts_in _ _ _ H I).
  - discriminate.
  - exact (starts_in _ _ _ H I).
  - right. auto.
Qed.
Lemma substring_char c s : In c s -> substring_of [c] s = true.
Proof.
  induction s as [|y s IH]; intros I; [destruct I|]. cbn. destruct I as [->|I].
  - now rewrite Ascii.eqb_refl.
  - rewrite IH by exact I. apply orb_true_r.
Qed.
Lemma no_operators t s q : numeral t s q -> existsb (fun p => substring_of p s) [lit "*"; lit "/"; lit "sqrt"] = false.
Proof.
  intros N. destruct (existsb _ _) eqn:E; [|reflexivity]. exfalso. apply existsb_exists in E as (p & I & H).
  assert (forall c, In c p -> is_space c = false -> ~ numeral_char c -> False) as X.
  { intros c J P C. apply (numeral_without _ _ _ c N P C). eapply substring_in; eauto. }
  destruct I as [<-|[<-|[<-|[]]]].
  - apply (X "*"%char); [now left|reflexivity|apply times_not_numeral].
  - apply (X "/"%char); [now left|reflexivity|apply over_not_numeral].
  - apply (X "q"%char); [right; now left|reflexivity|]. intros [H0|[H0|[H0|[H0|H0]]]]; discriminate H0.
Qed.
Lemma constants_evaluate n : known n -> d_get str_eqb (r_reference r) n = None -> constant_ok n.
Proof.
  assert (forall k n, rank n < k -> known n -> d_get str_eqb (r_reference r) n = None -> constant_ok n) as H.
  { induction k as [|k IH]; intros m L K R; [lia|].
    destruct (solves_constant _ _ _ _ _ S0 m K R) as (text & t & E & T & D).
    unfold constant_ok. apply eventually_step. destruct D as [N|(x0 & l & -> & P & V & M)].
    - exists 0. intros j _. cbn [compute_constant]. rewrite E, T, (no_operators _ _ _ N).
      destruct t; cbn in N; try contradiction; rewrite N; reflexivity.
    - destruct (product_value F rho x0 l P) as (x & X & W & Ix & _ & Names & Val).
      destruct (eventually_all (fun b j => compute_constant F (r_constants r) (r_types r) j b = Ok (rho b))
                  (atom_names (AProduct x0 l))) as [N HN].
      { intros b J. destruct (M b J) as (K' & R' & L'). apply IH; [lia|assumption|assumption]. }
      exists N. intros j Hj. cbn [compute_constant]. rewrite E, T.
      assert (existsb (fun p => substring_of p (chain_text x0 l)) [lit "*"; lit "/"; lit "sqrt"] = true) as ->.
      { apply existsb_exists. destruct P as (_ & _ & _ & [J|J]).
        - exists (lit "*"). split; [now left|]. now apply substring_char.
        - exists (lit "/"). split; [right; now left|]. now apply substring_char. }
      rewrite X. cbn [bind]. rewrite V, <- Val. clear V Val X.
      set (sig := fun b => if str_eqb b (lit "1") then 1%Qc else rho b).
      replace (value sig x) with (1 * value sig x)%Qc by ring.
      generalize 1%Qc as acc.
      assert (d_has str_eqb (r_constants r) (lit "1") = false) as One.
      { destruct (d_has str_eqb (r_constants r) (lit "1")) eqn:Y; [|reflexivity].
        apply (d_has_in str_eqb str_eqb_spec) in Y.
        destruct (solves_keys _ _ _ _ _ S0 (lit "1") (or_intror Y)) as [Y1 _]. discriminate Y1. }
      induction x as [|u x IHx]; intros acc.
      + unfold value, prodQc. cbn. f_equal. ring.
      + inversion W as [|? ? Wu W']; subst. inversion Ix as [|? ? [z Ez] Ix']; subst.
        assert (forall t0, In t0 x -> base t0 <> lit "1" -> In (base t0) (atom_names (AProduct x0 l)) /\ rho (base t0) <> 0%Qc) as Names'
          by (intros t0 J; apply Names; now right).
        assert (value sig (u :: x) = (coef u * Qc_zpow (sig (base u)) (Qc_num (expo u)) * value sig x)%Qc) as -> by reflexivity.
        unfold sig at 1.
        destruct (str_eqb_spec (base u) (lit "1")) as [B|B].
        * rewrite B, One. cbn [str_eqb]. unfold term_number. rewrite B. rewrite str_eqb_refl. cbn [bind].
          rewrite IHx by assumption. f_equal. rewrite Qc_zpow_1_l. ring.
        * destruct (Names u (or_introl eq_refl) B) as [J Z].
          destruct (M _ J) as (K' & R' & _).
          assert (d_has str_eqb (r_constants r) (base u) = true) as ->.
          { apply (d_has_in str_eqb str_eqb_spec). now apply known_constant. }
          rewrite (HN j Hj _ J). cbn [bind]. unfold term_call. rewrite str_eqb_neq by exact B.
          unfold frac_pow. rewrite Ez, Qc_is_int_of_Z, Qc_num_of_Z.
          destruct (Qc_eqb_spec (rho (base u)) 0) as [|_]; [contradiction|]. cbn [andb bind].
          unfold init, term_number. cbn [base coef str_eqb].
          destruct (Qc_eqb_spec (coef u * Qc_zpow (rho (base u)) z) 0) as [Y|_].
          { exfalso. apply Qcmult_integral in Y as [Y|Y]; [destruct Wu; contradiction|]. now apply Qc_zpow_neq_0 in Y. }
          rewrite str_eqb_refl. cbn [bind]. rewrite IHx by assumption. f_equal. ring. }
  intros K R. apply (H (S (rank n))); auto.
Qed.

(** Names *)
Definition gives (s : str) (q : Qc) : Prop := eventually (fun k => evaluate F r k (RStr s) = Ok (RReal q)).

Lemma keys_proper m : In m (map fst (r_reference r)) \/ In m (map fst (r_constants r)) -> proper_name m.
Proof. apply (solves_keys _ _ _ _ _ S0). Qed.
Lemma known_proper n : known n -> proper_name n.
Proof.
  intros K. apply keys_proper. destruct (d_get str_eqb (r_reference r) n) as [p|] eqn:R.
  - left. apply (d_get_in str_eqb str_eqb_spec) in R. apply in_map_iff. now exists (n, p).
  - right. now apply known_constant.
Qed.

(** Texts that are not numerals, names or members. *)
Lemma by_definition s c0 c : trimmed s -> In c0 s -> ~ numeral_char c0 -> In c s -> is_word c = false ->
  forall k, evaluate F r (S (S (S k))) (RStr s) = resolve_definition F r (S k) s.
Proof.
  intros T I0 N I W k. rewrite evaluate_S, (cast_none s c0 T I0 N), evaluate_name_S.
  destruct (str_eqb_spec s (lit "N_PROCS")) as [->|_]; [|destruct (str_eqb_spec s (lit "third")) as [->|_]].
  - exfalso. repeat (destruct I as [<-|I]; [discriminate W|]). destruct I.
  - exfalso. repeat (destruct I as [<-|I]; [discriminate W|]). destruct I.
  - rewrite (not_key r s c F k keys_proper I W). reflexivity.
Qed.
Lemma not_member s c : In c s -> is_word c = false -> c <> "."%char -> member s = None.
Proof.
  intros I W D. unfold member. destruct (starts (lit "config.") s) eqn:S; [|reflexivity].
  destruct (forallb is_word (skipn 7 s)) eqn:A; [|reflexivity]. exfalso.
  assert (In c (firstn 7 s) \/ In c (skipn 7 s)) as [J|J].
  { apply in_app_or. now rewrite firstn_skipn. }
  - assert (firstn 7 s = lit "config.") as E.
    { now apply starts_firstn in S. }
    rewrite E in J. repeat (destruct J as [<-|J]; [first [discriminate W|congruence]|]). destruct J.
  - rewrite forallb_forall in A. apply A in J. congruence.
Qed.
Lemma gives_member n : proper_name n -> gives n (rho n) -> gives (lit "config." ++ n) (rho n).
Proof.
  intros P G. unfold gives. destruct G as [N G]. exists (S (S (S N))). intros k L.
  destruct k as [|[|[|k]]]; try lia. rewrite (by_definition _ "c"%char "."%char).
  - rewrite resolve_S.
    assert (member (lit "config." ++ n) = Some n) as ->.
    { unfold member. assert (starts (lit "config.") (lit "config." ++ n) = true) as -> by reflexivity.
      change (skipn 7 (lit "config." ++ n)) with n. assert (forallb is_word n = true) as ->; [|reflexivity].
      apply proper_word in P. apply forallb_forall. rewrite Forall_forall in P. exact P. }
    apply G. lia.
  - pose proof (name_trimmed _ P) as [T1 T2]. destruct P as (P & _). split; [reflexivity|].
    rewrite rev_app_distr. destruct (rev n) as [|c m] eqn:E; [|exact T2].
    destruct n as [|d n]; [contradiction|]. cbn in E. now apply app_eq_nil in E as [_ E].
  - cbn. tauto.
  - intros [H|[H|[H|[H|H]]]]; discriminate H.
  - cbn. tauto.
  - reflexivity.
Qed.

(** Products *)
Lemma gives_one : gives (lit "1") 1%Qc.
Proof. exists 1. intros k L. destruct k; [lia|]. reflexivity. Qed.
Lemma gives_product x0 l : trimmed (chain_text x0 l) -> without "+"%char (chain_text x0 l) -> without "-"%char (chain_text x0 l) ->
  product_ok F rho x0 l -> (forall m, In m (atom_names (AProduct x0 l)) -> gives m (rho m)) ->
  gives (chain_text x0 l) (atom_value rho (AProduct x0 l)).
Proof.
  intros T Np Nm P G. destruct (product_value F rho x0 l P) as (x & X & W & Ix & Nx & Names & Val).
  assert (exists c, In c (chain_text x0 l) /\ ~ numeral_char c /\ is_word c = false /\ c <> "."%char) as (c & I & NC & WC & D).
  { destruct P as (_ & _ & _ & [J|J]); [exists "*"%char|exists "/"%char]; repeat split; auto using times_not_numeral, over_not_numeral; discriminate. }
  set (sig := fun b => if str_eqb b (lit "1") then 1%Qc else rho b) in *.
  destruct (eventually_all (fun t k => evaluate F r k (RStr (base t)) = Ok (RReal (sig (base t)))) x) as [N HN].
  { intros t J. unfold sig. destruct (str_eqb_spec (base t) (lit "1")) as [->|B]; [apply gives_one|]. apply G. now apply Names. }
  exists (S (S (S (S N)))). intros k L. destruct k as [|[|[|[|k]]]]; try lia.
  rewrite (by_definition _ c c T I NC I WC). rewrite resolve_S, (not_member _ c I WC D).
  rewrite (has_char_not _ _ Np), (has_char_not _ _ Nm).
  assert (has_char "*" (chain_text x0 l) || has_char "/" (chain_text x0 l) = true) as XX.
  { destruct P as (_ & _ & _ & [J|J]); apply has_char_in in J; rewrite J; [reflexivity|apply orb_true_r]. }
  unfold product_of. rewrite XX, X. cbn [bind].
  rewrite (IterablesProofs.mapM_ok _ (fun t => (coef t * Qc_zpow (sig (base t)) (Qc_num (expo t)))%Qc)).
  - cbn [bind]. rewrite <- Val. unfold value. destruct x as [|t x]; [contradiction|]. cbn [map]. rewrite fold_mult. reflexivity.
  - intros t J. rewrite (HN (S k)) by (auto; lia). cbn [bind number].
    unfold integral in Ix. rewrite Forall_forall in Ix. destruct (Ix t J) as [z Ez]. unfold frac_pow. rewrite Ez, Qc_is_int_of_Z, Qc_num_of_Z.
    assert (sig (base t) <> 0%Qc) as Z.
    { unfold sig. destruct (str_eqb_spec (base t) (lit "1")) as [|B]; [discriminate|]. now apply Names. }
    destruct (Qc_eqb_spec (sig (base t)) 0); [contradiction|]. reflexivity.
Qed.

(** Atoms *)
Lemma gives_atom a : atom_ok F rho a -> (forall m, In m (atom_names a) -> proper_name m /\ gives m (rho m)) ->
  gives (atom_text a) (atom_value rho a).
Proof.
  destruct a as [s|n|n|x0 l]; cbn [atom_ok]; intros (T & Np & Nm & H) G.
  - destruct H as (q & C & Z). cbn [atom_text atom_value]. rewrite C. exists 1. intros k L. destruct k; [lia|].
    rewrite evaluate_S, C. destruct (Qc_eqb_spec q 0); [contradiction|reflexivity].
  - apply G. now left.
  - destruct (G n (or_introl eq_refl)). now apply gives_member.
  - apply gives_product; auto. intros m I. now apply G.
Qed.
Lemma atom_nonempty a : atom_ok F rho a -> (forall m, In m (atom_names a) -> proper_name m) -> atom_text a <> [].
Proof.
  destruct a as [s|n|n|x0 l]; cbn [atom_ok]; intros (_ & _ & _ & H) G; cbn [atom_text].
  - destruct H as (q & C & _). intros ->. discriminate C.
  - intros ->. now destruct (G [] (or_introl eq_refl)).
  - discriminate.
  - destruct H as (_ & _ & _ & [H|H]); intros E; rewrite E in H; destruct H.
Qed.

(** Sums and differences *)
Lemma trimmed_app a m b : trimmed a -> trimmed b -> a <> [] -> b <> [] -> trimmed (a ++ m ++ b).
Proof.
  intros [A _] [_ B] Na Nb. split.
  - destruct a; [contradiction|exact A].
  - rewrite !rev_app_distr. destruct (rev b) eqn:E; [|exact B].
    apply (f_equal (@rev _)) in E. rewrite rev_involutive in E. contradiction.
Qed.
Lemma strip_left a : trimmed a -> strip (a ++ lit " ") = a.
Proof.
  intros T. change (a ++ lit " ") with ([] ++ a ++ lit " "). apply strip_blanks; auto.
  - constructor.
  - constructor; [split; [reflexivity|discriminate]|constructor].
Qed.
Lemma strip_right a : trimmed a -> strip (lit " " ++ a) = a.
Proof.
  intros T. rewrite <- (app_nil_r a) at 1. apply strip_blanks; auto.
  - constructor; [split; [reflexivity|discriminate]|constructor].
  - constructor.
Qed.
Lemma split_two c a b : without c a -> without c b -> is_space c = false ->
  split_on c (a ++ [" "%char; c; " "%char] ++ b) = [a ++ lit " "; lit " " ++ b].
Proof.
  intros A B S. replace (a ++ [" "%char; c; " "%char] ++ b) with ((a ++ lit " ") ++ c :: (lit " " ++ b)) by now rewrite <- app_assoc.
  assert (c <> " "%char) as N by (intros ->; discriminate S).
  rewrite split_cut.
  - rewrite split_none; [reflexivity|]. apply without_cons. split; [congruence|exact B].
  - apply without_app. split; [exact A|]. intros [E|[]]. congruence.
Qed.
Lemma gives_sum c op a b x y :
  (c = "+"%char /\ op = Qcplus) \/ (c = "-"%char /\ op = Qcminus /\ without "+"%char a /\ without "+"%char b) ->
  trimmed a -> trimmed b -> a <> [] -> b <> [] -> without c a -> without c b -> op x y <> 0%Qc ->
  gives a x -> gives b y -> gives (a ++ [" "%char; c; " "%char] ++ b) (op x y).
Proof.
  intros C Ta Tb Na Nb Wa Wb Z Ga Gb. destruct (eventually_and _ _ Ga Gb) as [N HN].
  exists (S (S (S (S N)))). intros k L. destruct k as [|[|[|[|k]]]]; try lia.
  assert (In " "%char (a ++ [" "%char; c; " "%char] ++ b)) as I by (apply in_or_app; right; now left).
  assert (In c (a ++ [" "%char; c; " "%char] ++ b)) as Ic by (apply in_or_app; right; right; now left).
  rewrite (by_definition _ " "%char " "%char (trimmed_app _ _ _ Ta Tb Na Nb) I space_not_numeral I eq_refl).
  rewrite resolve_S, (not_member _ " "%char I eq_refl) by discriminate.
  destruct (HN (S k)) as [Ea Eb]; [lia|].
  assert (is_space c = false) as Sc by (destruct C as [[-> _]|[-> _]]; reflexivity).
  destruct C as [[-> ->]|(-> & -> & Pa & Pb)].
  - assert (has_char "+" (a ++ [" "%char; "+"%char; " "%char] ++ b) = true) as -> by now apply has_char_in.
    unfold sum_of. rewrite split_two by assumption. cbn [mapM]. rewrite strip_left, strip_right by assumption. rewrite Ea. cbn [bind]. rewrite Eb. cbn [bind number].
    destruct (Qc_eqb_spec (x + y) 0); [contradiction|reflexivity].
  - rewrite has_char_not.
    + assert (has_char "-" (a ++ [" "%char; "-"%char; " "%char] ++ b) = true) as -> by now apply has_char_in.
      unfold sum_of. rewrite split_two by assumption. cbn [mapM]. rewrite strip_left, strip_right by assumption. rewrite Ea. cbn [bind]. rewrite Eb. cbn [bind number].
      destruct (Qc_eqb_spec (x - y) 0); [contradiction|reflexivity].
    + rewrite !without_app. repeat split; auto. intros H. cbn in H. repeat (destruct H as [H|H]; [discriminate H|]). exact H.
Qed.

Definition names_ok (l : list str) : Prop := forall m, In m l -> proper_name m /\ gives m (rho m).
Lemma side_facts s : side_ok F rho s -> names_ok (side_names s) ->
  gives (side_text s) (side_value rho s) /\ trimmed (side_text s) /\ side_text s <> [] /\ without "+"%char (side_text s).
Proof.
  destruct s as [a|a b]; cbn [side_ok side_text side_names].
  - intros H G. split; [now apply gives_atom|]. pose proof H as (T & P & _). split; [exact T|].
    split; [|exact P]. apply atom_nonempty; auto. intros m I. now apply G.
  - intros (Ha & Hb & Z) G.
    assert (names_ok (atom_names a)) as Ga by (intros m I; apply G, in_or_app; now left).
    assert (names_ok (atom_names b)) as Gb by (intros m I; apply G, in_or_app; now right).
    pose proof Ha as (Ta & Pa & Ma & _). pose proof Hb as (Tb & Pb & Mb & _).
    assert (atom_text a <> []) as Na by (apply atom_nonempty; auto; intros m I; now apply Ga).
    assert (atom_text b <> []) as Nb by (apply atom_nonempty; auto; intros m I; now apply Gb).
    split; [|split; [|split]].
    + apply (gives_sum "-"%char Qcminus); auto using gives_atom.
    + now apply trimmed_app.
    + destruct (atom_text a); [contradiction|discriminate].
    + rewrite !without_app. repeat split; auto. intros H. cbn in H. repeat (destruct H as [H|H]; [discriminate H|]). exact H.
Qed.
Lemma gives_formula f : formula_ok F rho f -> names_ok (formula_names f) -> gives (formula_text f) (formula_value rho f).
Proof.
  destruct f as [s|s t]; cbn [formula_ok formula_text formula_names].
  - intros H G. now apply side_facts.
  - intros (Hs & Ht & Z) G.
    destruct (side_facts s) as (Gs & Ts & Ns & Ps); auto; [intros m I; apply G, in_or_app; now left|].
    destruct (side_facts t) as (Gt & Tt & Nt & Pt); auto; [intros m I; apply G, in_or_app; now right|].
    apply (gives_sum "+"%char Qcplus); auto.
Qed.

Lemma gives_name n : known n -> gives n (rho n).
Proof.
  assert (forall k n, rank n < k -> known n -> gives n (rho n)) as H.
  { induction k as [|k IH]; intros m L K; [lia|].
    pose proof (known_proper m K) as P. pose proof P as (_ & _ & P1 & P2).
    assert (forall j, evaluate F r (S (S j)) (RStr m) =
      (do a <- get_argument F r j m;
       match a with Some (v, true) => Ok v | Some (v, false) => evaluate F r j v | None => resolve_definition F r j m end)%py) as Step.
    { intros j. rewrite evaluate_S, name_cast by exact P.
      rewrite evaluate_name_S, (str_eqb_neq _ _ P1), (str_eqb_neq _ _ P2). reflexivity. }
    unfold gives. do 2 apply eventually_step. 
    destruct (d_get str_eqb (r_reference r) m) as [[t default]|] eqn:R.
    - pose proof (solves_parameter _ _ _ _ _ S0 m t default K R) as D. cbn zeta in D.
      assert (forall j, get_argument F r j m = let v := definition_of r m (t, default) in Ok (Some (v, is_instance v t))) as A
        by (intros j; unfold get_argument; rewrite R; reflexivity).
      unfold definition_of in A. cbn [fst snd] in A.
      set (text := match d_get str_eqb (r_user r) m with Some (c :: s) => c :: s | _ => default end) in *.
      destruct D as [D|(f & E & T & N & Fo & V & M)].
      + exists 0. intros j _. rewrite Step, A. destruct t; cbn in D; try contradiction; cbn [convert]; rewrite D; cbn; try reflexivity.
      + assert (gives (formula_text f) (formula_value rho f)) as [J HJ].
        { apply gives_formula; [exact Fo|]. intros x I. destruct (M x I) as [Kx Lx]. split; [now apply known_proper|]. apply IH; [lia|exact Kx]. }
        exists J. intros j Hj. rewrite Step, A. rewrite V, <- (HJ j Hj), <- E.
        destruct T as [->| ->]; cbn [convert numeral] in *.
        * destruct (read_int text) as [q|] eqn:Q; [exfalso; exact (N q eq_refl)|reflexivity].
        * destruct (read_float text) as [q|] eqn:Q; [exfalso; exact (N q eq_refl)|reflexivity].
    - destruct (constants_evaluate m K R) as [J HJ]. exists J. intros j Hj. rewrite Step. unfold get_argument. rewrite R, HJ by exact Hj. reflexivity. }
  intros K. apply (H (S (rank n))); auto.
Qed.
End Evaluating.

(** * What evaluation depends on *)

(** The value that a file gives to a parameter, unless it is empty. *)
Definition given (user : list (str * str)) (k : str) : option str :=
  match d_get str_eqb user k with Some (c :: s) => Some (c :: s) | _ => None end.
Lemma argument_given F u v refs cs ts fuel name : (forall k, In k (map fst refs) -> given u k = given v k) ->
  get_argument F (mkRun u refs cs ts) fuel name = get_argument F (mkRun v refs cs ts) fuel name.
Proof.
  intros H. unfold get_argument. cbn [r_reference r_constants r_types].
  destruct (d_get str_eqb refs name) as [p|] eqn:R; [|reflexivity].
  assert (definition_of (mkRun u refs cs ts) name p = definition_of (mkRun v refs cs ts) name p) as ->; [|reflexivity].
  unfold definition_of. cbn [r_user]. f_equal.
  assert (In name (map fst refs)) as I.
  { apply (d_get_in str_eqb str_eqb_spec) in R. apply in_map_iff. now exists (name, p). }
  specialize (H name I). unfold given in H. destruct (d_get str_eqb u name) as [[|]|], (d_get str_eqb v name) as [[|]|]; congruence.
Qed.
Lemma mapM_ext {A B} (f g : A -> res B) l : (forall x, f x = g x) -> mapM f l = mapM g l.
Proof. intros H. induction l as [|x l IH]; [reflexivity|]. cbn. now rewrite H, IH. Qed.
Lemma evaluate_given F u v refs cs ts : (forall k, In k (map fst refs) -> given u k = given v k) -> forall fuel,
  (forall x, evaluate F (mkRun u refs cs ts) fuel x = evaluate F (mkRun v refs cs ts) fuel x) /\
  (forall s, evaluate_name F (mkRun u refs cs ts) fuel s = evaluate_name F (mkRun v refs cs ts) fuel s) /\
  (forall s, resolve_definition F (mkRun u refs cs ts) fuel s = resolve_definition F (mkRun v refs cs ts) fuel s).
Proof.
  intros H. induction fuel as [|k (IH1 & IH2 & IH3)]; [split; [|split]; reflexivity|]. split; [|split].
  - intros x. destruct x as [q|s|l|]; try reflexivity. rewrite !evaluate_S. now rewrite IH2.
  - intros s. rewrite !evaluate_name_S, (argument_given F u v refs cs ts k s H).
    destruct (str_eqb s (lit "N_PROCS")); [reflexivity|]. destruct (str_eqb s (lit "third")); [reflexivity|].
    destruct (get_argument F (mkRun v refs cs ts) k s) as [[[w []]|]|]; cbn [bind]; auto.
  - intros s. rewrite !resolve_S.
    assert (product_of F (mkRun u refs cs ts) k s = product_of F (mkRun v refs cs ts) k s) as E.
    { unfold product_of. destruct (_ || _); [|reflexivity]. destruct (expression_of_str F false s); [|reflexivity]. cbn [bind].
      erewrite mapM_ext; [reflexivity|]. intros t. cbn beta. now rewrite IH1. }
    assert (forall op c, sum_of F (mkRun u refs cs ts) k s op c = sum_of F (mkRun v refs cs ts) k s op c) as E'.
    { intros op c. unfold sum_of. erewrite mapM_ext; [reflexivity|]. intros t. apply IH1. }
    rewrite E, !E'. destruct (member s); [apply IH1|reflexivity].
Qed.

(** * Cycles *)

Lemma cycle_diverges F r (loop : str -> Prop) :
  (forall n, loop n -> proper_name n /\ exists t default m, d_get str_eqb (r_reference r) n = Some (t, default) /\ (t = TInt \/ t = TFloat) /\
     (match d_get str_eqb (r_user r) n with Some (c :: s) => c :: s | _ => default end) = m /\ loop m) ->
  forall fuel n, loop n -> evaluate F r fuel (RStr n) = Err RuntimeError.
Proof.
  intros H fuel. induction fuel as [fuel IH] using (well_founded_induction Wf_nat.lt_wf). intros n L.
  destruct (H n L) as (P & t & default & m & R & T & E & Lm). destruct (H m Lm) as (Pm & _).
  destruct fuel as [|[|k]]; [reflexivity|rewrite evaluate_S, name_cast by exact P; reflexivity|].
  rewrite evaluate_S, name_cast by exact P. rewrite evaluate_name_S. pose proof P as (_ & _ & P1 & P2).
  rewrite (str_eqb_neq _ _ P1), (str_eqb_neq _ _ P2). unfold get_argument. rewrite R. cbn [bind fst].
  unfold definition_of. cbn [fst snd]. rewrite E. pose proof (name_cast m Pm) as C. unfold cast in C.
  destruct (read_int m) eqn:I; [discriminate|].
  destruct T as [->| ->]; cbn [convert]; [rewrite I|rewrite C]; cbn [is_instance]; apply IH; auto; lia.
Qed.

(** * Comparing files *)

Lemma filter_diff a b k : In k (diff_keys a b) <-> In k (map fst a) /\ ~ In k (map fst b).
Proof.
  unfold diff_keys. rewrite filter_In. split; intros [H1 H2]; (split; [exact H1|]).
  - apply (d_has_false str_eqb str_eqb_spec). now destruct (d_has str_eqb b k).
  - apply (d_has_false str_eqb str_eqb_spec) in H2. now rewrite H2.
Qed.
Lemma compare_keys a b : map fst (compare a b) = sort_by str_leb (map fst a ++ diff_keys b a).
Proof. unfold compare. rewrite map_map. cbn [fst]. apply map_id. Qed.
Lemma compare_in a b k : In k (map fst (compare a b)) <-> In k (map fst a) \/ In k (map fst b).
Proof.
  rewrite compare_keys.
  assert (In k (sort_by str_leb (map fst a ++ diff_keys b a)) <-> In k (map fst a ++ diff_keys b a)) as ->.
  { split; apply Permutation.Permutation_in; [|apply Permutation.Permutation_sym]; apply sort_by_perm. }
  rewrite in_app_iff, filter_diff. destruct (in_dec str_eq_dec k (map fst a)); tauto.
Qed.
Lemma compare_nodup a b : NoDup (map fst a) -> NoDup (map fst b) -> NoDup (map fst (compare a b)).
Proof.
  intros Ha Hb. rewrite compare_keys. apply (Permutation.Permutation_NoDup (Permutation.Permutation_sym (sort_by_perm str_leb _))).
  apply NoDup_app_intro; [exact Ha|now apply NoDup_filter|].
  intros k I J. apply filter_diff in J. tauto.
Qed.
Lemma compare_get a b k : NoDup (map fst a) -> NoDup (map fst b) ->
  d_get str_eqb (compare a b) k =
  match d_get str_eqb a k, d_get str_eqb b k with None, None => None | x, y => Some (x, y) end.
Proof.
  intros Ha Hb. destruct (d_get str_eqb (compare a b) k) as [v|] eqn:G.
  - pose proof G as G'. apply (d_get_in str_eqb str_eqb_spec) in G.
    assert (In k (map fst (compare a b))) as I by (apply in_map_iff; now exists (k, v)).
    apply compare_in in I. unfold compare in G. apply in_map_iff in G as (k' & E & _). injection E as -> <-.
    destruct (d_get str_eqb a k) eqn:A; [reflexivity|]. destruct (d_get str_eqb b k) eqn:B; [reflexivity|].
    exfalso. apply (d_get_none str_eqb str_eqb_spec) in A, B. tauto.
  - apply (d_get_none str_eqb str_eqb_spec) in G. rewrite compare_in in G.
    destruct (d_get str_eqb a k) as [v|] eqn:A.
    { exfalso. apply G. left. apply (d_get_in str_eqb str_eqb_spec) in A. apply in_map_iff. now exists (k, v). }
    destruct (d_get str_eqb b k) as [v|] eqn:B; [|reflexivity].
    exfalso. apply G. right. apply (d_get_in str_eqb str_eqb_spec) in B. apply in_map_iff. now exists (k, v).
Qed.

(** Closed computations. *)
Lemma computes_real (x : res rvalue) q :
  match x with Ok (RReal y) => Qc_eqb y q | _ => false end = true -> x = Ok (RReal q).
Proof. destruct x as [[y| | |]|]; try discriminate. intros H. do 2 f_equal. now apply (reflect_iff _ _ (Qc_eqb_spec _ _)). Qed.
Lemma computes_number (x : res Qc) q : match x with Ok y => Qc_eqb y q | _ => false end = true -> x = Ok q.
Proof. destruct x as [y|]; try discriminate. intros H. f_equal. now apply (reflect_iff _ _ (Qc_eqb_spec _ _)). Qed.
