(** Proofs about C source files. *)

From Coq Require Import String Ascii List Bool Lia Arith.
From Verif Require Import Py PyFacts PyDict RuntimeSpec RuntimeProofs SourceModel SourceSpec.
From Verif Require RuntimeModel FilesModel FilesProofs.
Import ListNotations.
Open Scope list_scope.
Open Scope nat_scope.
Open Scope py_scope.

(** * Readers *)

Definition stops (p : ascii -> bool) (s : str) : Prop := match s with [] => True | c :: _ => p c = false end.

Lemma span_app p a s : all_chars p a -> stops p s -> span p (a ++ s) = (a, s).
Proof.
  induction 1 as [|c a E A IH]; intros S; simpl.
  - destruct s as [|c s]; [reflexivity|]. simpl in *. now rewrite S.
  - now rewrite E, (IH S).
Qed.
Lemma span_spec p s : let (a, b) := span p s in s = a ++ b /\ all_chars p a /\ stops p b.
Proof.
  induction s as [|c s IH]; simpl; [repeat split; constructor|]. destruct (p c) eqn:E.
  - destruct (span p s) as [a b]. destruct IH as (-> & A & B). repeat split; auto. constructor; auto.
  - repeat split; auto. constructor.
Qed.
Lemma some_span_app p a s : some_chars p a -> stops p s -> some_span p (a ++ s) = Some (a, s).
Proof. intros [N A] S. unfold some_span. rewrite span_app by auto. now destruct a. Qed.
Lemma some_span_spec p s a b : some_span p s = Some (a, b) <-> s = a ++ b /\ some_chars p a /\ stops p b.
Proof.
  unfold some_span. pose proof (span_spec p s) as H. split.
  - destruct (span p s) as [a' b']. destruct a' as [|c a']; [discriminate|]. intros E. injection E as <- <-.
    destruct H as (E & A & S). repeat split; auto. discriminate.
  - intros (-> & [N A] & S). rewrite span_app by auto. now destruct a.
Qed.
Lemma eat_app t s : eat t (t ++ s) = Some s.
Proof. induction t as [|c t IH]; [reflexivity|]. simpl. now rewrite Ascii.eqb_refl. Qed.
Lemma eat_spec t s r : eat t s = Some r <-> s = t ++ r.
Proof.
  split; [|intros ->; apply eat_app]. revert s. induction t as [|c t IH]; intros s; simpl; [intros E; now injection E|].
  destruct s as [|d s]; [discriminate|]. destruct (Ascii.eqb_spec c d) as [->|]; [|discriminate]. intros E. now rewrite (IH s E).
Qed.
Lemma eat_end_app t s : eat_end t (s ++ t) = Some s.
Proof. unfold eat_end. rewrite rev_app_distr, eat_app. simpl. now rewrite rev_involutive. Qed.
Lemma eat_end_spec t s r : eat_end t s = Some r <-> s = r ++ t.
Proof.
  split; [|intros ->; apply eat_end_app]. unfold eat_end. destruct (eat (rev t) (rev s)) as [x|] eqn:E; [|discriminate].
  simpl. intros H. injection H as <-. apply eat_spec in E. apply (f_equal (@rev ascii)) in E.
  now rewrite rev_involutive, rev_app_distr, rev_involutive in E.
Qed.
Lemma obind_some {A B} (x : option A) (f : A -> option B) y : obind x f = Some y <-> exists a, x = Some a /\ f a = Some y.
Proof. destruct x; simpl; split; [eauto|intros (b & E & F); congruence|discriminate|intros (b & E & _); discriminate]. Qed.

Lemma blanks_chars b : blanks b -> all_chars is_space b.
Proof. intros H. eapply Forall_impl; [|exact H]. simpl. tauto. Qed.
Lemma gap_chars b : gap b -> some_chars is_space b.
Proof. intros [N B]. split; [exact N|now apply blanks_chars]. Qed.
Lemma skip_space_app b s : blanks b -> stops is_space s -> skip_space (b ++ s) = s.
Proof. intros B S. unfold skip_space. rewrite span_app; [reflexivity|now apply blanks_chars|exact S]. Qed.

(** * Classes of characters *)

Lemma letters_same : forall c, name_letter c = name_char c /\ word_letter c = word_char c /\ value_letter c = value_char c.
Proof. intros c. destruct c as [[] [] [] [] [] [] [] []]; vm_compute; auto. Qed.
Lemma all_same p q s : (forall c, p c = q c) -> all_chars p s <-> all_chars q s.
Proof. intros E. unfold all_chars. rewrite !Forall_forall. split; intros H c I; [rewrite <- E|rewrite E]; now apply H. Qed.
Lemma all_name s : all_chars name_letter s <-> all_chars name_char s.
Proof. apply all_same. apply letters_same. Qed.
Lemma all_word s : all_chars word_letter s <-> all_chars word_char s.
Proof. apply all_same. apply letters_same. Qed.
Lemma all_value s : all_chars value_letter s <-> all_chars value_char s.
Proof. apply all_same. apply letters_same. Qed.
Lemma some_name s : some_chars name_letter s <-> some_chars name_char s.
Proof. unfold some_chars. now rewrite all_name. Qed.
Lemma some_word s : some_chars word_letter s <-> some_chars word_char s.
Proof. unfold some_chars. now rewrite all_word. Qed.
Lemma function_same m : function_name m = mode_name m.
Proof. now destruct m. Qed.
Ltac letters := rewrite ?some_name, ?some_word, ?all_name, ?all_word, ?all_value in *.
Lemma char_facts : forall c, (word_char c = true -> is_space c = false) /\ (name_char c = true -> word_char c = true)
  /\ (is_space c = true -> name_char c = false /\ word_char c = false /\ is_digit c = false)
  /\ (is_digit c = true -> word_char c = true /\ name_char c = false /\ is_space c = false).
Proof.
  intros c. assert ((negb (word_char c) || negb (is_space c)) && (negb (name_char c) || word_char c)
    && (negb (is_space c) || negb (name_char c) && negb (word_char c) && negb (is_digit c))
    && (negb (is_digit c) || word_char c && negb (name_char c) && negb (is_space c)) = true) as H
    by (destruct c as [[] [] [] [] [] [] [] []]; vm_compute; reflexivity).
  destruct (word_char c), (is_space c), (name_char c), (is_digit c); simpl in H; try discriminate H; repeat split; auto; intros X; discriminate X.
Qed.
Lemma word_space c : word_char c = true -> is_space c = false.
Proof. apply (proj1 (char_facts c)). Qed.
Lemma name_space c : name_char c = true -> is_space c = false.
Proof. intros H. apply word_space. now apply (proj1 (proj2 (char_facts c))). Qed.
Lemma space_name c : is_space c = true -> name_char c = false.
Proof. intros H. now destruct (proj1 (proj2 (proj2 (char_facts c))) H). Qed.
Lemma space_word c : is_space c = true -> word_char c = false.
Proof. intros H. now destruct (proj1 (proj2 (proj2 (char_facts c))) H). Qed.
Lemma stops_app p a s : a <> [] -> stops p a -> stops p (a ++ s).
Proof. destruct a; [congruence|]. auto. Qed.
Lemma all_stops p q a s : a <> [] -> all_chars p a -> (forall c, p c = true -> q c = false) -> stops q (a ++ s).
Proof. intros N A H. destruct A as [|c a E A]; [congruence|]. simpl. auto. Qed.

(** * Constants *)

Lemma trimmed_head s x : trimmed (s ++ x) -> s <> [] -> stops is_space s.
Proof. intros [H _] N. destruct s; [congruence|]. exact H. Qed.
Lemma strip_ends s : trimmed (strip s).
Proof.
  split.
  - pose proof (FilesProofs.strip_twice s) as E. destruct (strip s) as [|c r] eqn:H; [exact I|].
    unfold strip, rstrip in H. pose proof (FilesProofs.lstrip_head s) as L. destruct (lstrip s) as [|d t]; [discriminate|].
    simpl in H. destruct (FilesProofs.lstrip_last d L (rev t)) as [x X]. rewrite X, rev_app_distr in H. simpl in H. injection H as <- _. exact L.
  - unfold strip, rstrip. rewrite rev_involutive. exact (FilesProofs.lstrip_head (rev (lstrip s))).
Qed.

Lemma define_match_iff line n v : define_match line = Some (n, v) <->
  exists b1 b2, strip line = lit "#define" ++ b1 ++ n ++ b2 ++ v /\ some_chars is_space b1 /\ some_chars name_char n
    /\ some_chars is_space b2 /\ v <> [] /\ stops is_space v /\ all_chars value_char v.
Proof.
  unfold define_match. split.
  - intros H. apply obind_some in H as (s1 & E1 & H). apply eat_spec in E1. apply obind_some in H as ((b1 & s2) & E2 & H).
    apply some_span_spec in E2 as (-> & B1 & S1). apply obind_some in H as ((n' & s3) & E3 & H).
    apply some_span_spec in E3 as (-> & B3 & S3). apply obind_some in H as ((b2 & v') & E4 & H). apply some_span_spec in E4 as (-> & B2 & S4).
    destruct v' as [|c v']; [discriminate|]. destruct (forallb value_char (c :: v')) eqn:F; [|discriminate]. injection H as <- <-.
    exists b1, b2. split; [exact E1|]. split; [exact B1|]. split; [exact B3|]. split; [exact B2|]. split; [discriminate|]. split; [exact S4|].
    apply Forall_forall. rewrite forallb_forall in F. exact F.
  - intros (b1 & b2 & -> & B1 & N & B2 & Nv & Sv & A). rewrite eat_app. cbn [obind].
    rewrite some_span_app; [cbn [obind]|exact B1|].
    2:{ apply (all_stops name_char); [apply N|apply N|]. exact name_space. }
    rewrite some_span_app; [cbn [obind]|exact N|].
    2:{ apply (all_stops is_space); [apply B2|apply B2|]. exact space_name. }
    rewrite some_span_app; [cbn [obind]|exact B2|exact Sv]. destruct v as [|c v]; [congruence|].
    assert (forallb value_char (c :: v) = true) as -> by (apply forallb_forall; apply Forall_forall; exact A). reflexivity.
Qed.

Lemma trimmed_of a v : a <> [] -> v <> [] -> stops is_space a -> trimmed v -> trimmed (a ++ v).
Proof.
  intros Na Nv S [_ T]. split.
  - destruct a; [congruence|exact S].
  - rewrite rev_app_distr. destruct (rev v) as [|c r] eqn:E; [|exact T]. apply (f_equal (@rev ascii)) in E. rewrite rev_involutive in E. simpl in E. congruence.
Qed.

Lemma define_read b0 b1 n b2 v b3 : blanks b0 -> gap b1 -> some_chars name_char n -> gap b2 -> v <> [] -> trimmed v -> all_chars value_char v ->
  blanks b3 -> define_match (define_text b0 b1 n b2 v b3) = Some (n, v).
Proof.
  intros B0 B1 N B2 Nv T A B3. apply define_match_iff. exists b1, b2.
  split; [|repeat split; try (apply B1 || apply B2 || apply N || apply T || assumption); apply blanks_chars; (apply B1 || apply B2)].
  unfold define_text. replace (b0 ++ lit "#define" ++ b1 ++ n ++ b2 ++ v ++ b3) with (b0 ++ (lit "#define" ++ b1 ++ n ++ b2 ++ v) ++ b3)
    by (rewrite <- !app_assoc; reflexivity).
  rewrite strip_blanks; [reflexivity|assumption|assumption|].
  replace (lit "#define" ++ b1 ++ n ++ b2 ++ v) with ((lit "#define" ++ b1 ++ n ++ b2) ++ v) by (rewrite <- !app_assoc; reflexivity).
  apply trimmed_of; [discriminate|assumption|reflexivity|assumption].
Qed.

(** A name with another character than capitals and the underscore. *)
Lemma define_skipped b0 b1 n b2 v b3 : blanks b0 -> gap b1 -> some_chars word_char n -> ~ all_chars name_char n -> gap b2 -> v <> [] -> trimmed v ->
  blanks b3 -> define_match (define_text b0 b1 n b2 v b3) = None.
Proof.
  intros B0 B1 N Nn B2 Nv T B3.
  assert (strip (define_text b0 b1 n b2 v b3) = lit "#define" ++ b1 ++ n ++ b2 ++ v) as E.
  { unfold define_text. replace (b0 ++ lit "#define" ++ b1 ++ n ++ b2 ++ v ++ b3) with (b0 ++ (lit "#define" ++ b1 ++ n ++ b2 ++ v) ++ b3)
      by (rewrite <- !app_assoc; reflexivity).
    rewrite strip_blanks; [reflexivity|assumption|assumption|].
    replace (lit "#define" ++ b1 ++ n ++ b2 ++ v) with ((lit "#define" ++ b1 ++ n ++ b2) ++ v) by (rewrite <- !app_assoc; reflexivity).
    apply trimmed_of; [discriminate|assumption|reflexivity|assumption]. }
  unfold define_match. rewrite E, eat_app. cbn [obind]. rewrite some_span_app; [cbn [obind]|now apply gap_chars|].
  2:{ apply (all_stops word_char); [apply N|apply N|]. exact word_space. }
  assert (exists a c r, n = a ++ c :: r /\ all_chars name_char a /\ name_char c = false) as (a & c & r & -> & A & C).
  { clear - Nn. induction n as [|c n IH]; [exfalso; apply Nn; constructor|]. destruct (name_char c) eqn:E; [|exists [], c, n; repeat split; [constructor|exact E]].
    destruct IH as (a & d & r & -> & A & D); [intros H; apply Nn; now constructor|]. exists (c :: a), d, r. repeat split; auto. now constructor. }
  rewrite <- app_assoc. cbn [app]. unfold some_span at 1. rewrite span_app; [|exact A|exact C].
  destruct a as [|x a]; [reflexivity|]. cbn [obind]. unfold some_span. cbn [span].
  assert (is_space c = false) as ->; [|reflexivity].
  apply word_space. destruct N as [_ N]. apply Forall_app in N as [_ N]. now inversion N.
Qed.

(** * Function calls *)

Lemma strip_arg_full x : arg_ok x -> strip_arg (arg_full x) = arg_text x.
Proof.
  intros (B & A & _ & _ & H1 & H2). unfold strip_arg, RuntimeModel.strip_of, arg_full.
  set (p := fun c => Ascii.eqb c " " || Ascii.eqb c """").
  assert (forall b s, quoting b -> RuntimeModel.lstrip_of p (b ++ s) = RuntimeModel.lstrip_of p s) as L.
  { intros b s Q. induction Q as [|c b [->| ->] Q IH]; [reflexivity| |]; exact IH. }
  assert (forall s, match s with [] => True | c :: _ => c <> " "%char /\ c <> """"%char end -> RuntimeModel.lstrip_of p s = s) as K.
  { intros [|c s] H; [reflexivity|]. simpl. unfold p. destruct H as [N1 N2].
    destruct (Ascii.eqb_spec c " "); [contradiction|]. destruct (Ascii.eqb_spec c """"); [contradiction|reflexivity]. }
  rewrite L by exact B. destruct (arg_text x) as [|c t] eqn:T.
  - simpl. rewrite <- (app_nil_r (after_arg x)), L by exact A. reflexivity.
  - rewrite (K ((c :: t) ++ after_arg x)) by exact H1. rewrite rev_app_distr, L by (now apply Forall_rev). rewrite K by exact H2. apply rev_involutive.
Qed.
Lemma arg_full_without x : arg_ok x -> without ","%char (arg_full x) /\ without RuntimeModel.newline (arg_full x).
Proof.
  intros (B & A & C & N & _). unfold arg_full, without in *. rewrite !in_app_iff.
  assert (forall b, quoting b -> ~ In ","%char b /\ ~ In RuntimeModel.newline b) as Q.
  { intros b Q. unfold quoting in Q. rewrite Forall_forall in Q. split; intros I; apply Q in I as [I|I]; discriminate. }
  destruct (Q _ B), (Q _ A). tauto.
Qed.
Lemma split_join_args l : l <> [] -> Forall arg_ok l ->
  RuntimeModel.split_on ","%char (join (lit ",") (map arg_full l)) = map arg_full l.
Proof.
  induction l as [|x l IH]; intros N F; [congruence|]. inversion F as [|? ? Fx Fl]; subst.
  destruct l as [|y l]; [simpl; apply split_none; now apply arg_full_without|].
  change (join (lit ",") (map arg_full (x :: y :: l))) with (arg_full x ++ lit "," ++ join (lit ",") (map arg_full (y :: l))).
  change (lit "," ++ join (lit ",") (map arg_full (y :: l))) with (","%char :: join (lit ",") (map arg_full (y :: l))).
  rewrite split_cut by now apply arg_full_without. rewrite IH; [reflexivity|discriminate|exact Fl].
Qed.
Lemma join_no_newline l : Forall arg_ok l -> without RuntimeModel.newline (join (lit ",") (map arg_full l)).
Proof.
  induction l as [|x l IH]; intros F; [intros []|]. inversion F as [|? ? Fx Fl]; subst.
  destruct l as [|y l]; [apply (arg_full_without x Fx)|].
  change (join (lit ",") (map arg_full (x :: y :: l))) with (arg_full x ++ lit "," ++ join (lit ",") (map arg_full (y :: l))).
  unfold without. rewrite !in_app_iff. intros [I|[I|I]]; [now apply (arg_full_without x Fx)|simpl in I; destruct I as [I|[]]; discriminate|now apply IH].
Qed.
Lemma has_char_false c s : without c s -> RuntimeModel.has_char c s = false.
Proof.
  intros W. destruct (RuntimeModel.has_char c s) eqn:E; [|reflexivity]. apply existsb_exists in E as (d & I & E).
  apply Ascii.eqb_eq in E as <-. contradiction.
Qed.

Lemma read_mode_text m r : read_mode [ReadInt; ReadDouble; ReadDoubleArray; ReadString] (mode_name m ++ lit "(" ++ r) = Some (m, r).
Proof. destruct m; reflexivity. Qed.

Definition expected_call n m a args : call := mkCall n m a args.
Lemma call_read b0 n b1 b2 cast m a b3 args b4 : blanks b0 -> some_chars word_char n -> blanks b1 -> blanks b2 -> all_chars word_char a ->
  blanks b3 -> Forall arg_ok args -> blanks b4 ->
  call_match (call_text b0 n b1 b2 cast m a b3 args b4) = Some (mkCall n m a (join (lit ",") (map arg_full args))).
Proof.
  intros B0 N B1 B2 A B3 F B4. set (J := join (lit ",") (map arg_full args)).
  assert (strip (call_text b0 n b1 b2 cast m a b3 args b4)
    = lit "config." ++ n ++ b1 ++ lit "=" ++ b2 ++ (if cast then lit "(char*)" else []) ++ mode_name m ++ lit "("
      ++ [""""%char] ++ a ++ [""""%char] ++ b3 ++ lit "," ++ J ++ lit ");") as E.
  { unfold call_text. fold J.
    match goal with |- strip (b0 ++ ?x) = ?y => replace (b0 ++ x) with (b0 ++ y ++ b4) by (rewrite <- !app_assoc; reflexivity) end.
    apply strip_blanks; [assumption|assumption|].
    match goal with |- trimmed ?x => replace x with ((lit "config." ++ n ++ b1 ++ lit "=" ++ b2 ++ (if cast then lit "(char*)" else []) ++ mode_name m ++ lit "("
      ++ [""""%char] ++ a ++ [""""%char] ++ b3 ++ lit "," ++ J) ++ lit ");") by (rewrite <- !app_assoc; reflexivity) end.
    apply trimmed_of; [discriminate|discriminate|reflexivity|split; reflexivity]. }
  unfold call_match. rewrite E.
  assert (forall s, skip_space (lit "config." ++ s) = lit "config." ++ s) as S0 by (intros s; reflexivity).
  rewrite S0, eat_app. cbn [obind]. rewrite some_span_app; [cbn [obind]|exact N|].
  2:{ destruct B1 as [|c b1 [C _] B1]; [reflexivity|]. simpl. now apply space_word. }
  rewrite skip_space_app by (auto; reflexivity). rewrite eat_app. cbn [obind].
  assert (forall s, stops is_space ((if cast then lit "(char*)" else []) ++ mode_name m ++ s)) as S1 by (intros s; destruct cast, m; reflexivity).
  rewrite skip_space_app by auto.
  assert (forall s, match eat (lit "(char*)") ((if cast then lit "(char*)" else []) ++ mode_name m ++ s) with
                    | Some x => x | None => (if cast then lit "(char*)" else []) ++ mode_name m ++ s end = mode_name m ++ s) as S2.
  { intros s. destruct cast; [now rewrite eat_app|]. destruct m; reflexivity. }
  rewrite S2, read_mode_text. cbn [obind]. rewrite eat_app. cbn [obind]. rewrite span_app; [|exact A|reflexivity].
  rewrite eat_app. cbn [obind]. rewrite skip_space_app by (auto; reflexivity). rewrite eat_app. cbn [obind].
  rewrite eat_end_app. cbn [obind]. rewrite has_char_false by now apply join_no_newline. reflexivity.
Qed.

(** The attributes of a call. *)
Lemma mode_keys_distinct m : NoDup (mode_keys m) /\ ~ In (lit "mode") (mode_keys m) /\ ~ In (lit "alias") (mode_keys m).
Proof.
  destruct m; cbv [mode_keys]; (split; [repeat (constructor; [intros I; simpl in I; repeat destruct I as [I|I]; try discriminate; contradiction|]); constructor|]);
    split; intros I; simpl in I; repeat destruct I as [I|I]; try discriminate; contradiction.
Qed.
Lemma combine_get {V} (ks : list str) (vs : list V) : NoDup ks -> forall i k v, nth_error ks i = Some k -> nth_error vs i = Some v ->
  d_get str_eqb (rev (combine ks vs)) k = Some v.
Proof.
  intros N i k v K E. assert (In (k, v) (combine ks vs)) as I.
  { clear N. revert ks vs K E. induction i as [|i IH]; intros [|k' ks] [|v' vs]; simpl; try discriminate.
    - intros A B. injection A as ->. injection B as ->. now left.
    - intros A B. right. now apply IH. }
  apply (d_get_iff _ str_eqb_spec); [|apply in_rev; now rewrite rev_involutive].
  rewrite map_rev. apply NoDup_rev. clear K E I. revert vs. induction ks as [|k' ks IH]; intros [|v' vs]; try constructor.
  - inversion N as [|? ? N1 N2]; subst. intros I. apply in_map_iff in I as ((x & y) & X & I). simpl in X. subst x.
    apply in_combine_l in I. contradiction.
  - inversion N; subst. now apply IH.
Qed.
Lemma combine_get_none {V} (ks : list str) (vs : list V) k : ~ In k (firstn (length vs) ks) -> d_get str_eqb (rev (combine ks vs)) k = None.
Proof.
  intros N. apply (d_get_none _ str_eqb_spec). rewrite map_rev. intros I. apply in_rev in I. apply N. clear N. revert vs I.
  induction ks as [|k' ks IH]; intros [|v vs]; simpl; try tauto. intros [I|I]; [now left|right]. now apply IH.
Qed.

(** * Arrays *)

Lemma number_text_spec whole frac : all_chars is_digit whole -> match frac with Some f => some_chars is_digit f | None => True end ->
  number_text (numeral whole frac) = true.
Proof.
  intros W F. unfold number_text, numeral. rewrite span_app; [|exact W|destruct frac; [reflexivity|exact I]].
  destruct frac as [f|]; [|reflexivity]. destruct F as [N F]. destruct f as [|c f]; [congruence|]. cbn [andb Ascii.eqb].
  change (Ascii.eqb "." ".") with true. cbn [andb]. apply forallb_forall. apply Forall_forall. exact F.
Qed.
Lemma number_text_only v : number_text v = true -> exists whole frac, v = numeral whole frac /\ all_chars is_digit whole
  /\ match frac with Some f => some_chars is_digit f | None => True end.
Proof.
  unfold number_text. pose proof (span_spec is_digit v) as H. destruct (span is_digit v) as [a b]. destruct H as (-> & A & _).
  intros H. destruct b as [|c b]; [exists a, None; split; [reflexivity|]; split; [exact A|exact I]|].
  apply andb_true_iff in H as [C H]. apply Ascii.eqb_eq in C. subst c. exists a, (Some b). split; [reflexivity|]. split; [exact A|].
  destruct b as [|d b]; [discriminate|]. split; [discriminate|]. rewrite forallb_forall in H. now apply Forall_forall.
Qed.
Lemma number_text_chars v : number_text v = true -> Forall (fun c => is_digit c = true \/ c = "."%char) v.
Proof.
  unfold number_text. pose proof (span_spec is_digit v) as H. destruct (span is_digit v) as [a b]. destruct H as (-> & A & _).
  intros H. apply Forall_app. split; [eapply Forall_impl; [|exact A]; auto|]. destruct b as [|c b]; [constructor|].
  apply andb_true_iff in H as [C H]. apply Ascii.eqb_eq in C. constructor; [now right|]. destruct b as [|d b]; [constructor|].
  rewrite forallb_forall in H. apply Forall_forall. intros x I. left. now apply H.
Qed.

Lemma array_strip b0 b1 n size b2 b3 v b4 : blanks b0 -> blanks b4 ->
  strip (array_text b0 b1 n size b2 b3 v b4)
  = lit "Scalar_t" ++ b1 ++ n ++ lit "[" ++ size ++ lit "]" ++ b2 ++ lit "=" ++ b3 ++ lit "{" ++ v ++ lit "};".
Proof.
  intros B0 B4. unfold array_text.
  match goal with |- strip (b0 ++ ?x) = ?y => replace (b0 ++ x) with (b0 ++ y ++ b4) by (rewrite <- !app_assoc; reflexivity) end.
  apply strip_blanks; [assumption|assumption|].
  match goal with |- trimmed ?x => replace x with ((lit "Scalar_t" ++ b1 ++ n ++ lit "[" ++ size ++ lit "]" ++ b2 ++ lit "=" ++ b3 ++ lit "{" ++ v) ++ lit "};")
    by (rewrite <- !app_assoc; reflexivity) end.
  apply trimmed_of; [discriminate|discriminate|reflexivity|split; reflexivity].
Qed.
Lemma array_match_text b0 b1 n size b2 b3 v b4 : blanks b0 -> gap b1 -> some_chars word_char n -> some_chars is_digit size -> blanks b2 -> blanks b3 ->
  blanks b4 -> array_match (array_text b0 b1 n size b2 b3 v b4) = if number_text v then Some (n, (size, v)) else None.
Proof.
  intros B0 B1 N Z B2 B3 B4. unfold array_match. rewrite array_strip by assumption.
  assert (forall s, skip_space (lit "Scalar_t" ++ s) = lit "Scalar_t" ++ s) as S0 by (intros s; reflexivity).
  rewrite S0, eat_app. cbn [obind]. rewrite skip_space_app; [|apply B1|].
  2:{ apply (all_stops word_char); [apply N|apply N|]. exact word_space. }
  rewrite some_span_app; [cbn [obind]|exact N|reflexivity]. rewrite eat_app. cbn [obind].
  rewrite some_span_app; [cbn [obind]|exact Z|reflexivity]. rewrite eat_app. cbn [obind].
  rewrite skip_space_app by (auto; reflexivity). rewrite eat_app. cbn [obind].
  rewrite skip_space_app by (auto; reflexivity). rewrite eat_app. cbn [obind]. rewrite eat_end_app. reflexivity.
Qed.

(** * Formats *)

Lemma filter_get {V} (p : str * V -> bool) (d : list (str * V)) k : (forall v, p (k, v) = true) -> d_get str_eqb (filter p d) k = d_get str_eqb d k.
Proof.
  intros H. induction d as [|[j v] d IH]; [reflexivity|]. simpl. destruct (p (j, v)) eqn:P; simpl.
  - destruct (str_eqb_spec k j); [reflexivity|exact IH].
  - destruct (str_eqb_spec k j) as [->|]; [rewrite H in P; discriminate|exact IH].
Qed.
Lemma get_update {V} (d l : list (str * V)) k : NoDup (map fst l) ->
  d_get str_eqb (d_update str_eqb d l) k = match d_get str_eqb l k with Some v => Some v | None => d_get str_eqb d k end.
Proof.
  intros N. rewrite (d_update_get _ str_eqb_spec). destruct (d_get str_eqb l k) as [v|] eqn:E.
  - assert (d_get str_eqb (rev l) k = Some v) as ->; [|reflexivity]. apply (d_get_iff _ str_eqb_spec); [rewrite map_rev; now apply NoDup_rev|].
    apply in_rev. rewrite rev_involutive. now apply (d_get_in _ str_eqb_spec).
  - assert (d_get str_eqb (rev l) k = None) as ->; [|reflexivity]. apply (d_get_none _ str_eqb_spec). rewrite map_rev. intros I. apply in_rev in I.
    apply (d_get_none _ str_eqb_spec) in E. contradiction.
Qed.
Lemma filter_NoDup {V} (p : str * V -> bool) (d : list (str * V)) : NoDup (map fst d) -> NoDup (map fst (filter p d)).
Proof.
  induction d as [|[k v] d IH]; intros N; [constructor|]. simpl in N. inversion N as [|? ? N1 N2]; subst. simpl. destruct (p (k, v)); [|auto].
  simpl. constructor; [|auto]. intros I. apply N1. apply in_map_iff in I as ((k' & v') & E & I). simpl in E. subst k'. apply filter_In in I as [I _].
  now apply (in_map fst) in I.
Qed.

(** * Files *)

Section Extracted.
Context {M X : Type} (match_line : str -> option M) (parse : M -> str * X).
Lemma extracted lines : exists d, FilesModel.extract str_eqb match_line (fun m => Ok (parse m)) lines = Ok d
  /\ NoDup (map fst d)
  /\ (forall n x, d_get str_eqb d n = Some x <-> last_read match_line parse lines n x)
  /\ (forall n, d_get str_eqb d n = None <-> never_read match_line parse lines n).
Proof.
  destruct (FilesProofs.extract_spec str_eqb str_eqb_spec match_line (fun m => Ok (parse m)) lines) as (d & E & N & G); [eauto|].
  exists d. split; [exact E|]. split; [exact N|].
  assert (forall n x, d_get str_eqb d n = Some x <-> last_read match_line parse lines n x) as L.
  { intros n x. rewrite G. unfold last_read. split; intros (l1 & l & l2 & m & A & B & C & D).
    - exists l1, l, l2, m. split; [exact A|]. split; [exact B|]. split; [congruence|]. intros l' m' I M' F.
      apply (D l' m' (snd (parse m')) I M'). f_equal. rewrite <- F. now destruct (parse m').
    - exists l1, l, l2, m. split; [exact A|]. split; [exact B|]. split; [congruence|]. intros l' m' w I M' F.
      apply (D l' m' I M'). injection F as F. now rewrite F. }
  split; [exact L|]. intros n. split.
  - intros H l m I M' F. assert (exists x, last_read match_line parse lines n x) as [x Lx].
    { clear L G E N H d. revert l m I M' F. induction lines as [|y lines IH]; intros l m I M' F; [contradiction|].
      destruct (existsb (fun l' => match match_line l' with Some m' => str_eqb (fst (parse m')) n | None => false end) lines) eqn:Y.
      - apply existsb_exists in Y as (l' & I' & Y). destruct (match_line l') as [m'|] eqn:M''; [|discriminate].
        destruct (str_eqb_spec (fst (parse m')) n) as [F'|]; [|discriminate].
        destruct (IH l' m' I' M'' F') as (x & l1 & z & l2 & m2 & -> & R). exists x, (y :: l1), z, l2, m2. split; [reflexivity|exact R].
      - assert (forall l' m', In l' lines -> match_line l' = Some m' -> fst (parse m') <> n) as K.
        { intros l' m' I' M'' F'. assert (existsb (fun l' => match match_line l' with Some m' => str_eqb (fst (parse m')) n | None => false end) lines = true); [|congruence].
          apply existsb_exists. exists l'. split; [exact I'|]. rewrite M''. now destruct (str_eqb_spec (fst (parse m')) n). }
        destruct I as [->|I]; [|exfalso; exact (K l m I M' F)].
        exists (snd (parse m)), [], l, lines, m. split; [reflexivity|]. split; [exact M'|]. split; [rewrite <- F; now destruct (parse m)|exact K]. }
    apply L in Lx. congruence.
  - intros H. destruct (d_get str_eqb d n) as [x|] eqn:D; [|reflexivity]. apply L in D as (l1 & l & l2 & m & -> & M' & P & _).
    exfalso. apply (H l m); [apply in_or_app; right; now left|exact M'|]. now rewrite P.
Qed.
End Extracted.

Lemma get_map {A B} (f : str * A -> res (str * B)) : forall l r n, (forall p q, f p = Ok q -> fst q = fst p) -> mapM f l = Ok r ->
  d_get str_eqb r n = match d_get str_eqb l n with
                      | Some x => match f (n, x) with Ok q => Some (snd q) | Err _ => None end
                      | None => None
                      end.
Proof.
  induction l as [|[k x] l IH]; intros r n H E; simpl in E; [injection E as <-; reflexivity|].
  destruct (f (k, x)) as [q|] eqn:Q; [|discriminate]. simpl in E. destruct (mapM f l) as [r'|] eqn:R; [|discriminate]. simpl in E. injection E as <-.
  pose proof (H _ _ Q) as F. destruct q as [k' y]. simpl in F. subst k'. simpl. destruct (str_eqb_spec n k) as [->|N]; [now rewrite Q|]. now apply IH.
Qed.
Lemma mapM_ok_all {A B} (f : A -> res B) l : (forall x, In x l -> exists y, f x = Ok y) -> exists r, mapM f l = Ok r.
Proof.
  induction l as [|x l IH]; intros H; [now exists []|]. destruct (H x) as [y E]; [now left|]. destruct IH as [r R]; [intros z I; apply H; now right|].
  exists (y :: r). simpl. now rewrite E, R.
Qed.
Lemma mapM_err {A B} (f : A -> res B) l e : (forall x e', In x l -> f x = Err e' -> e' = e) -> (exists x e', In x l /\ f x = Err e') -> mapM f l = Err e.
Proof.
  induction l as [|x l IH]; intros H (y & e' & I & E); [contradiction|]. simpl. destruct (f x) as [z|e''] eqn:F.
  - simpl. rewrite IH; [reflexivity|intros w d J; apply H; now right|]. destruct I as [->|I]; [congruence|eauto].
  - simpl. f_equal. apply (H x e''); [now left|exact F].
Qed.

Lemma load_spec lines r : load_parameters lines = Ok r -> forall n at_, last_read call_match call_parse lines n at_ ->
  exists d, text_of (d_get str_eqb at_ (lit "default")) = Ok d
  /\ (forall v, last_read array_match array_parse lines d v ->
       exists x, d_get str_eqb r n = Some x /\ d_get str_eqb x (lit "default") = Some (VText v)
         /\ d_get str_eqb x (lit "mode") = d_get str_eqb at_ (lit "mode") /\ d_get str_eqb x (lit "alias") = None)
  /\ (never_read array_match array_parse lines d -> d_get str_eqb r n = Some at_).
Proof.
  unfold load_parameters. destruct (extracted call_match call_parse lines) as (A & EA & _ & GA & _). rewrite EA. cbn [bind].
  destruct (extracted array_match array_parse lines) as (B & EB & _ & GB & NB). rewrite EB. cbn [bind].
  set (f := fun p : str * attrs => _). destruct (mapM f A) as [r'|] eqn:E; [|discriminate]. cbn [bind]. intros H. injection H as <-.
  intros n at_ L. apply GA in L.
  assert (forall p q, f p = Ok q -> fst q = fst p) as K.
  { intros p q. unfold f. destruct (text_of (d_get str_eqb (snd p) (lit "default"))) as [d|]; [|discriminate]. cbn [bind].
    destruct (d_get str_eqb B d); intros Q; injection Q as <-; reflexivity. }
  pose proof (get_map f A r' n K E) as G. rewrite L in G. destruct (f (n, at_)) as [q|e] eqn:F.
  2:{ exfalso. apply (d_get_in _ str_eqb_spec) in L. clear - E F L. revert r' E. induction A as [|p A IH]; intros r E; [contradiction|]. simpl in E.
      destruct L as [->|L]; [rewrite F in E; discriminate|]. destruct (f p); [|discriminate]. simpl in E. destruct (mapM f A) as [r2|]; [|discriminate]. eapply IH; eauto. }
  unfold f in F. cbn [fst snd] in F. destruct (text_of (d_get str_eqb at_ (lit "default"))) as [d|] eqn:D; [|discriminate]. cbn [bind] in F.
  exists d. split; [reflexivity|]. split.
  - intros v V. apply GB in V. rewrite V in F. destruct (d_get str_eqb at_ (lit "mode")) as [m|];
      injection F as <-; cbn [snd] in G; eexists; (split; [exact G|]); repeat split; reflexivity.
  - intros V. apply NB in V. rewrite V in F. injection F as <-. exact G.
Qed.

(** The attributes of a parameter as read. *)
Definition plain_attrs (x : attrs) : Prop :=
  NoDup (map fst x) /\ (exists m, d_get str_eqb x (lit "mode") = Some (VMode m)) /\ d_get str_eqb x (lit "type") = None
  /\ forall k v, d_get str_eqb x k = Some v -> k <> lit "mode" -> exists s, v = VText s.
Lemma combine_keys {V} (ks : list str) (vs : list V) : NoDup ks -> NoDup (map fst (combine ks vs)).
Proof.
  revert vs. induction ks as [|k ks IH]; intros [|v vs] N; try constructor; inversion N as [|? ? N1 N2]; subst; [|now apply IH].
  intros I. apply in_map_iff in I as ((x & y) & X & I). simpl in X. subst x. apply in_combine_l in I. contradiction.
Qed.
Lemma call_attrs c : plain_attrs (snd (call_parse c)).
Proof.
  unfold call_parse. cbn [snd]. destruct (mode_keys_distinct (c_mode c)) as (N & M & A).
  set (vs := map _ _). set (first := if str_eqb _ _ then _ else _).
  assert (NoDup (map fst first)) as Nf by (unfold first; destruct (str_eqb _ _); repeat constructor; intros []).
  assert (NoDup (map fst (combine (mode_keys (c_mode c)) vs))) as Nc by now apply combine_keys.
  assert (forall k, d_get str_eqb (d_update str_eqb (d_update str_eqb first [(lit "mode", VMode (c_mode c))]) (combine (mode_keys (c_mode c)) vs)) k
    = match d_get str_eqb (combine (mode_keys (c_mode c)) vs) k with Some v => Some v | None =>
        if str_eqb k (lit "mode") then Some (VMode (c_mode c)) else d_get str_eqb first k end) as G.
  { intros k. rewrite get_update by exact Nc. rewrite get_update by (repeat constructor; intros []). simpl. now destruct (str_eqb k _). }
  assert (forall k, ~ In k (mode_keys (c_mode c)) -> d_get str_eqb (combine (mode_keys (c_mode c)) vs) k = None) as O.
  { intros k Nk. apply (d_get_none _ str_eqb_spec). intros I. apply in_map_iff in I as ((x & y) & X & I). simpl in X. subst x. apply in_combine_l in I. contradiction. }
  split; [apply (d_update_NoDup _ str_eqb_spec), (d_update_NoDup _ str_eqb_spec), Nf|]. split; [|split].
  - exists (c_mode c). rewrite G, O by exact M. reflexivity.
  - rewrite G, O by (destruct (c_mode c); intros I; simpl in I; repeat destruct I as [I|I]; try discriminate; contradiction).
    unfold first. destruct (str_eqb (c_alias c) (c_name c)); reflexivity.
  - intros k v. rewrite G. destruct (d_get str_eqb (combine (mode_keys (c_mode c)) vs) k) as [w|] eqn:E.
    + intros H _. injection H as <-. apply (d_get_in _ str_eqb_spec) in E. apply in_combine_r in E. unfold vs in E. apply in_map_iff in E as (s & <- & _). eauto.
    + destruct (str_eqb_spec k (lit "mode")); [congruence|]. unfold first. destruct (str_eqb (c_alias c) (c_name c)); [discriminate|].
      simpl. destruct (str_eqb k _); [|discriminate]. intros H _. injection H as <-. eauto.
Qed.
Lemma read_attrs lines n at_ : last_read call_match call_parse lines n at_ -> plain_attrs at_.
Proof. intros (l1 & l & l2 & m & _ & _ & E & _). replace at_ with (snd (call_parse m)) by now rewrite E. apply call_attrs. Qed.
Lemma default_text lines n at_ : last_read call_match call_parse lines n at_ -> d_get str_eqb at_ (lit "default") <> None ->
  exists s, text_of (d_get str_eqb at_ (lit "default")) = Ok s.
Proof.
  intros L H. apply read_attrs in L as (_ & _ & _ & L). destruct (d_get str_eqb at_ (lit "default")) as [v|] eqn:E; [|congruence].
  destruct (L _ _ E) as (s & ->); [discriminate|]. now exists s.
Qed.
Lemma load_fails lines n at_ : last_read call_match call_parse lines n at_ -> d_get str_eqb at_ (lit "default") = None ->
  load_parameters lines = Err KeyError.
Proof.
  intros L D. unfold load_parameters. destruct (extracted call_match call_parse lines) as (A & EA & ND & GA & _). rewrite EA. cbn [bind].
  destruct (extracted array_match array_parse lines) as (B & EB & _). rewrite EB. cbn [bind].
  rewrite (mapM_err _ A KeyError); [reflexivity| |].
  - intros p e' I. destruct (d_get str_eqb (snd p) (lit "default")) as [x|] eqn:Dx.
    + assert (exists s, text_of (Some x) = Ok s) as (s & Sx). { destruct p as [k y]. apply (d_get_iff _ str_eqb_spec) in I; [|exact ND]. apply GA in I. apply default_text in I; cbn [snd] in Dx; rewrite Dx in *; [exact I|discriminate]. }
      rewrite Sx. cbn [bind]. destruct (d_get str_eqb B s); discriminate.
    + cbn. congruence.
  - apply GA in L. apply (d_get_in _ str_eqb_spec) in L. exists (n, at_), KeyError. split; [exact L|]. cbn [snd]. now rewrite D.
Qed.
Lemma load_total lines : (forall n at_, last_read call_match call_parse lines n at_ -> d_get str_eqb at_ (lit "default") <> None) ->
  exists r, load_parameters lines = Ok r.
Proof.
  intros H. unfold load_parameters. destruct (extracted call_match call_parse lines) as (A & EA & ND & GA & _). rewrite EA. cbn [bind].
  destruct (extracted array_match array_parse lines) as (B & EB & _). rewrite EB. cbn [bind].
  match goal with |- exists r, bind (mapM ?f A) _ = Ok r => destruct (mapM_ok_all f A) as [r ->]; [|now exists r] end.
  intros [n at_] I. cbn [fst snd]. assert (d_get str_eqb A n = Some at_) as G by (apply (d_get_iff _ str_eqb_spec); auto). apply GA in G. pose proof (H _ _ G) as Hd.
  destruct (default_text _ _ _ G Hd) as (s & ->). eexists. reflexivity.
Qed.

Lemma load_plain lines r n x : load_parameters lines = Ok r -> d_get str_eqb r n = Some x -> plain_attrs x.
Proof.
  unfold load_parameters. destruct (extracted call_match call_parse lines) as (A & EA & _ & GA & _). rewrite EA. cbn [bind].
  destruct (extracted array_match array_parse lines) as (B & EB & _). rewrite EB. cbn [bind].
  set (f := fun p : str * attrs => _). destruct (mapM f A) as [r'|] eqn:E; [|discriminate]. cbn [bind]. intros H. injection H as <-.
  assert (forall p q, f p = Ok q -> fst q = fst p) as K.
  { intros p q. unfold f. destruct (text_of (d_get str_eqb (snd p) (lit "default"))) as [d|]; [|discriminate]. cbn [bind].
    destruct (d_get str_eqb B d); intros Q; injection Q as <-; reflexivity. }
  intros D. pose proof (eq_trans (eq_sym D) (get_map f A r' n K E)) as G. clear D. revert G.
  destruct (d_get str_eqb A n) as [at_|] eqn:L; [|discriminate].
  apply GA in L. apply read_attrs in L. unfold f. cbn [fst snd].
  destruct (text_of (d_get str_eqb at_ (lit "default"))) as [d|]; cbn [bind]; [|discriminate].
  destruct (d_get str_eqb B d) as [v|]; [|intros H; injection H as ->; exact L].
  destruct L as (_ & (m & ->) & _). cbn [snd]. intros H. injection H as ->.
  split; [repeat (constructor; [intros I; simpl in I; repeat destruct I as [I|I]; try discriminate; contradiction|]); constructor|].
  split; [exists m; reflexivity|]. split; [reflexivity|]. intros k w. simpl.
  destruct (str_eqb_spec k ["m"%char; "o"%char; "d"%char; "e"%char]) as [->|]; [congruence|].
  destruct (str_eqb k _); [|discriminate]. intros W _. injection W as <-. eauto.
Qed.

Lemma to_class_mode m : to_class (VMode m) = Ok (VClass (class_of m)).
Proof. now destruct m. Qed.
Lemma to_mode_class m : to_mode (VClass (class_of m)) = Ok (VMode m).
Proof. now destruct m. Qed.

Lemma mapM_keys {A B} (f : str * A -> res (str * B)) l r : (forall p q, f p = Ok q -> fst q = fst p) -> mapM f l = Ok r -> map fst r = map fst l.
Proof.
  intros H. revert r. induction l as [|p l IH]; intros r E; simpl in E; [now injection E as <-|].
  destruct (f p) as [q|] eqn:Q; [|discriminate]. simpl in E. destruct (mapM f l) as [r'|]; [|discriminate]. simpl in E. injection E as <-.
  simpl. f_equal; [now apply H|now apply IH].
Qed.
Lemma replaced conv old new d : (forall n x, In (n, x) d -> exists v w, d_get str_eqb x old = Some v /\ conv v = Ok w) ->
  exists r, replace conv old new d = Ok r /\ map fst r = map fst d /\ forall n, d_get str_eqb r n = match d_get str_eqb d n with
    | Some x => match d_get str_eqb x old with
                | Some v => match conv v with Ok w => Some (d_update str_eqb [(new, w)] (filter (fun q => negb (str_eqb (fst q) old)) x)) | Err _ => None end
                | None => None end
    | None => None end.
Proof.
  intros H. unfold replace. set (f := fun p : str * attrs => _). destruct (mapM_ok_all f d) as [r E].
  { intros [n x] I. destruct (H n x I) as (v & w & D & C). unfold f. cbn [fst snd]. rewrite D, C. eexists. reflexivity. }
  assert (forall p q, f p = Ok q -> fst q = fst p) as K.
  { intros p q. unfold f. destruct (d_get str_eqb (snd p) old); [|discriminate]. destruct (conv _); [|discriminate]. cbn [bind]. intros Q. injection Q as <-. reflexivity. }
  exists r. split; [exact E|]. split; [exact (mapM_keys f d r K E)|]. intros n.
  refine (eq_trans (get_map f d r n K E) _). destruct (d_get str_eqb d n) as [x|]; [|reflexivity]. unfold f. cbn [fst snd].
  destruct (d_get str_eqb x old) as [v|]; [|reflexivity]. now destruct (conv v).
Qed.
Lemma update_get {V} (x : list (str * V)) old new w k : NoDup (map fst x) -> old <> new -> d_get str_eqb x new = None ->
  d_get str_eqb (d_update str_eqb [(new, w)] (filter (fun q => negb (str_eqb (fst q) old)) x)) k
  = if str_eqb k new then Some w else if str_eqb k old then None else d_get str_eqb x k.
Proof.
  intros N O Nn. rewrite get_update by now apply filter_NoDup. simpl.
  destruct (str_eqb_spec k old) as [->|Ko].
  - assert (d_get str_eqb (filter (fun q => negb (str_eqb (fst q) old)) x) old = None) as ->.
    { apply (d_get_none _ str_eqb_spec). intros I. apply in_map_iff in I as ((a & b) & E & I). simpl in E. subst a. apply filter_In in I as [_ I].
      simpl in I. destruct (str_eqb_spec old old); [discriminate|congruence]. }
    now destruct (str_eqb old new).
  - rewrite filter_get by (intros v; simpl; now destruct (str_eqb_spec k old)).
    destruct (str_eqb_spec k new) as [->|]; [now rewrite Nn|]. now destruct (d_get str_eqb x k).
Qed.
Lemma json_round_trip d : NoDup (map fst d) -> (forall n x, d_get str_eqb d n = Some x -> plain_attrs x) ->
  exists s j, standardize d = Ok s /\ format_json s = Ok j
  /\ (forall n, match d_get str_eqb d n, d_get str_eqb s n with
                | Some x, Some y => (forall m, d_get str_eqb x (lit "mode") = Some (VMode m) -> d_get str_eqb y (lit "type") = Some (VClass (class_of m)))
                                    /\ d_get str_eqb y (lit "mode") = None
                                    /\ forall k, k <> lit "mode" -> k <> lit "type" -> d_get str_eqb y k = d_get str_eqb x k
                | None, None => True | _, _ => False end)
  /\ (forall n, match d_get str_eqb d n, d_get str_eqb j n with
                | Some x, Some y => forall k, d_get str_eqb y k = d_get str_eqb x k
                | None, None => True | _, _ => False end).
Proof.
  intros ND P.
  assert (lit "mode" <> lit "type") as MT by discriminate. assert (lit "type" <> lit "mode") as TM by discriminate.
  destruct (replaced to_class (lit "mode") (lit "type") d) as (s & S1 & S0 & S2).
  { intros n x I. apply (d_get_iff _ str_eqb_spec) in I; [|exact ND]. apply P in I as (_ & (m & M) & _). exists (VMode m), (VClass (class_of m)). split; [exact M|apply to_class_mode]. }
  assert (forall n x, d_get str_eqb d n = Some x -> exists m, d_get str_eqb x (lit "mode") = Some (VMode m) /\
      d_get str_eqb s n = Some (d_update str_eqb [(lit "type", VClass (class_of m))] (filter (fun q => negb (str_eqb (fst q) (lit "mode"))) x))) as S3.
  { intros n x D. pose proof (P n x D) as (_ & (m & M) & _). exists m. split; [exact M|]. rewrite S2, D, M, to_class_mode. reflexivity. }
  assert (forall n, d_get str_eqb d n = None -> d_get str_eqb s n = None) as S4 by (intros n D; now rewrite S2, D).
  assert (map fst s = map fst d) as Ks.
  { exact S0. }
  destruct (replaced to_mode (lit "type") (lit "mode") s) as (j & J1 & _ & J2).
  { intros n y I. apply (d_get_iff _ str_eqb_spec) in I; [|now rewrite Ks]. destruct (d_get str_eqb d n) as [x|] eqn:D; [|rewrite (S4 n D) in I; discriminate].
    destruct (S3 n x D) as (m & M & Y). rewrite I in Y. injection Y as ->. destruct (P n x D) as (Nx & _ & T & _). exists (VClass (class_of m)), (VMode m).
    split; [|apply to_mode_class]. rewrite update_get by assumption. reflexivity. }
  exists s, j. split; [exact S1|]. split; [exact J1|]. split.
  - intros n. destruct (d_get str_eqb d n) as [x|] eqn:D; [|now rewrite (S4 n D)]. destruct (S3 n x D) as (m & M & ->). destruct (P n x D) as (Nx & _ & T & _).
    split; [|split].
    + intros m' M'. rewrite M in M'. injection M' as <-. rewrite update_get by assumption. reflexivity.
    + rewrite update_get by assumption. reflexivity.
    + intros k K1 K2. rewrite update_get by assumption. destruct (str_eqb_spec k (lit "type")); [contradiction|]. now destruct (str_eqb_spec k (lit "mode")).
  - intros n. rewrite J2. destruct (d_get str_eqb d n) as [x|] eqn:D; [|now rewrite (S4 n D)]. destruct (S3 n x D) as (m & M & ->). destruct (P n x D) as (Nx & _ & T & _).
    rewrite update_get by assumption. change (str_eqb (lit "type") (lit "type")) with true. cbv iota. rewrite to_mode_class. intros k.
    rewrite update_get; [|apply (d_update_NoDup _ str_eqb_spec); repeat constructor; intros []|discriminate|rewrite update_get by assumption; reflexivity].
    destruct (str_eqb_spec k (lit "mode")) as [->|K1]; [now rewrite M|]. destruct (str_eqb_spec k (lit "type")) as [->|K2]; [now rewrite T|].
    rewrite update_get by assumption. destruct (str_eqb_spec k (lit "type")); [contradiction|]. now destruct (str_eqb_spec k (lit "mode")).
Qed.

Lemma load_distinct lines d : load_parameters lines = Ok d -> NoDup (map fst d).
Proof.
  unfold load_parameters. destruct (extracted call_match call_parse lines) as (A & EA & NA & _). rewrite EA. cbn [bind].
  destruct (extracted array_match array_parse lines) as (B & EB & _). rewrite EB. cbn [bind].
  set (f := fun p : str * attrs => _). destruct (mapM f A) as [r'|] eqn:E; [|discriminate]. cbn [bind]. intros H. injection H as <-.
  rewrite (mapM_keys f A r'); [exact NA| |exact E].
  intros p q. unfold f. destruct (text_of (d_get str_eqb (snd p) (lit "default"))) as [x|]; [|discriminate]. cbn [bind].
  destruct (d_get str_eqb B x); intros Q; injection Q as <-; reflexivity.
Qed.
