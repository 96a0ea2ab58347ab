(** Properties of C source files. *)

From Coq Require Import String Ascii List Bool Lia Arith.
From Verif Require Import Py PyFacts PyDict RuntimeSpec SourceModel SourceSpec SourceProofs.
From Verif Require RuntimeModel FilesModel FilesProps.
Import ListNotations.
Open Scope list_scope.
Open Scope nat_scope.
Open Scope py_scope.

(** ** C156: constants in header files *)

(** Missing: names with other characters, comments after the value (see
    below), and values with other characters. *)
Theorem C156_read_partial : forall b0 b1 n b2 v b3,
  blanks b0 -> gap b1 -> some_chars name_letter n -> gap b2 -> v <> [] -> trimmed v -> all_chars value_letter v -> blanks b3 ->
  define_match (define_text b0 b1 n b2 v b3) = Some (n, v).
Proof. intros. letters. now apply define_read. Qed.
Print Assumptions C156_read_partial.

(** Nothing but a definition is read. *)
Theorem C260_only : forall line n v, define_match line = Some (n, v) ->
  exists b1 b2, strip line = lit "#define" ++ b1 ++ n ++ b2 ++ v /\ some_chars is_space b1 /\ some_chars name_letter n
    /\ some_chars is_space b2 /\ v <> [].
Proof. intros line n v H. apply define_match_iff in H as (b1 & b2 & H). exists b1, b2. letters. tauto. Qed.
Print Assumptions C260_only.

(** The last definition of each name counts. *)
Theorem C260_file : forall lines, exists d, load_constants lines = Ok d
  /\ (forall n v, d_get str_eqb d n = Some v <-> last_read define_match (fun m => m) lines n v)
  /\ (forall n, d_get str_eqb d n = None <-> never_read define_match (fun m => m) lines n).
Proof. intros lines. destruct (extracted define_match (fun m => m) lines) as (d & E & _ & G). exists d. auto. Qed.
Print Assumptions C260_file.

(** Names with digits or small letters are skipped. *)
Theorem C156_names_refuted : forall b0 b1 n b2 v b3,
  blanks b0 -> gap b1 -> some_chars word_letter n -> ~ all_chars name_letter n -> gap b2 -> v <> [] -> trimmed v -> blanks b3 ->
  define_match (define_text b0 b1 n b2 v b3) = None.
Proof. intros. letters. now apply define_skipped. Qed.
Print Assumptions C156_names_refuted.

(** A comment becomes a part of the value. *)
Theorem C156_comment_refuted : forall n v c, some_chars name_letter n -> v <> [] -> trimmed v -> all_chars value_letter v -> all_chars value_letter c ->
  define_match (define_text [] (lit " ") n (lit " ") v (lit " /*" ++ c ++ lit "*/")) = Some (n, v ++ lit " /*" ++ c ++ lit "*/").
Proof.
  intros n v c N Nv T Av Ac. letters.
  replace (define_text [] (lit " ") n (lit " ") v (lit " /*" ++ c ++ lit "*/"))
    with (define_text [] (lit " ") n (lit " ") (v ++ lit " /*" ++ c ++ lit "*/") []) by (unfold define_text; rewrite app_nil_r; reflexivity).
  assert (gap (lit " ")) as G by (split; [discriminate|repeat constructor; intros H; discriminate H]).
  apply define_read; auto; try constructor.
  - destruct v; discriminate.
  - destruct v; [congruence|]. apply T.
  - rewrite !rev_app_distr. reflexivity.
  - apply Forall_app. split; [exact Av|]. apply Forall_app. split; [repeat constructor|]. apply Forall_app. split; [exact Ac|repeat constructor].
Qed.
Print Assumptions C156_comment_refuted.

Example C156_example :
  define_match (lit "#define  TWO_PI   ( 2.0 * PI )  ") = Some (lit "TWO_PI", lit "( 2.0 * PI )")
  /\ define_match (lit "#define T0 1.0") = None
  /\ define_match (lit "#define C 2.99e10 /* cm per s */") = Some (lit "C", lit "2.99e10 /* cm per s */")
  /\ load_constants [lit "#define PI 3.14"; lit "int x;"; lit "#define C 3"; lit "#define PI 3.1416"] = Ok [(lit "PI", lit "3.1416"); (lit "C", lit "3")].
Proof. repeat split. Qed.

(** ** C157: function calls that read parameters *)

(** Missing: arguments with commas (see below). *)
Theorem C157_read_partial : forall b0 n b1 b2 cast m a b3 args b4,
  blanks b0 -> some_chars word_letter n -> blanks b1 -> blanks b2 -> all_chars word_letter a -> blanks b3 ->
  args <> [] -> Forall arg_ok args -> blanks b4 ->
  exists c at_, call_match (call_text b0 n b1 b2 cast m a b3 args b4) = Some c /\ call_parse c = (n, at_)
  /\ d_get str_eqb at_ (lit "mode") = Some (VMode m)
  /\ d_get str_eqb at_ (lit "alias") = (if str_eqb a n then None else Some (VText a))
  /\ (forall i k x, nth_error (argument_names m) i = Some k -> nth_error args i = Some x -> d_get str_eqb at_ k = Some (VText (arg_text x)))
  /\ (forall i k, nth_error (argument_names m) i = Some k -> nth_error args i = None -> d_get str_eqb at_ k = None).
Proof.
  intros b0 n b1 b2 cast m a b3 args b4 B0 N B1 B2 A B3 Na F B4. letters.
  assert (argument_names m = mode_keys m) as -> by now destruct m.
  eexists. eexists. split; [now apply call_read|]. split; [reflexivity|].
  unfold call_parse. cbn [c_alias c_name c_mode c_args]. rewrite split_join_args by assumption.
  set (vs := map _ _). assert (vs = map (fun x => VText (arg_text x)) args) as Vs.
  { unfold vs. rewrite map_map. apply map_ext_in. intros x I. rewrite Forall_forall in F. now rewrite strip_arg_full by now apply F. }
  rewrite Vs. clear vs Vs. destruct (mode_keys_distinct m) as (ND & NM & NA).
  set (first := if str_eqb a n then _ else _).
  assert (forall k, d_get str_eqb (d_update str_eqb (d_update str_eqb first [(lit "mode", VMode m)]) (combine (mode_keys m) (map (fun x => VText (arg_text x)) args))) k
    = match d_get str_eqb (rev (combine (mode_keys m) (map (fun x => VText (arg_text x)) args))) k with Some v => Some v | None =>
        if str_eqb k (lit "mode") then Some (VMode m) else d_get str_eqb first k end) as G.
  { intros k. rewrite (d_update_get _ str_eqb_spec). destruct (d_get str_eqb (rev _) k); [reflexivity|].
    rewrite (d_update_get _ str_eqb_spec). simpl. now destruct (str_eqb k _). }
  assert (forall k, ~ In k (mode_keys m) -> d_get str_eqb (rev (combine (mode_keys m) (map (fun x => VText (arg_text x)) args))) k = None) as O.
  { intros k Nk. apply combine_get_none. intros I. apply Nk. rewrite <- (firstn_skipn (length (map (fun x => VText (arg_text x)) args)) (mode_keys m)).
    apply in_or_app. now left. }
  split; [rewrite G, O by exact NM; reflexivity|]. split.
  { rewrite G, O by exact NA. unfold first. destruct (str_eqb a n); reflexivity. }
  split.
  - intros i k x K X. rewrite G. rewrite (combine_get (mode_keys m) (map (fun x => VText (arg_text x)) args) ND i k (VText (arg_text x)) K); [reflexivity|].
    now rewrite nth_error_map, X.
  - intros i k K X. rewrite G. rewrite combine_get_none.
    + assert (In k (mode_keys m)) as I by (now apply nth_error_In in K).
      destruct (str_eqb_spec k (lit "mode")) as [->|]; [contradiction|]. unfold first. destruct (str_eqb a n); [reflexivity|]. simpl.
      destruct (str_eqb_spec k ["a"%char; "l"%char; "i"%char; "a"%char; "s"%char]) as [->|]; [exfalso; exact (NA I)|reflexivity].
    + rewrite map_length. apply nth_error_None in X. intros I. apply In_nth_error in I as (j & J).
      assert (j < length (firstn (length args) (mode_keys m))) as Lj by (apply nth_error_Some; congruence).
      rewrite firstn_length in Lj. assert (nth_error (mode_keys m) j = Some k) as J'.
      { rewrite <- (firstn_skipn (length args) (mode_keys m)). rewrite nth_error_app1; [exact J|]. apply nth_error_Some. congruence. }
      assert (j = i) as ->; [|lia]. assert (i < length (mode_keys m)) by (apply nth_error_Some; congruence).
      apply (proj1 (NoDup_nth_error (mode_keys m)) ND); [lia|congruence].
Qed.
Print Assumptions C157_read_partial.

(** A text with a comma is cut there. *)
Theorem C157_comma_refuted : forall n x y, some_chars word_letter n -> some_chars word_letter x -> some_chars word_letter y ->
  exists c at_, call_match (lit "config." ++ n ++ lit "=(char*)readString(" ++ [""""%char] ++ n ++ [""""%char] ++ lit "," ++ [""""%char] ++ x ++ lit "," ++ y ++ [""""%char] ++ lit ");") = Some c
    /\ call_parse c = (n, at_) /\ d_get str_eqb at_ (lit "default") = Some (VText x).
Proof.
  intros n x y N X Y.
  assert (forall z, all_chars word_letter z -> without ","%char z /\ without RuntimeModel.newline z) as W.
  { intros z Z. split; intros I; unfold all_chars in Z; rewrite Forall_forall in Z; apply Z in I; discriminate. }
  assert (forall z, all_chars word_letter z -> match z with [] => True | c :: _ => c <> " "%char /\ c <> """"%char end) as H.
  { intros z Z. destruct Z as [|c z C Z]; [exact I|]. split; intros ->; discriminate. }
  assert (forall z, all_chars word_letter z -> all_chars word_letter (rev z)) as R by (intros z Z; now apply Forall_rev).
  assert (quoting [""""%char] /\ quoting []) as [Q1 Q2] by (split; repeat constructor; now right).
  destruct (C157_read_partial [] n [] [] true ReadString n [] [mkArg [""""%char] x []; mkArg [] y [""""%char]] []) as (c & at_ & M & P & _ & _ & D & _);
    try constructor; try (apply N); try discriminate.
  - destruct X as [_ X]. destruct (W x X) as [W1 W2]. unfold arg_ok. cbn [before_arg arg_text after_arg].
    split; [exact Q1|]. split; [exact Q2|]. split; [exact W1|]. split; [exact W2|]. split; [exact (H x X)|exact (H (rev x) (R x X))].
  - destruct Y as [_ Y]. destruct (W y Y) as [W1 W2]. constructor; [|constructor]. unfold arg_ok. cbn [before_arg arg_text after_arg].
    split; [exact Q2|]. split; [exact Q1|]. split; [exact W1|]. split; [exact W2|]. split; [exact (H y Y)|exact (H (rev y) (R y Y))].
  - exists c, at_. split; [|split; [exact P|exact (D 0 _ _ eq_refl eq_refl)]]. rewrite <- M. unfold call_text. cbn [map join arg_full before_arg arg_text after_arg].
    f_equal. unfold arg_full. cbn [app before_arg arg_text after_arg]. rewrite !app_nil_r, <- ?app_assoc. cbn [app]. rewrite <- ?app_assoc. reflexivity.
Qed.
Print Assumptions C157_comma_refuted.

Example C157_example :
  option_map call_parse (call_match (lit "  config.numNodesPerStream = readInt(""numNodesPerStream"", N_PROCS, N_PROCS, LARGEINT);"))
  = Some (lit "numNodesPerStream", [(lit "mode", VMode ReadInt); (lit "default", VText (lit "N_PROCS")); (lit "minimum", VText (lit "N_PROCS")); (lit "maximum", VText (lit "LARGEINT"))])
  /\ option_map call_parse (call_match (lit "config.file = (char*)readString(""fileName"" , ""data.nc"");"))
  = Some (lit "file", [(lit "alias", VText (lit "fileName")); (lit "mode", VMode ReadString); (lit "default", VText (lit "data.nc"))])
  /\ call_match (lit "config.x = 1;") = None.
Proof. repeat split. Qed.
Example C157_meets : some_chars word_letter (lit "x1") /\ Forall arg_ok [mkArg (lit " ") (lit "-1.0") []; mkArg (lit " ") (lit "0") (lit " ")].
Proof.
  split; [split; [discriminate|repeat constructor]|].
  repeat constructor; simpl; auto; try (intros H; repeat destruct H as [H|H]; try discriminate; contradiction); try (intros H; discriminate H).
Qed.

(** ** C158: defaults that are arrays *)

Theorem C158_arrays_partial : forall b0 b1 n size b2 b3 whole frac b4,
  blanks b0 -> gap b1 -> some_chars word_letter n -> some_chars is_digit size -> blanks b2 -> blanks b3 -> blanks b4 ->
  all_chars is_digit whole -> match frac with Some f => some_chars is_digit f | None => True end ->
  option_map array_parse (array_match (array_text b0 b1 n size b2 b3 (numeral whole frac) b4)) = Some (n, lit "[" ++ numeral whole frac ++ lit "]").
Proof. intros. letters. rewrite array_match_text by assumption. now rewrite number_text_spec. Qed.
Print Assumptions C158_arrays_partial.

(** Other values than one number without a sign are not read. *)
Theorem C158_arrays_refuted : forall b0 b1 n size b2 b3 v b4 c,
  blanks b0 -> gap b1 -> some_chars word_letter n -> some_chars is_digit size -> blanks b2 -> blanks b3 -> blanks b4 ->
  In c v -> is_digit c = false -> c <> "."%char -> array_match (array_text b0 b1 n size b2 b3 v b4) = None.
Proof.
  intros b0 b1 n size b2 b3 v b4 c B0 B1 N Z B2 B3 B4 I D P. letters. rewrite array_match_text by assumption.
  destruct (number_text v) eqn:E; [|reflexivity]. apply number_text_chars in E. rewrite Forall_forall in E. destruct (E c I); congruence.
Qed.
Print Assumptions C158_arrays_refuted.

Theorem C158_arrays_only : forall b0 b1 n size b2 b3 v b4 r,
  blanks b0 -> gap b1 -> some_chars word_letter n -> some_chars is_digit size -> blanks b2 -> blanks b3 -> blanks b4 ->
  array_match (array_text b0 b1 n size b2 b3 v b4) = Some r ->
  exists whole frac, v = numeral whole frac /\ all_chars is_digit whole /\ match frac with Some f => some_chars is_digit f | None => True end.
Proof.
  intros b0 b1 n size b2 b3 v b4 r B0 B1 N Z B2 B3 B4 H. letters. rewrite array_match_text in H by assumption.
  apply number_text_only. destruct (number_text v); [reflexivity|discriminate].
Qed.
Print Assumptions C158_arrays_only.

(** A default that is the name of an array is replaced by its value; others are
    kept. *)
Theorem C158_defaults : forall lines r n at_, load_parameters lines = Ok r -> last_read call_match call_parse lines n at_ ->
  exists d, d_get str_eqb at_ (lit "default") = Some (VText d)
  /\ (forall v, last_read array_match array_parse lines d v ->
       exists x, d_get str_eqb r n = Some x /\ d_get str_eqb x (lit "default") = Some (VText v)
         /\ d_get str_eqb x (lit "mode") = d_get str_eqb at_ (lit "mode"))
  /\ (never_read array_match array_parse lines d -> d_get str_eqb r n = Some at_).
Proof.
  intros lines r n at_ H L. destruct (load_spec lines r H n at_ L) as (d & D & A & B). exists d. split.
  { apply read_attrs in L as (_ & _ & _ & P). destruct (d_get str_eqb at_ (lit "default")) as [w|] eqn:E; [|discriminate].
    destruct (P _ _ E) as (s & ->); [discriminate|]. now injection D as ->. } split; [|exact B].
  intros v V. destruct (A v V) as (x & X1 & X2 & X3 & _). exists x. auto.
Qed.
Print Assumptions C158_defaults.

(** The other name of such a parameter is lost. *)
Theorem C158_alias_refuted : forall lines r n at_ d v, load_parameters lines = Ok r -> last_read call_match call_parse lines n at_ ->
  d_get str_eqb at_ (lit "default") = Some (VText d) -> last_read array_match array_parse lines d v ->
  exists x, d_get str_eqb r n = Some x /\ d_get str_eqb x (lit "alias") = None.
Proof.
  intros lines r n at_ d v H L D V. destruct (load_spec lines r H n at_ L) as (d' & D' & A & _). rewrite D in D'. injection D' as <-.
  destruct (A v V) as (x & X1 & _ & _ & X4). eauto.
Qed.
Print Assumptions C158_alias_refuted.

(** The file can be read unless a parameter has no default; one of these makes
    the whole file fail. *)
Theorem C158_total_partial : forall lines,
  (forall n at_, last_read call_match call_parse lines n at_ -> d_get str_eqb at_ (lit "default") <> None) ->
  exists r, load_parameters lines = Ok r.
Proof. exact load_total. Qed.
Print Assumptions C158_total_partial.
Theorem C158_total_refuted : forall lines n at_, last_read call_match call_parse lines n at_ -> d_get str_eqb at_ (lit "default") = None ->
  load_parameters lines = Err KeyError.
Proof. exact load_fails. Qed.
Print Assumptions C158_total_refuted.

Example C158_example :
  load_parameters [lit "Scalar_t massDefault[1] = {1.0};"; lit "config.mass = readDoubleArray(""masses"", 1, massDefault);"; lit "config.n = readInt(""n"", 2, 0, 9);"]
  = Ok [(lit "mass", [(lit "mode", VMode ReadDoubleArray); (lit "default", VText (lit "[1.0]"))]);
        (lit "n", [(lit "mode", VMode ReadInt); (lit "default", VText (lit "2")); (lit "minimum", VText (lit "0")); (lit "maximum", VText (lit "9"))])]
  /\ load_parameters [lit "config.mass = readDoubleArray(""masses"", 1);"; lit "config.n = readInt(""n"", 2, 0, 9);"] = Err KeyError
  /\ array_match (lit "Scalar_t m[2] = {1.0, 4.0};") = None.
Proof. repeat split. Qed.

(** ** C159: standard and JSON formats *)

Theorem C159_types : forall lines d, load_parameters lines = Ok d ->
  exists s, standardize d = Ok s
  /\ forall n, match d_get str_eqb d n, d_get str_eqb s n with
               | Some x, Some y => (forall m, d_get str_eqb x (lit "mode") = Some (VMode m) -> d_get str_eqb y (lit "type") = Some (VClass (class_of m)))
                                   /\ d_get str_eqb y (lit "mode") = None
                                   /\ forall k, k <> lit "mode" -> k <> lit "type" -> d_get str_eqb y k = d_get str_eqb x k
               | None, None => True | _, _ => False end.
Proof.
  intros lines d L. pose proof (load_distinct lines d L) as N. destruct (json_round_trip d N) as (s & j & S & _ & H & _); [intros n x; now apply (load_plain lines)|]. exists s. auto.
Qed.
Print Assumptions C159_types.

Theorem C159_round_trip : forall lines d, load_parameters lines = Ok d ->
  exists s j, standardize d = Ok s /\ format_json s = Ok j
  /\ forall n, match d_get str_eqb d n, d_get str_eqb j n with
               | Some x, Some y => forall k, d_get str_eqb y k = d_get str_eqb x k
               | None, None => True | _, _ => False end.
Proof.
  intros lines d L. pose proof (load_distinct lines d L) as N. destruct (json_round_trip d N) as (s & j & S & J & _ & H); [intros n x; now apply (load_plain lines)|]. exists s, j. auto.
Qed.
Print Assumptions C159_round_trip.

Example C159_example :
  standardize [(lit "n", [(lit "alias", VText (lit "N")); (lit "mode", VMode ReadInt); (lit "default", VText (lit "2"))])]
  = Ok [(lit "n", [(lit "type", VClass CInt); (lit "alias", VText (lit "N")); (lit "default", VText (lit "2"))])].
Proof. reflexivity. Qed.

(** ** C160: which file is read *)

Section Files.
Context (exists_ is_dir : str -> bool) (resolve : str -> str) (join : str -> str -> str).

Theorem C160_given_partial : forall filename p, exists_ (resolve p) = true ->
  (is_dir (resolve p) = true -> exists_ (join (resolve p) filename) = true ->
     source_file exists_ is_dir resolve join filename (Some p) = Ok (Some (join (resolve p) filename)))
  /\ (is_dir (resolve p) = false -> source_file exists_ is_dir resolve join filename (Some p) = Ok (Some (resolve p))).
Proof.
  intros f p E. unfold source_file, build_path, FilesModel.read_only_path. rewrite E. cbn [bind snd]. split.
  - intros D J. now rewrite D, J.
  - intros D. now rewrite D, E.
Qed.

Theorem C160_package : forall filename, source_file exists_ is_dir resolve join filename None = Ok None.
Proof. reflexivity. Qed.

Theorem C160_missing : forall filename p, exists_ (resolve p) = false ->
  source_file exists_ is_dir resolve join filename (Some p) = Err NonExistentPathError.
Proof. intros f p E. unfold source_file, build_path, FilesModel.read_only_path. now rewrite E. Qed.

(** A directory without the file silently gives the package's definitions. *)
Theorem C160_without_refuted : forall filename p, exists_ (resolve p) = true -> is_dir (resolve p) = true -> exists_ (join (resolve p) filename) = false ->
  source_file exists_ is_dir resolve join filename (Some p) = Ok None.
Proof. intros f p E D J. unfold source_file, build_path, FilesModel.read_only_path. rewrite E. cbn [bind snd]. now rewrite D, J. Qed.
End Files.
Print Assumptions C160_given_partial.
Print Assumptions C160_package.
Print Assumptions C160_missing.
Print Assumptions C160_without_refuted.

Example C160_example :
  source_file FilesProps.ex_exists FilesProps.ex_dir (fun p => p) FilesProps.ex_join (lit "f") (Some (lit "e")) = Ok (Some (lit "e/f"))
  /\ source_file FilesProps.ex_exists FilesProps.ex_dir (fun p => p) FilesProps.ex_join (lit "f") (Some (lit "d")) = Ok None.
Proof. split; reflexivity. Qed.
