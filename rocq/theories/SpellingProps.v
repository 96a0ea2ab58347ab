(** The properties of the spell checker. *)

From Coq Require Import String Ascii List Bool NArith Arith.
From Verif Require Import Py PyFacts SpellingModel SpellingSpec SpellingProofs.
Import ListNotations.
Open Scope nat_scope.
Open Scope list_scope.

(** ** C30: suggestions *)

Theorem C232_known : forall words name, In name words ->
  check (make_checker words) name MSuggest = Suggestions []
  /\ check (make_checker words) name MNone = Nothing
  /\ check (make_checker words) name MTruth = Truth true.
Proof.
  intros words name I. unfold check.
  rewrite (proj1 (suggestions_spec (make_checker words) name) (proj2 (make_In words name) I)). auto.
Qed.
Print Assumptions C232_known.

(** The suggestions for an unknown word are the known words one edit away or,
    if there are none, those two edits away, where an edit is anything but an
    insertion at the end.  Missing for the full property: insertions at the
    end. *)
Theorem C30_suggestions_partial : forall words name l, ~ In name words ->
  check (make_checker words) name MSuggest = Suggestions l ->
  NoDup l /\ forall w, In w l <->
    In w words /\ (inner_edit name w \/ (inner_edit2 name w /\ forall v, In v words -> ~ inner_edit name v)).
Proof.
  intros words name l N H. injection H as <-. split; [apply suggestions_nodup, NoDup_nodup|]. intro w.
  rewrite (proj2 (suggestions_spec (make_checker words) name)) by now rewrite make_In. rewrite make_In.
  split; intros [I [D|[D E]]]; split; auto; right; split; auto; intros v Iv; apply E; now apply make_In.
Qed.
Print Assumptions C30_suggestions_partial.

(** Every suggestion is a known word. *)
Theorem C232_suggestions_are_known : forall words name l w,
  check (make_checker words) name MSuggest = Suggestions l -> In w l -> In w words /\ w <> name.
Proof.
  intros words name l w H I. destruct (in_dec str_eq_dec name words) as [K|N].
  - destruct (C232_known words name K) as [E _]. rewrite E in H. injection H as <-. destruct I.
  - destruct (C30_suggestions_partial words name l N H) as [_ S]. apply S in I as [I _]. split; auto. congruence.
Qed.
Print Assumptions C232_suggestions_are_known.

(** A non-empty unknown word with a known word one edit away, wherever the
    edit is, always gets a suggestion. *)
Theorem C232_never_silent : forall words name w, ~ In name words -> name <> [] -> In w words -> edit name w ->
  exists v l, check (make_checker words) name MSuggest = Suggestions (v :: l).
Proof.
  intros words name w N NE I E. unfold check.
  assert (suggestions_for (make_checker words) name <> []) as H.
  { apply (suggested _ name w); auto; now rewrite make_In. }
  destruct (suggestions_for (make_checker words) name) as [|v l]; [congruence|eauto].
Qed.
Print Assumptions C232_never_silent.

(** Refuted: a known word one edit away need not be suggested, although a
    further one is. *)
Theorem C30_end_insertion_refuted : exists words name w l, ~ In name words /\ In w words /\ edit name w
  /\ check (make_checker words) name MSuggest = Suggestions l /\ l <> [] /\ ~ In w l.
Proof.
  exists [lit "times"; lit "tim"], (lit "time"), (lit "times"), [lit "tim"].
  assert (forall a b : str, str_eqb a b = false -> a <> b) as F.
  { intros a b H E. subst. unfold str_eqb in H. destruct (str_eq_dec b b); congruence. }
  split; [intros [X|[X|[]]]; revert X; apply F; reflexivity|]. split; [simpl; auto|]. split.
  - apply (e_insert (lit "time") "s"%char []). right. vm_compute. split; discriminate.
  - split; [vm_compute; reflexivity|]. split; [discriminate|]. intros [X|[]]. revert X. apply F. reflexivity.
Qed.
Print Assumptions C30_end_insertion_refuted.

(** Refuted: the empty word has no suggestions, whatever is known. *)
Theorem C30_empty_refuted : forall words, ~ In [] words -> check (make_checker words) [] MSuggest = Suggestions [].
Proof.
  intros words N. unfold check. f_equal.
  destruct (suggestions_for (make_checker words) []) as [|w l] eqn:E; auto.
  assert (In w (w :: l)) as I by now left. rewrite <- E in I.
  apply (proj2 (suggestions_spec (make_checker words) [])) in I; [|now rewrite make_In].
  destruct I as [_ [D|[[u [D _]] _]]]; inversion D as [l0 c r X|l0 a b r X|l0 c d r L X|l0 d c r L X]; destruct l0; discriminate.
Qed.
Print Assumptions C30_empty_refuted.
Example C30_case : check (make_checker [lit "time"; lit "mu"; lit "time"]) (lit "tmie") MSuggest = Suggestions [lit "time"]
  /\ check (make_checker [lit "time"; lit "mu"]) (lit "time") MSuggest = Suggestions [].
Proof. vm_compute. auto. Qed.

(** ** C80: outcomes of a check *)

(** Without a mode the check raises exactly for an unknown word that some
    known word resembles, and names those words. *)
Theorem C244_raises : forall words name l,
  check (make_checker words) name MNone = RaiseSpelling name l ->
  ~ In name words /\ l <> [] /\ check (make_checker words) name MSuggest = Suggestions l.
Proof.
  intros words name l H. unfold check in *.
  destruct (suggestions_for (make_checker words) name) as [|w s] eqn:E; [discriminate|]. injection H as <-.
  split; [|split; [discriminate|reflexivity]]. intro I.
  rewrite (proj1 (suggestions_spec (make_checker words) name) (proj2 (make_In words name) I)) in E. discriminate.
Qed.
Print Assumptions C244_raises.
Theorem C244_raises_iff : forall words name,
  (exists l, check (make_checker words) name MNone = RaiseSpelling name l)
  <-> ~ In name words /\ exists w, In w words /\ (inner_edit name w \/ inner_edit2 name w).
Proof.
  intros words name. pose proof (check_raises (make_checker words) name) as C. rewrite make_In in C.
  assert ((exists w, In w (make_checker words) /\ (inner_edit name w \/ inner_edit2 name w))
    <-> (exists w, In w words /\ (inner_edit name w \/ inner_edit2 name w))) as E.
  { split; intros [w H]; exists w; now rewrite make_In in *. }
  rewrite E in C. rewrite <- C. split; [|eauto]. intros [l H]. unfold check in *.
  now destruct (suggestions_for (make_checker words) name).
Qed.
Print Assumptions C244_raises_iff.

(** Truth mode never denies a known word. *)
Theorem C80_truth_partial : forall words name, In name words -> check (make_checker words) name MTruth = Truth true.
Proof. exact (fun words name I => proj2 (proj2 (C232_known words name I))). Qed.
Print Assumptions C80_truth_partial.
(** Refuted: truth mode also accepts every word that resembles none, and the
    check does not raise for it. *)
Theorem C80_truth_refuted : exists words name, ~ In name words
  /\ check (make_checker words) name MTruth = Truth true /\ check (make_checker words) name MNone = Nothing.
Proof.
  exists [lit "time"], []. split; [intros [X|[]]; discriminate|]. vm_compute. auto.
Qed.
Print Assumptions C80_truth_refuted.
Theorem C244_truth_resembles_none : forall words name, ~ In name words ->
  (forall w, In w words -> ~ inner_edit name w /\ ~ inner_edit2 name w) ->
  check (make_checker words) name MTruth = Truth true.
Proof.
  intros words name N H. unfold check. destruct (suggestions_for (make_checker words) name) as [|w l] eqn:E; auto.
  exfalso. assert (In w (w :: l)) as I by now left. rewrite <- E in I.
  apply (proj2 (suggestions_spec (make_checker words) name)) in I; [|now rewrite make_In].
  rewrite make_In in I. destruct I as [I D]. destruct (H w I) as [H1 H2]. destruct D as [D|[D _]]; auto.
Qed.
Print Assumptions C244_truth_resembles_none.
Theorem C244_unknown_mode : forall words name m, check words name (MOther m) = RaiseValueError.
Proof. exact (fun words name m => eq_refl). Qed.
Print Assumptions C244_unknown_mode.
Example C80_case : check (make_checker [lit "time"; lit "mu"]) (lit "tme") MNone = RaiseSpelling (lit "tme") [lit "time"]
  /\ check (make_checker [lit "time"; lit "mu"]) (lit "tme") MTruth = Truth false.
Proof. vm_compute. auto. Qed.

(** ** C81: known words *)

Theorem C81_known : forall words candidates w,
  NoDup (known (make_checker words) candidates)
  /\ (In w (known (make_checker words) candidates) <-> In w candidates /\ In w words).
Proof.
  intros words candidates w. unfold known. split; [apply NoDup_nodup|].
  now rewrite nodup_In, filter_In, member_iff, make_In.
Qed.
Print Assumptions C81_known.
Example C81_case : known (make_checker [lit "time"; lit "mu"]) [lit "mu"; lit "nu"; lit "mu"] = [lit "mu"].
Proof. vm_compute. reflexivity. Qed.
