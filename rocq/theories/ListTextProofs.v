(** Proofs about reading a text as a list of numbers. *)

From Coq Require Import String Ascii List Bool ZArith NArith QArith Qcanon Lia.
From Verif Require Import Py PyFacts RuntimeModel RuntimeSpec RuntimeProofs PackageSpec PackageProofs ListTextSpec.
Import ListNotations.
Open Scope list_scope.
Open Scope nat_scope.

Notation is_bracket := (fun c => Ascii.eqb c "[" || Ascii.eqb c "]").
Notation is_pad := (fun c => Ascii.eqb c " " || Ascii.eqb c "'").

Lemma bracket_iff c : is_bracket c = true <-> c = "["%char \/ c = "]"%char.
Proof. rewrite orb_true_iff, !Ascii.eqb_eq. reflexivity. Qed.
Lemma pad_iff c : is_pad c = true <-> c = " "%char \/ c = "'"%char.
Proof. rewrite orb_true_iff, !Ascii.eqb_eq. reflexivity. Qed.

Lemma lstrip_split p s : exists b, s = b ++ lstrip_of p s /\ Forall (fun c => p c = true) b.
Proof.
  induction s as [|c s (b & E & H)]; [exists []; split; [reflexivity|constructor]|]. cbn [lstrip_of].
  destruct (p c) eqn:P; [|exists []; split; [reflexivity|constructor]].
  exists (c :: b). split; [cbn; now f_equal|now constructor].
Qed.
Lemma strip_split p s : exists b a, s = b ++ strip_of p s ++ a /\ Forall (fun c => p c = true) b /\ Forall (fun c => p c = true) a.
Proof.
  unfold strip_of. destruct (lstrip_split p s) as (b & E & B).
  destruct (lstrip_split p (rev (lstrip_of p s))) as (a & Ea & A).
  exists b, (rev a). split; [|split; [exact B|now apply Forall_rev_]].
  rewrite <- rev_app_distr, <- Ea, rev_involutive. exact E.
Qed.
Lemma commas_split s : commas (split_on ","%char s) = s.
Proof.
  induction s as [|x s IH]; [reflexivity|]. cbn [split_on]. destruct (Ascii.eqb_spec x ",") as [->|N].
  - pose proof (split_nonempty ","%char s). destruct (split_on _ s) as [|p ps]; [contradiction|]. rewrite commas_cons. cbn [app]. now rewrite IH.
  - destruct (split_on _ s) as [|p [|q ps]]; cbn in IH |- *; now rewrite IH.
Qed.

Lemma cast_members ps l : cast_all (map (strip_of is_pad) ps) = Some l ->
  exists ms, map member_text ms = ps /\ Forall member_ok ms /\ l = map member_value ms.
Proof.
  revert l. induction ps as [|s ps IH]; intros l H; cbn [map cast_all] in H.
  - injection H as <-. exists []. repeat split. constructor.
  - destruct (cast (strip_of is_pad s)) as [q|] eqn:C; [|discriminate]. destruct (cast_all _) as [qs|]; [|discriminate]. injection H as <-.
    destruct (IH qs eq_refl) as (ms & <- & Ok & ->).
    destruct (cast_inv _ _ C) as (b & x & a & E & B & A & X & ->).
    destruct (strip_split is_pad s) as (pb & pa & Es & PB & PA). rewrite E in Es.
    exists ((pb ++ b, x, a ++ pa) :: ms). split; [|split; [|reflexivity]].
    + cbn [map]. f_equal. rewrite Es. unfold member_text; cbn [fst snd]. now rewrite <- !app_assoc.
    + constructor; [|exact Ok]. split; [exact X|]. cbn [fst snd].
      split.
      * exists pb, b. repeat split; [|exact B]. revert PB. apply Forall_impl. intros c. apply pad_iff.
      * exists a, pa. repeat split; [exact A|]. revert PA. apply Forall_impl. intros c. apply pad_iff.
Qed.

Lemma space_chars c : is_space c = true -> c <> ","%char /\ c <> "["%char /\ c <> "]"%char.
Proof. intros H. repeat split; intros ->; discriminate H. Qed.
Lemma digit_chars c : a_digit c -> c <> ","%char /\ c <> "["%char /\ c <> "]"%char /\ c <> " "%char /\ c <> "'"%char.
Proof. intros H. apply a_digit_iff in H. repeat split; intros ->; discriminate H. Qed.
Lemma member_chars m c : member_ok m -> In c (member_text m) -> c <> ","%char /\ c <> "["%char /\ c <> "]"%char.
Proof.
  intros (X & (q & b & Eb & Q & B) & (a & q' & Ea & A & Q')). unfold member_text. rewrite Eb, Ea, !in_app_iff.
  unfold padding, spaces in *. rewrite Forall_forall in Q, B, A, Q'.
  assert (forall c, c = " "%char \/ c = "'"%char -> c <> ","%char /\ c <> "["%char /\ c <> "]"%char) as P.
  { intros d [->| ->]; repeat split; discriminate. }
  intros [[I|I]|[I|[I|I]]].
  - apply P, Q, I.
  - apply space_chars, B, I.
  - apply (decimal_chars _ _ X) in I as [D|[->|[->|[->|[->| ->]]]]]; [apply digit_chars in D; tauto|..]; repeat split; discriminate.
  - apply space_chars, A, I.
  - apply P, Q', I.
Qed.

(** What is left of white space after the blanks and quotes are stripped. *)
Lemma lstrip_space q b t : padding q -> spaces b -> match t with [] => False | c :: _ => is_pad c = false end ->
  exists b', spaces b' /\ lstrip_of is_pad ((q ++ b) ++ t) = b' ++ t.
Proof.
  intros Q B T. rewrite <- app_assoc, lstrip_of_out by (revert Q; apply Forall_impl; intros c; apply pad_iff). clear Q q.
  induction B as [|c b C B IH]; cbn [app].
  - exists []. split; [constructor|]. destruct t as [|c t]; [contradiction|]. cbn [lstrip_of app]. now rewrite T.
  - cbn [lstrip_of]. destruct (is_pad c) eqn:P; [exact IH|]. exists (c :: b). split; [now constructor|reflexivity].
Qed.
Lemma decimal_ends x : decimal_ok x -> forall c, In c (decimal_text x) -> is_pad c = false.
Proof.
  intros X c I. apply (decimal_chars _ _ X) in I as [D|[->|[->|[->|[->| ->]]]]]; try reflexivity.
  apply digit_chars in D as (_ & _ & _ & D1 & D2). rewrite orb_false_iff, !Ascii.eqb_neq. tauto.
Qed.
Lemma cast_member m : member_ok m -> cast (strip_of is_pad (member_text m)) = Some (member_value m).
Proof.
  intros (X & (q & b & Eb & Q & B) & (a & q' & Ea & A & Q')). unfold member_text, strip_of. rewrite Eb, Ea.
  assert (decimal_text (snd (fst m)) <> []) as N by now apply decimal_nonempty.
  pose proof (decimal_ends _ X) as D. set (d := decimal_text (snd (fst m))) in *.
  destruct (lstrip_space q b (d ++ a ++ q') Q B) as (b' & B' & ->).
  { destruct d as [|c d]; [contradiction|]. apply D. now left. }
  assert (rev (b' ++ d ++ a ++ q') = (rev q' ++ rev a) ++ (rev d ++ rev b')) as -> by now rewrite !rev_app_distr, <- !app_assoc.
  destruct (lstrip_space (rev q') (rev a) (rev d ++ rev b')) as (a' & A' & ->).
  { now apply Forall_rev_. }
  { now apply Forall_rev_. }
  { destruct (rev d) as [|c r] eqn:E; [apply (f_equal (@rev ascii)) in E; rewrite rev_involutive in E; contradiction|].
    cbn [app]. apply D. apply in_rev. rewrite E. now left. }
  rewrite !rev_app_distr, !rev_involutive, <- app_assoc. apply cast_text; [exact B'|now apply Forall_rev_|exact X].
Qed.
Lemma cast_all_members ms : Forall member_ok ms -> cast_all (map (strip_of is_pad) (map member_text ms)) = Some (map member_value ms).
Proof. induction 1 as [|m ms M _ IH]; [reflexivity|]. cbn [map cast_all]. now rewrite cast_member, IH by exact M. Qed.

Theorem list_text s l : string_to_list s = Some l <->
  (exists r, s = "["%char :: r) /\ (exists r, s = r ++ ["]"%char])
  /\ exists before ms after, s = before ++ commas (map member_text ms) ++ after
     /\ brackets before /\ brackets after /\ Forall member_ok ms /\ l = map member_value ms.
Proof.
  split.
  - intros H. unfold string_to_list in H. destruct s as [|c s]; [discriminate|].
    destruct (rev (c :: s)) as [|z r] eqn:R; [discriminate|].
    destruct (Ascii.eqb_spec c "[") as [->|]; [|discriminate]. destruct (Ascii.eqb_spec z "]") as [->|]; [|discriminate].
    cbn [andb] in H. split; [now exists s|]. split.
    { exists (rev r). apply (f_equal (@rev ascii)) in R. rewrite rev_involutive in R. exact R. }
    destruct (strip_split is_bracket ("["%char :: s)) as (b & a & E & B & A).
    assert (brackets b /\ brackets a) as [B' A'].
    { split; [revert B|revert A]; apply Forall_impl; intros c; apply bracket_iff. }
    destruct (strip_of is_bracket ("["%char :: s)) as [|y ys].
    + injection H as <-. exists b, [], a. repeat split; [exact E|exact B'|exact A'|constructor].
    + apply cast_members in H as (ms & Em & Ok & ->). exists b, ms, a. rewrite Em, commas_split. auto.
  - intros ((r & E1) & (r' & E2) & b & ms & a & E & B & A & M & ->).
    assert (string_to_list s = match strip_of is_bracket s with
       | [] => Some []
       | inside => cast_all (map (strip_of is_pad) (split_on ","%char inside)) end) as ->.
    { assert (rev s = "]"%char :: rev r') as R by (rewrite E2, rev_app_distr; reflexivity).
      clear - E1 R. unfold string_to_list. subst s. destruct (rev ("["%char :: r)) as [|z t]; [discriminate|]. injection R as -> ->. reflexivity. }
    rewrite E, strip_of_out.
    + destruct ms as [|m ms]; [reflexivity|]. pose proof (proj1 (Forall_forall _ _) M) as M'.
      assert (commas (map member_text (m :: ms)) <> []) as N.
      { apply commas_nonempty; [discriminate|]. apply Forall_forall. intros t I. apply in_map_iff in I as (x & <- & I).
        destruct (M' x I) as (X & _). intros Z. unfold member_text in Z. apply app_eq_nil in Z as [_ Z]. apply app_eq_nil in Z as [Z _].
        exact (decimal_nonempty _ X Z). }
      assert (split_on ","%char (commas (map member_text (m :: ms))) = map member_text (m :: ms)) as S.
      { apply split_commas; [discriminate|]. apply Forall_forall. intros t I J. apply in_map_iff in I as (x & <- & I).
        now destruct (member_chars x _ (M' x I) J). }
      destruct (commas (map member_text (m :: ms))) as [|y ys]; [contradiction|]. rewrite S. now apply cast_all_members.
    + revert B. apply Forall_impl. intros c. apply bracket_iff.
    + revert A. apply Forall_impl. intros c. apply bracket_iff.
    + pose proof (proj1 (Forall_forall _ _) M) as M'. apply Forall_forall. intros c I. rewrite orb_false_iff, !Ascii.eqb_neq.
      apply commas_in in I as [->|(t & I & J)]; [split; discriminate|]. apply in_map_iff in I as (x & <- & I).
      destruct (member_chars x c (M' x I) J) as (_ & H1 & H2). auto.
Qed.
