(** Lemmas about the spell checker. *)

From Coq Require Import String Ascii List Bool NArith Arith Lia.
From Verif Require Import Py PyFacts SpellingModel SpellingSpec.
Import ListNotations.
Open Scope nat_scope.
Open Scope list_scope.

Lemma letters_iff c : In c letters <-> letter c.
Proof.
  split.
  - intro H. unfold letter. unfold letters, lit in H. vm_compute in H.
    repeat (destruct H as [<-|H]; [vm_compute; ((left; split; discriminate) || (right; split; discriminate))|]). destruct H.
  - intro H. destruct (in_dec ascii_dec c letters) as [I|N]; auto. exfalso.
    assert (forallb (fun n => negb ((65 <=? n) && (n <=? 90) || (97 <=? n) && (n <=? 122))%N
              || existsb (Ascii.eqb (ascii_of_N n)) letters) (map N.of_nat (seq 0 256)) = true) as F by (vm_compute; reflexivity).
    rewrite forallb_forall in F. specialize (F (code c)).
    assert (In (code c) (map N.of_nat (seq 0 256))) as I.
    { apply in_map_iff. exists (N.to_nat (code c)). rewrite N2Nat.id. split; auto. apply in_seq.
      unfold code. pose proof (N_ascii_bounded c). lia. }
    specialize (F I). apply orb_true_iff in F as [F|F].
    + apply negb_true_iff in F. destruct H as [[H1 H2]|[H1 H2]]; apply N.leb_le in H1, H2; rewrite H1, H2 in F; simpl in F; try discriminate.
      rewrite orb_true_r in F. discriminate.
    + apply existsb_exists in F as [d [Id E]]. apply Ascii.eqb_eq in E. unfold code in E. rewrite ascii_N_embedding in E. subst. auto.
Qed.

Lemma splits_In w l r : In (l, r) (splits w) <-> w = l ++ r /\ r <> [].
Proof.
  unfold splits. rewrite in_map_iff. split.
  - intros [i [E I]]. injection E as <- <-. apply in_seq in I. split; [now rewrite firstn_skipn|].
    intro X. assert (length (skipn i w) = 0) as Y by now rewrite X. rewrite skipn_length in Y. lia.
  - intros [-> N]. exists (length l). split.
    + rewrite firstn_app, skipn_app, Nat.sub_diag, firstn_all, skipn_all. simpl. now rewrite app_nil_r.
    + apply in_seq. rewrite app_length. destruct r; [congruence|]. simpl. lia.
Qed.

Lemma deletes_In v w : In w (deletes v) <-> exists l c r, v = l ++ c :: r /\ w = l ++ r.
Proof.
  unfold deletes. rewrite in_flat_map. split.
  - intros [[l [|c r]] [I H]]; apply splits_In in I as [-> N]; [congruence|]. destruct H as [<-|[]]. simpl. eauto.
  - intros [l [c [r [-> ->]]]]. exists (l, c :: r). split; [apply splits_In; split; auto; discriminate|]. simpl. auto.
Qed.
Lemma transposes_In v w : In w (transposes v) <-> exists l a b r, v = l ++ a :: b :: r /\ w = l ++ b :: a :: r.
Proof.
  unfold transposes. rewrite in_flat_map. split.
  - intros [[l [|a [|b r]]] [I H]]; apply splits_In in I as [-> N]; [congruence|destruct H|]. destruct H as [<-|[]]. simpl. 
    exists l, a, b, r. auto.
  - intros [l [a [b [r [-> ->]]]]]. exists (l, a :: b :: r). split; [apply splits_In; split; auto; discriminate|]. simpl. auto.
Qed.
Lemma replaces_In v w : In w (replaces v) <-> exists l c d r, letter d /\ v = l ++ c :: r /\ w = l ++ d :: r.
Proof.
  unfold replaces. rewrite in_flat_map. split.
  - intros [[l [|c r]] [I H]]; apply splits_In in I as [-> N]; [congruence|]. cbn [snd fst] in H. apply in_map_iff in H as [d [<- Id]].
    exists l, c, d, r. split; [now apply letters_iff|auto].
  - intros [l [c [d [r [L [-> ->]]]]]]. exists (l, c :: r). split; [apply splits_In; split; auto; discriminate|].
    cbn [snd fst]. apply in_map_iff. exists d. split; auto. now apply letters_iff.
Qed.
Lemma inserts_In v w : In w (inserts v) <-> exists l d c r, letter d /\ v = l ++ c :: r /\ w = l ++ d :: c :: r.
Proof.
  unfold inserts. rewrite in_flat_map. split.
  - intros [[l [|c r]] [I H]]; apply splits_In in I as [-> N]; [congruence|]. cbn [snd fst] in H. apply in_map_iff in H as [d [<- Id]].
    exists l, d, c, r. split; [now apply letters_iff|auto].
  - intros [l [d [c [r [L [-> ->]]]]]]. exists (l, c :: r). split; [apply splits_In; split; auto; discriminate|].
    cbn [snd fst]. apply in_map_iff. exists d. split; auto. now apply letters_iff.
Qed.

Lemma edits_In v w : In w (edits v) <-> inner_edit v w.
Proof.
  unfold edits. rewrite !in_app_iff, deletes_In, transposes_In, replaces_In, inserts_In. split.
  - intros [[l [c [r [-> ->]]]]|[[l [a [b [r [-> ->]]]]]|[[l [c [d [r [L [-> ->]]]]]]|[l [d [c [r [L [-> ->]]]]]]]]]; now constructor.
  - intros [l c r|l a b r|l c d r L|l d c r L].
    + left. eauto.
    + right. left. exists l, a, b, r. auto.
    + right. right. left. exists l, c, d, r. auto.
    + right. right. right. exists l, d, c, r. auto.
Qed.
Lemma edits2_In v w : In w (flat_map edits (edits v)) <-> inner_edit2 v w.
Proof.
  rewrite in_flat_map. unfold inner_edit2. split; intros [u [H1 H2]]; exists u; now rewrite ?edits_In in *.
Qed.

Lemma member_iff w ws : member w ws = true <-> In w ws.
Proof.
  unfold member. rewrite existsb_exists. split.
  - intros [x [I E]]. unfold str_eqb in E. destruct (str_eq_dec w x); [now subst|discriminate].
  - intro I. exists w. split; auto. unfold str_eqb. destruct (str_eq_dec w w); congruence.
Qed.
Lemma get_In ws es w : In w (get_suggestions ws es) <-> In w ws /\ In w es.
Proof. unfold get_suggestions. now rewrite filter_In, member_iff. Qed.
Lemma make_In ws w : In w (make_checker ws) <-> In w ws.
Proof. apply nodup_In. Qed.

(** What [_check] returns. *)
Lemma suggestions_spec words name : let s := suggestions_for words name in
  (In name words -> s = [])
  /\ (~ In name words -> forall w, In w s <->
       In w words /\ (inner_edit name w \/ (inner_edit2 name w /\ forall v, In v words -> ~ inner_edit name v))).
Proof.
  unfold suggestions_for. split; intro H.
  - apply member_iff in H. now rewrite H.
  - destruct (member name words) eqn:E; [apply member_iff in E; contradiction|].
    assert (forall v, In v (get_suggestions words (edits name)) <-> In v words /\ inner_edit name v) as G.
    { intro v. now rewrite get_In, edits_In. }
    destruct (get_suggestions words (edits name)) as [|s0 s] eqn:Es.
    + intro w. rewrite get_In, edits2_In. split; intros [I D]; split; auto.
      * right. split; auto. intros v Iv Ev. apply (G v). auto.
      * destruct D as [D|[D _]]; auto. exfalso. apply (G w). auto.
    + intro w. rewrite G. split; intros [I D]; split; auto. destruct D as [D|[_ D]]; auto.
      exfalso. apply (D s0); apply (G s0); now left.
Qed.

Lemma suggestions_nodup words name : NoDup words -> NoDup (suggestions_for words name).
Proof.
  intro N. unfold suggestions_for. destruct (member name words); [constructor|].
  assert (forall es, NoDup (get_suggestions words es)) as G by (intro es; now apply NoDup_filter).
  destruct (get_suggestions words (edits name)) eqn:E; auto. rewrite <- E. auto.
Qed.

Lemma inner_is_edit v w : inner_edit v w -> edit v w.
Proof. intros [l c r|l a b r|l c d r L|l d c r L]; [apply e_delete|apply e_transpose|now apply e_replace|now apply e_insert]. Qed.

(** Every edit of a non-empty word is one or two inner edits. *)
Lemma edit_inner v w : v <> [] -> edit v w -> inner_edit v w \/ inner_edit2 v w.
Proof.
  intros N E. destruct E as [l c r|l a b r|l c d r L|l d r L].
  - left. constructor.
  - left. constructor.
  - left. now constructor.
  - destruct r as [|c r]; [|left; now constructor]. rewrite app_nil_r in N. right.
    destruct l as [|x l _] using rev_ind; [congruence|]. exists (l ++ [d; x]). rewrite app_nil_r, <- app_assoc. split.
    + now apply (i_insert l d x []).
    + apply (i_transpose l d x []).
Qed.

Lemma suggested words name w : ~ In name words -> name <> [] -> In w words -> edit name w ->
  suggestions_for words name <> [].
Proof.
  intros N NE I E X. destruct (suggestions_spec words name) as [_ S]. specialize (S N). 
  assert (forall v, In v words -> ~ inner_edit name v) as No.
  { intros v Iv Ev. assert (In v (suggestions_for words name)) as A by (apply S; auto). rewrite X in A. destruct A. }
  destruct (edit_inner name w NE E) as [D|D]; [now apply (No w)|].
  assert (In w (suggestions_for words name)) as A by (apply S; auto). rewrite X in A. destruct A.
Qed.

Lemma check_raises words name : 
  check words name MNone = RaiseSpelling name (suggestions_for words name)
  <-> ~ In name words /\ exists w, In w words /\ (inner_edit name w \/ inner_edit2 name w).
Proof.
  destruct (suggestions_spec words name) as [K S]. unfold check. split.
  - destruct (suggestions_for words name) as [|w s] eqn:E; [discriminate|]. intros _.
    assert (~ In name words) as N by (intro I; specialize (K I); discriminate). split; auto.
    exists w. assert (In w (w :: s)) as I by now left. apply (S N) in I as [I D]. split; auto. tauto.
  - intros [N [w [I D]]]. specialize (S N). destruct (suggestions_for words name) as [|x s]; [|reflexivity]. exfalso.
    assert (forall v, In v words -> ~ inner_edit name v) as No. { intros v Iv Ev. apply (S v). auto. }
    destruct D as [D|D]; [now apply (No w)|]. apply (S w). auto.
Qed.
