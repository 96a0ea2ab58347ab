(** Proofs about operational parameters. *)

From Coq Require Import String Ascii List Bool ZArith QArith Qcanon Lia.
From Verif Require Import Py PyFacts PyDict ParametersModel ParametersSpec.
From Verif Require AliasedModel AliasedSpec AliasedProofs AliasedMapProofs MeasurableProofs.
Import ListNotations.
Open Scope list_scope.
Open Scope nat_scope.
Open Scope py_scope.

Lemma number_spec i q : number i = Ok q <-> match i with
  | IInt z => q = Qc_of_Z z | IReal r => q = r | IBool true => q = 1%Qc | IBool false => q = 0%Qc | IText _ => False end.
Proof. destruct i as [s|z|[|]|r]; simpl; split; intros H; try congruence; contradiction. Qed.
Lemma numbers_spec l qs : mapM number l = Ok qs <-> numbers l qs.
Proof.
  revert qs. unfold numbers. induction l as [|i l IH]; intros qs; simpl.
  - split; [intros H; injection H as <-; constructor|intros H; inversion H; reflexivity].
  - destruct (number i) as [q|e] eqn:E; simpl.
    + destruct (mapM number l) as [r|e'] eqn:M; simpl.
      * split.
        -- intros H. injection H as <-. constructor; [now apply number_spec|now apply IH].
        -- intros H. inversion H as [|? q' ? qs' H1 H2]; subst. apply number_spec in H1. apply IH in H2. congruence.
      * split; [discriminate|]. intros H. inversion H as [|? q' ? qs' H1 H2]; subst. apply IH in H2. discriminate.
    + split; [discriminate|]. intros H. inversion H as [|? q' ? qs' H1 H2]; subst. apply number_spec in H1. congruence.
Qed.

Section Arguments.
Context {U : Type}.
Lemma physical_array g (u : U) a : argument_of g (Some u) = Ok a -> exists qs, numbers (values g) qs /\ a = mkArgument (SArray qs) (Some u).
Proof.
  unfold argument_of. destruct g as [i|l]; cbn [values].
  - destruct (number i) as [q|] eqn:E; [|discriminate]. cbn. intros H. injection H as <-. exists [q]. split; [|reflexivity].
    apply numbers_spec. simpl. now rewrite E.
  - destruct (mapM number l) as [qs|] eqn:E; [|discriminate]. cbn. intros H. injection H as <-. exists qs. split; [|reflexivity].
    now apply numbers_spec.
Qed.
Lemma physical_defined g (u : U) : Forall (fun i => is_text i = false) (values g) -> exists a, argument_of g (Some u) = Ok a.
Proof.
  intros F. assert (exists qs, mapM number (values g) = Ok qs) as (qs & Q).
  { induction F as [|i l H F IH]; simpl; [eauto|]. destruct IH as (qs & ->). destruct i; try discriminate; simpl; eauto. }
  unfold argument_of. destruct g as [i|l]; cbn [values] in Q; simpl in *.
  - destruct (number i); [cbn; eauto|discriminate].
  - rewrite Q. cbn. eauto.
Qed.
Lemma array_values (qs : list Qc) (u : option U) : iterate (mkArgument (SArray qs) u) = map IReal qs /\ length_of (mkArgument (SArray qs) u) = length qs.
Proof. destruct qs as [|q [|r qs]]; split; reflexivity. Qed.
End Arguments.

(** ** Paths *)
Lemma common2_prefix p q : is_prefix_of (common2 p q) p /\ is_prefix_of (common2 p q) q.
Proof.
  revert q. induction p as [|a p IH]; intros [|b q]; simpl; try (split; now eexists).
  destruct (str_eqb_spec a b) as [->|]; [|split; now eexists].
  destruct (IH q) as [(r & R) (r' & R')]. split; [exists r|exists r']; simpl; congruence.
Qed.
Lemma prefix_trans p q r : is_prefix_of p q -> is_prefix_of q r -> is_prefix_of p r.
Proof. intros (x & ->) (y & ->). exists (x ++ y). now rewrite app_assoc. Qed.
Lemma fold_common l : forall p, is_prefix_of (fold_left common2 l p) p /\ forall q, In q l -> is_prefix_of (fold_left common2 l p) q.
Proof.
  induction l as [|x l IH]; intros p; simpl; [split; [exists []; now rewrite app_nil_r|contradiction]|].
  destruct (IH (common2 p x)) as [A B]. destruct (common2_prefix p x) as [C D]. split; [eapply prefix_trans; eauto|].
  intros q [<-|I]; [eapply prefix_trans; eauto|now apply B].
Qed.
Lemma common_prefix l p : In p l -> is_prefix_of (common l) p.
Proof.
  destruct l as [|q l]; [contradiction|]. simpl. destruct (fold_common l q) as [A B]. intros [<-|I]; [exact A|now apply B].
Qed.
Lemma common2_greatest d : forall p q, is_prefix_of d p -> is_prefix_of d q -> is_prefix_of d (common2 p q).
Proof.
  induction d as [|a d IH]; intros p q (x & ->) (y & ->); [now eexists|]. simpl. destruct (str_eqb_spec a a); [|congruence].
  destruct (IH (d ++ x) (d ++ y)) as (r & ->); [now eexists|now eexists|]. now exists r.
Qed.
Lemma fold_greatest d l : forall p, is_prefix_of d p -> (forall q, In q l -> is_prefix_of d q) -> is_prefix_of d (fold_left common2 l p).
Proof.
  induction l as [|x l IH]; intros p P F; simpl; [exact P|]. apply IH; [|intros q I; apply F; now right].
  apply common2_greatest; [exact P|apply F; now left].
Qed.
Lemma prefix_antisym p q : is_prefix_of p q -> is_prefix_of q p -> p = q.
Proof.
  intros (x & ->) (y & H). rewrite <- app_assoc in H. rewrite <- (app_nil_r p) in H at 1. apply app_inv_head in H.
  symmetry in H. apply app_eq_nil in H as [-> _]. now rewrite app_nil_r.
Qed.
Lemma common_ancestor_common l c : l <> [] -> (common_ancestor c l <-> c = common l).
Proof.
  intros N. assert (common_ancestor (common l) l) as C.
  { split; [intros p I; now apply common_prefix|]. intros d D. destruct l as [|p l]; [congruence|]. simpl.
    apply fold_greatest; [apply D; now left|]. intros q I. apply D. now right. }
  split; [|intros ->; exact C]. intros [A B]. destruct C as [A' B']. apply prefix_antisym; [now apply B'|now apply B].
Qed.
Lemma relative_spec s p : is_prefix_of s p -> p = s ++ relative s p.
Proof. intros (r & ->). unfold relative. rewrite skipn_app, skipn_all, Nat.sub_diag. reflexivity. Qed.

Lemma item_eqb_spec i j : item_eqb i j = true <-> same_item i j.
Proof.
  assert (forall i q, numbers [i] [q] <-> number i = Ok q) as N.
  { intros k q. rewrite number_spec. unfold numbers. split; [now inversion 1|]. intros H. constructor; [exact H|constructor]. }
  unfold item_eqb, same_item. destruct i as [s|z|b|q], j as [s'|z'|b'|q'];
    try (destruct (str_eqb_spec s s'); now split);
    try (split; [discriminate|]; intros (x & H1 & H2); rewrite N in H1, H2; discriminate);
    (split; [intros H; match type of H with match ?a with _ => _ end = _ => destruct a as [x|] eqn:X; [|discriminate] end;
      match type of H with match ?a with _ => _ end = _ => destruct a as [y|] eqn:Y; [|discriminate] end;
      exists x; rewrite !N, X, Y; unfold Qc_eqb in H; destruct (Qc_eq_dec x y); [now subst|discriminate]
    | intros (x & H1 & H2); rewrite N in H1, H2; rewrite H1, H2; unfold Qc_eqb; destruct (Qc_eq_dec x x); congruence]).
Qed.
Lemma items_eqb_spec l m : items_eqb l m = true <-> Forall2 same_item l m.
Proof.
  revert m. induction l as [|i l IH]; intros [|j m]; simpl; try (split; [discriminate|inversion 1]).
  - split; auto.
  - rewrite andb_true_iff, item_eqb_spec, IH. split; [intros []; now constructor|now inversion 1].
Qed.

Definition small (d : ascii) : Prop := exists n, n < 26 /\ d = ascii_of_nat (97 + n).
Lemma lower_letter c d : small d -> (lower_char c = d <-> same_letter c d).
Proof.
  intros (m & L & ->). unfold same_letter, lower_char. split.
  - intros H. destruct (_ && _) eqn:E; [|left; exact H]. right. apply andb_true_iff in E as [E1 E2]. apply Nat.leb_le in E1, E2.
    exists m. split; [exact L|]. split; [|reflexivity]. apply (f_equal nat_of_ascii) in H. rewrite !nat_ascii_embedding in H by lia.
    rewrite <- (ascii_nat_embedding c). f_equal. lia.
  - intros [-> |(n & Ln & -> & H)].
    + rewrite nat_ascii_embedding by lia. destruct (_ && _) eqn:E; [|reflexivity]. apply andb_true_iff in E as [E1 E2]. apply Nat.leb_le in E1, E2. lia.
    + rewrite nat_ascii_embedding by lia. destruct (_ && _) eqn:E.
      * rewrite H. f_equal. lia.
      * exfalso. apply andb_false_iff in E as [E|E]; apply Nat.leb_gt in E; lia.
Qed.
Lemma lower_spells s word : Forall small word -> (lower s = word <-> spells s word).
Proof.
  unfold lower, spells. revert word. induction s as [|c s IH]; intros [|d w] F; simpl; try (split; [discriminate|inversion 1]).
  - split; auto.
  - inversion F as [|? ? S F']; subst. split.
    + intros H. injection H as H1 H2. constructor; [now apply lower_letter|now apply IH].
    + inversion 1; subst. f_equal; [now apply lower_letter|now apply IH].
Qed.
Lemma small_systems : Forall small (lit "mks") /\ Forall small (lit "cgs").
Proof.
  split; repeat constructor; unfold small; [exists 12|exists 10|exists 18|exists 2|exists 6|exists 18]; (split; [lia|reflexivity]).
Qed.
