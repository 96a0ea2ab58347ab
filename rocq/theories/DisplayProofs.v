(** Proofs about texts and collections. *)

From Coq Require Import String Ascii List Bool ZArith Lia Permutation.
From Verif Require Import Py PyFacts PyDict MetricModel SystemProofs DisplayModel DisplaySpec.
Import ListNotations.
Open Scope list_scope.
Open Scope nat_scope.
Open Scope py_scope.

Lemma is_prefix_refl p r : is_prefix p (p ++ r) = true.
Proof. induction p as [|a p IH]; [destruct r; reflexivity|]. cbn. now rewrite Ascii.eqb_refl. Qed.

Lemma app_split {A} (a b c d : list A) : a ++ b = c ++ d ->
  (exists r, a = c ++ r /\ d = r ++ b) \/ (exists r, c = a ++ r /\ r <> [] /\ b = r ++ d).
Proof.
  revert c. induction a as [|x a IH]; intros c E.
  - destruct c as [|y c]; [left; exists []; auto|]. right. exists (y :: c). split; [reflexivity|]. split; [discriminate|exact E].
  - destruct c as [|y c]; [left; exists (x :: a); auto|]. cbn [app] in E. injection E as -> E.
    destruct (IH c E) as [(r & -> & ->)|(r & -> & N & ->)]; [left|right]; exists r; auto.
Qed.

Lemma no_early sep p rest : plain_separator sep -> ~ occurs sep p -> p <> [] -> is_prefix sep (p ++ sep ++ rest) = false.
Proof.
  intros (NE & B) N Np. destruct (is_prefix sep (p ++ sep ++ rest)) eqn:E; [|reflexivity]. exfalso.
  apply is_prefix_app in E as (t & E). apply app_split in E as [(r & E1 & _)|(v & E1 & Nv & E2)].
  - apply N. exists [], r. exact E1.
  - apply app_split in E2 as [(r & E3 & E4)|(r & E3 & Nr & E4)].
    + destruct (B v r p E3 E1) as [H|H]; [contradiction|]. subst r. rewrite app_nil_r in E3. subst v.
      assert (L : length sep = length (p ++ sep)) by congruence. rewrite app_length in L. destruct p; [congruence|cbn in L; lia].
    + assert (L : length sep = length (p ++ v)) by congruence. rewrite E3, !app_length in L. destruct p; [congruence|cbn in L; lia].
Qed.
Lemma no_prefix sep p : ~ occurs sep p -> is_prefix sep p = false.
Proof.
  intro N. destruct (is_prefix sep p) eqn:E; [|reflexivity]. exfalso. apply N. apply is_prefix_app in E as (t & ->). now exists [], t.
Qed.
Lemma occurs_cons sep c p : ~ occurs sep (c :: p) -> ~ occurs sep p.
Proof. intros N (a & b & ->). apply N. now exists (c :: a), b. Qed.

Lemma split_skip sep k : forall cur s, split_go sep k cur s = split_go sep 0 cur (skipn k s).
Proof.
  induction k as [|k IH]; intros cur s; [reflexivity|]. destruct s as [|c s]; [reflexivity|]. cbn [split_go skipn]. apply IH.
Qed.

Lemma split_last sep : sep <> [] -> forall p cur, ~ occurs sep p -> split_go sep 0 cur p = [rev cur ++ p].
Proof.
  intro NE. induction p as [|c p IH]; intros cur N; [cbn; now rewrite app_nil_r|].
  cbn [split_go]. rewrite (no_prefix _ _ N), IH by now apply occurs_cons in N. cbn [rev]. now rewrite <- app_assoc.
Qed.
Lemma split_first sep : plain_separator sep -> forall p cur rest, ~ occurs sep p ->
  split_go sep 0 cur (p ++ sep ++ rest) = (rev cur ++ p) :: split_go sep 0 [] rest.
Proof.
  intros PS. pose proof PS as (NE & _). induction p as [|c p IH]; intros cur rest N.
  - cbn [app]. rewrite app_nil_r. destruct sep as [|d sp] eqn:S; [congruence|].
    cbn [app]. cbn [split_go]. change (d :: sp ++ rest) with ((d :: sp) ++ rest). rewrite is_prefix_refl.
    f_equal. cbn [length pred]. rewrite split_skip, skipn_app, skipn_all, Nat.sub_diag. reflexivity.
  - assert (E := no_early sep (c :: p) rest PS N ltac:(discriminate)).
    cbn [app] in *. cbn [split_go]. rewrite E, IH by now apply occurs_cons in N. cbn [rev]. now rewrite <- app_assoc.
Qed.

Lemma split_parts sep l t : plain_separator sep -> parts sep l t -> split_text sep t = l.
Proof.
  intros PS H. pose proof PS as (NE & _). unfold split_text. induction H as [p N|p l t N H IH].
  - now rewrite split_last.
  - rewrite split_first by auto. now rewrite IH.
Qed.
Lemma join_parts sep l : l <> [] -> Forall (fun p => ~ occurs sep p) l -> parts sep l (join sep l).
Proof.
  induction l as [|p l IH]; [congruence|]. intros _ F. inversion F as [|? ? Fp Fl]; subst. destruct l as [|q l].
  - now constructor.
  - change (join sep (p :: q :: l)) with (p ++ sep ++ join sep (q :: l)). constructor; [exact Fp|]. apply IH; [discriminate|exact Fl].
Qed.
Lemma parts_join sep l t : parts sep l t -> t = join sep l /\ Forall (fun p => ~ occurs sep p) l /\ l <> [].
Proof.
  induction 1 as [p N|p l t N H (E & F & NE)]; [cbn; repeat constructor; auto; discriminate|].
  split; [|split; [now constructor|discriminate]]. subst t. destruct l; [congruence|reflexivity].
Qed.
(** The parts exist and are the only ones. *)
Lemma parts_unique sep l l' t : plain_separator sep -> parts sep l t -> parts sep l' t -> l = l'.
Proof. intros PS H H'. rewrite <- (split_parts sep l t PS H). exact (split_parts sep l' t PS H'). Qed.

Lemma insert_at_app {A} (l r : list A) x : insert_at (l ++ r) (Z.of_nat (length l)) x = l ++ x :: r.
Proof.
  unfold insert_at. rewrite app_length. replace (Z.of_nat (length l) <? 0)%Z with false by (symmetry; apply Z.ltb_ge; lia).
  rewrite Z.min_l by lia. rewrite Nat2Z.id, firstn_app, skipn_app, firstn_all, skipn_all, Nat.sub_diag. cbn. now rewrite app_nil_r.
Qed.
Lemma at_index_app {A} (l r : list A) x : at_index (l ++ x :: r) (Z.of_nat (length l)) = Ok x.
Proof.
  unfold at_index. rewrite app_length. cbn [length].
  replace ((- Z.of_nat (length l + S (length r)) <=? Z.of_nat (length l)) && (Z.of_nat (length l) <? Z.of_nat (length l + S (length r))))%Z with true.
  2: { symmetry. apply andb_true_iff. split; [apply Z.leb_le; lia|apply Z.ltb_lt; lia]. }
  replace (Z.of_nat (length l) <? 0)%Z with false by (symmetry; apply Z.ltb_ge; lia).
  rewrite Nat2Z.id, nth_error_app2, Nat.sub_diag by lia. reflexivity.
Qed.
Lemma at_index_end {A} (l r : list A) x : at_index (l ++ x :: r) (- Z.of_nat (S (length r))) = Ok x.
Proof.
  unfold at_index. rewrite app_length. cbn [length].
  replace ((- Z.of_nat (length l + S (length r)) <=? - Z.of_nat (S (length r))) && (- Z.of_nat (S (length r)) <? Z.of_nat (length l + S (length r))))%Z with true.
  2: { symmetry. apply andb_true_iff. split; [apply Z.leb_le; lia|apply Z.ltb_lt; lia]. }
  replace (- Z.of_nat (S (length r)) <? 0)%Z with true by (symmetry; apply Z.ltb_lt; lia).
  replace (Z.to_nat _) with (length l) by lia. rewrite nth_error_app2, Nat.sub_diag by lia. reflexivity.
Qed.
Lemma at_index_out {A} (l : list A) i : (i < - Z.of_nat (length l) \/ Z.of_nat (length l) <= i)%Z -> at_index l i = Err IndexError.
Proof.
  intro H. unfold at_index. replace (_ && _)%bool with false; [reflexivity|]. symmetry. apply andb_false_iff.
  rewrite Z.leb_gt, Z.ltb_ge. lia.
Qed.
Lemma insert_at_end {A} (l r : list A) x : r <> [] -> insert_at (l ++ r) (- Z.of_nat (length r)) x = l ++ x :: r.
Proof.
  intro N. unfold insert_at. rewrite app_length. assert (length r <> 0) by (destruct r; [contradiction|discriminate]).
  replace (- Z.of_nat (length r) <? 0)%Z with true by (symmetry; apply Z.ltb_lt; lia).
  replace (Z.to_nat _) with (length l) by lia. rewrite firstn_app, skipn_app, firstn_all, skipn_all, Nat.sub_diag. cbn. now rewrite app_nil_r.
Qed.

(** * Formatting *)

Lemma until_close_len s a b : until_close s = Some (a, b) -> length b < length s.
Proof.
  revert a b. induction s as [|c s IH]; intros a b; [discriminate|]. cbn [until_close].
  destruct (Ascii.eqb c "}"); [intro E; injection E as <- <-; cbn; lia|]. destruct (Ascii.eqb c "{"); [discriminate|].
  destruct (until_close s) as [[a' b']|]; [|discriminate]. intro E. injection E as <- <-. specialize (IH a' b' eq_refl). cbn. lia.
Qed.
Lemma format_terminates get : (forall n, get n <> Err OutOfFuel) -> forall fuel s, length s < fuel -> format_go fuel get s <> Err OutOfFuel.
Proof.
  intro G.
  assert (H : forall fuel s, length s < fuel -> format_go fuel get s <> Err OutOfFuel).
  { induction fuel as [|fuel IH]; intros s L; [lia|]. cbn [format_go]. destruct s as [|c s]; [discriminate|]. cbn [length] in L.
    destruct (Ascii.eqb c "{").
    - destruct s as [|d s']; [discriminate|]. destruct (Ascii.eqb d "{").
      + specialize (IH s' ltac:(cbn in L; lia)). destruct (format_go fuel get s'); cbn [bind]; [discriminate|congruence].
      + destruct (until_close (d :: s')) as [[a b]|] eqn:U; [|discriminate]. apply until_close_len in U.
        specialize (IH b ltac:(lia)). specialize (G a). destruct (get a); cbn [bind]; [|congruence].
        destruct (format_go fuel get b); cbn [bind]; [discriminate|congruence].
    - destruct (Ascii.eqb c "}").
      + destruct s as [|d s']; [discriminate|]. destruct (Ascii.eqb d "}"); [|discriminate].
        specialize (IH s' ltac:(cbn in L; lia)). destruct (format_go fuel get s'); cbn [bind]; [discriminate|congruence].
      + specialize (IH s ltac:(lia)). destruct (format_go fuel get s); cbn [bind]; [discriminate|congruence]. }
  exact H.
Qed.

(** * Sorting *)

Section Sorting.
Context {X : Type}.
Variable leb : X -> X -> bool.
Hypothesis total : forall x y, leb x y = true \/ leb y x = true.
Hypothesis trans : forall x y z, leb x y = true -> leb y z = true -> leb x z = true.
Hypothesis anti : forall x y, leb x y = true -> leb y x = true -> x = y.

Inductive ascending : list X -> Prop :=
| asc_nil : ascending []
| asc_cons x l : Forall (fun y => leb x y = true) l -> ascending l -> ascending (x :: l).

Lemma insert_perm x l : Permutation (insert_sorted leb x l) (x :: l).
Proof.
  induction l as [|y l IH]; [reflexivity|]. cbn [insert_sorted]. destruct (leb x y); [reflexivity|].
  rewrite IH. apply perm_swap.
Qed.
Lemma sorted_perm l : Permutation (sorted leb l) l.
Proof. induction l as [|x l IH]; [reflexivity|]. cbn [sorted]. rewrite insert_perm. now rewrite IH. Qed.
Lemma insert_asc x l : ascending l -> ascending (insert_sorted leb x l).
Proof.
  induction 1 as [|y l F A IH]; [repeat constructor|]. cbn [insert_sorted]. destruct (leb x y) eqn:E.
  - constructor; [constructor; [exact E|]|now constructor]. rewrite Forall_forall in *. intros z I. apply trans with y; auto.
  - constructor; [|exact IH]. rewrite Forall_forall in *. intros z I. apply (Permutation_in z (insert_perm x l)) in I.
    destruct I as [<-|I]; [|auto]. destruct (total x y); [congruence|auto].
Qed.
Lemma sorted_asc l : ascending (sorted leb l).
Proof. induction l as [|x l IH]; [constructor|]. now apply insert_asc. Qed.
Lemma asc_unique l : ascending l -> forall l', ascending l' -> Permutation l l' -> l = l'.
Proof.
  induction 1 as [|x l F A IH]; intros l' A' P; [now apply Permutation_nil in P|].
  destruct A' as [|y l' F' A']; [symmetry in P; now apply Permutation_nil in P|].
  assert (x = y).
  { assert (I : In y (x :: l)) by (apply (Permutation_in _ (Permutation_sym P)); now left).
    assert (J : In x (y :: l')) by (apply (Permutation_in _ P); now left).
    rewrite Forall_forall in F, F'. destruct I as [->|I]; [reflexivity|]. destruct J as [->|J]; [reflexivity|].
    apply anti; auto. }
  subst y. f_equal. apply IH; auto. now apply Permutation_cons_inv in P.
Qed.
Lemma sorted_equal l l' : sorted leb l = sorted leb l' <-> Permutation l l'.
Proof.
  split; intro H.
  - rewrite <- (sorted_perm l), H. apply sorted_perm.
  - apply asc_unique; try apply sorted_asc. now rewrite !sorted_perm.
Qed.

Variable eqb : X -> X -> bool.
Hypothesis eqb_ok : forall x y, eqb x y = true <-> x = y.
Lemma list_equal (a b : list X) : Nat.eqb (length a) (length b) && forallb (fun p => eqb (fst p) (snd p)) (combine a b) = true <-> a = b.
Proof.
  rewrite andb_true_iff, Nat.eqb_eq. revert b. induction a as [|x a IH]; intros [|y b]; cbn [length combine forallb fst snd].
  - tauto.
  - split; [intros [E _]; discriminate|discriminate].
  - split; [intros [E _]; discriminate|discriminate].
  - rewrite andb_true_iff, eqb_ok. specialize (IH b). split.
    + intros (E & -> & F). f_equal. apply IH. auto.
    + intro E. injection E as -> ->. destruct (proj2 IH eq_refl). auto.
Qed.
Lemma whole_eq_spec l l' : exists b, whole_eq leb eqb l (AIter l') = Some b /\ (b = true <-> Permutation l l').
Proof. eexists. split; [reflexivity|]. now rewrite list_equal, sorted_equal. Qed.
End Sorting.

(** * Replacement *)

Lemma single_replace c new s : replace [c] new s = concat (map (fun d => if Ascii.eqb c d then new else [d]) s).
Proof.
  unfold replace. induction s as [|d s IH]; [reflexivity|]. cbn [replace_go is_prefix map concat length pred].
  rewrite andb_true_r. destruct (Ascii.eqb c d); cbn [app]; now rewrite IH.
Qed.

(** * Classes *)

Lemma first_own_head {X} (own : str -> option (list X)) c l v : own c = Some v -> first_own own (c :: l) = Some v.
Proof. intro E. cbn [first_own]. now rewrite E. Qed.
Lemma first_own_none {X} (own : str -> option (list X)) l : (forall c, In c l -> own c = None) -> first_own own l = None.
Proof. induction l as [|c l IH]; [reflexivity|]. intro N. cbn [first_own]. rewrite (N c) by now left. apply IH. intros; apply N; now right. Qed.

Definition lookup (l : list (ascii * str)) (c : ascii) : str :=
  match find (fun p => Ascii.eqb (fst p) c) l with Some p => snd p | None => [c] end.
Definition as_texts (l : list (ascii * str)) : list (str * str) := map (fun p => ([fst p], snd p)) l.

Lemma strip_char c : is_space c = false -> strip [c] = [c].
Proof. intro E. unfold strip, rstrip. cbn. rewrite E. cbn. rewrite E. reflexivity. Qed.

Lemma lookup_id (l : list (ascii * str)) s : (forall c, In c s -> ~ In c (map fst l)) -> concat (map (lookup l) s) = s.
Proof.
  induction s as [|c s IH]; intro N; [reflexivity|]. cbn [map concat]. rewrite IH by (intros; apply N; now right).
  unfold lookup. destruct (find _ l) as [[d t]|] eqn:F; [|reflexivity]. exfalso.
  apply find_some in F as (I & E). cbn [fst] in E. apply Ascii.eqb_eq in E. subst d. apply (N c); [now left|].
  apply in_map_iff. exists (c, t). auto.
Qed.

Lemma batch_chars l : Forall (fun p => is_space (fst p) = false) l -> NoDup (map fst l) ->
  (forall p c, In p l -> In c (snd p) -> ~ In c (map fst l)) ->
  forall s, batch_replace s (as_texts l) = concat (map (lookup l) s).
Proof.
  unfold batch_replace, as_texts. induction l as [|[c new] l IH]; intros F N D s.
  - cbn. rewrite lookup_id; [reflexivity|intros c _ []].
  - inversion F as [|? ? Fc Fl]; subst. inversion N as [|? ? Nc Nl]; subst. cbn [map fst snd] in *.
    cbn [fold_left fst snd]. rewrite (strip_char c Fc), single_replace, IH; auto.
    2: { intros p d I J K. apply (D p d); [now right|exact J|now right]. }
    clear IH. induction s as [|d s IHs]; [reflexivity|]. cbn [map concat]. rewrite map_app, concat_app, IHs. f_equal.
    unfold lookup at 2. cbn [find fst]. destruct (Ascii.eqb c d) eqn:E.
    + cbn [snd]. apply lookup_id. intros x I K. apply (D (c, new) x); [now left|exact I|now right].
    + cbn [map concat]. rewrite app_nil_r. reflexivity.
Qed.

(** * Templates *)

Lemma until_close_name n s : no_braces n -> until_close (n ++ rbrace :: s) = Some (n, s).
Proof.
  intros [L R]. induction n as [|c n IH]; [reflexivity|]. cbn.
  destruct (Ascii.eqb_spec c "}"%char) as [->|_]; [exfalso; apply R; now left|].
  destruct (Ascii.eqb_spec c "{"%char) as [->|_]; [exfalso; apply L; now left|].
  rewrite IH; [reflexivity| |]; intro I; [apply L|apply R]; now right.
Qed.
Lemma until_close_none s : ~ In rbrace s -> until_close s = None.
Proof.
  induction s as [|c s IH]; intro R; [reflexivity|]. cbn.
  destruct (Ascii.eqb_spec c "}"%char) as [->|_]; [exfalso; apply R; now left|].
  destruct (Ascii.eqb_spec c "{"%char); [reflexivity|]. rewrite IH; [reflexivity|]. intro I. apply R. now right.
Qed.
Lemma until_close_nested n s : no_braces n -> until_close (n ++ lbrace :: s) = None.
Proof.
  intros [L R]. induction n as [|c n IH]; [reflexivity|]. cbn.
  destruct (Ascii.eqb_spec c "}"%char) as [->|_]; [exfalso; apply R; now left|].
  destruct (Ascii.eqb_spec c "{"%char) as [->|_]; [reflexivity|].
  rewrite IH; [reflexivity| |]; intro I; [apply L|apply R]; now right.
Qed.

(** Enough fuel is enough. *)
Lemma format_enough get : forall n m s, length s < n -> length s < m -> format_go n get s = format_go m get s.
Proof.
  induction n as [|n IH]; intros m s N M; [lia|]. destruct m as [|m]; [lia|]. destruct s as [|c s]; [reflexivity|]. cbn [length] in *.
  cbn [format_go]. destruct (Ascii.eqb c "{"%char).
  - destruct s as [|d s]; [reflexivity|]. cbn [length] in *. destruct (Ascii.eqb d "{"%char); [rewrite (IH m s) by lia; reflexivity|].
    destruct (until_close (d :: s)) as [[a b]|] eqn:U; [|reflexivity]. apply until_close_len in U. cbn [length] in U.
    rewrite (IH m b) by lia. reflexivity.
  - destruct (Ascii.eqb c "}"%char); [|rewrite (IH m s) by lia; reflexivity].
    destruct s as [|d s]; [reflexivity|]. cbn [length] in *. destruct (Ascii.eqb d "}"%char); [rewrite (IH m s) by lia; reflexivity|reflexivity].
Qed.

Lemma field_step get fuel n s : no_braces n ->
  format_go (S fuel) get (lbrace :: n ++ rbrace :: s) = do v <- get n; do r <- format_go fuel get s; Ok (v ++ r).
Proof.
  intros B. pose proof (until_close_name n s B) as U. destruct B as [L R]. destruct n as [|d n].
  - cbn in *. reflexivity.
  - cbn [app] in *. cbn [format_go]. change (Ascii.eqb lbrace "{"%char) with true. cbv iota.
    destruct (Ascii.eqb_spec d "{"%char) as [->|_]; [exfalso; apply L; now left|]. rewrite U. reflexivity.
Qed.
Lemma open_step get fuel s : format_go (S fuel) get (lbrace :: lbrace :: s) = do r <- format_go fuel get s; Ok (lbrace :: r).
Proof. reflexivity. Qed.
Lemma close_step get fuel s : format_go (S fuel) get (rbrace :: rbrace :: s) = do r <- format_go fuel get s; Ok (rbrace :: r).
Proof. reflexivity. Qed.
Lemma char_step get fuel c s : c <> lbrace -> c <> rbrace ->
  format_go (S fuel) get (c :: s) = do r <- format_go fuel get s; Ok (c :: r).
Proof.
  intros L R. cbn. destruct (Ascii.eqb_spec c "{"%char); [contradiction|]. destruct (Ascii.eqb_spec c "}"%char); [contradiction|]. reflexivity.
Qed.
Lemma malformed_value get s : malformed s -> format_map get s = Err ValueError.
Proof.
  unfold format_map. intros [t H|t R H|n t [L R] N].
  - cbn. destruct t as [|d t]; [reflexivity|]. destruct (Ascii.eqb_spec d "}"%char) as [->|_]; [|reflexivity]. now contradiction H.
  - cbn [length format_go]. change (Ascii.eqb lbrace "{"%char) with true. cbv iota. destruct t as [|d t]; [reflexivity|].
    destruct (Ascii.eqb_spec d "{"%char) as [->|_]; [now contradiction H|]. now rewrite until_close_none.
  - pose proof (until_close_nested n t (conj L R)) as U. destruct n as [|d n]; [congruence|]. cbn [app length] in *.
    cbn [format_go]. change (Ascii.eqb lbrace "{"%char) with true. cbv iota.
    destruct (Ascii.eqb_spec d "{"%char) as [->|_]; [exfalso; apply L; now left|]. now rewrite U.
Qed.

Definition fills (get : str -> res str) (x : segment) (v : str) : Prop :=
  match x with Char c => v = [c] | Field n => get n = Ok v end.

Lemma format_prefix get p l : template p l -> forall vs q, Forall2 (fills get) l vs ->
  format_map get (p ++ q) = do r <- format_map get q; Ok (concat vs ++ r).
Proof.
  unfold format_map. induction 1 as [|s l T IH|s l T IH|n s l B T IH|c s l C1 C2 T IH]; intros vs q F.
  - inversion F; subst. cbn [app concat]. destruct (format_go _ get q); reflexivity.
  - inversion F as [|x v l' vs' Fx Fr]; subst. cbn in Fx. subst v. cbn [app concat].
    assert (E : forall fuel, length (s ++ q) < fuel -> format_go (S fuel) get (lbrace :: lbrace :: s ++ q) =
      (do r <- format_go (S (length q)) get q; Ok ((lbrace :: concat vs') ++ r))).
    { intros fuel L. rewrite open_step. rewrite (format_enough get fuel (S (length (s ++ q)))) by lia.
      rewrite (IH vs' q Fr). destruct (format_go _ get q); reflexivity. }
    rewrite E by (cbn [length]; lia). reflexivity.
  - inversion F as [|x v l' vs' Fx Fr]; subst. cbn in Fx. subst v. cbn [app concat].
    assert (E : forall fuel, length (s ++ q) < fuel -> format_go (S fuel) get (rbrace :: rbrace :: s ++ q) =
      (do r <- format_go (S (length q)) get q; Ok ((rbrace :: concat vs') ++ r))).
    { intros fuel L. rewrite close_step. rewrite (format_enough get fuel (S (length (s ++ q)))) by lia.
      rewrite (IH vs' q Fr). destruct (format_go _ get q); reflexivity. }
    rewrite E by (cbn [length]; lia). reflexivity.
  - inversion F as [|x v l' vs' Fx Fr]; subst. cbn in Fx.
    change ((lbrace :: n ++ rbrace :: s) ++ q) with (lbrace :: (n ++ rbrace :: s) ++ q). rewrite <- app_assoc. cbn [app].
    assert (E : forall fuel, length (s ++ q) < fuel -> format_go (S fuel) get (lbrace :: n ++ rbrace :: s ++ q) =
      (do r <- format_go (S (length q)) get q; Ok (concat (v :: vs') ++ r))).
    { intros fuel L. rewrite field_step by exact B. rewrite Fx. cbn [bind].
      rewrite (format_enough get fuel (S (length (s ++ q)))) by lia.
      rewrite (IH vs' q Fr). destruct (format_go _ get q); cbn [bind concat]; [|reflexivity]. now rewrite app_assoc. }
    apply E. cbn [length]. rewrite (app_length n). cbn [length]. rewrite !app_length. lia.
  - inversion F as [|x v l' vs' Fx Fr]; subst. cbn in Fx. subst v. cbn [app concat].
    assert (E : forall fuel, length (s ++ q) < fuel -> format_go (S fuel) get (c :: s ++ q) =
      (do r <- format_go (S (length q)) get q; Ok ((c :: concat vs') ++ r))).
    { intros fuel L. rewrite char_step by assumption. rewrite (format_enough get fuel (S (length (s ++ q)))) by lia.
      rewrite (IH vs' q Fr). destruct (format_go _ get q); reflexivity. }
    rewrite E by (cbn [length]; lia). reflexivity.
Qed.
