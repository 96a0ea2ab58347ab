(** Proofs about further iterable tools. *)

From Coq Require Import String Ascii List Bool ZArith NArith QArith Qcanon Lia.
From Verif Require Import Py PyFacts PyDict IterablesModel IterablesSpec IterablesProofs IterablesMoreProofs.
Import ListNotations.
Open Scope nat_scope.
Open Scope list_scope.

Lemma mapM_fails {A B} (f : A -> res B) e l : (forall x, In x l -> (exists y, f x = Ok y) \/ f x = Err e) ->
  (exists x, In x l /\ f x = Err e) -> mapM f l = Err e.
Proof.
  induction l as [|a l IH]; intros H (x & I & E); [destruct I|]. simpl.
  destruct (H a (or_introl eq_refl)) as [(y & Ey)|Ey]; rewrite Ey; [|reflexivity]. simpl.
  rewrite IH; [reflexivity| |].
  - intros z J. apply H. now right.
  - destruct I as [->|I]; [congruence|]. now exists x.
Qed.
Lemma mapM_same {A B} (f g : A -> res B) l : (forall x, In x l -> f x = g x) -> mapM f l = mapM g l.
Proof.
  induction l as [|a l IH]; intros H; simpl; [reflexivity|]. rewrite (H a (or_introl eq_refl)), IH; [reflexivity|].
  intros x I. apply H. now right.
Qed.
Lemma mapM_map {A B C} (f : B -> res C) (g : A -> B) l : mapM f (map g l) = mapM (fun x => f (g x)) l.
Proof. induction l as [|a l IH]; simpl; [reflexivity|]. now rewrite IH. Qed.

Lemma nth_firstn {A} (l : list A) i n : i < n -> nth_error (firstn n l) i = nth_error l i.
Proof. revert i n. induction l as [|x l IH]; intros [|i] [|n] H; simpl; try lia; auto. apply IH. lia. Qed.

Lemma transpose_errors (A : Type) (l : list (list A)) :
  transpose_list (@nil (list A)) = Err IndexError
  /\ (forall first rest, l = first :: rest ->
        ((exists r, In r rest /\ length r < length first) -> transpose_list l = Err IndexError)
        /\ (Forall (fun r => length first <= length r) rest ->
            transpose_list l = transpose_list (map (firstn (length first)) l))).
Proof.
  split; [reflexivity|]. intros first rest ->. split.
  - intros (r & I & L). unfold transpose_list.
    assert (forall i, (exists y, mapM (fun element : list A => match nth_error element i with Some a => Ok a | None => Err IndexError end) (first :: rest) = Ok y)
      \/ mapM (fun element : list A => match nth_error element i with Some a => Ok a | None => Err IndexError end) (first :: rest) = Err IndexError) as D.
    { intros i. induction (first :: rest) as [|a m IH]; [left; now exists []|]. simpl. destruct (nth_error a i); simpl; [|now right].
      destruct IH as [(y & ->)| ->]; simpl; [left; eauto|now right]. }
    apply mapM_fails; [intros i _; apply D|]. exists (length r). split; [apply in_seq; lia|].
    apply mapM_fails.
    + intros x _. destruct (nth_error x (length r)); [left; eauto|now right].
    + exists r. split; [now right|]. assert (nth_error r (length r) = None) as -> by (apply nth_error_None; lia). reflexivity.
  - intros F. unfold transpose_list. cbn [map]. rewrite firstn_length, Nat.min_id. apply mapM_same. intros i I. apply in_seq in I.
    change (firstn (length first) first :: map (firstn (length first)) rest) with (map (firstn (length first)) (first :: rest)).
    rewrite mapM_map. apply mapM_same. intros r _. now rewrite nth_firstn by lia.
Qed.

Lemma show_below (A : Type) (n : Z) (l : list A) : (n <= 0)%Z -> l <> [] ->
  exists pre mid last, l = pre ++ mid /\ Z.of_nat (length mid) = Z.min (1 - n) (Z.of_nat (length l))
    /\ (exists init, l = init ++ [last]) /\ show_at_most n l = map Some pre ++ [None; Some last].
Proof.
  intros H N. unfold show_at_most.
  destruct (Z.leb_spec (Z.of_nat (length l)) n); [destruct l; [congruence|simpl in *; lia]|].
  unfold slice_upto. destruct (Z.ltb_spec (n - 1) 0); [|lia]. set (k := Z.to_nat _).
  destruct l as [|last init] using rev_ind; [congruence|]. clear IHinit. rewrite rev_app_distr. cbn [rev app].
  exists (firstn k (init ++ [last])), (skipn k (init ++ [last])), last. split; [now rewrite firstn_skipn|].
  split; [|split; [now exists init|reflexivity]]. rewrite skipn_length. unfold k.
  rewrite app_length in *. simpl length in *.
  lia.
Qed.

Lemma register_named (O : Type) (qualname : O -> option str) r o u w : u <> [] ->
  let run u := items (register qualname r o u w) in
  (w = true \/ d_get rkey_eqb (items r) (Some u) = None ->
     d_get rkey_eqb (run (Some u)) (Some u) = Some o
     /\ forall j, j <> Some u -> d_get rkey_eqb (run (Some u)) j = d_get rkey_eqb (items r) j)
  /\ (w = false /\ d_get rkey_eqb (items r) (Some u) <> None -> run (Some u) = run None)
  /\ run (Some []) = run None.
Proof.
  intros N run. destruct u as [|c u]; [congruence|]. unfold run, register, mapping_key.
  assert (d_has rkey_eqb (items r) (Some (c :: u)) = match d_get rkey_eqb (items r) (Some (c :: u)) with Some _ => true | None => false end) as E
    by reflexivity.
  split; [|split; [|reflexivity]].
  - intros H. replace (negb (d_has rkey_eqb (items r) (Some (c :: u))) || w) with true
      by (rewrite E; destruct H as [->| ->]; [now rewrite orb_true_r|reflexivity]). cbn [items]. split.
    + rewrite (d_get_set rkey_eqb rkey_eqb_spec). destruct (rkey_eqb_spec (Some (c :: u)) (Some (c :: u))); congruence.
    + intros j J. rewrite (d_get_set rkey_eqb rkey_eqb_spec). destruct (rkey_eqb_spec j (Some (c :: u))); congruence.
  - intros (-> & H). rewrite E. destruct (d_get rkey_eqb (items r) (Some (c :: u))); [reflexivity|congruence].
Qed.

Lemma register_own (O : Type) (qualname : O -> option str) r o w s : qualname o = Some s ->
  d_get rkey_eqb (items r) (Some s) = None ->
  d_get rkey_eqb (items (register qualname r o None w)) (Some s) = Some o
  /\ forall j, j <> Some s -> d_get rkey_eqb (items (register qualname r o None w)) j = d_get rkey_eqb (items r) j.
Proof.
  intros Q G. unfold register, mapping_key, default_key. rewrite Q.
  replace (d_has rkey_eqb (items r) (Some s)) with false by (unfold d_has; now rewrite G). cbn [items]. split.
  - rewrite (d_get_set rkey_eqb rkey_eqb_spec). destruct (rkey_eqb_spec (Some s) (Some s)); congruence.
  - intros j J. rewrite (d_get_set rkey_eqb rkey_eqb_spec). destruct (rkey_eqb_spec j (Some s)); congruence.
Qed.

Lemma iterate_members o : match iterate o with Some l => members o l /\ (forall m, members o m -> m = l) | None => forall l, ~ members o l end.
Proof.
  destruct o; simpl; try (intros l M; now inversion M); (split; [constructor|]; intros m M; now inversion M).
Qed.
Lemma hastype_cases o ty strict : forall wrappers, ty o = false ->
  ((exists w, In w wrappers /\ w o = true) ->
     hastype o ty wrappers strict = match iterate o with Some l => Ok (if strict then forallb ty l else existsb ty l) | None => Err TypeError end)
  /\ (~ (exists w, In w wrappers /\ w o = true) -> hastype o ty wrappers strict = Ok false).
Proof.
  induction wrappers as [|w ws IH]; intros T; simpl; rewrite T.
  - split; [intros (w & [] & _)|reflexivity].
  - destruct (w o) eqn:W; [split; [reflexivity|]; intros H; exfalso; apply H; exists w; auto|].
    destruct (IH T) as [P Q]. split.
    + intros (v & [->|I] & V); [congruence|]. apply P. now exists v.
    + intros H. apply Q. intros (v & I & V). apply H. exists v. auto.
Qed.
Lemma wrapper_dec o (wrappers : list (obj -> bool)) : (exists w, In w wrappers /\ w o = true) \/ ~ (exists w, In w wrappers /\ w o = true).
Proof.
  destruct (existsb (fun w => w o) wrappers) eqn:E; [left|right].
  - apply existsb_exists in E as (w & I & W). now exists w.
  - intros H. apply existsb_exists in H. congruence.
Qed.
Lemma hastype_of o ty wrappers strict : ty o = true -> hastype o ty wrappers strict = Ok true.
Proof. intros T. destruct wrappers; simpl; now rewrite T. Qed.
Lemma hastype_true o ty wrappers strict : hastype o ty wrappers strict = Ok true <->
  ty o = true
  \/ (exists w, In w wrappers /\ w o = true)
     /\ exists l, members o l /\ if strict then (forall x, In x l -> ty x = true) else exists x, In x l /\ ty x = true.
Proof.
  destruct (ty o) eqn:T; [rewrite (hastype_of o ty wrappers strict T); split; auto|].
  destruct (hastype_cases o ty strict wrappers T) as [P Q].
  pose proof (iterate_members o) as M. destruct (wrapper_dec o wrappers) as [W|W].
  - rewrite (P W). destruct (iterate o) as [l|].
    + destruct M as [M U]. split.
      * intros E. injection E as E. right. split; [exact W|]. exists l. split; [exact M|].
        destruct strict; [now apply forallb_forall|now apply existsb_exists].
      * intros [C|(_ & m & Mm & H)]; [discriminate|]. rewrite (U m Mm) in H. f_equal.
        destruct strict; [now apply forallb_forall|now apply existsb_exists].
    + split; [discriminate|]. intros [C|(_ & m & Mm & H)]; [discriminate|]. now destruct (M m).
  - rewrite (Q W). split; [discriminate|]. intros [C|(C & _)]; [discriminate|contradiction].
Qed.
Lemma hastype_error o ty wrappers strict e : hastype o ty wrappers strict = Err e <->
  e = TypeError /\ ty o = false /\ (exists w, In w wrappers /\ w o = true) /\ forall l, ~ members o l.
Proof.
  destruct (ty o) eqn:T; [rewrite (hastype_of o ty wrappers strict T); split; [discriminate|intros (_ & C & _); discriminate]|].
  destruct (hastype_cases o ty strict wrappers T) as [P Q].
  pose proof (iterate_members o) as M. destruct (wrapper_dec o wrappers) as [W|W].
  - rewrite (P W). destruct (iterate o) as [l|].
    + split; [discriminate|]. intros (_ & _ & _ & H). destruct M as [M _]. now destruct (H l).
    + split; [intros E; injection E as <-; auto|intros (-> & _); reflexivity].
  - rewrite (Q W). split; [discriminate|]. intros (_ & _ & C & _). contradiction.
Qed.

Lemma apply_first (A R : Type) (methods : list (A -> res (option R))) a :
  (forall r, apply_methods methods a = Ok (Some r) <->
     exists l1 m l2, methods = l1 ++ m :: l2 /\ Forall (fun m => m a = Ok None) l1 /\ m a = Ok (Some r))
  /\ (forall e, apply_methods methods a = Err e <->
     exists l1 m l2, methods = l1 ++ m :: l2 /\ Forall (fun m => m a = Ok None) l1 /\ m a = Err e)
  /\ (apply_methods methods a = Ok None <-> Forall (fun m => m a = Ok None) methods).
Proof.
  induction methods as [|m ms (I1 & I2 & I3)]; simpl.
  - split; [|split].
    + intros r. split; [discriminate|]. intros ([|] & m & l2 & E & _); discriminate E.
    + intros e. split; [discriminate|]. intros ([|] & m & l2 & E & _); discriminate E.
    + split; auto.
  - assert (forall (v : res (option R)), v <> Ok None -> (exists l1 m0 l2, m :: ms = l1 ++ m0 :: l2 /\ Forall (fun m => m a = Ok None) l1 /\ m0 a = v)
      <-> m a = v \/ m a = Ok None /\ exists l1 m0 l2, ms = l1 ++ m0 :: l2 /\ Forall (fun m => m a = Ok None) l1 /\ m0 a = v) as X.
    { intros v Nv. split.
      - intros ([|x l1] & m0 & l2 & E & F & V); simpl in E; injection E as Ex E; subst; [now left|]. right. inversion F; subst.
        split; [assumption|]. exists l1, m0, l2. auto.
      - intros [V|(N & l1 & m0 & l2 & E & F & V)]; [exists [], m, ms; auto|]. exists (m :: l1), m0, l2. subst ms. auto. }
    split; [|split].
    + intros r. rewrite X by discriminate. destruct (m a) as [[x|]|e]; simpl.
      * split; [now left|]. intros [E|(E & _)]; [exact E|discriminate].
      * rewrite I1. split; [intros H; right; split; auto|]. intros [E|(_ & H)]; [discriminate|exact H].
      * split; [discriminate|]. intros [E|(E & _)]; discriminate.
    + intros e. rewrite X by discriminate. destruct (m a) as [[x|]|e']; simpl.
      * split; [discriminate|]. intros [E|(E & _)]; discriminate.
      * rewrite I2. split; [intros H; right; split; auto|]. intros [E|(_ & H)]; [discriminate|exact H].
      * split; [intros E; left; congruence|]. intros [E|(E & _)]; [congruence|discriminate].
    + split.
      * intros H. destruct (m a) as [[x|]|e'] eqn:Em; simpl in H; try discriminate. constructor; [exact Em|now apply I3].
      * intros F. inversion F as [|? ? Em F']; subst. rewrite Em. simpl. now apply I3.
Qed.

Lemma column_spec (V : Type) (rows : list (@entry V)) k : dicts rows -> rows <> [] ->
  (common_key rows k -> exists l, table_getitem rows k = Ok l /\ Forall2 (fun e v => In (k, v) e) rows l)
  /\ (~ common_key rows k -> table_getitem rows k = Err TableKeyError).
Proof.
  intros D N. unfold table_getitem. split; intros C.
  - rewrite (common_true rows k N C). cbn [bind]. clear N D. induction rows as [|e rows IH]; [now exists []|].
    destruct IH as (l & E & F); [intros x I; apply C; now right|]. cbn [mapM].
    assert (In k (map fst e)) as I by (apply C; now left). destruct (sd_get e k) as [v|] eqn:G.
    + cbn [bind]. rewrite E. cbn [bind]. exists (v :: l). split; [reflexivity|]. constructor; [|exact F].
      now apply (d_get_in str_eqb str_eqb_spec).
    + apply (d_get_none str_eqb str_eqb_spec) in G. contradiction.
  - now rewrite (common_false rows k N C).
Qed.

Lemma column_default (V : Type) (rows : list (@entry V)) k d : dicts rows -> rows <> [] ->
  exists l, table_get rows k d = Ok l
  /\ Forall2 (fun e v => In (k, v) e \/ (~ In k (map fst e)) /\ v = d) rows l.
Proof.
  intros D N. destruct (column_spec V rows k D N) as [P Q]. unfold table_get. destruct (common_dec rows k) as [C|C].
  - destruct (P C) as (l & E & F). rewrite E. exists l. split; [reflexivity|].
    clear - F. induction F; constructor; auto.
  - rewrite (Q C). eexists. split; [reflexivity|]. clear. induction rows as [|e rows IH]; simpl; constructor; [|exact IH].
    destruct (sd_get e k) as [v|] eqn:G; [left; exact (d_get_in str_eqb str_eqb_spec e k v G)|right].
    split; [exact (proj1 (d_get_none str_eqb str_eqb_spec e k) G)|reflexivity].
Qed.
