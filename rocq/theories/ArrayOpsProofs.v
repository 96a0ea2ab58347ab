(** Lemmas about ellipses, subsets and products of array-like quantities. *)

From Coq Require Import String Ascii List Bool ZArith QArith Qcanon Lia.
From Verif Require Import Py PyFacts PyDict IterablesModel IterablesSpec IterablesProofs MetadataModel MetadataSpec MetadataProofs.
From Verif Require Import ArrayModel ArraySpec ArrayProofs.
Import ListNotations.
Open Scope list_scope.
Open Scope nat_scope.

(** * Ellipses *)

Lemma first_ell_app pre post : forallb (fun i => negb (is_ell i)) pre = true ->
  first_ell (pre ++ IEll :: post) = length pre.
Proof.
  induction pre as [|x pre IH]; [reflexivity|]. cbn [forallb app first_ell length].
  intros H. apply andb_prop in H as [H1 H2]. destruct (is_ell x); [discriminate|]. now rewrite IH.
Qed.

Lemma expand_exact ndim pre post :
  forallb (fun i => negb (is_ell i)) pre = true -> length pre + length post < ndim ->
  expand_ellipsis ndim (pre ++ IEll :: post) =
  pre ++ repeat full_slice (ndim - length pre - length post)
  ++ skipn (ndim - length pre - length post - 1) post.
Proof.
  intros H L. unfold expand_ellipsis.
  replace (forallb _ (pre ++ IEll :: post)) with false.
  2:{ symmetry. rewrite forallb_app. cbn. apply andb_false_r. }
  rewrite first_ell_app by exact H.
  rewrite firstn_app, firstn_all, Nat.sub_diag. cbn [firstn]. rewrite app_nil_r. f_equal.
  rewrite app_length. cbn [length].
  replace (Z.to_nat _) with (ndim - length pre - length post) by lia.
  f_equal. unfold py_slice, py_clip. rewrite app_length. cbn [length].
  set (z := (Z.of_nat (length pre) + _)%Z).
  assert (Hz : z = Z.of_nat (ndim - length post)) by (unfold z; lia).
  rewrite Hz. clear z Hz. set (k := ndim - length post).
  assert (Hk : k = length pre + S (ndim - length pre - length post - 1)) by (unfold k; lia).
  rewrite (proj2 (Z.ltb_ge (Z.of_nat k) 0)) by lia. rewrite (proj2 (Z.ltb_ge (Z.of_nat ndim) 0)) by lia.
  destruct (Z.le_gt_cases (Z.of_nat k) (Z.of_nat (length pre + S (length post)))) as [C|C].
  - rewrite (Z.min_l (Z.of_nat k)) by lia. rewrite (Z.min_r (Z.of_nat ndim)) by lia.
    replace (Z.to_nat (Z.of_nat k)) with k by lia. rewrite Hk, skipn_app.
    rewrite skipn_all2 by lia. cbn [app].
    replace (length pre + S (ndim - length pre - length post - 1) - length pre)
      with (S (ndim - length pre - length post - 1)) by lia.
    cbn [skipn]. apply firstn_all2. rewrite skipn_length. lia.
  - rewrite (Z.min_r (Z.of_nat k)) by lia. rewrite (skipn_all2 post) by lia.
    rewrite skipn_all2 by (rewrite app_length; cbn [length]; lia). apply firstn_nil.
Qed.

(** * Subsets by integers and ranges *)

Lemma map_add_seq t m s : map (fun k => t + k) (seq s m) = seq (t + s) m.
Proof.
  revert s. induction m as [|m IH]; intros s; cbn; [reflexivity|]. rewrite IH. do 2 f_equal. lia.
Qed.

Definition sel_of (n : nat) (i : item) : selection :=
  match i with
  | IInt _ => Fix (chosen n i 0)
  | _ => Keep (seq (chosen n i 0) (extent n i))
  end.

Lemma slice_plain n a b c : plain_index n (ISlice a b c) ->
  slice_positions n a b c = Ok (seq (chosen n (ISlice a b c) 0) (extent n (ISlice a b c))).
Proof.
  cbn [plain_index chosen extent]. set (x := match a with Some z => z | None => 0%Z end).
  set (y := match b with Some z => z | None => Z.of_nat n end).
  intros (H1 & H2 & H3). unfold slice_positions.
  assert (St : match c with Some s => s | None => 1%Z end = 1%Z) by (destruct H3 as [-> | ->]; reflexivity).
  rewrite St. cbn [Z.eqb Z.ltb Z.compare].
  assert (C : forall z, (0 <= z <= Z.of_nat n)%Z ->
    (if (z <? 0)%Z then Z.max (z + Z.of_nat n) 0 else Z.min z (Z.of_nat n)) = z).
  { intros z Hz. rewrite (proj2 (Z.ltb_ge _ _)) by lia. lia. }
  assert (A : match a with Some z => if (z <? 0)%Z then Z.max (z + Z.of_nat n) 0 else Z.min z (Z.of_nat n)
              | None => 0%Z end = x).
  { unfold x in *. destruct a; [apply C; lia|reflexivity]. }
  assert (B : match b with Some z => if (z <? 0)%Z then Z.max (z + Z.of_nat n) 0 else Z.min z (Z.of_nat n)
              | None => Z.of_nat n end = y).
  { unfold y in *. destruct b; [apply C; lia|reflexivity]. }
  rewrite A, B, (proj2 (Z.ltb_lt _ _)) by lia. rewrite Z.div_1_r. f_equal.
  replace (Z.to_nat (y - x - 1 + 1)) with (Z.to_nat (y - x)) by lia.
  rewrite <- map_add_seq.
  apply map_ext. intros k. lia.
Qed.

Lemma position_plain n z : plain_index n (IInt z) -> position n z = Ok (chosen n (IInt z) 0).
Proof.
  cbn. intros H. unfold position. rewrite (proj2 (Z.leb_le _ _)) by lia. rewrite (proj2 (Z.ltb_lt z _)) by lia.
  reflexivity.
Qed.

Lemma select_plain s l : Forall2 plain_index s l -> select s l = Ok (map2 sel_of s l).
Proof.
  intros H. induction H as [|n i s l H F IH]; [reflexivity|].
  destruct i as [z|a b c| | |q]; try contradiction; cbn [select].
  - rewrite position_plain by exact H. cbn [bind]. rewrite IH. reflexivity.
  - rewrite slice_plain by exact H. cbn [bind]. rewrite IH. reflexivity.
Qed.

Lemma plain_counts s l : Forall2 plain_index s l ->
  length (filter is_ell l) = 0 /\ length (filter consumes l) = length s.
Proof.
  intros H. induction H as [|n i s l H F [IH1 IH2]]; [split; reflexivity|].
  destruct i; try contradiction; cbn; auto.
Qed.
Lemma basic_plain a l : Forall2 plain_index (shape a) l ->
  basic a l = Ok (apply_selections a (map2 sel_of (shape a) l)).
Proof.
  intros H. unfold basic. destruct (plain_counts _ _ H) as [-> ->].
  rewrite Nat.ltb_irrefl. cbn [Nat.ltb Nat.leb]. now rewrite select_plain.
Qed.

(** Dropping the coordinates of the fixed axes. *)
Fixpoint kept (l : list item) (j : list nat) : list nat :=
  match l, j with
  | IInt _ :: l', _ :: j' => kept l' j'
  | _ :: l', k :: j' => k :: kept l' j'
  | _, _ => []
  end.

Lemma map2_cons {A B C} (f : A -> B -> C) x y l r : map2 f (x :: l) (y :: r) = f x y :: map2 f l r.
Proof. reflexivity. Qed.

Lemma extent_pos n i : plain_index n i -> 0 < extent n i.
Proof.
  destruct i as [z|a b c| | |q]; cbn; try contradiction; [lia|].
  destruct a, b; lia.
Qed.

Lemma kept_inside s l j : Forall2 plain_index s l -> inside (map2 extent s l) j ->
  inside (selected_shape (map2 sel_of s l)) (kept l j) /\
  ravel (selected_shape (map2 sel_of s l)) (kept l j) = ravel (map2 extent s l) j /\
  product (selected_shape (map2 sel_of s l)) = product (map2 extent s l) /\
  source (map2 sel_of s l) (kept l j) = chosen_all s l j.
Proof.
  intros H. revert j. induction H as [|n i s l H F IH]; intros j Hj.
  - inversion Hj; subst. repeat split; constructor.
  - rewrite map2_cons in Hj. inversion Hj as [|k e j' es H1 H2]; subst. clear Hj.
    destruct (IH _ H2) as (I1 & I2 & I3 & I4). rewrite !map2_cons.
    destruct i as [z|a b c| | |q]; try contradiction.
    + cbn [sel_of selected_shape flat_map app kept source chosen_all].
      fold (selected_shape (map2 sel_of s l)). split; [exact I1|]. split; [|split].
      * cbn [ravel]. cbn [extent] in H1. replace k with 0 by lia. rewrite I2. reflexivity.
      * rewrite I3. cbn [extent product fold_right]. unfold product. lia.
      * rewrite I4. reflexivity.
    + cbn [sel_of selected_shape flat_map app kept source chosen_all].
      fold (selected_shape (map2 sel_of s l)). rewrite seq_length. split; [|split; [|split]].
      * constructor; assumption.
      * cbn [ravel]. rewrite I2, I3. reflexivity.
      * cbn [product fold_right]. unfold product in I3. rewrite I3. reflexivity.
      * rewrite I4. f_equal. rewrite seq_nth by exact H1. cbn [chosen]. lia.
Qed.

Lemma zeros_inside s l : Forall2 plain_index s l -> inside (map2 extent s l) (map (fun _ => 0) l).
Proof.
  intros H. induction H as [|n i s l H F IH]; [constructor|]. rewrite map2_cons. cbn [map].
  constructor; [now apply extent_pos|exact IH].
Qed.
Lemma plain_product s l : Forall2 plain_index s l ->
  product (selected_shape (map2 sel_of s l)) = product (map2 extent s l).
Proof. intros H. destruct (kept_inside s l _ H (zeros_inside s l H)) as (_ & _ & P & _). exact P. Qed.

Lemma axis_sizes_plain s0 l : forall s i, Forall2 plain_index s l -> (forall k, nth_error s0 (i + k) = nth_error s k) ->
  axis_sizes s0 i l = Ok (map Z.of_nat (map2 extent s l)).
Proof.
  induction l as [|v l IH]; intros s i H E; inversion H as [|n w s' l' H1 H2]; subst; [reflexivity|].
  cbn [axis_sizes]. rewrite (IH s' (S i)); [|assumption|].
  2:{ intros k. specialize (E (S k)). cbn in E. rewrite <- E. f_equal. lia. }
  rewrite map2_cons. cbn [map].
  pose proof (E 0) as E0. rewrite Nat.add_0_r in E0. cbn in E0.
  destruct v as [z|a b c| | |q]; try contradiction; cbn [axis_size bind]; [reflexivity|].
  cbn [plain_index] in H1. rewrite E0. destruct b as [b|].
  - rewrite (proj2 (Z.eqb_neq b 0)) by lia. cbn [bind]. do 2 f_equal. cbn [extent].
    destruct a; rewrite Z2Nat.id; lia.
  - cbn [bind]. do 2 f_equal. cbn [extent]. destruct a; rewrite Z2Nat.id; lia.
Qed.

Lemma reshape_nat a s : length (cells a) = product s -> reshape a (map Z.of_nat s) = Ok (mkArr s (cells a)).
Proof.
  intros H. unfold reshape.
  replace (filter (fun z => (z <? 0)%Z) (map Z.of_nat s)) with (@nil Z).
  2:{ clear H. induction s as [|n s IH]; cbn [map filter]; [reflexivity|].
      rewrite (proj2 (Z.ltb_ge _ _)) by lia. exact IH. }
  replace (filter (fun z => (0 <=? z)%Z) (map Z.of_nat s)) with (map Z.of_nat s).
  2:{ clear H. induction s as [|n s IH]; cbn [map filter]; [reflexivity|].
      rewrite (proj2 (Z.leb_le _ _)) by lia. now rewrite <- IH. }
  replace (fold_right Z.mul 1%Z (map Z.of_nat s)) with (Z.of_nat (product s)).
  2:{ clear H. induction s as [|n s IH]; [reflexivity|].
      change (product (n :: s)) with (n * product s). cbn [map fold_right]. rewrite <- IH. lia. }
  rewrite H, Z.eqb_refl. f_equal. f_equal. rewrite map_map. rewrite <- (map_id s) at 2.
  apply map_ext. intros n. apply Nat2Z.id.
Qed.

Lemma selected_length s l : Forall2 plain_index s l ->
  length (selected_shape (map2 sel_of s l)) = length s -> selected_shape (map2 sel_of s l) = map2 extent s l.
Proof.
  intros H. assert (G : length (selected_shape (map2 sel_of s l)) <= length s /\
    (length (selected_shape (map2 sel_of s l)) = length s -> selected_shape (map2 sel_of s l) = map2 extent s l)).
  { induction H as [|n i s l H F [IH1 IH2]]; [split; [cbn; lia|reflexivity]|].
    rewrite !map2_cons. destruct i as [z|a b c| | |q]; try contradiction; cbn [sel_of selected_shape flat_map app length];
      fold (selected_shape (map2 sel_of s l)).
    - split; lia.
    - rewrite seq_length. split; [lia|]. intros E. rewrite IH2 by lia. reflexivity. }
  apply G.
Qed.

Lemma map2_length {A B C} (f : A -> B -> C) l r : length l = length r -> length (map2 f l r) = length l.
Proof. intros H. unfold map2. rewrite map_length, combine_length, H. lia. Qed.
Lemma F2_length {A B} (P : A -> B -> Prop) l r : Forall2 P l r -> length l = length r.
Proof. intros H. induction H; cbn; congruence. Qed.

Definition piece (a : arr) (l : list item) : arr :=
  mkArr (map2 extent (shape a) l) (cells (apply_selections a (map2 sel_of (shape a) l))).
Lemma piece_at a l j : Forall2 plain_index (shape a) l -> inside (map2 extent (shape a) l) j ->
  at_ (piece a l) j = at_ a (chosen_all (shape a) l j).
Proof.
  intros H Hj. destruct (kept_inside _ _ _ H Hj) as (I1 & I2 & I3 & I4).
  unfold piece, at_ at 1. cbn [shape cells]. rewrite <- I2.
  fold (at_ (apply_selections a (map2 sel_of (shape a) l)) (kept l j)).
  change (nth _ _ _) with (at_ (apply_selections a (map2 sel_of (shape a) l)) (kept l j)).
  unfold apply_selections. rewrite at_build by exact I1. now rewrite I4.
Qed.
Lemma piece_filled a l : Forall2 plain_index (shape a) l -> filled (piece a l).
Proof.
  intros H. unfold filled, piece. cbn [shape cells]. rewrite <- plain_product by exact H.
  apply filled_build.
Qed.

Lemma rebuild_plain a l x : Forall2 plain_index (shape a) l ->
  x = NStd (Many l) \/ (exists i, l = [i] /\ x = NStd (Bare i)) ->
  rebuild (shape a) x (apply_selections a (map2 sel_of (shape a) l)) = Ok (piece a l).
Proof.
  intros H Hx. unfold rebuild.
  set (r := apply_selections a _).
  assert (Sr : shape r = selected_shape (map2 sel_of (shape a) l)) by reflexivity.
  destruct (Nat.eqb _ _) eqn:E.
  - apply Nat.eqb_eq in E. unfold ndmin. rewrite E, Nat.sub_diag. cbn [repeat app].
    rewrite Sr in *. rewrite selected_length by assumption. reflexivity.
  - destruct Hx as [-> | (i & -> & ->)].
    + rewrite (axis_sizes_plain (shape a) l (shape a) 0 H) by reflexivity. cbn [bind].
      rewrite reshape_nat; [reflexivity|]. cbn [ndmin cells]. exact (piece_filled a l H).
    + f_equal. unfold piece, ndmin. fold r. f_equal.
      inversion H as [|n i' s l' H1 H2 E1 E2]; subst. inversion H2; subst.
      rewrite Sr in *. rewrite <- E1 in *. rewrite map2_cons in *.
      destruct i as [z|b c d| | |q]; try contradiction; [reflexivity|]. cbn in E. discriminate.
Qed.

Lemma plain_standard s l : Forall2 plain_index s l -> forallb builtin l = true.
Proof.
  intros H. induction H as [|n i s l H F IH]; [reflexivity|]. cbn. rewrite IH.
  destruct i; try contradiction; reflexivity.
Qed.

Section Objects.
Context {D U : Type} (asarray : D -> arr) (get : D -> nindex -> res arr) (has_shape : D -> bool).
Hypothesis R : reads_like asarray get.
Notation meaning := (@ArraySpec.meaning D U asarray).
Notation shaped := (@ArraySpec.shaped D U asarray).

Lemma meaning_shape o : shaped o -> shape (meaning o) = shape (data_array asarray (o_data o)).
Proof. intros [H _]. exact H. Qed.
Lemma related_self o : shaped o -> related asarray o (mkValue (meaning o) (o_unit o) (o_dims o)) (true, true).
Proof. intros H. unfold related. cbn. repeat split; try apply H; auto; discriminate. Qed.

Lemma value_make_same a (dims : list str) (u : U) : length dims = length (shape a) -> value_make a dims u = Ok (mkValue a u dims).
Proof.
  intros H. unfold value_make. destruct dims as [|d dims]; cbn [length] in *.
  - rewrite <- H. reflexivity.
  - rewrite <- H, Nat.eqb_refl. reflexivity.
Qed.

Lemma subset_by_value o s b : shaped o ->
  value_subset (mkValue (meaning o) (o_unit o) (o_dims o)) s = Ok (mkValue b (o_unit o) (o_dims o)) ->
  exists n o', getitem asarray get has_shape o s = (Ok n, o') /\ meaning o' = meaning o /\
    o_unit o' = o_unit o /\ o_dims o' = o_dims o /\
    meaning n = b /\ o_unit n = o_unit o /\ o_dims n = o_dims o.
Proof.
  intros H E. destruct (subset_ok asarray get has_shape R o _ _ s (related_self o H)) as (r & o' & G & Ro & W).
  rewrite E in W. destruct W as (n & -> & Rn). exists n, o'. split; [exact G|].
  destruct Ro as (A1 & A2 & A3 & _). destruct Rn as (B1 & B2 & B3 & _). cbn in *. auto 10.
Qed.
Lemma subset_error o s e : shaped o ->
  value_subset (mkValue (meaning o) (o_unit o) (o_dims o)) s = Err e ->
  exists o', getitem asarray get has_shape o s = (Err e, o').
Proof.
  intros H E. destruct (subset_ok asarray get has_shape R o _ _ s (related_self o H)) as (r & o' & G & Ro & W).
  rewrite E in W. subst r. eauto.
Qed.

Theorem subset_plain o l : shaped o -> filled (meaning o) -> Forall2 plain_index (shape (meaning o)) l ->
  exists n o', getitem asarray get has_shape o (Many l) = (Ok n, o') /\ meaning o' = meaning o /\
    o_unit o' = o_unit o /\ o_dims o' = o_dims o /\
    meaning n = piece (meaning o) l /\ o_unit n = o_unit o /\ o_dims n = o_dims o.
Proof.
  intros H F P. apply subset_by_value; [exact H|].
  unfold value_subset. cbn [v_array v_unit v_dims].
  pose proof (F2_length _ _ _ P) as L.
  assert (Ls : length (o_dims o) = length (shape (meaning o))) by (rewrite meaning_shape by exact H; apply H).
  assert (V : value_make (piece (meaning o) l) (o_dims o) (o_unit o) = Ok (mkValue (piece (meaning o) l) (o_unit o) (o_dims o))).
  { apply value_make_same. cbn [piece shape]. rewrite map2_length by exact L. exact Ls. }
  assert (B : forall x, x = NStd (Many l) \/ (exists i, l = [i] /\ x = NStd (Bare i)) ->
    missing x = false -> np_get (meaning o) x = Ok (apply_selections (meaning o) (map2 sel_of (shape (meaning o)) l))).
  { intros x [-> | (i & -> & ->)] _; cbn [np_get]; now apply basic_plain. }
  assert (G : forall x, x = NStd (Many l) \/ (exists i, l = [i] /\ x = NStd (Bare i)) -> missing x = false ->
    (do a <- value_read (mkValue (meaning o) (o_unit o) (o_dims o)) x;
     do b <- rebuild (shape (meaning o)) x a; value_make b (o_dims o) (o_unit o)) =
    Ok (mkValue (piece (meaning o) l) (o_unit o) (o_dims o))).
  { intros x Hx Hm. unfold value_read. rewrite Hm. cbn [v_array]. rewrite B by assumption. cbn [bind].
    rewrite rebuild_plain by assumption. exact V. }
  pose proof (plain_standard _ _ P) as St.
  destruct l as [|i [|j l]].
  - cbn [unwrap_subscript normalize standard forallb bind]. unfold value_read. cbn [missing bind v_array].
    assert (E : shape (meaning o) = []) by (clear - P; destruct (shape (meaning o)); [reflexivity|inversion P]).
    unfold rebuild, ndmin. rewrite E. cbn [length Nat.eqb Nat.sub repeat app bind].
    rewrite <- V. f_equal. unfold piece, apply_selections, build. cbn [cells]. rewrite E. f_equal.
    unfold filled in F. unfold at_. rewrite E in *. cbn in F |- *.
    destruct (map _ (cells _)) as [|x [|y c]]; try discriminate. reflexivity.
  - assert (Hi : unwrap_subscript (Many [i]) = Bare i).
    { inversion P; subst. destruct i; try contradiction; reflexivity. }
    rewrite Hi. unfold normalize. cbn [standard]. cbn [forallb] in St. rewrite andb_true_r in St. rewrite St.
    cbn [bind]. apply G; [right; eauto|]. inversion P; subst. destruct i; try contradiction; reflexivity.
  - cbn [unwrap_subscript]. unfold normalize. cbn [standard]. rewrite St. cbn [bind].
    apply G; [now left|reflexivity].
Qed.
End Objects.
