(** Lemmas about subsets by lists, sums, and removed axes of array-like
    quantities. *)

From Coq Require Import String Ascii List Bool ZArith QArith Qcanon Lia.
From Verif Require Import Py PyFacts PyDict IterablesModel IterablesSpec IterablesProofs MetadataModel MetadataSpec MetadataProofs.
From Verif Require Import ArrayModel ArraySpec ArrayProofs ArrayOpsProofs MeshProofs.
Import ListNotations.
Open Scope list_scope.
Open Scope nat_scope.

(** * Subsets by lists of positions *)

Definition list_of (n : nat) (i : item) : list Z :=
  match i with ISeq l => l | _ => map Z.of_nat (seq 0 n) end.
Lemma cross_lists s l : Forall2 cross_index s l -> cross s l = Ok (map2 (fun n i => ISeq (list_of n i)) s l).
Proof.
  intros H. induction H as [|n i s l H F IH]; [reflexivity|].
  destruct i as [z|[|] [|] [|]| | |q]; try contradiction; cbn [cross tl]; rewrite IH; reflexivity.
Qed.
Lemma only_lists_ok s l : Forall2 cross_index s l ->
  only_lists (map2 (fun n i => ISeq (list_of n i)) s l) = Ok (map2 list_of s l).
Proof.
  intros H. induction H as [|n i s l H F IH]; [reflexivity|]. rewrite !map2_cons.
  unfold only_lists in *. cbn [mapM bind]. now rewrite IH.
Qed.
Lemma cross_no_ell s l : Forall2 cross_index s l -> expand_ellipsis (length s) l = l.
Proof.
  intros H. unfold expand_ellipsis. replace (forallb _ l) with true; [reflexivity|]. symmetry.
  induction H as [|n i s l H F IH]; [reflexivity|]. cbn. rewrite IH.
  destruct i; try contradiction; reflexivity.
Qed.
Lemma nth_error_seq m : forall s j, nth_error (seq s m) j = if Nat.ltb j m then Some (s + j) else None.
Proof.
  induction m as [|m IH]; intros s [|j]; cbn [seq nth_error]; try reflexivity.
  - cbn. now rewrite Nat.add_0_r.
  - rewrite IH. change (Nat.ltb (S j) (S m)) with (Nat.ltb j m). destruct (Nat.ltb j m); [|reflexivity]. f_equal. lia.
Qed.
Lemma nth_error_ext {A} (l r : list A) : (forall k, nth_error l k = nth_error r k) -> l = r.
Proof.
  revert r. induction l as [|x l IH]; intros [|y r] H; auto.
  - specialize (H 0). discriminate.
  - specialize (H 0). discriminate.
  - pose proof (H 0) as H0. injection H0 as ->. f_equal. apply IH. intros k. apply (H (S k)).
Qed.
Lemma mesh_as_map ls : mesh ls = map (fun k => mesh_one (length ls) k (nth k ls [])) (seq 0 (length ls)).
Proof.
  apply nth_error_ext. intros k. rewrite nth_error_map, nth_error_seq.
  destruct (Nat.ltb_spec k (length ls)) as [H|H].
  - destruct (nth_error ls k) as [l|] eqn:E; [|apply nth_error_None in E; lia].
    rewrite (mesh_nth _ _ _ E). cbn. now rewrite (nth_error_nth _ _ [] E).
  - cbn. apply nth_error_None. rewrite mesh_length. lia.
Qed.

Lemma nth_map2 {A B C} (f : A -> B -> C) l r k x y d : nth_error l k = Some x -> nth_error r k = Some y ->
  nth k (map2 f l r) d = f x y.
Proof.
  revert r k. induction l as [|a l IH]; intros [|b r] [|k] H1 H2; try discriminate; cbn in *.
  - congruence.
  - now apply IH.
Qed.
Lemma F2_nth {A B} (P : A -> B -> Prop) l r k x : Forall2 P l r -> nth_error l k = Some x ->
  exists y, nth_error r k = Some y /\ P x y.
Proof.
  intros H. revert k. induction H as [|a b l r H F IH]; intros [|k] E; try discriminate; cbn in *; eauto.
  injection E as <-. eauto.
Qed.

Lemma fancy_cross a l : Forall2 cross_index (shape a) l -> l <> [] ->
  exists r, fancy a (mesh (map2 list_of (shape a) l)) = Ok r /\ shape r = map2 cross_extent (shape a) l /\ filled r /\
    forall j, inside (shape r) j -> at_ r j = at_ a (cross_all (shape a) l j).
Proof.
  intros H Nl. set (ls := map2 list_of (shape a) l).
  pose proof (F2_length _ _ _ H) as L.
  assert (Lls : length ls = length (shape a)) by (unfold ls; apply map2_length, L).
  rewrite mesh_as_map.
  destruct (fancy_mesh a ls (seq 0 (length ls))) as (r & Fr & Sr & Fi & Ar).
  - now rewrite seq_length.
  - intros E. assert (length (seq 0 (length ls)) = 0) as Z by now rewrite E. rewrite seq_length in Z.
    destruct l; [contradiction|cbn in L; lia].
  - intros k Ik. apply in_seq in Ik. lia.
  - intros m n Hm. assert (m < length (shape a)) by (apply nth_error_Some; congruence).
    rewrite seq_nth by lia. cbn [Nat.add]. destruct (F2_nth _ _ _ _ _ H Hm) as (i & Hi & P).
    unfold ls. rewrite (nth_map2 list_of _ _ m n i [] Hm Hi).
    destruct i as [z|[|] [|] [|]| | |q]; try contradiction; cbn [list_of]; [|exact P].
    apply Forall_forall. intros z Iz. apply in_map_iff in Iz as (x & <- & Ix). apply in_seq in Ix. lia.
  - assert (Ssh : map (some_axes (fun k => length (nth k ls [])) (seq 0 (length ls))) (seq 0 (length ls)) = map2 cross_extent (shape a) l).
    { apply nth_error_ext. intros k. rewrite nth_error_map, nth_error_seq.
      destruct (Nat.ltb_spec k (length ls)) as [Hk|Hk].
      - cbn [option_map Nat.add]. rewrite Lls in Hk.
        destruct (nth_error (shape a) k) as [n|] eqn:En; [|apply nth_error_None in En; lia].
        destruct (F2_nth _ _ _ _ _ H En) as (i & Hi & P).
        unfold some_axes, memb. replace (existsb _ _) with true.
        2:{ symmetry. apply existsb_exists. exists k. split; [apply in_seq; lia|apply Nat.eqb_refl]. }
        unfold ls. rewrite (nth_map2 list_of _ _ k n i [] En Hi).
        assert (Lk : k < length (map2 cross_extent (shape a) l)) by (rewrite map2_length; lia).
        rewrite (nth_error_nth' _ 0 Lk). rewrite (nth_map2 cross_extent _ _ k n i 0 En Hi). f_equal.
        destruct i as [z|[|] [|] [|]| | |q]; try contradiction; cbn; [now rewrite map_length, seq_length|reflexivity].
      - cbn. symmetry. apply nth_error_None. rewrite map2_length; lia. }
    rewrite Ssh in Sr, Ar. exists r. rewrite Sr. split; [exact Fr|]. split; [reflexivity|]. split; [exact Fi|].
    intros j Hj. rewrite Ar by exact Hj. f_equal.
    clear - H Hj. subst ls.
    assert (G : forall s l j (pre : list (list Z)) (jp : list nat), Forall2 cross_index s l -> inside (map2 cross_extent s l) j ->
      length pre = length jp ->
      map (fun p => wrap (fst p) (nth (nth (snd p) (jp ++ j) 0) (nth (snd p) (pre ++ map2 list_of s l) []) 0%Z))
        (combine s (seq (length pre) (length s))) = cross_all s l j).
    { clear. intros s l j pre jp H. revert j pre jp. induction H as [|n i s l H F IH]; intros j pre jp Hj Lp; [reflexivity|].
      rewrite map2_cons in Hj. inversion Hj as [|k e j' es H1 H2]; subst. cbn [length seq combine map fst snd cross_all].
      f_equal.
      - rewrite Lp at 1. rewrite !app_nth2 by lia. rewrite !Nat.sub_diag. rewrite map2_cons. cbn [nth].
        destruct i as [z|[|] [|] [|]| | |q]; try contradiction; cbn [list_of cross_chosen cross_extent] in *; [|reflexivity].
        rewrite (nth_indep _ 0%Z (Z.of_nat 0)) by (now rewrite map_length, seq_length).
        rewrite map_nth, seq_nth by exact H1. unfold wrap. cbn [Nat.add].
        rewrite (proj2 (Z.ltb_ge _ _)) by lia. lia.
      - specialize (IH j' (pre ++ [list_of n i]) (jp ++ [k]) H2). rewrite !app_length in IH. cbn [length] in IH.
        rewrite Nat.add_1_r in IH. rewrite <- IH by lia. apply map_ext. intros p. rewrite <- !app_assoc. reflexivity. }
    specialize (G _ _ j [] [] H Hj eq_refl). cbn [length app] in G. rewrite map2_length by (eapply F2_length; eauto). exact G.
Qed.

Section Objects.
Context {D U : Type} (asarray : D -> arr) (get : D -> nindex -> res arr) (has_shape : D -> bool).
Hypothesis R : reads_like asarray get.
Notation meaning := (@ArraySpec.meaning D U asarray).
Notation shaped := (@ArraySpec.shaped D U asarray).

Theorem subset_cross (o : object D U) l : shaped o -> Forall2 cross_index (shape (meaning o)) l ->
  2 <= length l -> (exists q, In (ISeq q) l) ->
  exists n o', getitem asarray get has_shape o (Many l) = (Ok n, o') /\ meaning o' = meaning o /\
    o_unit o' = o_unit o /\ o_dims o' = o_dims o /\ o_unit n = o_unit o /\ o_dims n = o_dims o /\
    shape (meaning n) = map2 cross_extent (shape (meaning o)) l /\
    forall j, inside (shape (meaning n)) j -> at_ (meaning n) j = at_ (meaning o) (cross_all (shape (meaning o)) l j).
Proof.
  intros Sh H L2 Hq. pose proof (F2_length _ _ _ H) as L.
  assert (Nl : l <> []) by (intros ->; cbn in L2; lia).
  destruct (fancy_cross (meaning o) l H Nl) as (r & Fr & Sr & Fi & Ar).
  destruct (subset_by_value asarray get has_shape R o (Many l) r Sh) as (n & o' & G & M1 & M2 & M3 & M4 & M5 & M6).
  - unfold value_subset. cbn [v_array v_unit v_dims].
    assert (Un : unwrap_subscript (Many l) = Many l) by (destruct l as [|x [|y l']]; [contradiction|cbn in L2; lia|reflexivity]).
    rewrite Un. unfold normalize.
    replace (standard (Many l)) with false.
    2:{ symmetry. cbn [standard]. destruct Hq as (q & Iq). apply not_true_iff_false. intros C.
        rewrite forallb_forall in C. apply C in Iq. discriminate. }
    rewrite cross_no_ell by exact H. rewrite cross_lists by exact H. cbn [bind].
    rewrite only_lists_ok by exact H. cbn [bind]. unfold value_read. cbn [v_array].
    replace (missing (NFancy (mesh (map2 list_of (shape (meaning o)) l)))) with false.
    2:{ destruct (shape (meaning o)) as [|a s], l as [|x l]; try reflexivity; try contradiction. cbn in L. lia. }
    cbn [np_get]. rewrite Fr. cbn [bind].
    unfold rebuild. rewrite Sr, map2_length by exact L. rewrite Nat.eqb_refl. cbn [bind].
    unfold ndmin. rewrite Sr, map2_length, Nat.sub_diag by exact L. cbn [repeat app]. rewrite <- Sr.
    replace (mkArr (shape r) (cells r)) with r by now destruct r.
    apply value_make_same. rewrite Sr, map2_length by exact L. rewrite meaning_shape by exact Sh. apply Sh.
  - exists n, o'. rewrite M4. repeat split; auto.
Qed.

(** * Sums *)

Lemma bcast2_self s : bcast2 s s = Some s.
Proof. induction s as [|n s IH]; cbn; [reflexivity|]. now rewrite IH, Nat.eqb_refl. Qed.
Lemma bcast2_ones s : bcast2 s (repeat 1 (length s)) = Some s.
Proof.
  induction s as [|n s IH]; cbn [bcast2 repeat length]; [reflexivity|]. rewrite IH.
  destruct (Nat.eqb_spec n 1) as [->|]; reflexivity.
Qed.
Lemma broadcast_self s : broadcast [s; s] = Some s.
Proof.
  unfold broadcast. cbn [map fold_right]. replace (Nat.max _ _) with (length s) by lia.
  rewrite pad_same by reflexivity. rewrite bcast2_ones. apply bcast2_self.
Qed.
Lemma bindex_inside s i : inside s i -> bindex s i = i.
Proof.
  intros H. rewrite bindex_same by (now apply length_inside).
  induction H as [|k n i s H1 H2 IH]; [reflexivity|]. cbn [combine map fst snd]. rewrite IH.
  f_equal. destruct (Nat.eqb_spec n 1); lia.
Qed.

Lemma made_from (b : arr) dims (u : U) : length dims = length (shape b) ->
  exists r, new_from_data asarray get has_shape (Memory b) dims u = Ok r /\ o_dims r = dims /\ o_unit r = u /\
            meaning r = b.
Proof.
  intros L. pose proof (new_from_data_ok asarray get has_shape (Memory b) dims u) as N. cbn [data_array] in N.
  rewrite value_make_same in N by exact L.
  destruct N as (o & N & P1 & P2 & P3 & P4 & P5 & P6 & P7 & P8). exists o. repeat split; auto.
  unfold ArraySpec.meaning, ArraySpec.unscaled. rewrite P1, P2, scale_one. cbn [data_array].
  destruct P8 as [-> | ->]; reflexivity.
Qed.

Theorem sum_ok f u (a b : object D U) : shaped a -> shaped b ->
  o_dims a = o_dims b -> shape (meaning a) = shape (meaning b) ->
  exists r, array_sum asarray get has_shape f u a b = Ok r /\ o_dims r = o_dims a /\ o_unit r = u /\
    shape (meaning r) = shape (meaning a) /\
    forall i, inside (shape (meaning r)) i -> at_ (meaning r) i = f (at_ (meaning a) i) (at_ (meaning b) i).
Proof.
  intros Sa Sb Ed Es. unfold array_sum.
  destruct (get_array_ok asarray get R a NAll) as (a' & -> & _).
  destruct (get_array_ok asarray get R b NAll) as (b' & -> & _). cbn [missing bind].
  unfold ufunc2. rewrite <- Es, broadcast_self. cbn [bind].
  replace (dims_eq (o_dims b) (DDims (o_dims a))) with true.
  2:{ symmetry. apply dims_eq_spec. rewrite Ed. split; [reflexivity|apply incl_refl]. }
  cbn [negb]. set (r := build _ _).
  destruct (made_from r (o_dims a) u) as (o & N & P1 & P2 & P3).
  { unfold r, build. cbn [shape]. rewrite meaning_shape by exact Sa. apply Sa. }
  exists o. split; [exact N|]. rewrite P3. repeat split; auto.
  intros i Hi. unfold r. rewrite at_build by exact Hi. now rewrite bindex_inside by exact Hi.
Qed.

Theorem sum_other_axes f u (a b : object D U) d : shape (meaning a) = shape (meaning b) ->
  In d (o_dims a) -> ~ In d (o_dims b) -> array_sum asarray get has_shape f u a b = Err MetadataError.
Proof.
  intros Es Ia Ib. unfold array_sum.
  destruct (get_array_ok asarray get R a NAll) as (a' & -> & _).
  destruct (get_array_ok asarray get R b NAll) as (b' & -> & _). cbn [missing bind].
  unfold ufunc2. rewrite <- Es, broadcast_self. cbn [bind].
  replace (dims_eq (o_dims b) (DDims (o_dims a))) with false; [reflexivity|].
  symmetry. apply not_true_iff_false. intros H. apply dims_eq_spec in H as [_ H]. apply Ib. now apply H.
Qed.

(** * Removing axes *)

Lemma squeeze_ravel s : forall j, length j = length (filter (fun n => negb (Nat.eqb n 1)) s) ->
  ravel s (with_single s j) = ravel (filter (fun n => negb (Nat.eqb n 1)) s) j /\
  product s = product (filter (fun n => negb (Nat.eqb n 1)) s).
Proof.
  induction s as [|n s IH]; intros j L; [split; reflexivity|].
  cbn [filter with_single] in *. destruct (Nat.eqb_spec n 1) as [->|Nn]; cbn [negb] in *.
  - destruct (IH j L) as [I1 I2]. split; [cbn [ravel]; lia|].
    change (product (1 :: s)) with (1 * product s). lia.
  - destruct j as [|k j]; [discriminate|]. cbn [length] in L. injection L as L. destruct (IH j L) as [I1 I2].
    cbn [ravel]. rewrite I1. split; [now rewrite I2|].
    change (product (n :: s)) with (n * product s). rewrite I2. reflexivity.
Qed.

Lemma filter_combine (ds : list str) s : length ds = length s ->
  length (map fst (filter (fun p => negb (Nat.eqb (snd p) 1)) (combine ds s))) = length (filter (fun n => negb (Nat.eqb n 1)) s).
Proof.
  revert s. induction ds as [|d ds IH]; intros [|n s] L; try discriminate; [reflexivity|].
  cbn [combine filter snd]. destruct (Nat.eqb n 1); cbn [negb map length]; [apply IH|rewrite IH]; cbn in L; lia.
Qed.

Theorem squeeze_ok (o : object D U) : shaped o ->
  exists r, squeeze asarray get has_shape o = Ok r /\ o_unit r = o_unit o /\
    o_dims r = map fst (filter (fun p => negb (Nat.eqb (snd p) 1)) (combine (o_dims o) (shape (meaning o)))) /\
    shape (meaning r) = filter (fun n => negb (Nat.eqb n 1)) (shape (meaning o)) /\
    forall j, inside (shape (meaning r)) j -> at_ (meaning r) j = at_ (meaning o) (with_single (shape (meaning o)) j).
Proof.
  intros Sh. unfold squeeze.
  destruct (get_array_ok asarray get R o NAll) as (o' & -> & P1 & P2 & P3 & P4 & P5 & P6). cbn [missing].
  assert (Sh' : shaped o') by (unfold ArraySpec.shaped; rewrite P5, P1, P4; exact Sh).
  destruct (get_shape_ok asarray get has_shape R o' Sh') as (o2 & -> & _).
  rewrite <- meaning_shape by exact Sh'.
  replace (meaning o') with (meaning o) by (unfold ArraySpec.meaning; now rewrite P2, P5).
  assert (Ls : length (o_dims o) = length (shape (meaning o))) by (rewrite meaning_shape by exact Sh; apply Sh).
  set (b := mkArr _ _).
  destruct (made_from b (map fst (filter (fun p => negb (Nat.eqb (snd p) 1)) (combine (o_dims o) (shape (meaning o))))) (o_unit o)) as (r & N & Q1 & Q2 & Q3).
  { cbn [b shape]. now apply filter_combine. }
  exists r. rewrite Q3. repeat split; auto.
  intros j Hj. cbn [b shape] in Hj. unfold at_. cbn [b shape cells].
  destruct (squeeze_ravel (shape (meaning o)) j (length_inside _ _ Hj)) as [<- _]. reflexivity.
Qed.

Lemma index_filter (ds : list str) k : NoDup ds -> k < length ds ->
  filter (fun d => match index_of d ds with Some j => negb (Z.eqb (Z.of_nat j) (Z.of_nat k)) | None => true end) ds = without k ds.
Proof.
  intros N Hk.
  assert (G : forall pre post, ds = pre ++ post ->
    filter (fun d => match index_of d ds with Some j => negb (Z.eqb (Z.of_nat j) (Z.of_nat k)) | None => true end) post =
    if Nat.leb (length pre) k then without (k - length pre) post else post).
  { intros pre post. revert pre. induction post as [|d post IH]; intros pre E.
    - unfold without. rewrite firstn_nil, skipn_nil. now destruct (Nat.leb _ _).
    - cbn [filter]. rewrite (IH (pre ++ [d])) by (now rewrite <- app_assoc).
      assert (Id : nth_error ds (length pre) = Some d) by (rewrite E, nth_error_app2, Nat.sub_diag by lia; reflexivity).
      rewrite index_of_where by (eapply nth_error_In; eauto). rewrite (where_nth d ds _ N Id).
      rewrite app_length. cbn [length].
      destruct (Nat.leb_spec (length pre) k) as [C|C].
      + destruct (Z.eqb_spec (Z.of_nat (length pre)) (Z.of_nat k)) as [Ek|Ek]; cbn [negb].
        * replace (k - length pre) with 0 by lia. rewrite (proj2 (Nat.leb_gt _ _)) by lia. reflexivity.
        * rewrite (proj2 (Nat.leb_le _ _)) by lia. replace (k - length pre) with (S (k - (length pre + 1))) by lia. reflexivity.
      + destruct (Z.eqb_spec (Z.of_nat (length pre)) (Z.of_nat k)) as [Ek|Ek]; [lia|]. cbn [negb].
        rewrite (proj2 (Nat.leb_gt _ _)) by lia. reflexivity. }
  specialize (G [] ds eq_refl). cbn [length Nat.leb] in G. now rewrite Nat.sub_0_r in G.
Qed.

Lemma without_length {A} k (l : list A) : k < length l -> length (without k l) = length l - 1.
Proof.
  intros H. unfold without. rewrite app_length, firstn_length, skipn_length. lia.
Qed.

Theorem mean_ok (o : object D U) k : shaped o -> NoDup (o_dims o) -> k < length (shape (meaning o)) ->
  exists r, mean asarray get has_shape o (Z.of_nat k) = Ok r /\ o_unit r = o_unit o /\
    o_dims r = without k (o_dims o) /\ shape (meaning r) = without k (shape (meaning o)) /\
    forall j, inside (shape (meaning r)) j ->
      at_ (meaning r) j = average (map (fun m => at_ (meaning o) (inserted k m j)) (seq 0 (nth k (shape (meaning o)) 0))).
Proof.
  intros Sh N Hk. unfold mean. destruct (get_array_ok asarray get R o NAll) as (o' & -> & _). cbn [missing].
  assert (Ls : length (o_dims o) = length (shape (meaning o))) by (rewrite meaning_shape by exact Sh; apply Sh).
  unfold position. rewrite (proj2 (Z.leb_le _ _)) by lia. rewrite (proj2 (Z.ltb_lt (Z.of_nat k) _)) by lia. cbn [andb bind].
  rewrite (proj2 (Z.ltb_ge (Z.of_nat k) 0)) by lia. rewrite Nat2Z.id. rewrite index_filter by (auto; lia).
  destruct (made_from (mean_cells (meaning o) k) (without k (o_dims o)) (o_unit o)) as (r & M & Q1 & Q2 & Q3).
  { cbn [mean_cells build shape]. fold (without k (shape (meaning o))). rewrite !without_length by lia. lia. }
  exists r. rewrite Q3. repeat split; auto.
  intros j Hj. unfold mean_cells in *. rewrite at_build by exact Hj.
  unfold average. rewrite map_length, seq_length. reflexivity.
Qed.

Theorem mean_negative (o : object D U) axis : shaped o -> (- Z.of_nat (length (shape (meaning o))) <= axis < 0)%Z ->
  mean asarray get has_shape o axis = Err ValueError.
Proof.
  intros Sh Ha. unfold mean. destruct (get_array_ok asarray get R o NAll) as (o' & -> & _). cbn [missing].
  assert (Ls : length (o_dims o) = length (shape (meaning o))) by (rewrite meaning_shape by exact Sh; apply Sh).
  unfold position. rewrite (proj2 (Z.leb_le _ _)) by lia. rewrite (proj2 (Z.ltb_lt axis (Z.of_nat _))) by lia. cbn [andb bind].
  rewrite (proj2 (Z.ltb_lt axis 0)) by lia.
  replace (filter _ (o_dims o)) with (o_dims o).
  2:{ rewrite <- (filter_ext (fun _ => true)).
      - clear. induction (o_dims o) as [|d l IH]; cbn; [reflexivity|]. now rewrite <- IH.
      - intros d. destruct (index_of d (o_dims o)) as [j|]; [|reflexivity].
        rewrite (proj2 (Z.eqb_neq _ _)) by lia. reflexivity. }
  set (k := Z.to_nat _). pose proof (new_from_data_ok asarray get has_shape (Memory (mean_cells (meaning o) k)) (o_dims o) (o_unit o)) as N.
  cbn [data_array] in N. unfold value_make in N.
  assert (Hk : k < length (shape (meaning o))) by (unfold k; lia).
  assert (Lm : length (shape (mean_cells (meaning o) k)) = length (shape (meaning o)) - 1).
  { cbn [mean_cells build shape]. fold (without k (shape (meaning o))). now apply without_length. }
  destruct (o_dims o) as [|d ds] eqn:Ed; [cbn [length] in Ls; lia|].
  rewrite Lm, <- Ls in N. rewrite (proj2 (Nat.eqb_neq _ _)) in N by (cbn [length]; lia). exact N.
Qed.
End Objects.

(** * Ellipsis *)

Section Ellipsis.
Context {D U : Type} (asarray : D -> arr) (get : D -> nindex -> res arr) (has_shape : D -> bool).
Hypothesis R : reads_like asarray get.
Notation meaning := (@ArraySpec.meaning D U asarray).
Notation shaped := (@ArraySpec.shaped D U asarray).

Lemma outcome_by_value (o : object D U) s1 s2 : shaped o ->
  value_subset (mkValue (meaning o) (o_unit o) (o_dims o)) s1 = value_subset (mkValue (meaning o) (o_unit o) (o_dims o)) s2 ->
  same_outcome asarray (fst (getitem asarray get has_shape o s1)) (fst (getitem asarray get has_shape o s2)).
Proof.
  intros H E.
  destruct (subset_ok asarray get has_shape R o _ _ s1 (related_self asarray o H)) as (r1 & o1 & -> & _ & W1).
  destruct (subset_ok asarray get has_shape R o _ _ s2 (related_self asarray o H)) as (r2 & o2 & -> & _ & W2).
  rewrite E in W1. destruct (value_subset _ s2) as [v|e]; cbn [fst].
  - destruct W1 as (n1 & -> & R1). destruct W2 as (n2 & -> & R2).
    destruct R1 as (A1 & A2 & A3 & _), R2 as (B1 & B2 & B3 & _). cbn in *. repeat split; congruence.
  - now subst.
Qed.

Lemma no_ell_app l r : forallb (fun i => negb (is_ell i)) (l ++ r) = true ->
  forallb (fun i => negb (is_ell i)) l = true /\ forallb (fun i => negb (is_ell i)) r = true.
Proof. rewrite forallb_app. apply andb_true_iff. Qed.
Lemma no_ell_full k : forallb (fun i => negb (is_ell i)) (repeat full_slice k) = true.
Proof. induction k as [|k IH]; [reflexivity|exact IH]. Qed.

Theorem ellipsis_lists (o : object D U) pre post : shaped o ->
  forallb (fun i => negb (is_ell i)) (pre ++ post) = true -> existsb is_seq (pre ++ post) = true ->
  length (pre ++ post) < length (shape (meaning o)) ->
  post = [] \/ S (length (pre ++ post)) = length (shape (meaning o)) ->
  same_outcome asarray
    (fst (getitem asarray get has_shape o (Many (pre ++ IEll :: post))))
    (fst (getitem asarray get has_shape o
            (Many (pre ++ repeat full_slice (length (shape (meaning o)) - length (pre ++ post)) ++ post)))).
Proof.
  intros Sh He Hq L C. apply no_ell_app in He as [He1 He2].
  apply outcome_by_value; [exact Sh|]. unfold value_subset. cbn [v_array v_unit v_dims].
  set (s := shape (meaning o)) in *. set (k := length s - length (pre ++ post)).
  assert (Lp : length (pre ++ post) = length pre + length post) by apply app_length.
  assert (P : 1 <= length (pre ++ post)) by (destruct (pre ++ post); [discriminate|cbn; lia]).
  assert (U1 : forall l, 2 <= length l -> unwrap_subscript (Many l) = Many l).
  { intros [|x [|y l]] H; try (cbn in H; lia); reflexivity. }
  rewrite (U1 (pre ++ IEll :: post)) by (rewrite app_length; cbn [length]; lia).
  rewrite (U1 (pre ++ repeat full_slice k ++ post)) by (rewrite !app_length, repeat_length; lia).
  unfold normalize.
  assert (St : forall l r, existsb is_seq (l ++ r) = true -> forall m, standard (Many (l ++ m ++ r)) = false).
  { intros l r H m. cbn [standard]. apply not_true_iff_false. intros F. rewrite forallb_forall in F.
    apply existsb_exists in H as (x & Ix & Hx). assert (builtin x = true).
    { apply F. apply in_app_or in Ix as [I|I]; apply in_or_app; [now left|right; apply in_or_app; now right]. }
    destruct x; discriminate. }
  rewrite (St pre post Hq (repeat full_slice k)). change (pre ++ IEll :: post) with (pre ++ [IEll] ++ post) at 1.
  rewrite (St pre post Hq [IEll]).
  assert (E1 : expand_ellipsis (length s) (pre ++ IEll :: post) = pre ++ repeat full_slice k ++ post).
  { rewrite expand_exact by (auto; lia). f_equal. unfold k.
    replace (length s - length (pre ++ post)) with (length s - length pre - length post) by lia. f_equal.
    destruct C as [-> | C]; [now rewrite skipn_nil|].
    replace (length s - length pre - length post - 1) with 0 by lia. reflexivity. }
  assert (E2 : expand_ellipsis (length s) (pre ++ repeat full_slice k ++ post) = pre ++ repeat full_slice k ++ post).
  { unfold expand_ellipsis. now rewrite !forallb_app, He1, He2, no_ell_full. }
  now rewrite E1, E2.
Qed.

(** An ellipsis between slices. *)
Lemma slices_consume l : forallb is_slice l = true -> filter consumes l = l.
Proof.
  induction l as [|i l IH]; [reflexivity|]. cbn. intros H. apply andb_true_iff in H as [H1 H2].
  destruct i; try discriminate. cbn. now rewrite IH.
Qed.
Lemma slices_no_ell l : forallb is_slice l = true -> filter is_ell l = [].
Proof.
  induction l as [|i l IH]; [reflexivity|]. cbn. intros H. apply andb_true_iff in H as [H1 H2].
  destruct i; try discriminate. cbn. now rewrite IH.
Qed.
Lemma slices_builtin l : forallb is_slice l = true -> forallb builtin l = true.
Proof.
  induction l as [|i l IH]; [reflexivity|]. cbn. intros H. apply andb_true_iff in H as [H1 H2].
  destruct i; try discriminate. cbn. now apply IH.
Qed.
Lemma full_positions n : slice_positions n None None None = Ok (seq 0 n).
Proof.
  unfold slice_positions. cbn [Z.eqb Z.ltb Z.compare]. f_equal.
  destruct (Z.ltb_spec 0 (Z.of_nat n)) as [H|H].
  - rewrite Z.div_1_r. replace (Z.to_nat (Z.of_nat n - 0 - 1 + 1)) with n by lia.
    rewrite <- (map_id (seq 0 n)) at 2. apply map_ext. intros k. lia.
  - replace n with 0 by lia. reflexivity.
Qed.
Lemma select_full k : forall s l, k <= length s ->
  select s (repeat full_slice k ++ l) = do r <- select (skipn k s) l; Ok (map (fun n => Keep (seq 0 n)) (firstn k s) ++ r).
Proof.
  induction k as [|k IH]; intros s l H.
  - cbn [repeat app skipn firstn map]. now destruct (select s l).
  - destruct s as [|n s]; [cbn in H; lia|]. cbn [repeat app]. unfold full_slice at 1. cbn [select].
    rewrite full_positions. cbn [bind skipn firstn map]. rewrite IH by (cbn in H; lia).
    now destruct (select (skipn k s) l).
Qed.
Lemma select_ellipsis pre post : forall s, forallb is_slice pre = true -> forallb is_slice post = true ->
  length pre + length post <= length s ->
  select s (pre ++ IEll :: post) = select s (pre ++ repeat full_slice (length s - length pre - length post) ++ post).
Proof.
  induction pre as [|i pre IH]; intros s H1 H2 L.
  - cbn [app length]. rewrite Nat.sub_0_r. cbn [length Nat.add] in L. rewrite select_full by lia. cbn [select].
    rewrite slices_consume by exact H2. reflexivity.
  - cbn [forallb] in H1. apply andb_true_iff in H1 as [Hi H1]. destruct i; try discriminate.
    cbn [app select]. destruct s as [|n s]; [reflexivity|]. cbn [length] in *.
    rewrite IH by (auto; lia). reflexivity.
Qed.
Lemma select_slices l : forall s r, forallb is_slice l = true -> length l = length s -> select s l = Ok r ->
  length (selected_shape r) = length s.
Proof.
  induction l as [|i l IH]; intros [|n s] r H L E; try discriminate.
  - injection E as <-. reflexivity.
  - cbn [forallb] in H. apply andb_true_iff in H as [Hi H]. destruct i; try discriminate. cbn [select] in E.
    destruct (slice_positions _ _ _ _) as [ks|]; [|discriminate]. cbn [bind] in E.
    destruct (select s l) as [t|] eqn:Et; [|discriminate]. injection E as <-.
    unfold selected_shape. cbn [flat_map app length]. f_equal. apply IH with (r := t); auto.
Qed.

Lemma slices_full k : forallb is_slice (repeat full_slice k) = true.
Proof. induction k as [|k IH]; [reflexivity|exact IH]. Qed.
Theorem ellipsis_slices (o : object D U) pre post : shaped o ->
  forallb is_slice (pre ++ post) = true -> length (pre ++ post) <= length (shape (meaning o)) ->
  0 < length (shape (meaning o)) ->
  same_outcome asarray
    (fst (getitem asarray get has_shape o (Many (pre ++ IEll :: post))))
    (fst (getitem asarray get has_shape o
            (Many (pre ++ repeat full_slice (length (shape (meaning o)) - length (pre ++ post)) ++ post)))).
Proof.
  intros Sh H L Pos. rewrite forallb_app in H. apply andb_true_iff in H as [H1 H2].
  apply outcome_by_value; [exact Sh|]. unfold value_subset. cbn [v_array v_unit v_dims].
  set (a := meaning o). set (s := shape a). set (k := length s - length (pre ++ post)).
  assert (Lp : length (pre ++ post) = length pre + length post) by apply app_length.
  set (all := pre ++ repeat full_slice k ++ post).
  assert (Lall : length all = length s).
  { unfold all, k. rewrite !app_length, repeat_length. fold a s in L. lia. }
  assert (Hall : forallb is_slice all = true).
  { unfold all. rewrite !forallb_app, H1, H2, slices_full. reflexivity. }
  assert (Hs : select s (pre ++ IEll :: post) = select s all).
  { unfold all, k. rewrite Lp, Nat.sub_add_distr. apply select_ellipsis; auto. fold a s in L. lia. }
  assert (Sel : forall l, select s l = select s all -> Nat.ltb 1 (length (filter is_ell l)) = false ->
    Nat.ltb (length s) (length (filter consumes l)) = false ->
    basic a l = do r <- select s all; Ok (apply_selections a r)).
  { intros l E1 E2 E3. unfold basic. fold s. now rewrite E1, E2, E3. }
  assert (B1 : basic a (pre ++ IEll :: post) = do r <- select s all; Ok (apply_selections a r)).
  { apply Sel; [exact Hs| |].
    - rewrite filter_app. cbn [filter is_ell]. rewrite !slices_no_ell by assumption. reflexivity.
    - rewrite filter_app. cbn [filter consumes]. rewrite !slices_consume by assumption.
      apply Nat.ltb_ge. fold a s in L. lia. }
  assert (B2 : basic a all = do r <- select s all; Ok (apply_selections a r)).
  { apply Sel; [reflexivity| |].
    - rewrite slices_no_ell by assumption. reflexivity.
    - rewrite slices_consume by assumption. apply Nat.ltb_ge. lia. }
  set (v := mkValue a (o_unit o) (o_dims o)).
  (* The index that reaches the array, and what it reads. *)
  assert (G : forall l, forallb builtin l = true -> l <> [] ->
    basic a l = (do r <- select s all; Ok (apply_selections a r)) ->
    (do x <- normalize s (unwrap_subscript (Many l)); do b <- value_read v x; do c <- rebuild s x b; value_make c (o_dims o) (o_unit o)) =
    (do r <- select s all; value_make (ndmin (length s) (apply_selections a r)) (o_dims o) (o_unit o)) \/
    exists i, l = [i] /\ (is_slice i = false /\ i <> IEll)).
  { intros l Hl Nl E. destruct l as [|i [|j l]]; [contradiction| |].
    - cbn [forallb] in Hl. rewrite andb_true_r in Hl.
      destruct i as [z|p q w| | |q]; try discriminate; try (right; eexists; split; [reflexivity|]; split; [reflexivity|discriminate]).
      + left. cbn [unwrap_subscript unwrap_item normalize standard builtin bind]. unfold normalize. cbn [standard builtin bind].
        unfold value_read, v. cbn [missing v_array np_get]. rewrite E.
        destruct (select s all) as [r|] eqn:Er; cbn [bind]; [|reflexivity].
        unfold rebuild. cbn [apply_selections build shape]. rewrite (select_slices all s r Hall Lall Er), Nat.eqb_refl. reflexivity.
      + left. cbn [unwrap_subscript unwrap_item normalize standard builtin bind]. unfold normalize. cbn [standard builtin bind].
        unfold value_read, v. cbn [missing v_array np_get]. rewrite E.
        destruct (select s all) as [r|] eqn:Er; cbn [bind]; [|reflexivity].
        unfold rebuild. cbn [apply_selections build shape]. rewrite (select_slices all s r Hall Lall Er), Nat.eqb_refl. reflexivity.
    - left. cbn [unwrap_subscript]. unfold normalize. cbn [standard]. rewrite Hl. cbn [bind].
      unfold value_read, v. cbn [missing v_array np_get]. rewrite E.
      destruct (select s all) as [r|] eqn:Er; cbn [bind]; [|reflexivity].
      unfold rebuild. cbn [apply_selections build shape]. rewrite (select_slices all s r Hall Lall Er), Nat.eqb_refl. reflexivity. }
  destruct (G (pre ++ IEll :: post)) as [G1 | (i & Ei & C1 & C2)].
  - rewrite forallb_app. cbn [forallb builtin]. now rewrite !slices_builtin by assumption.
  - now destruct pre.
  - exact B1.
  - rewrite G1. destruct (G all) as [G2 | (i & Ei & C1 & C2)].
    + now apply slices_builtin.
    + intros E. rewrite E in Lall. fold a s in Pos. cbn [length] in Lall. lia.
    + exact B2.
    + now rewrite G2.
    + rewrite Ei in Hall. cbn in Hall. rewrite C1 in Hall. discriminate.
  - destruct pre as [|p pre]; [|destruct pre; discriminate]. cbn in Ei. injection Ei as <- E. contradiction.
Qed.
End Ellipsis.
