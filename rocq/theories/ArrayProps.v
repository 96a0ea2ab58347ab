(** Properties of array-like quantities (variable.py). *)

From Coq Require Import String Ascii List Bool ZArith QArith Qcanon Lia.
From Verif Require Import Py PyFacts PyDict IterablesModel IterablesSpec IterablesProofs MetadataModel MetadataSpec MetadataProofs.
From Verif Require Import ArrayModel ArraySpec ArrayProofs ArrayOpsProofs MeshProofs ArrayMoreProofs.
Import ListNotations.
Open Scope list_scope.
Open Scope nat_scope.

(** ** Data for the examples *)

(** Data that is a list, which cannot be subscripted like an array, or a
    variable of a file, which can.  A unit is a whole number of the smallest
    unit. *)
Definition sample : Type := (bool * arr)%type.
Definition sample_array (d : sample) : arr := snd d.
Definition sample_get (d : sample) (x : nindex) : res arr := if fst d then np_get (snd d) x else Err TypeError.
Definition sample_shape (d : sample) : bool := fst d.
Lemma sample_reads : reads_like sample_array sample_get.
Proof.
  intros [[|] a] x H; unfold sample_get, sample_array; cbn [fst snd]; [|exact I].
  destruct (np_get a x) as [b|[]]; auto.
Qed.
Definition z_eq (u v : Z) : res bool := Ok (Z.eqb u v).
Definition z_or (u v : Z) : res bool := Ok true.
Definition z_factor (u v : Z) : res Qc := Ok (Qc_of_Z u / Qc_of_Z v)%Qc.
(** The array 0, 1, 2, ... of a shape. *)
Definition counting (s : list nat) : arr := build s (fun i => Qc_of_Z (Z.of_nat (ravel s i))).
Definition object_of (s : list nat) (dims : list string) (u : Z) : object sample Z :=
  mkObject (Source (true, counting s)) None 1%Qc u (map lit dims).
Definition sample_item (o : object sample Z) (u : subscript) : res (object sample Z) :=
  fst (getitem sample_array sample_get sample_shape o u).
(** The result is an array of this shape with these whole numbers. *)
Definition arr_is (a : arr) (s : list nat) (l : list nat) : bool :=
  (if list_eq_dec Nat.eq_dec (shape a) s then true else false)
  && Nat.eqb (length (cells a)) (length l)
  && forallb (fun p => Qc_eqb (fst p) (Qc_of_Z (Z.of_nat (snd p)))) (combine (cells a) l).
Definition object_is (r : res (object sample Z)) (s : list nat) (l : list nat) : bool :=
  match r with Ok o => arr_is (meaning sample_array o) s l | Err _ => false end.
Definition shown_is (o : output) (s : list nat) (l : list nat) : bool :=
  match o with Shown (Ok a) => arr_is a s l | _ => false end.

(** ** C43: lazy loading and caching *)

(** Every history of creating, reading, converting and subsetting quantities
    shows the same as on values that are computed at once and never cached. *)
Theorem C43_lazy : forall (D U : Type) asarray get has_shape ueq uor ufactor (l : list (op D U)),
  reads_like asarray get -> no_copies l ->
  run asarray get has_shape ueq uor ufactor [] l = value_run asarray ueq uor ufactor [] l.
Proof. intros. now apply run_no_copies. Qed.
Print Assumptions C43_lazy.

(** Reading always gives the array's scaled elements and leaves its meaning. *)
Theorem C43_read : forall (D U : Type) asarray get (o : object D U) x,
  reads_like asarray get ->
  exists r o', get_array asarray get o x = (r, o') /\
    (for_all x -> r = Ok (meaning asarray o)) /\ (~ for_all x -> r = np_get (meaning asarray o) x) /\
    meaning asarray o' = meaning asarray o.
Proof.
  intros D U asarray get o x R. destruct (get_array_ok asarray get R o x) as (o' & E & P1 & P2 & P3 & P4 & P5 & P6).
  assert (M : missing x = true <-> for_all x).
  { unfold for_all. split.
    - destruct x as [|[[]|[]]|[]]; intro; try discriminate; auto 6.
    - intros [->|[->|[->| ->]]]; reflexivity. }
  eexists _, o'. split; [exact E|]. split; [|split].
  - intro H. now rewrite (proj2 M H).
  - intro H. destruct (missing x); [|reflexivity]. exfalso. apply H, M. reflexivity.
  - unfold meaning. now rewrite P2, P5.
Qed.
Print Assumptions C43_read.

Example C43_example :
  let h := [Make (false, counting [2; 2]) [lit "x"; lit "y"] 1000%Z; Read 0 (NStd (Many [IInt 1; IInt 0]));
            Convert 0 1%Z; Read 0 NAll; Read 1 (NStd (Many [IInt (-1); full_slice])); Subset 1 (Many [IInt 1; IInt 1]);
            Read 2 NAll] in
  reads_like sample_array sample_get /\ no_copies h /\
  match run sample_array sample_get sample_shape z_eq z_or z_factor [] h with
  | [_; a; _; b; c; _; d] => shown_is a [] [2] && shown_is b [2; 2] [0; 1; 2; 3] &&
                             shown_is c [2] [2000; 3000] && shown_is d [1; 1] [3000]
  | _ => false
  end = true.
Proof.
  cbv zeta. split; [exact sample_reads|]. split; [|vm_compute; reflexivity].
  intros k H. repeat (destruct H as [H|H]; [discriminate|]). destruct H.
Qed.

(** ** C44: copies *)

(** Missing: converting a copy of a converted quantity. *)
Theorem C44_copies_partial : forall (D U : Type) asarray get has_shape ueq uor ufactor (l : list (op D U)),
  reads_like asarray get -> careful asarray ueq uor ufactor [] [] l ->
  run asarray get has_shape ueq uor ufactor [] l = value_run asarray ueq uor ufactor [] l.
Proof. intros. now apply run_careful. Qed.
Print Assumptions C44_copies_partial.

(** A copy has the same array, unit and axes; so has the original still. *)
Theorem C44_copy_equal : forall (D U : Type) asarray get has_shape (o : object D U),
  reads_like asarray get -> shaped asarray o ->
  exists n o', new_from_object asarray get has_shape o = (Ok n, o') /\
    meaning asarray n = meaning asarray o /\ o_unit n = o_unit o /\ o_dims n = o_dims o /\
    meaning asarray o' = meaning asarray o /\ o_unit o' = o_unit o /\ o_dims o' = o_dims o.
Proof.
  intros D U asarray get has_shape o R H.
  destruct (copy_ok asarray get has_shape R o _ _ (related_self asarray o H)) as (n & o' & E & Ro & Rn).
  exists n, o'. split; [exact E|]. destruct Rn as (A1 & A2 & A3 & _), Ro as (B1 & B2 & B3 & _). cbn in *. auto 10.
Qed.
Print Assumptions C44_copy_equal.

(** 1 km and 2 km in a list, converted to m, copied, and converted back to km
    are 0.001 km and 0.002 km, although the copy of 1000 m and 2000 m in km is
    1 km and 2 km. *)
Theorem C44_copies_refuted :
  let h := [Make (false, mkArr [2] [Qc_of_Z 1; Qc_of_Z 2]) [lit "x"] 1000%Z; Convert 0 1%Z; Copy 1; Read 2 NAll; Convert 2 1000%Z; Read 3 NAll] in
  exists r, run sample_array sample_get sample_shape z_eq z_or z_factor [] h = r /\
    shown_is (nth 3 r (Made (Err KeyError))) [2] [1000; 2000] = true /\
    shown_is (nth 5 r (Made (Err KeyError))) [2] [1; 2] = false /\
    shown_is (nth 5 (value_run sample_array z_eq z_or z_factor [] h) (Made (Err KeyError))) [2] [1; 2] = true.
Proof.
  cbv zeta. eexists. split; [reflexivity|]. split; [vm_compute; reflexivity|]. split; vm_compute; reflexivity.
Qed.
Print Assumptions C44_copies_refuted.

Example C44_example :
  let h := [Make (true, counting [3]) [] 1000%Z; Copy 0; Convert 1 1%Z; Read 2 NAll; Copy 2; Read 3 (NStd (Bare (IInt (-1))))] in
  careful sample_array z_eq z_or z_factor [] [] h /\
  match run sample_array sample_get sample_shape z_eq z_or z_factor [] h with
  | [_; _; _; a; _; b] => shown_is a [3] [0; 1000; 2000] && shown_is b [] [2000]
  | _ => false
  end = true.
Proof.
  cbv zeta. split; [|vm_compute; reflexivity].
  cbn. repeat (split; [try exact I; intros _; reflexivity|]). exact I.
Qed.

(** ** C45: products of arrays *)

(** For any function of two numbers (product, quotient): the axes of the
    result are those of the operands, each of its own size, and an element of
    the result comes from the elements of the operands at the same place
    along their own axes. *)
Theorem C45_product : forall (D U : Type) asarray get has_shape f u (a b : object D U),
  reads_like asarray get -> shaped asarray a -> shaped asarray b -> NoDup (o_dims a) -> NoDup (o_dims b) ->
  same_sizes (o_dims a) (o_dims b) (shape (meaning asarray a)) (shape (meaning asarray b)) ->
  exists r, array_product asarray get has_shape f u a b = Ok r /\ o_unit r = u /\
    followed_by_new (o_dims a) (o_dims b) (o_dims r) /\
    length (shape (meaning asarray r)) = length (o_dims r) /\
    (forall d, In d (o_dims a) -> nth (where_is d (o_dims r)) (shape (meaning asarray r)) 0
                                  = nth (where_is d (o_dims a)) (shape (meaning asarray a)) 0) /\
    (forall d, In d (o_dims b) -> nth (where_is d (o_dims r)) (shape (meaning asarray r)) 0
                                  = nth (where_is d (o_dims b)) (shape (meaning asarray b)) 0) /\
    forall i, inside (shape (meaning asarray r)) i ->
      at_ (meaning asarray r) i = f (at_ (meaning asarray a) (restrict_to (o_dims a) (o_dims r) i))
                                    (at_ (meaning asarray b) (restrict_to (o_dims b) (o_dims r) i)).
Proof.
  intros D U asarray get has_shape f u a b R Sa Sb Na Nb Ss.
  destruct (product_ok asarray get has_shape R f u a b Sa Sb Na Nb Ss) as (r & H1 & H2 & H3 & H4 & H5 & H6 & H7).
  exists r. repeat (split; [assumption|]). split; [|now repeat (split; [assumption|])].
  rewrite H2. now apply merge_ordered.
Qed.
Print Assumptions C45_product.

Example C45_example :
  let a := object_of [2; 3] ["t"; "x"]%string 1%Z in
  let b := object_of [3; 2] ["x"; "y"]%string 1%Z in
  shaped sample_array a /\ shaped sample_array b /\ NoDup (o_dims a) /\ NoDup (o_dims b) /\
  same_sizes (o_dims a) (o_dims b) (shape (meaning sample_array a)) (shape (meaning sample_array b)) /\
  object_is (array_product sample_array sample_get sample_shape Qcmult 1%Z a b)
    [2; 3; 2] [0; 0; 2; 3; 8; 10; 0; 3; 8; 12; 20; 25] = true.
Proof.
  cbv zeta. split; [split; reflexivity|]. split; [split; reflexivity|].
  split; [repeat constructor; cbn; intuition discriminate|]. split; [repeat constructor; cbn; intuition discriminate|].
  split; [|vm_compute; reflexivity].
  intros d [<- | [<- | []]] [H | [H | []]]; try discriminate H; reflexivity.
Qed.

(** ** C102: products of arrays whose sizes differ *)

(** Along a shared axis of size 3 in the first array and 2 in the second, the
    product silently leaves out the end of the first array; the other way
    round it raises an exception. *)
Theorem C102_sizes_refuted :
  let a := object_of [3] ["x"]%string 1%Z in
  let b := object_of [2] ["x"]%string 1%Z in
  object_is (array_product sample_array sample_get sample_shape Qcmult 1%Z a b) [2] [0; 1] = true /\
  array_product sample_array sample_get sample_shape Qcmult 1%Z b a = Err IndexError.
Proof. cbv zeta. split; vm_compute; reflexivity. Qed.
Print Assumptions C102_sizes_refuted.

(** ** C46: ellipsis *)

Lemma no_ellipsis l : ~ In IEll l -> forallb (fun i => negb (is_ell i)) l = true.
Proof.
  intro H. apply forallb_forall. intros i I. destruct i; try reflexivity. contradiction.
Qed.

(** Subscripts with at least one list.  Missing: an ellipsis for several axes
    with subscripts after it. *)
Theorem C46_lists_partial : forall (D U : Type) asarray get has_shape (o : object D U) pre post,
  reads_like asarray get -> shaped asarray o ->
  let ndim := length (shape (meaning asarray o)) in
  ~ In IEll (pre ++ post) -> existsb is_seq (pre ++ post) = true ->
  length (pre ++ post) < ndim ->
  post = [] \/ S (length (pre ++ post)) = ndim ->
  same_outcome asarray
    (fst (getitem asarray get has_shape o (Many (pre ++ IEll :: post))))
    (fst (getitem asarray get has_shape o (Many (pre ++ repeat full_slice (ndim - length (pre ++ post)) ++ post)))).
Proof. intros. apply ellipsis_lists; auto. now apply no_ellipsis. Qed.
Print Assumptions C46_lists_partial.

(** Subscripts that are slices (of any bounds and steps). *)
Theorem C238_slices : forall (D U : Type) asarray get has_shape (o : object D U) pre post,
  reads_like asarray get -> shaped asarray o ->
  let ndim := length (shape (meaning asarray o)) in
  forallb is_slice (pre ++ post) = true -> length (pre ++ post) <= ndim -> 0 < ndim ->
  same_outcome asarray
    (fst (getitem asarray get has_shape o (Many (pre ++ IEll :: post))))
    (fst (getitem asarray get has_shape o (Many (pre ++ repeat full_slice (ndim - length (pre ++ post)) ++ post)))).
Proof. intros. now apply ellipsis_slices. Qed.
Print Assumptions C238_slices.

(** What the expansion drops: all but the last few subscripts after an
    ellipsis for several axes. *)
Theorem C238_expansion : forall ndim pre post,
  ~ In IEll pre -> length pre + length post < ndim ->
  expand_ellipsis ndim (pre ++ IEll :: post) =
  pre ++ repeat full_slice (ndim - length pre - length post) ++ skipn (ndim - length pre - length post - 1) post.
Proof. intros ndim pre post N. now apply expand_exact, no_ellipsis. Qed.
Print Assumptions C238_expansion.

(** On an array with three axes, the list after the ellipsis is ignored; an
    integer after the ellipsis raises ValueError. *)
Theorem C46_ellipsis_refuted :
  let o := object_of [2; 1; 3] ["t"; "x"; "y"]%string 1%Z in
  object_is (sample_item o (Many [IEll; ISeq [0%Z; 1%Z]])) [2; 1; 3] [0; 1; 2; 3; 4; 5] = true /\
  object_is (sample_item o (Many [full_slice; full_slice; ISeq [0%Z; 1%Z]])) [2; 1; 2] [0; 1; 3; 4] = true /\
  sample_item o (Many [IEll; IInt 0]) = Err ValueError /\
  object_is (sample_item o (Many [full_slice; full_slice; IInt 0])) [2; 1; 1] [0; 3] = true.
Proof. cbv zeta. repeat split; vm_compute; reflexivity. Qed.
Print Assumptions C46_ellipsis_refuted.

Example C46_example :
  let o := object_of [2; 2; 3] ["t"; "x"; "y"]%string 1%Z in
  shaped sample_array o /\
  object_is (sample_item o (Many [ISeq [1%Z; 0%Z]; IEll; ISeq [2%Z]])) [2; 2; 1] [8; 11; 2; 5] = true /\
  object_is (sample_item o (Many [ISeq [1%Z]; IEll])) [1; 2; 3] [6; 7; 8; 9; 10; 11] = true /\
  object_is (sample_item o (Many [IEll; ISlice None None (Some (-2)%Z)])) [2; 2; 2] [2; 0; 5; 3; 8; 6; 11; 9] = true.
Proof. cbv zeta. split; [split; reflexivity|]. repeat split; vm_compute; reflexivity. Qed.

(** ** C97: subsets by positions and ranges *)

(** Every axis stays, with the selected positions.  Missing: ranges whose
    bounds are negative or beyond the axis, or with a step; fewer subscripts
    than axes. *)
Theorem C97_subset_partial : forall (D U : Type) asarray get has_shape (o : object D U) l,
  reads_like asarray get -> shaped asarray o -> filled (meaning asarray o) ->
  Forall2 plain_index (shape (meaning asarray o)) l ->
  exists n o', getitem asarray get has_shape o (Many l) = (Ok n, o') /\
    meaning asarray o' = meaning asarray o /\ o_unit n = o_unit o /\ o_dims n = o_dims o /\
    shape (meaning asarray n) = map2 extent (shape (meaning asarray o)) l /\
    forall j, inside (shape (meaning asarray n)) j ->
      at_ (meaning asarray n) j = at_ (meaning asarray o) (chosen_all (shape (meaning asarray o)) l j).
Proof.
  intros D U asarray get has_shape o l R Sh F P.
  destruct (subset_plain asarray get has_shape R o l Sh F P) as (n & o' & H1 & H2 & H3 & H4 & H5 & H6 & H7).
  exists n, o'. rewrite H5. repeat (split; [assumption || reflexivity|]). intros j Hj. now apply piece_at.
Qed.
Print Assumptions C97_subset_partial.

(** A step, a negative bound, or a missing subscript beside a position raises
    ValueError. *)
Theorem C97_subset_refuted :
  let o := object_of [4; 2] ["x"; "y"]%string 1%Z in
  sample_item o (Many [ISlice None None (Some 2%Z); IInt 0]) = Err ValueError /\
  sample_item o (Many [ISlice (Some (-1)%Z) None None; IInt 0]) = Err ValueError /\
  sample_item o (Many [ISlice None (Some 9%Z) None; IInt 0]) = Err ValueError /\
  sample_item (object_of [2; 2; 2] ["x"; "y"; "z"]%string 1%Z) (Many [IInt 0; IInt 1]) = Err ValueError.
Proof. cbv zeta. repeat split; vm_compute; reflexivity. Qed.
Print Assumptions C97_subset_refuted.

Example C97_example :
  let o := object_of [4; 3] ["x"; "y"]%string 1%Z in
  let l := [ISlice (Some 1%Z) (Some 3%Z) None; IInt (-1)] in
  shaped sample_array o /\ filled (meaning sample_array o) /\ Forall2 plain_index (shape (meaning sample_array o)) l /\
  object_is (sample_item o (Many l)) [2; 1] [5; 8] = true.
Proof.
  cbv zeta. split; [split; reflexivity|]. split; [reflexivity|]. split; [|vm_compute; reflexivity].
  constructor; [|constructor; [|constructor]]; cbn.
  - split; [lia|]. split; [lia|]. now left.
  - lia.
Qed.

(** ** C98: subsets by lists of positions *)

(** Missing: a single list, and ranges beside lists. *)
Theorem C98_lists_partial : forall (D U : Type) asarray get has_shape (o : object D U) l,
  reads_like asarray get -> shaped asarray o ->
  Forall2 cross_index (shape (meaning asarray o)) l -> 2 <= length l -> (exists q, In (ISeq q) l) ->
  exists n o', getitem asarray get has_shape o (Many l) = (Ok n, o') /\
    meaning asarray o' = meaning asarray o /\ o_unit n = o_unit o /\ o_dims n = o_dims o /\
    shape (meaning asarray n) = map2 cross_extent (shape (meaning asarray o)) l /\
    forall j, inside (shape (meaning asarray n)) j ->
      at_ (meaning asarray n) j = at_ (meaning asarray o) (cross_all (shape (meaning asarray o)) l j).
Proof.
  intros D U asarray get has_shape o l R Sh F L2 Hq.
  destruct (subset_cross asarray get has_shape R o l Sh F L2 Hq) as (n & o' & H1 & H2 & H3 & H4 & H5 & H6 & H7 & H8).
  exists n, o'. repeat (split; [assumption|]). assumption.
Qed.
Print Assumptions C98_lists_partial.

(** A range beside a list is read as the whole axis; a single list raises
    ValueError, and a single empty list gives everything. *)
Theorem C98_lists_refuted :
  let o := object_of [3; 2] ["x"; "y"]%string 1%Z in
  object_is (sample_item o (Many [ISlice (Some 0%Z) (Some 1%Z) None; ISeq [1%Z; 0%Z]])) [3; 2] [1; 0; 3; 2; 5; 4] = true /\
  sample_item (object_of [3] ["x"]%string 1%Z) (Bare (ISeq [0%Z; 1%Z])) = Err ValueError /\
  object_is (sample_item (object_of [3] ["x"]%string 1%Z) (Bare (ISeq []))) [3] [0; 1; 2] = true.
Proof. cbv zeta. repeat split; vm_compute; reflexivity. Qed.
Print Assumptions C98_lists_refuted.

Example C98_example :
  let o := object_of [3; 2] ["x"; "y"]%string 1%Z in
  let l := [ISeq [2%Z; (-3)%Z]; full_slice] in
  shaped sample_array o /\ Forall2 cross_index (shape (meaning sample_array o)) l /\ 2 <= length l /\
  (exists q, In (ISeq q) l) /\ object_is (sample_item o (Many l)) [2; 2] [4; 5; 0; 1] = true.
Proof.
  cbv zeta. split; [split; reflexivity|]. split; [|split; [auto|]; split; [eexists; now left|vm_compute; reflexivity]].
  constructor; [|constructor; [exact I|constructor]]. cbn. repeat constructor; lia.
Qed.

(** ** C99: sums of arrays *)

(** Missing: axes in a different order. *)
Theorem C99_sum_partial : forall (D U : Type) asarray get has_shape f u (a b : object D U),
  reads_like asarray get -> shaped asarray a -> shaped asarray b ->
  o_dims a = o_dims b -> shape (meaning asarray a) = shape (meaning asarray b) ->
  exists r, array_sum asarray get has_shape f u a b = Ok r /\ o_dims r = o_dims a /\ o_unit r = u /\
    shape (meaning asarray r) = shape (meaning asarray a) /\
    forall i, inside (shape (meaning asarray r)) i ->
      at_ (meaning asarray r) i = f (at_ (meaning asarray a) i) (at_ (meaning asarray b) i).
Proof. intros. now apply sum_ok. Qed.
Print Assumptions C99_sum_partial.

(** Arrays with other axes do not add. *)
Theorem C99_other_axes : forall (D U : Type) asarray get has_shape f u (a b : object D U) d,
  reads_like asarray get -> shape (meaning asarray a) = shape (meaning asarray b) ->
  In d (o_dims a) -> ~ In d (o_dims b) ->
  array_sum asarray get has_shape f u a b = Err MetadataError.
Proof. intros D U asarray get has_shape f u a b d R. now apply sum_other_axes. Qed.
Print Assumptions C99_other_axes.

(** Two square arrays with the same axes in opposite order are added as if
    their axes were in the same order: the element at x = 0, y = 1 of the sum
    is 1 + 1, although it is 1 in the first array and 2 in the second. *)
Theorem C99_sum_refuted :
  let a := object_of [2; 2] ["x"; "y"]%string 1%Z in
  let b := object_of [2; 2] ["y"; "x"]%string 1%Z in
  object_is (array_sum sample_array sample_get sample_shape Qcplus 1%Z a b) [2; 2] [0; 2; 4; 6] = true /\
  at_ (meaning sample_array a) [0; 1] = Qc_of_Z 1 /\
  at_ (meaning sample_array b) (restrict_to (o_dims b) (o_dims a) [0; 1]) = Qc_of_Z 2.
Proof. cbv zeta. repeat split; vm_compute; reflexivity. Qed.
Print Assumptions C99_sum_refuted.

Example C99_example :
  let a := object_of [2; 2] ["x"; "y"]%string 1%Z in
  object_is (array_sum sample_array sample_get sample_shape Qcplus 1%Z a a) [2; 2] [0; 2; 4; 6] = true /\
  array_sum sample_array sample_get sample_shape Qcplus 1%Z a (object_of [2; 2] ["x"; "z"]%string 1%Z) = Err MetadataError.
Proof. cbv zeta. split; vm_compute; reflexivity. Qed.

(** ** C100: removing singular axes *)

Theorem C100_squeeze : forall (D U : Type) asarray get has_shape (o : object D U),
  reads_like asarray get -> shaped asarray o ->
  exists r, squeeze asarray get has_shape o = Ok r /\ o_unit r = o_unit o /\
    o_dims r = map fst (filter (fun p => negb (Nat.eqb (snd p) 1)) (combine (o_dims o) (shape (meaning asarray o)))) /\
    shape (meaning asarray r) = filter (fun n => negb (Nat.eqb n 1)) (shape (meaning asarray o)) /\
    forall j, inside (shape (meaning asarray r)) j ->
      at_ (meaning asarray r) j = at_ (meaning asarray o) (with_single (shape (meaning asarray o)) j).
Proof. intros. now apply squeeze_ok. Qed.
Print Assumptions C100_squeeze.

Example C100_example :
  let o := object_of [1; 2; 1; 2] ["a"; "b"; "c"; "d"]%string 1%Z in
  shaped sample_array o /\
  object_is (squeeze sample_array sample_get sample_shape o) [2; 2] [0; 1; 2; 3] = true.
Proof. cbv zeta. split; [split; reflexivity|vm_compute; reflexivity]. Qed.

(** ** C101: averages along an axis *)

Theorem C101_mean_partial : forall (D U : Type) asarray get has_shape (o : object D U) k,
  reads_like asarray get -> shaped asarray o -> NoDup (o_dims o) -> k < length (shape (meaning asarray o)) ->
  exists r, mean asarray get has_shape o (Z.of_nat k) = Ok r /\ o_unit r = o_unit o /\
    o_dims r = without k (o_dims o) /\ shape (meaning asarray r) = without k (shape (meaning asarray o)) /\
    forall j, inside (shape (meaning asarray r)) j ->
      at_ (meaning asarray r) j =
      average (map (fun m => at_ (meaning asarray o) (inserted k m j)) (seq 0 (nth k (shape (meaning asarray o)) 0))).
Proof. intros. now apply mean_ok. Qed.
Print Assumptions C101_mean_partial.

(** numpy's negative axes are never accepted. *)
Theorem C101_mean_refuted : forall (D U : Type) asarray get has_shape (o : object D U) axis,
  reads_like asarray get -> shaped asarray o ->
  (- Z.of_nat (length (shape (meaning asarray o))) <= axis < 0)%Z ->
  mean asarray get has_shape o axis = Err ValueError.
Proof. intros. now apply mean_negative. Qed.
Print Assumptions C101_mean_refuted.

Example C101_example :
  let o := object_of [2; 3] ["x"; "y"]%string 1%Z in
  shaped sample_array o /\ NoDup (o_dims o) /\
  object_is (mean sample_array sample_get sample_shape o 1) [2] [1; 4] = true /\
  mean sample_array sample_get sample_shape o (-1) = Err ValueError.
Proof.
  cbv zeta. split; [split; reflexivity|]. split; [repeat constructor; cbn; intuition discriminate|].
  split; vm_compute; reflexivity.
Qed.
