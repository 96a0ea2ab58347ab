(** Properties of subscripts of arrays and variables (physical.py, variable.py). *)

From Coq Require Import String Ascii List Bool ZArith QArith Qcanon Lia.
From Verif Require Import Py PyFacts ArrayModel ArraySpec ArrayProofs ArrayOpsProofs ArrayProps PhysicalModel PhysicalSpec PhysicalProofs PhysicalProps.
From Verif Require Import IterablesMoreProofs MetadataModel MetadataSpec MetadataProofs ArrayMoreProofs SubscriptSpec SubscriptProofs.
Import ListNotations.
Open Scope list_scope.
Open Scope nat_scope.
Open Scope py_scope.

(** ** C313: what subscripts of arrays select *)

(** The subscripts that a user can write without lists: one of them, or a
    tuple. *)
Definition written (s : subscript) (l : list item) : Prop :=
  match s with
  | Bare i => l = [i] /\ i <> INone
  | Many k => l = k /\ 2 <= length k
  end /\ forallb basic_item l = true.

(** A valid subscript gives the elements that the specification names, in an
    array with the sizes that the specification gives, or as a scalar if there
    are no sizes; the unit and the name stay. *)
Theorem C313_elements : forall (D U : Type) asarray get has_shape (o : object D U) s l rs,
  reads_like asarray get -> coherent asarray o -> written s l ->
  ellipses l <= 1 -> result_shape (shape (meaning asarray o)) l rs ->
  match fst (subscripted asarray get has_shape o s) with
  | Ok (PNumber v u name) =>
      rs = [] /\ u = o_unit o /\ name = o_dims o /\
      exists i, inside (shape (meaning asarray o)) i /\ comes_from (shape (meaning asarray o)) l [] i /\
        v = at_ (meaning asarray o) i
  | Ok (PArray n) =>
      rs <> [] /\ o_unit n = o_unit o /\ o_dims n = o_dims o /\ shape (meaning asarray n) = rs /\
      forall j, inside rs j -> exists i,
        inside (shape (meaning asarray o)) i /\ comes_from (shape (meaning asarray o)) l j i /\
        at_ (meaning asarray n) j = at_ (meaning asarray o) i
  | Err _ => False
  end.
Proof.
  intros D U asarray get has_shape o s l rs R H W Le Rs.
  destruct W as [W Hb].
  assert (S : match s with Bare i => builtin i = true /\ i <> INone | Many l => forallb builtin l = true /\ 2 <= length l end
              /\ match s with Bare i => [i] | Many l => l end = l).
  { destruct s as [i|k]; destruct W as [-> W]; split; auto; split; auto.
    cbn in Hb. rewrite andb_true_r in Hb. destruct i; auto. }
  destruct S as [S1 S2]. pose proof (C273_subscript D U asarray get has_shape o s R H S1) as C. rewrite S2 in C.
  destruct (subscripted asarray get has_shape o s) as [r o']. destruct C as (_ & _ & _ & C). cbn [fst].
  destruct (basic_total _ l rs Hb Le Rs) as [a A]. rewrite A in C.
  pose proof (basic_filled _ _ _ A) as F. destruct (basic_ok _ _ _ Hb A) as (_ & Rs' & El).
  pose proof (shape_unique _ _ _ _ Rs' Rs) as <-. unfold gave in C.
  destruct a as [[|n sh] [|y cs]]; cbn [shape cells] in *.
  - discriminate F.
  - unfold filled in F. cbn in F. destruct cs; [|discriminate F]. rewrite C. split; [reflexivity|]. split; [reflexivity|].
    split; [reflexivity|]. destruct (El [] ltac:(constructor)) as (i & I & J & K). exists i. split; [exact I|]. split; [exact J|]. exact K.
  - destruct C as (m & -> & M & Mu & Md). rewrite M. split; [discriminate|]. auto.
  - destruct C as (m & -> & M & Mu & Md). rewrite M. split; [discriminate|]. auto.
Qed.
Print Assumptions C313_elements.

(** The specification leaves no choice: one size, and one source for each
    element. *)
Theorem C313_determined : forall s l rs rs' j i i',
  (result_shape s l rs -> result_shape s l rs' -> rs = rs') /\
  (inside s i -> inside s i' -> comes_from s l j i -> comes_from s l j i' -> i = i').
Proof. intros. split; [apply shape_unique|]. intros _ _. apply from_unique. Qed.
Print Assumptions C313_determined.

Example C313_example :
  let o := object_of [2; 3] ["a"]%string 5%Z in
  coherent sample_array o /\
  (exists rs, result_shape [2; 3] [ISlice None None (Some (-1)%Z); INone; IInt (-1)] rs /\ rs = [2; 1]) /\
  part_is (sample_part o (Many [ISlice None None (Some (-1)%Z); INone; IInt (-1)])) [2; 1] [5; 2] = true /\
  comes_from [2; 3] [ISlice None None (Some (-1)%Z); INone; IInt (-1)] [0; 0] [1; 2].
Proof.
  cbv zeta. split; [reflexivity|]. split.
  - exists [2; 1]. split; [|reflexivity]. apply RS_slice; [discriminate| |].
    + intros k. split.
      * intros K. exists (1 - k), 1%Z, (-1)%Z, (-1)%Z. split; [repeat split; discriminate|]. destruct k as [|[|k]]; cbn; lia.
      * intros (p & f & q & st & (_ & <- & -> & ->) & P & Q). change (Z.ltb (-1) 0) with true in *.
        change (Z.of_nat 2) with 2%Z in *. cbv iota in *. lia.
    + apply RS_new. eapply (RS_int 3 [] (-1)%Z 2); [split; [lia|cbn; lia]|]. apply RS_rest.
  - split; [vm_compute; reflexivity|]. apply CF_slice.
    + exists 1%Z, (-1)%Z, (-1)%Z. split; [repeat split; discriminate|]. cbn. lia.
    + apply CF_new. apply CF_int; [split; [lia|cbn; lia]|]. apply CF_rest.
Qed.

(** ** C315: subscripts that are errors *)

(** A subscript without lists fails if and only if it has more than one [...]
    or the specification gives no sizes for it (too many subscripts, a
    position outside its axis, a step of 0).  The exception is an IndexError,
    or a ValueError for a step of 0. *)
Theorem C315_errors : forall (D U : Type) asarray get has_shape (o : object D U) s l,
  reads_like asarray get -> coherent asarray o -> written s l ->
  let r := fst (subscripted asarray get has_shape o s) in
  ((exists e, r = Err e) <-> ~ (ellipses l <= 1 /\ exists rs, result_shape (shape (meaning asarray o)) l rs)) /\
  forall e, r = Err e -> e = IndexError \/ e = ValueError /\ exists a b, In (ISlice a b (Some 0%Z)) l.
Proof.
  intros D U asarray get has_shape o s l R H W. cbv zeta.
  pose proof (fun rs => C313_elements D U asarray get has_shape o s l rs R H W) as T.
  destruct W as [W Hb].
  assert (S : match s with Bare i => builtin i = true /\ i <> INone | Many l => forallb builtin l = true /\ 2 <= length l end
              /\ match s with Bare i => [i] | Many l => l end = l).
  { destruct s as [i|k]; destruct W as [-> W]; split; auto; split; auto.
    cbn in Hb. rewrite andb_true_r in Hb. destruct i; auto. }
  destruct S as [S1 S2]. pose proof (C273_subscript D U asarray get has_shape o s R H S1) as C. rewrite S2 in C.
  destruct (subscripted asarray get has_shape o s) as [r o']. destruct C as (_ & _ & _ & C). cbn [fst] in *.
  destruct (basic (meaning asarray o) l) as [a|e] eqn:A.
  - assert (N : forall e, r <> Err e).
    { intros e ->. unfold gave in C. destruct (shape a) as [|? ?]; [destruct (cells a) as [|? [|? ?]]|]; try discriminate;
        destruct C as (? & ? & _); discriminate. }
    split; [split|].
    + intros [e E]. now apply N in E.
    + intros K. exfalso. apply K. destruct (basic_ok _ _ _ Hb A) as (L & Rs & _). split; eauto.
    + intros e E. now apply N in E.
  - subst r. split; [split|].
    + intros _ [L [rs Rs]]. exact (T rs L Rs).
    + eauto.
    + intros e' [= <-]. exact (basic_error _ _ _ Hb A).
Qed.
Print Assumptions C315_errors.

(** A step of 0 alone is a ValueError; too many subscripts, and more than one
    [...], are IndexErrors whatever else there is. *)
Theorem C315_kinds : forall (D U : Type) asarray get has_shape (o : object D U) s l,
  reads_like asarray get -> coherent asarray o -> written s l ->
  let r := fst (subscripted asarray get has_shape o s) in
  (1 < ellipses l \/ length (shape (meaning asarray o)) < axes_used l -> r = Err IndexError) /\
  (forall a b, l = [ISlice a b (Some 0%Z)] -> shape (meaning asarray o) <> [] -> r = Err ValueError).
Proof.
  intros D U asarray get has_shape o s l R H W. cbv zeta. destruct W as [W Hb].
  assert (S : match s with Bare i => builtin i = true /\ i <> INone | Many l => forallb builtin l = true /\ 2 <= length l end
              /\ match s with Bare i => [i] | Many l => l end = l).
  { destruct s as [i|k]; destruct W as [-> W]; split; auto; split; auto.
    cbn in Hb. rewrite andb_true_r in Hb. destruct i; auto. }
  destruct S as [S1 S2]. pose proof (C273_subscript D U asarray get has_shape o s R H S1) as C. rewrite S2 in C.
  destruct (subscripted asarray get has_shape o s) as [r o']. destruct C as (_ & _ & _ & C). cbn [fst].
  split.
  - intros K. replace (basic (meaning asarray o) l) with (@Err arr IndexError) in C; [exact C|]. symmetry.
    unfold basic. rewrite ellipses_count, (consumes_used l Hb).
    destruct (Nat.ltb_spec 1 (ellipses l)); [reflexivity|].
    destruct (Nat.ltb_spec (length (shape (meaning asarray o))) (axes_used l)); [reflexivity|lia].
  - intros a b -> Ne. unfold basic in C. destruct (shape (meaning asarray o)) as [|n sh]; [congruence|]. exact C.
Qed.
Print Assumptions C315_kinds.

Example C315_example :
  let o := object_of [2; 3] ["a"]%string 5%Z in
  coherent sample_array o /\
  sample_part o (Many [IInt 0; IInt 0; IInt 0]) = Err IndexError /\
  sample_part o (Many [IEll; IEll]) = Err IndexError /\
  sample_part o (Many [IInt 0; IInt (-4)]) = Err IndexError /\
  sample_part o (Bare (ISlice None None (Some 0%Z))) = Err ValueError.
Proof. cbv zeta. repeat split; vm_compute; reflexivity. Qed.

(** ** C314: ranges of a variable *)

(** Ranges with any bounds and any steps, and [...], alone or in a tuple, give
    the variable with the elements that the specification names; all axes
    stay, with their names. *)
Definition ranges (s : subscript) (l : list item) : Prop :=
  match s with Bare i => l = [i] | Many k => l = k /\ k <> [] end /\
  Forall (fun i => match i with ISlice _ _ _ | IEll => True | _ => False end) l.
Theorem C314_ranges : forall (D U : Type) asarray get has_shape (o : object D U) s l rs,
  reads_like asarray get -> shaped asarray o -> ranges s l ->
  ellipses l <= 1 -> result_shape (shape (meaning asarray o)) l rs ->
  exists n o', getitem asarray get has_shape o s = (Ok n, o') /\
    meaning asarray o' = meaning asarray o /\ o_unit o' = o_unit o /\ o_dims o' = o_dims o /\
    o_unit n = o_unit o /\ o_dims n = o_dims o /\ shape (meaning asarray n) = rs /\
    length rs = length (shape (meaning asarray o)) /\
    forall j, inside rs j -> exists i,
      inside (shape (meaning asarray o)) i /\ comes_from (shape (meaning asarray o)) l j i /\
      at_ (meaning asarray n) j = at_ (meaning asarray o) i.
Proof.
  intros D U asarray get has_shape o s l rs R H [W F] Le Rs.
  assert (Hb : forallb basic_item l = true).
  { apply forallb_forall. intros x X. rewrite Forall_forall in F. specialize (F x X). destruct x; auto; contradiction. }
  destruct (basic_total _ l rs Hb Le Rs) as [a A]. destruct (basic_ok _ _ _ Hb A) as (_ & Rs' & El).
  pose proof (shape_unique _ _ _ _ Rs' Rs) as E. pose proof (ranges_axes _ _ _ F Rs) as Ln.
  destruct (subset_by_value asarray get has_shape R o s a H) as (n & o' & G & G1 & G2 & G3 & G4 & G5 & G6).
  - unfold value_subset. cbn [v_array v_unit v_dims].
    assert (N : normalize (shape (meaning asarray o)) (unwrap_subscript s) = Ok (NStd (unwrap_subscript s)) /\
                missing (NStd (unwrap_subscript s)) = false /\ np_get (meaning asarray o) (NStd (unwrap_subscript s)) = Ok a).
    { unfold normalize. destruct s as [i|k].
      - subst l. inversion F as [|x y Fx Fy]; subst. destruct i; try contradiction; repeat split; exact A.
      - destruct W as [-> W]. destruct k as [|i [|i' k]]; [congruence| |].
        + inversion F as [|x y Fx Fy]; subst. destruct i; try contradiction; repeat split; exact A.
        + cbn [unwrap_subscript]. cbn [standard].
          replace (forallb builtin (i :: i' :: k)) with true by (symmetry; exact Hb). repeat split. exact A. }
    destruct N as (-> & N2 & N3). cbn [bind]. unfold value_read. rewrite N2. cbn [v_array]. rewrite N3. cbn [bind].
    unfold rebuild. rewrite E, Ln, Nat.eqb_refl. cbn [bind]. unfold ndmin. rewrite E, Ln, Nat.sub_diag. cbn [repeat app].
    destruct a as [sa ca]. cbn [shape cells] in *. subst sa. apply value_make_same. cbn [shape]. rewrite Ln.
    rewrite meaning_shape by exact H. apply H.
  - exists n, o'. rewrite G4, E. repeat split; auto. intros j J. rewrite <- E in J. exact (El j J).
Qed.
Print Assumptions C314_ranges.

Example C314_example :
  let o := object_of [4; 3] ["x"; "y"]%string 1%Z in
  shaped sample_array o /\
  ranges (Many [IEll; ISlice None None (Some (-2)%Z)]) [IEll; ISlice None None (Some (-2)%Z)] /\
  object_is (sample_item o (Many [IEll; ISlice None None (Some (-2)%Z)])) [4; 2] [2; 0; 5; 3; 8; 6; 11; 9] = true /\
  object_is (sample_item o (Bare (ISlice (Some (-2)%Z) (Some 9%Z) None))) [2; 3] [6; 7; 8; 9; 10; 11] = true.
Proof.
  cbv zeta. split; [split; reflexivity|]. split; [split; [split; [reflexivity|discriminate]|repeat constructor]|].
  split; vm_compute; reflexivity.
Qed.

(** ** C316: the names of axes *)

(** A variable made from data without names has the axes x0, x1, and so on,
    one for each axis of the data; these are different.  Given names must be as
    many as the axes. *)
Theorem C316_axes : forall (D U : Type) asarray get has_shape (d : data D) dims (u : U),
  reads_like asarray get ->
  let n := length (shape (data_array asarray d)) in
  match new_from_data asarray get has_shape d dims u with
  | Ok o => meaning asarray o = data_array asarray d /\ o_unit o = u /\ length (o_dims o) = n /\
      (dims <> [] -> o_dims o = dims) /\
      (dims = [] -> NoDup (o_dims o) /\
         forall k, k < n -> exists t, nth_error (o_dims o) k = Some ("x"%char :: t) /\
           t <> [] /\ forallb is_digit t = true /\ digits_val t = N.of_nat k)
  | Err e => e = ValueError /\ dims <> [] /\ length dims <> n
  end.
Proof.
  intros D U asarray get has_shape d dims u R. cbv zeta.
  pose proof (new_from_data_ok asarray get has_shape d dims u) as N. unfold value_make in N.
  destruct (Nat.eqb _ _) eqn:E in N.
  - destruct N as (o & -> & P1 & P2 & P3 & P4 & _ & _ & P7 & P8). cbn [v_dims v_array v_unit] in *.
    split. { unfold ArraySpec.meaning, ArraySpec.unscaled. rewrite P1, P2, scale_one. destruct P8 as [-> | ->]; reflexivity. }
    split; [exact P3|]. rewrite P4. split; [exact P7|]. split; [now destruct dims|]. intros ->.
    split; [apply default_distinct|]. intros k K. destruct (dec_of_N_spec (N.of_nat k)) as (A & B & C).
    exists (dec_of_N (N.of_nat k)). split; [|auto]. now apply default_nth.
  - rewrite N. destruct dims as [|x dims].
    + rewrite default_length, Nat.eqb_refl in E. discriminate.
    + apply Nat.eqb_neq in E. split; [reflexivity|]. split; [discriminate|exact E].
Qed.
Print Assumptions C316_axes.

Example C316_example :
  let d := Source (true, counting [2; 3]) in
  rmap o_dims (new_from_data sample_array sample_get sample_shape d [] 1%Z) = Ok [lit "x0"; lit "x1"] /\
  new_from_data sample_array sample_get sample_shape d [lit "t"] 1%Z = Err ValueError.
Proof. cbv zeta. split; vm_compute; reflexivity. Qed.

(** ** C317: sums of arrays with other sizes *)

(** Two sizes of the same axis fit if they are equal or one of them is 1. *)
Definition fits (x y : nat) : Prop := x = y \/ x = 1 \/ y = 1.
(** The position in an axis of this size: the only one if the size is 1. *)
Definition stay (n k : nat) : nat := if Nat.eqb n 1 then 0 else k.

(** For arrays with the same axes: if all sizes fit, each axis of the sum has
    the size that is not 1, if there is one, and each element is the sum of the
    elements at its position; else there is a ValueError. *)
Theorem C317_sum : forall (D U : Type) asarray get has_shape f u (a b : object D U),
  reads_like asarray get -> shaped asarray a -> shaped asarray b -> o_dims a = o_dims b ->
  let sa := shape (meaning asarray a) in let sb := shape (meaning asarray b) in
  (Forall2 fits sa sb ->
     exists r, array_sum asarray get has_shape f u a b = Ok r /\ o_dims r = o_dims a /\ o_unit r = u /\
       shape (meaning asarray r) = map2 (fun x y => if Nat.eqb x 1 then y else x) sa sb /\
       forall i, inside (shape (meaning asarray r)) i ->
         at_ (meaning asarray r) i = f (at_ (meaning asarray a) (map2 stay sa i)) (at_ (meaning asarray b) (map2 stay sb i))) /\
  (~ Forall2 fits sa sb -> array_sum asarray get has_shape f u a b = Err ValueError).
Proof.
  intros D U asarray get has_shape f u a b R Sa Sb Ed. cbv zeta.
  assert (La : length (o_dims a) = length (shape (meaning asarray a))) by (rewrite meaning_shape by exact Sa; apply Sa).
  assert (Lb : length (o_dims b) = length (shape (meaning asarray b))) by (rewrite meaning_shape by exact Sb; apply Sb).
  assert (L : length (shape (meaning asarray a)) = length (shape (meaning asarray b))) by congruence.
  unfold array_sum.
  destruct (get_array_ok asarray get R a NAll) as (a' & -> & _).
  destruct (get_array_ok asarray get R b NAll) as (b' & -> & _). cbn [missing bind]. unfold ufunc2.
  rewrite broadcast_pair by exact L. split.
  - intros F. rewrite (bcast_fits _ _ F). cbn [bind].
    replace (dims_eq (o_dims b) (DDims (o_dims a))) with true.
    2:{ symmetry. apply dims_eq_spec. rewrite Ed. split; [reflexivity|apply incl_refl]. }
    cbn [negb]. set (r := build _ _).
    destruct (made_from asarray get has_shape r (o_dims a) u) as (o & N & P1 & P2 & P3).
    { unfold r, build. cbn [shape]. rewrite map2_length by exact L. exact La. }
    exists o. split; [exact N|]. rewrite P3. repeat split; auto.
    intros i Hi. unfold r. rewrite at_build by exact Hi.
    assert (Li : length i = length (shape (meaning asarray a))).
    { unfold r in Hi. cbn [build shape] in Hi. apply F2_length in Hi. rewrite Hi. apply map2_length. exact L. }
    rewrite !bindex_same by congruence. reflexivity.
  - intros F. destruct (bcast2 _ _) eqn:B; [|reflexivity]. exfalso. apply F. eapply bcast_some; eauto.
Qed.
Print Assumptions C317_sum.

Example C317_example :
  let a := object_of [2; 3] ["x"; "y"]%string 1%Z in
  object_is (array_sum sample_array sample_get sample_shape Qcplus 1%Z a (object_of [2; 1] ["x"; "y"]%string 1%Z))
    [2; 3] [0; 1; 2; 4; 5; 6] = true /\
  array_sum sample_array sample_get sample_shape Qcplus 1%Z a (object_of [2; 2] ["x"; "y"]%string 1%Z) = Err ValueError.
Proof. cbv zeta. split; vm_compute; reflexivity. Qed.
