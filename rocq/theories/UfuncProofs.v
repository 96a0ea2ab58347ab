(** Lemmas about universal functions on array-like quantities. *)

From Coq Require Import String Ascii List Bool ZArith QArith Qcanon Lia Lqa.
From Verif Require Import Py PyFacts PyDict QcOrder IterablesModel MetadataModel MetadataSpec MetadataProofs.
From Verif Require Import ArrayModel ArraySpec ArrayProofs ArrayOpsProofs MeshProofs ArrayMoreProofs.
From Verif Require Import UfuncModel UfuncSpec.
Import ListNotations.
Open Scope list_scope.
Open Scope nat_scope.

Section Ufuncs.
Context {D U : Type} (asarray : D -> arr) (get : D -> nindex -> res arr) (has_shape : D -> bool)
        (ueq : U -> U -> res bool) (usum umul udiv : U -> U -> res U) (upow : U -> Qc -> res U).
Hypothesis R : reads_like asarray get.
Notation meaning := (@ArraySpec.meaning D U asarray).
Notation shaped := (@ArraySpec.shaped D U asarray).
Notation call := (@array_ufunc D U asarray get has_shape usum umul udiv upow).
Notation raw := (@raw D U asarray get).
Notation eval := (@evaluate D U usum umul udiv upow).

Lemma raw_var o : raw (AVar o) = Ok (meaning o).
Proof. unfold UfuncModel.raw. now destruct (get_array_ok asarray get R o NAll) as (o' & -> & _). Qed.

Lemma dims_length o : shaped o -> length (o_dims o) = length (shape (meaning o)).
Proof. intro S. rewrite meaning_shape by exact S. apply S. Qed.

Lemma at_map f (a : arr) i : filled a -> inside (shape a) i ->
  at_ (mkArr (shape a) (map f (cells a))) i = f (at_ a i).
Proof.
  intros F I. unfold at_. cbn [shape cells]. apply ravel_lt in I. red in F. rewrite <- F in I.
  rewrite (nth_indep _ 0%Qc (f 0%Qc)) by (now rewrite map_length). apply map_nth.
Qed.

(** The last step of every function: make the quantity. *)
Lemma made_result (b : arr) dims (u : U) : length dims = length (shape b) -> dims <> [] ->
  exists r, new_from_func asarray get has_shape b (Some (u, dims)) = Ok (Result r) /\ o_dims r = dims /\ o_unit r = u /\
            meaning r = b.
Proof.
  intros L N. destruct (made_from asarray get has_shape b dims u L) as (r & E & P). exists r. split; [|exact P].
  unfold new_from_func. destruct (shape b) as [|n s]; [destruct dims; [contradiction|discriminate L]|]. now rewrite E.
Qed.

(** * Functions of one quantity *)

Lemma eval_one name (o : object D U) : kind_of name = Some KUnary \/ kind_of name = None /\ name <> lit "sqrt" ->
  eval name [AVar o] o = Ok (Some (o_unit o, o_dims o)).
Proof.
  intros [E|[E N]]; unfold evaluate; rewrite E; [reflexivity|].
  replace (supports cls cls_eqb cls_sub (operation_of None) (map class_of [AVar o])) with true by reflexivity.
  cbn [negb map attr]. unfold operator_call, unit_method. rewrite str_eqb_neq by exact N. reflexivity.
Qed.
Lemma eval_sqrt (o : object D U) w : upow (o_unit o) (Q2Qc (1 # 2)) = Ok w ->
  eval (lit "sqrt") [AVar o] o = Ok (Some (w, o_dims o)).
Proof.
  intro H. unfold evaluate. change (kind_of (lit "sqrt")) with (@None kind).
  replace (supports cls cls_eqb cls_sub (operation_of None) (map class_of [AVar o])) with true by reflexivity.
  cbn [negb map attr]. unfold operator_call, unit_method. rewrite str_eqb_refl, H. reflexivity.
Qed.

Lemma one_ok name f (o : object D U) u : shaped o -> filled (meaning o) -> o_dims o <> [] ->
  eval name [AVar o] o = Ok (Some (u, o_dims o)) ->
  exists r, call name (One f) [AVar o] = Ok (Result r) /\ o_dims r = o_dims o /\ o_unit r = u /\
    shape (meaning r) = shape (meaning o) /\
    forall i, inside (shape (meaning o)) i -> at_ (meaning r) i = f (at_ (meaning o) i).
Proof.
  intros S F N E. unfold array_ufunc. cbn [self_of find is_var bind existsb is_other orb arrays mapM].
  rewrite raw_var. cbn [bind compute_data]. rewrite E. cbn [bind].
  destruct (made_result (mkArr (shape (meaning o)) (map f (cells (meaning o)))) (o_dims o) u) as (r & -> & P1 & P2 & P3);
    [now apply dims_length|exact N|].
  exists r. rewrite P3. repeat split; auto. intros i I. now apply at_map.
Qed.

(** * Functions of two quantities *)

Lemma call_two name f (a b : object D U) :
  call name (Two f) [AVar a; AVar b] =
  bind (if multiplicative name then bind (aligned asarray get has_shape a b) (fun p => ufunc2 f (fst (fst p)) (snd (fst p)))
        else ufunc2 f (meaning a) (meaning b))
       (fun r => bind (eval name [AVar a; AVar b] a) (new_from_func asarray get has_shape r)).
Proof.
  unfold array_ufunc. cbn [self_of find is_var bind existsb is_other orb arrays].
  destruct (multiplicative name).
  - destruct (aligned asarray get has_shape a b) as [p|e]; reflexivity.
  - cbn [mapM]. rewrite !raw_var. reflexivity.
Qed.

Lemma product_two name f u (a b : object D U) : multiplicative name = true ->
  eval name [AVar a; AVar b] a = Ok (Some (u, merge (o_dims a) [Some (o_dims b)])) ->
  proper asarray a -> proper asarray b -> o_dims a <> [] \/ o_dims b <> [] ->
  same_sizes (o_dims a) (o_dims b) (shape (meaning a)) (shape (meaning b)) ->
  exists r, call name (Two f) [AVar a; AVar b] = Ok (Result r) /\
    followed_by_new (o_dims a) (o_dims b) (o_dims r) /\ o_unit r = u /\
    length (shape (meaning r)) = length (o_dims r) /\
    forall i, inside (shape (meaning r)) i ->
      at_ (meaning r) i = f (at_ (meaning a) (restrict_to (o_dims a) (o_dims r) i))
                            (at_ (meaning b) (restrict_to (o_dims b) (o_dims r) i)).
Proof.
  intros M E (Sa & _ & Na) (Sb & _ & Nb) Ne Ss.
  destruct (product_ok asarray get has_shape R f u a b Sa Sb Na Nb Ss) as (r & H1 & H2 & H3 & H4 & _ & _ & H7).
  unfold array_product in H1.
  rewrite call_two, M, E. destruct (aligned asarray get has_shape a b) as [[[x y] [a' b']]|e]; [|discriminate H1].
  cbn [bind fst snd] in *. destruct (ufunc2 f x y) as [c|e]; [|discriminate H1]. cbn [bind] in *.
  exists r. unfold new_from_func. destruct (shape c) as [|n s] eqn:Sc.
  - exfalso. pose proof (new_from_data_ok asarray get has_shape (Memory c) (merge (o_dims a) [Some (o_dims b)]) u) as K.
    cbn [data_array] in K. unfold value_make in K. rewrite Sc in K. destruct (merge_members (o_dims a) (o_dims b)) as [_ Im].
    destruct (merge (o_dims a) [Some (o_dims b)]) as [|d ds] eqn:Em.
    + destruct Ne as [Ne|Ne].
      * destruct (o_dims a) as [|d ds]; [contradiction|]. apply (Im d). left. now left.
      * destruct (o_dims b) as [|d ds]; [contradiction|]. apply (Im d). right. now left.
    + cbn [length Nat.eqb] in K. rewrite H1 in K. discriminate K.
  - rewrite H1. cbn [rmap]. repeat split; auto. rewrite H2. now apply merge_ordered.
Qed.

Lemma eval_mul (a b : object D U) w : umul (o_unit a) (o_unit b) = Ok w ->
  eval (lit "multiply") [AVar a; AVar b] a = Ok (Some (w, merge (o_dims a) [Some (o_dims b)])).
Proof.
  intro H. unfold evaluate. change (kind_of (lit "multiply")) with (Some KMul). cbv iota.
  replace (supports cls cls_eqb cls_sub (operation_of (Some KMul)) (map class_of [AVar a; AVar b])) with true by reflexivity.
  cbn [negb map attr]. unfold operator_call, unit_method, dims_method. rewrite H. reflexivity.
Qed.
Lemma eval_div (a b : object D U) w : udiv (o_unit a) (o_unit b) = Ok w ->
  eval (lit "true_divide") [AVar a; AVar b] a = Ok (Some (w, merge (o_dims a) [Some (o_dims b)])).
Proof.
  intro H. unfold evaluate. change (kind_of (lit "true_divide")) with (Some KDiv). cbv iota.
  replace (supports cls cls_eqb cls_sub (operation_of (Some KDiv)) (map class_of [AVar a; AVar b])) with true by reflexivity.
  cbn [negb map attr]. unfold operator_call, unit_method, dims_method. rewrite H. reflexivity.
Qed.
Lemma eval_sum name (a b : object D U) w : kind_of name = Some KAdd -> usum (o_unit a) (o_unit b) = Ok w ->
  o_dims a = o_dims b ->
  eval name [AVar a; AVar b] a = Ok (Some (w, o_dims a)).
Proof.
  intros K H Ed. unfold evaluate. rewrite K.
  replace (supports cls cls_eqb cls_sub (operation_of (Some KAdd)) (map class_of [AVar a; AVar b])) with true by reflexivity.
  cbn [negb map attr]. unfold operator_call, unit_method, dims_method, dims_add. rewrite H. cbn [bind].
  replace (dims_eq (o_dims b) (DDims (o_dims a))) with true; [reflexivity|].
  symmetry. apply dims_eq_spec. rewrite Ed. split; [reflexivity|apply incl_refl].
Qed.

Lemma same_two name f (a b : object D U) : multiplicative name = false -> shape (meaning a) = shape (meaning b) ->
  call name (Two f) [AVar a; AVar b] =
  bind (eval name [AVar a; AVar b] a)
    (new_from_func asarray get has_shape
       (build (shape (meaning a)) (fun i => f (at_ (meaning a) (bindex (shape (meaning a)) i))
                                              (at_ (meaning b) (bindex (shape (meaning a)) i))))).
Proof.
  intros M Es. rewrite call_two, M. unfold ufunc2. rewrite <- Es, broadcast_self. reflexivity.
Qed.

Lemma sum_two name f u (a b : object D U) : multiplicative name = false ->
  eval name [AVar a; AVar b] a = Ok (Some (u, o_dims a)) ->
  shaped a -> o_dims a <> [] -> shape (meaning a) = shape (meaning b) ->
  exists r, call name (Two f) [AVar a; AVar b] = Ok (Result r) /\ o_dims r = o_dims a /\ o_unit r = u /\
    shape (meaning r) = shape (meaning a) /\
    forall i, inside (shape (meaning r)) i -> at_ (meaning r) i = f (at_ (meaning a) i) (at_ (meaning b) i).
Proof.
  intros M E S N Es. rewrite same_two, E by assumption. cbn [bind].
  match goal with |- context [new_from_func _ _ _ ?b _] => destruct (made_result b (o_dims a) u) as (r & -> & P1 & P2 & P3) end;
    [now apply dims_length|exact N|].
  exists r. rewrite P3. cbn [shape build]. repeat split; auto.
  intros i I. rewrite at_build by exact I. now rewrite bindex_inside by exact I.
Qed.

(** * A quantity and numbers *)

(** The numbers that an operand other than a quantity stands for, and its
    shape. *)
Definition plain_of (x : operand D U) : option arr :=
  match x with
  | ANum q | ANp q => Some (mkArr [] [q])
  | AArr a | AList a => Some a
  | _ => None
  end.

Lemma call_right name f (o : object D U) x y : plain_of x = Some y ->
  call name (Two f) [AVar o; x] =
  bind (ufunc2 f (meaning o) y) (fun r => bind (eval name [AVar o; x] o) (new_from_func asarray get has_shape r)).
Proof.
  intro P. unfold array_ufunc. cbn [self_of find is_var bind].
  assert (E : existsb is_other [AVar o; x] = false) by (destruct x; try reflexivity; discriminate P). rewrite E.
  assert (A : arrays asarray get has_shape name [AVar o; x] = Ok [meaning o; y]).
  { destruct x; try discriminate P; cbn [arrays mapM]; rewrite raw_var; cbn in *; now inversion P; subst. }
  rewrite A. reflexivity.
Qed.
Lemma call_left name f (o : object D U) x y : plain_of x = Some y ->
  call name (Two f) [x; AVar o] =
  bind (ufunc2 f y (meaning o)) (fun r => bind (eval name [x; AVar o] o) (new_from_func asarray get has_shape r)).
Proof.
  intro P. unfold array_ufunc.
  assert (S : self_of [x; AVar o] = Ok o) by (destruct x; try reflexivity; discriminate P). rewrite S. cbn [bind].
  assert (E : existsb is_other [x; AVar o] = false) by (destruct x; try reflexivity; discriminate P). rewrite E.
  assert (A : arrays asarray get has_shape name [x; AVar o] = Ok [y; meaning o]).
  { destruct x; try discriminate P; cbn [arrays mapM]; rewrite raw_var; cbn in *; now inversion P; subst. }
  rewrite A. reflexivity.
Qed.

Lemma pad_nil n : pad n [] = repeat 1 n.
Proof. unfold pad. cbn [length]. now rewrite Nat.sub_0_r, app_nil_r. Qed.
Lemma pad_self s : pad (length s) s = s.
Proof. unfold pad. now rewrite Nat.sub_diag. Qed.
Lemma broadcast_scalar s : broadcast [s; []] = Some s.
Proof.
  unfold broadcast. cbn [map length fold_right]. rewrite Nat.max_0_r, pad_nil, bcast2_self, pad_self. apply bcast2_ones.
Qed.
Lemma bcast2_ones_l s : bcast2 (repeat 1 (length s)) s = Some s.
Proof.
  induction s as [|n s IH]; [reflexivity|]. cbn [length repeat bcast2]. rewrite IH.
  destruct n as [|[|n]]; reflexivity.
Qed.
Lemma broadcast_scalar_l s : broadcast [[]; s] = Some s.
Proof.
  unfold broadcast. cbn [map length fold_right Nat.max]. rewrite Nat.max_0_r, pad_self, bcast2_ones, pad_nil.
  apply bcast2_ones_l.
Qed.

(** A number beside a quantity meets every element. *)
Lemma number_right f (a : arr) q : ufunc2 f a (mkArr [] [q]) = Ok (build (shape a) (fun i => f (at_ a (bindex (shape a) i)) q)).
Proof. unfold ufunc2. cbn [shape]. rewrite broadcast_scalar. reflexivity. Qed.
Lemma number_left f (a : arr) q : ufunc2 f (mkArr [] [q]) a = Ok (build (shape a) (fun i => f q (at_ a (bindex (shape a) i)))).
Proof. unfold ufunc2. cbn [shape]. rewrite broadcast_scalar_l. reflexivity. Qed.

Lemma number_ok (o : object D U) (g : Qc -> Qc) u : shaped o -> o_dims o <> [] ->
  exists r, new_from_func asarray get has_shape (build (shape (meaning o)) (fun i => g (at_ (meaning o) (bindex (shape (meaning o)) i))))
              (Some (u, o_dims o)) = Ok (Result r) /\
    o_dims r = o_dims o /\ o_unit r = u /\ shape (meaning r) = shape (meaning o) /\
    forall i, inside (shape (meaning o)) i -> at_ (meaning r) i = g (at_ (meaning o) i).
Proof.
  intros S N.
  match goal with |- context [new_from_func _ _ _ ?b _] => destruct (made_result b (o_dims o) u) as (r & -> & P1 & P2 & P3) end;
    [now apply dims_length|exact N|].
  exists r. rewrite P3. repeat split; auto. intros i I. rewrite at_build by exact I. now rewrite bindex_inside by exact I.
Qed.

Lemma eval_scale_right name (o : object D U) x y : kind_of name = Some KMul \/ kind_of name = Some KDiv ->
  plain_of x = Some y -> NoDup (o_dims o) ->
  eval name [AVar o; x] o = Ok (Some (o_unit o, o_dims o)).
Proof.
  intros K P N. unfold evaluate.
  assert (Sp : forall k, k = KMul \/ k = KDiv ->
    supports cls cls_eqb cls_sub (operation_of (Some k)) (map class_of [AVar o; x]) = true).
  { intros k [-> | ->]; destruct x; try discriminate P; reflexivity. }
  destruct K as [-> | ->]; cbv iota; (rewrite Sp by auto);
    destruct x; try discriminate P; cbn; rewrite merge_scalar by exact N; reflexivity.
Qed.
Lemma eval_scale_left (o : object D U) x y : plain_of x = Some y -> NoDup (o_dims o) ->
  eval (lit "multiply") [x; AVar o] o =
  match x with AArr _ | ANp _ => Err TypeError | _ => Ok (Some (o_unit o, o_dims o)) end.
Proof.
  intros P N. unfold evaluate. change (kind_of (lit "multiply")) with (Some KMul). cbv iota.
  destruct x; try discriminate P; cbn; rewrite ?merge_scalar by exact N; reflexivity.
Qed.
Lemma eval_power (o : object D U) q w : upow (o_unit o) q = Ok w ->
  eval (lit "power") [AVar o; ANum q] o = Ok (Some (w, o_dims o)) /\
  eval (lit "power") [AVar o; ANp q] o = Ok (Some (w, o_dims o)).
Proof.
  intro H. unfold evaluate. change (kind_of (lit "power")) with (Some KPow). cbv iota.
  split; cbn [negb map attr class_of]; unfold operator_call, unit_method, dims_method; rewrite H; reflexivity.
Qed.

(** Operations that are refused. *)
Lemma eval_refused name (args : list (operand D U)) (self : object D U) :
  match kind_of name, args with
  | Some KDiv, [ANum _; AVar _] | Some KDiv, [ANp _; AVar _] | Some KDiv, [AArr _; AVar _] => true
  | Some KPow, [AVar _; AVar _] | Some KPow, [AVar _; AArr _] | Some KPow, [AVar _; AList _]
  | Some KPow, [ANum _; AVar _] | Some KPow, [ANp _; AVar _] | Some KPow, [AArr _; AVar _] | Some KPow, [AList _; AVar _] => true
  | _, _ => false
  end = true -> eval name args self = Err OperandTypeError.
Proof.
  unfold evaluate. destruct (kind_of name) as [[]|]; try discriminate;
    destruct args as [|[] [|[] [|]]]; try discriminate; reflexivity.
Qed.
Lemma eval_sum_plain name (o : object D U) x y : kind_of name = Some KAdd -> plain_of x = Some y ->
  eval name [AVar o; x] o = Err TypeError /\ eval name [x; AVar o] o = Err TypeError.
Proof.
  intros K P. unfold evaluate. rewrite K. destruct x; try discriminate P; split; reflexivity.
Qed.
Lemma eval_unknown_two name (a b : object D U) : kind_of name = None ->
  eval name [AVar a; AVar b] a = Err MetadataError.
Proof. intro K. unfold evaluate. rewrite K. reflexivity. Qed.
Lemma eval_unknown_plain name (o : object D U) x y : kind_of name = None -> plain_of x = Some y ->
  eval name [AVar o; x] o = Err TypeError /\ eval name [x; AVar o] o = Err TypeError.
Proof. intros K P. unfold evaluate. rewrite K. destruct x; try discriminate P; split; reflexivity. Qed.

(** * Comparison *)

Lemma blocks P n : flat_map (fun k => map (fun r => k * P + r) (seq 0 P)) (seq 0 n) = seq 0 (n * P).
Proof.
  induction n as [|n IH]; [reflexivity|]. rewrite seq_S, flat_map_app, IH. cbn [flat_map Nat.add].
  rewrite app_nil_r. replace (S n * P) with (n * P + P) by lia. rewrite seq_app. f_equal.
  rewrite map_add_seq. f_equal; lia.
Qed.
Lemma ravel_all s : map (ravel s) (all_indices s) = seq 0 (product s).
Proof.
  induction s as [|n s IH]; [reflexivity|]. change (product (n :: s)) with (n * product s).
  rewrite <- blocks, <- IH. cbn [all_indices]. generalize (seq 0 n). intro l.
  induction l as [|k l IHl]; [reflexivity|]. cbn [flat_map]. rewrite map_app, IHl. f_equal.
  rewrite !map_map. reflexivity.
Qed.
Lemma ravel_nth s n : n < product s -> ravel s (nth n (all_indices s) []) = n.
Proof.
  intro H. pose proof (f_equal (fun l => nth n l (ravel s [])) (ravel_all s)) as E. cbv beta in E.
  rewrite map_nth in E. rewrite E. rewrite seq_nth by exact H. reflexivity.
Qed.

Lemma array_equal_spec a b : array_equal a b = true <->
  shape a = shape b /\ forallb (fun p => Qc_eqb (fst p) (snd p)) (combine (cells a) (cells b)) = true.
Proof.
  unfold array_equal. rewrite andb_true_iff. destruct (list_eq_dec _ _ _); intuition discriminate.
Qed.
Lemma cells_equal l : forall r, length l = length r ->
  forallb (fun p => Qc_eqb (fst p) (snd p)) (combine l r) = true <-> l = r.
Proof.
  induction l as [|x l IH]; intros [|y r] L; try discriminate L; [cbn; tauto|].
  cbn [combine forallb fst snd]. rewrite andb_true_iff, IH by (now injection L).
  destruct (Qc_eqb_spec x y) as [->|N]; split.
  - intros [_ ->]. reflexivity.
  - intro E. injection E as ->. auto.
  - intros [E _]. discriminate E.
  - intro E. injection E as E _. contradiction.
Qed.
Lemma filled_equal a b : filled a -> filled b ->
  array_equal a b = true <-> shape a = shape b /\ forall i, inside (shape a) i -> at_ a i = at_ b i.
Proof.
  intros Fa Fb. rewrite array_equal_spec. split; intros [Es H]; split; auto.
  - intros i I. rewrite cells_equal in H by (red in Fa, Fb; congruence). unfold at_. now rewrite Es, H.
  - rewrite cells_equal by (red in Fa, Fb; congruence). apply (nth_ext _ _ 0%Qc 0%Qc); [red in Fa, Fb; congruence|].
    intros n Hn. red in Fa. rewrite Fa in Hn.
    rewrite <- all_indices_length in Hn.
    assert (I : In (nth n (all_indices (shape a)) []) (all_indices (shape a))) by (now apply nth_In).
    apply all_indices_inside in I. pose proof (H _ I) as E. unfold at_ in E. rewrite <- Es in E.
    replace (ravel (shape a) (nth n (all_indices (shape a)) [])) with n in E; [exact E|].
    symmetry. apply ravel_nth. now rewrite <- all_indices_length.
Qed.

(** * Looking for a value *)

Lemma lowest_spec l : forall x, (forall y, In y (x :: l) -> (lowest x l <= y)%Qc) /\ In (lowest x l) (x :: l).
Proof.
  unfold lowest. induction l as [|z l IH]; intro x; cbn [fold_left].
  - split; [|now left]. intros y [->|[]]. apply Qcle_refl.
  - destruct (IH (if Qc_leb x z then x else z)) as [H1 H2]. destruct (Qc_leb_spec x z) as [L|L].
    + split.
      * intros y [->|[->|I]]; [apply H1; now left| |apply H1; now right].
        eapply Qcle_trans; [apply H1; now left|exact L].
      * destruct H2 as [<-|H2]; [now left|now right; right].
    + assert (L' : (z <= x)%Qc) by (apply Qcnot_le_lt in L; now apply Qclt_le_weak). split.
      * intros y [->|[->|I]]; [|apply H1; now left|apply H1; now right].
        eapply Qcle_trans; [apply H1; now left|exact L'].
      * destruct H2 as [<-|H2]; [now right; left|now right; right].
Qed.
Lemma highest_spec l : forall x, (forall y, In y (x :: l) -> (y <= highest x l)%Qc) /\ In (highest x l) (x :: l).
Proof.
  unfold highest. induction l as [|z l IH]; intro x; cbn [fold_left].
  - split; [|now left]. intros y [->|[]]. apply Qcle_refl.
  - destruct (IH (if Qc_leb z x then x else z)) as [H1 H2]. destruct (Qc_leb_spec z x) as [L|L].
    + split.
      * intros y [->|[->|I]]; [apply H1; now left| |apply H1; now right].
        eapply Qcle_trans; [exact L|apply H1; now left].
      * destruct H2 as [<-|H2]; [now left|now right; right].
    + assert (L' : (x <= z)%Qc) by (apply Qcnot_le_lt in L; now apply Qclt_le_weak). split.
      * intros y [->|[->|I]]; [|apply H1; now left|apply H1; now right].
        eapply Qcle_trans; [exact L'|apply H1; now left].
      * destruct H2 as [<-|H2]; [now right; left|now right; right].
Qed.
Lemma isclose_spec v x : isclose v x = true <-> near v x.
Proof.
  unfold isclose, near, rtol. generalize (Qc_abs (v - x)), (Qc_abs x). intros p q.
  destruct (Qc_leb_spec p (Q2Qc (1 # 100000) * q)) as [L|L].
  - split; [intros _|reflexivity]. to_Q. change (inject_Z 100000) with (100000 # 1)%Q. lra.
  - split; [discriminate|]. intro H. exfalso. apply L. to_Q. change (inject_Z 100000) with (100000 # 1)%Q in H. lra.
Qed.
Lemma exists_equal v l : existsb (Qc_eqb v) l = true <-> In v l.
Proof.
  rewrite existsb_exists. split; [intros (x & I & E)|intro I; exists v; split; [exact I|apply Qc_eqb_refl]].
  destruct (Qc_eqb_spec v x); [now subst|discriminate E].
Qed.

Theorem contains_spec (o : object D U) v : filled (meaning o) -> cells (meaning o) <> [] ->
  exists b, array_contains asarray get o v = Ok b /\
  (b = true <-> In v (cells (meaning o)) \/
     (exists x, In x (cells (meaning o)) /\ (x <= v)%Qc) /\ (exists x, In x (cells (meaning o)) /\ (v <= x)%Qc) /\
     exists x, In x (cells (meaning o)) /\ near v x).
Proof.
  intros F Ne. unfold array_contains, contains. change (fst (get_array asarray get o NAll)) with (raw (AVar o)).
  rewrite raw_var. cbn [bind].
  destruct (existsb (Qc_eqb v) (cells (meaning o))) eqn:Ex.
  { eexists. split; [reflexivity|]. apply exists_equal in Ex. tauto. }
  assert (Nx : ~ In v (cells (meaning o))) by (rewrite <- exists_equal; congruence).
  destruct (cells (meaning o)) as [|x l] eqn:C; [contradiction|]. clear Ne Ex.
  destruct (lowest_spec l x) as [L1 L2]. destruct (highest_spec l x) as [H1 H2].
  destruct (Qc_leb_spec (lowest x l) v) as [A|A]; cbn [negb orb].
  2:{ eexists. split; [reflexivity|]. split; [discriminate|]. intros [I|((y & I & Ly) & _)]; [contradiction|].
      exfalso. apply A. eapply Qcle_trans; [apply L1; exact I|exact Ly]. }
  destruct (Qc_leb_spec v (highest x l)) as [B|B]; cbn [negb orb].
  2:{ eexists. split; [reflexivity|]. split; [discriminate|]. intros [I|(_ & (y & I & Ly) & _)]; [contradiction|].
      exfalso. apply B. eapply Qcle_trans; [exact Ly|apply H1; exact I]. }
  eexists. split; [reflexivity|]. rewrite existsb_exists. split.
  - intros (y & I & E). right. split; [eauto|]. split; [eauto|]. exists y. now rewrite <- isclose_spec.
  - intros [I|(_ & _ & y & I & E)]; [contradiction|]. exists y. now rewrite isclose_spec.
Qed.

Theorem contains_empty (o : object D U) v : filled (meaning o) -> cells (meaning o) = [] ->
  array_contains asarray get o v = Err ValueError.
Proof.
  intros F E. unfold array_contains, contains. change (fst (get_array asarray get o NAll)) with (raw (AVar o)).
  rewrite raw_var. cbn [bind]. now rewrite E.
Qed.
End Ufuncs.
