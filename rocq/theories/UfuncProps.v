(** Properties of numpy's functions on array-like quantities, of comparing
    them, and of looking for values in them (variable.py, metadata.py). *)

From Coq Require Import String Ascii List Bool ZArith QArith Qcanon Lia.
From Verif Require Import Py PyFacts PyDict QcOrder IterablesModel MetadataModel MetadataSpec MetadataProofs.
From Verif Require Import ArrayModel ArraySpec ArrayProofs ArrayOpsProofs MeshProofs ArrayMoreProofs ArrayProps.
From Verif Require Import UfuncModel UfuncSpec UfuncProofs.
Import ListNotations.
Open Scope list_scope.
Open Scope nat_scope.

(** ** Data for the examples *)

(** A unit is a whole number of the smallest unit. *)
Definition z_size (u : Z) : Qc := Qc_of_Z u.
Definition z_sum (u v : Z) : res Z := if Z.eqb u v then Ok u else Err ScaleMismatch.
Definition z_mul (u v : Z) : res Z := Ok (u * v)%Z.
Definition z_div (u v : Z) : res Z := Ok (u / v)%Z.
Definition z_pow (u : Z) (q : Qc) : res Z :=
  if Qc_eqb q (Q2Qc (1 # 2)) then Ok (Z.sqrt u) else Ok (u ^ Qc_num q)%Z.
Definition sample_call := @array_ufunc sample Z sample_array sample_get sample_shape z_sum z_mul z_div z_pow.
Definition result_is (r : res (outcome sample Z)) (s : list nat) (l : list nat) (u : Z) : bool :=
  match r with Ok (Result o) => arr_is (meaning sample_array o) s l && Z.eqb (o_unit o) u | _ => false end.
Definition plain_is (r : res (outcome sample Z)) (s : list nat) (l : list nat) : bool :=
  match r with Ok (Plain a) => arr_is a s l | _ => false end.

Ltac proper_sample :=
  split; [split; reflexivity|split; [reflexivity|repeat constructor; cbn; intuition discriminate]].

(** ** C206: products and quotients *)

Theorem C206_product : forall (D U : Type) asarray get has_shape usum umul udiv upow (size : U -> Qc) (a b : object D U) w,
  reads_like asarray get -> proper asarray a -> proper asarray b -> o_dims a <> [] \/ o_dims b <> [] ->
  same_sizes (o_dims a) (o_dims b) (shape (meaning asarray a)) (shape (meaning asarray b)) ->
  umul (o_unit a) (o_unit b) = Ok w -> size w = (size (o_unit a) * size (o_unit b))%Qc ->
  exists r, array_ufunc asarray get has_shape usum umul udiv upow (lit "multiply") (Two Qcmult) [AVar a; AVar b] = Ok (Result r) /\
    followed_by_new (o_dims a) (o_dims b) (o_dims r) /\ o_unit r = w /\
    length (shape (meaning asarray r)) = length (o_dims r) /\
    forall i, inside (shape (meaning asarray r)) i ->
      amount asarray size r i = (amount asarray size a (restrict_to (o_dims a) (o_dims r) i) *
                                 amount asarray size b (restrict_to (o_dims b) (o_dims r) i))%Qc.
Proof.
  intros D U asarray get has_shape usum umul udiv upow size a b w R Pa Pb Ne Ss Hw Hs.
  destruct (product_two asarray get has_shape usum umul udiv upow R (lit "multiply") Qcmult w a b eq_refl
              (eval_mul usum umul udiv upow a b w Hw) Pa Pb Ne Ss) as (r & E & F & Eu & L & H).
  exists r. repeat (split; [assumption|]). intros i I. unfold amount. rewrite H, Eu, Hs by exact I. ring.
Qed.
Print Assumptions C206_product.

(** At elements that can be divided by. *)
Theorem C206_quotient : forall (D U : Type) asarray get has_shape usum umul udiv upow (size : U -> Qc) (a b : object D U) w,
  reads_like asarray get -> proper asarray a -> proper asarray b -> o_dims a <> [] \/ o_dims b <> [] ->
  same_sizes (o_dims a) (o_dims b) (shape (meaning asarray a)) (shape (meaning asarray b)) ->
  udiv (o_unit a) (o_unit b) = Ok w -> size w = (size (o_unit a) / size (o_unit b))%Qc ->
  size (o_unit b) <> 0%Qc ->
  exists r, array_ufunc asarray get has_shape usum umul udiv upow (lit "true_divide") (Two Qcdiv) [AVar a; AVar b] = Ok (Result r) /\
    followed_by_new (o_dims a) (o_dims b) (o_dims r) /\ o_unit r = w /\
    length (shape (meaning asarray r)) = length (o_dims r) /\
    forall i, inside (shape (meaning asarray r)) i ->
      at_ (meaning asarray b) (restrict_to (o_dims b) (o_dims r) i) <> 0%Qc ->
      amount asarray size r i = (amount asarray size a (restrict_to (o_dims a) (o_dims r) i) /
                                 amount asarray size b (restrict_to (o_dims b) (o_dims r) i))%Qc.
Proof.
  intros D U asarray get has_shape usum umul udiv upow size a b w R Pa Pb Ne Ss Hw Hs Nz.
  destruct (product_two asarray get has_shape usum umul udiv upow R (lit "true_divide") Qcdiv w a b eq_refl
              (eval_div usum umul udiv upow a b w Hw) Pa Pb Ne Ss) as (r & E & F & Eu & L & H).
  exists r. repeat (split; [assumption|]). intros i I Nb. unfold amount. rewrite H, Eu, Hs by exact I.
  field. split; assumption.
Qed.
Print Assumptions C206_quotient.

Example C206_example :
  let a := object_of [2; 3] ["t"; "x"]%string 6%Z in
  let b := object_of [3; 2] ["x"; "y"]%string 2%Z in
  proper sample_array a /\ proper sample_array b /\
  same_sizes (o_dims a) (o_dims b) (shape (meaning sample_array a)) (shape (meaning sample_array b)) /\
  result_is (sample_call (lit "multiply") (Two Qcmult) [AVar a; AVar b]) [2; 3; 2] [0; 0; 2; 3; 8; 10; 0; 3; 8; 12; 20; 25] 12 = true /\
  match sample_call (lit "true_divide") (Two Qcdiv) [AVar a; AVar b] with
  | Ok (Result r) => o_unit r = 3%Z /\ at_ (meaning sample_array r) [1; 2; 0] = Q2Qc (5 # 4) | _ => False end.
Proof.
  cbv zeta. split; [proper_sample|]. split; [proper_sample|].
  split; [intros d [<- | [<- | []]] [H | [H | []]]; try discriminate H; reflexivity|].
  split; [vm_compute; reflexivity|]. cbn. split; [reflexivity|]. apply Qc_is_canon. vm_compute. reflexivity.
Qed.

(** ** C207: sums and differences *)

Theorem C207_sum : forall (D U : Type) asarray get has_shape usum umul udiv upow (size : U -> Qc) (a b : object D U) w,
  reads_like asarray get -> proper asarray a -> proper asarray b -> o_dims a <> [] ->
  o_dims a = o_dims b -> shape (meaning asarray a) = shape (meaning asarray b) ->
  usum (o_unit a) (o_unit b) = Ok w -> size w = size (o_unit a) -> size w = size (o_unit b) ->
  exists r s,
    array_ufunc asarray get has_shape usum umul udiv upow (lit "add") (Two Qcplus) [AVar a; AVar b] = Ok (Result r) /\
    array_ufunc asarray get has_shape usum umul udiv upow (lit "subtract") (Two Qcminus) [AVar a; AVar b] = Ok (Result s) /\
    o_dims r = o_dims a /\ o_dims s = o_dims a /\ o_unit r = w /\ o_unit s = w /\
    shape (meaning asarray r) = shape (meaning asarray a) /\ shape (meaning asarray s) = shape (meaning asarray a) /\
    forall i, inside (shape (meaning asarray a)) i ->
      amount asarray size r i = (amount asarray size a i + amount asarray size b i)%Qc /\
      amount asarray size s i = (amount asarray size a i - amount asarray size b i)%Qc.
Proof.
  intros D U asarray get has_shape usum umul udiv upow size a b w R (Sa & Fa & Na) (Sb & Fb & Nb) Ne Ed Es Hw H1 H2.
  destruct (sum_two asarray get has_shape usum umul udiv upow R (lit "add") Qcplus w a b eq_refl
              (eval_sum usum umul udiv upow (lit "add") a b w eq_refl Hw Ed) Sa Ne Es) as (r & E & Er & Eu & L & H).
  destruct (sum_two asarray get has_shape usum umul udiv upow R (lit "subtract") Qcminus w a b eq_refl
              (eval_sum usum umul udiv upow (lit "subtract") a b w eq_refl Hw Ed) Sa Ne Es) as (s & E' & Er' & Eu' & L' & H').
  exists r, s. repeat (split; [assumption|]). intros i I. unfold amount.
  rewrite H, H' by congruence. rewrite Eu, Eu', <- H1, <- H2. split; ring.
Qed.
Print Assumptions C207_sum.

(** Quantities whose units do not add are refused, with the exception of the
    units (a TypeError becomes a MetadataError). *)
Theorem C207_units : forall (D U : Type) asarray get has_shape usum umul udiv upow (a b : object D U) name f e,
  reads_like asarray get -> shape (meaning asarray a) = shape (meaning asarray b) ->
  name = lit "add" \/ name = lit "subtract" -> usum (o_unit a) (o_unit b) = Err e ->
  array_ufunc asarray get has_shape usum umul udiv upow name (Two f) [AVar a; AVar b] =
  Err (match e with TypeError => MetadataError | _ => e end).
Proof.
  intros D U asarray get has_shape usum umul udiv upow a b name f e R Es Hn He.
  rewrite same_two by (auto; destruct Hn as [-> | ->]; reflexivity).
  assert (E : evaluate usum umul udiv upow name [AVar a; AVar b] a = Err (match e with TypeError => MetadataError | _ => e end)).
  { unfold evaluate. replace (kind_of name) with (Some KAdd) by (destruct Hn as [-> | ->]; reflexivity). cbv iota.
    replace (supports cls cls_eqb cls_sub (operation_of (Some KAdd)) (map class_of [AVar a; AVar b])) with true by reflexivity.
    cbn [negb map attr]. unfold operator_call, unit_method. rewrite He. destruct e; reflexivity. }
  now rewrite E.
Qed.
Print Assumptions C207_units.

(** A number or an array without a unit is neither added nor subtracted, on
    either side. *)
Theorem C207_numbers : forall (D U : Type) asarray get has_shape usum umul udiv upow (o : object D U) name f (q : Qc),
  reads_like asarray get -> name = lit "add" \/ name = lit "subtract" ->
  array_ufunc asarray get has_shape usum umul udiv upow name (Two f) [AVar o; ANum q] = Err TypeError /\
  array_ufunc asarray get has_shape usum umul udiv upow name (Two f) [ANum q; AVar o] = Err TypeError.
Proof.
  intros D U asarray get has_shape usum umul udiv upow o name f q R Hn.
  rewrite (call_right asarray get has_shape usum umul udiv upow R name f o (ANum q) _ eq_refl).
  rewrite (call_left asarray get has_shape usum umul udiv upow R name f o (ANum q) _ eq_refl).
  rewrite number_right, number_left. cbn [bind].
  destruct (eval_sum_plain usum umul udiv upow name o (ANum q) _ (match Hn with or_introl E => eq_trans (f_equal kind_of E) eq_refl
    | or_intror E => eq_trans (f_equal kind_of E) eq_refl end) eq_refl) as [-> ->].
  split; reflexivity.
Qed.
Print Assumptions C207_numbers.

Example C207_example :
  let a := object_of [2; 2] ["x"; "y"]%string 6%Z in
  proper sample_array a /\
  result_is (sample_call (lit "add") (Two Qcplus) [AVar a; AVar a]) [2; 2] [0; 2; 4; 6] 6 = true /\
  sample_call (lit "subtract") (Two Qcminus) [AVar a; AVar (object_of [2; 2] ["x"; "y"]%string 2%Z)] = Err ScaleMismatch /\
  sample_call (lit "add") (Two Qcplus) [ANum 1; AVar a] = Err TypeError.
Proof. cbv zeta. split; [proper_sample|]. repeat split; vm_compute; reflexivity. Qed.

(** ** C208: negatives, absolute values, powers and roots *)

Theorem C208_unary : forall (D U : Type) asarray get has_shape usum umul udiv upow (size : U -> Qc) (o : object D U),
  reads_like asarray get -> proper asarray o -> o_dims o <> [] -> (0 < size (o_unit o))%Qc ->
  exists n p,
    array_ufunc asarray get has_shape usum umul udiv upow (lit "negative") (One Qcopp) [AVar o] = Ok (Result n) /\
    array_ufunc asarray get has_shape usum umul udiv upow (lit "absolute") (One Qc_abs) [AVar o] = Ok (Result p) /\
    o_dims n = o_dims o /\ o_dims p = o_dims o /\ o_unit n = o_unit o /\ o_unit p = o_unit o /\
    shape (meaning asarray n) = shape (meaning asarray o) /\ shape (meaning asarray p) = shape (meaning asarray o) /\
    forall i, inside (shape (meaning asarray o)) i ->
      amount asarray size n i = (- amount asarray size o i)%Qc /\
      amount asarray size p i = Qc_abs (amount asarray size o i).
Proof.
  intros D U asarray get has_shape usum umul udiv upow size o R (So & Fo & No) Ne Sz.
  destruct (one_ok asarray get has_shape usum umul udiv upow R (lit "negative") Qcopp o (o_unit o) So Fo Ne
              (eval_one usum umul udiv upow (lit "negative") o (or_introl eq_refl))) as (n & E & Er & Eu & L & H).
  destruct (one_ok asarray get has_shape usum umul udiv upow R (lit "absolute") Qc_abs o (o_unit o) So Fo Ne
              (eval_one usum umul udiv upow (lit "absolute") o (or_introl eq_refl))) as (p & E' & Er' & Eu' & L' & H').
  exists n, p. repeat (split; [assumption|]). intros i I. unfold amount. rewrite H, H', Eu, Eu' by exact I. split; [ring|].
  clear H H'. revert Sz. generalize (at_ (meaning asarray o) i) (size (o_unit o)). intros x c Sz.
  destruct (Qclt_le_dec x 0) as [Lx|Lx].
  - rewrite !Qc_abs_neg; [ring| |now apply Qclt_le_weak]. qnra.
  - rewrite !Qc_abs_nonneg; [reflexivity| |exact Lx]. qnra.
Qed.
Print Assumptions C208_unary.

(** Powers with whole exponents, where [pow] is the power of numbers. *)
Theorem C208_power : forall (D U : Type) asarray get has_shape usum umul udiv upow (size : U -> Qc) (o : object D U) pow (n : nat) w,
  reads_like asarray get -> proper asarray o -> o_dims o <> [] ->
  (forall x, pow x (Qc_of_Z (Z.of_nat n)) = Qcpower x n) ->
  upow (o_unit o) (Qc_of_Z (Z.of_nat n)) = Ok w -> size w = Qcpower (size (o_unit o)) n ->
  exists r, array_ufunc asarray get has_shape usum umul udiv upow (lit "power") (Two pow)
              [AVar o; ANum (Qc_of_Z (Z.of_nat n))] = Ok (Result r) /\
    o_dims r = o_dims o /\ o_unit r = w /\ shape (meaning asarray r) = shape (meaning asarray o) /\
    forall i, inside (shape (meaning asarray o)) i ->
      amount asarray size r i = Qcpower (amount asarray size o i) n.
Proof.
  intros D U asarray get has_shape usum umul udiv upow size o pow n w R (So & Fo & No) Ne Hp Hw Hs.
  rewrite (call_right asarray get has_shape usum umul udiv upow R (lit "power") pow o (ANum _) _ eq_refl), number_right.
  cbn [bind]. destruct (eval_power usum umul udiv upow o _ w Hw) as [-> _]. cbn [bind].
  destruct (number_ok asarray get has_shape o (fun x => pow x (Qc_of_Z (Z.of_nat n))) w So Ne) as (r & E & Er & Eu & L & H).
  exists r. repeat (split; [assumption|]). intros i I. unfold amount. rewrite H, Hp, Eu, Hs by exact I.
  clear. generalize (at_ (meaning asarray o) i) (size (o_unit o)). intros x c.
  induction n as [|n IH]; [cbn; ring|]. cbn [Qcpower]. rewrite <- IH. ring.
Qed.
Print Assumptions C208_power.

(** The square root, where [root] is the square root of the numbers in the
    array. *)
Theorem C208_root : forall (D U : Type) asarray get has_shape usum umul udiv upow (size : U -> Qc) (o : object D U) root w,
  reads_like asarray get -> proper asarray o -> o_dims o <> [] ->
  (forall i, inside (shape (meaning asarray o)) i ->
     (root (at_ (meaning asarray o) i) * root (at_ (meaning asarray o) i))%Qc = at_ (meaning asarray o) i) ->
  upow (o_unit o) (Q2Qc (1 # 2)) = Ok w -> (size w * size w)%Qc = size (o_unit o) ->
  exists r, array_ufunc asarray get has_shape usum umul udiv upow (lit "sqrt") (One root) [AVar o] = Ok (Result r) /\
    o_dims r = o_dims o /\ o_unit r = w /\ shape (meaning asarray r) = shape (meaning asarray o) /\
    forall i, inside (shape (meaning asarray o)) i ->
      (amount asarray size r i * amount asarray size r i)%Qc = amount asarray size o i.
Proof.
  intros D U asarray get has_shape usum umul udiv upow size o root w R (So & Fo & No) Ne Hr Hw Hs.
  destruct (one_ok asarray get has_shape usum umul udiv upow R (lit "sqrt") root o w So Fo Ne
              (eval_sqrt usum umul udiv upow o w Hw)) as (r & E & Er & Eu & L & H).
  exists r. repeat (split; [assumption|]). intros i I. unfold amount. rewrite H, Eu by exact I.
  transitivity ((root (at_ (meaning asarray o) i) * root (at_ (meaning asarray o) i)) * (size w * size w))%Qc; [ring|].
  now rewrite Hr, Hs by exact I.
Qed.
Print Assumptions C208_root.

Definition sample_root (x : Qc) : Qc := Qc_of_Z (Z.sqrt (Qc_num x)).
Definition sample_power (x q : Qc) : Qc := Qcpower x (Z.to_nat (Qc_num q)).
Example C208_example :
  let o := object_of [2] ["x"]%string 9%Z in
  proper sample_array o /\ (0 < z_size (o_unit o))%Qc /\
  result_is (sample_call (lit "power") (Two sample_power) [AVar o; ANum (Qc_of_Z 3)]) [2] [0; 1] 729 = true /\
  result_is (sample_call (lit "sqrt") (One sample_root) [AVar o]) [2] [0; 1] 3 = true /\
  (z_size 3 * z_size 3)%Qc = z_size 9 /\
  result_is (sample_call (lit "absolute") (One Qc_abs) [AVar o]) [2] [0; 1] 9 = true.
Proof.
  cbv zeta. split; [proper_sample|]. split; [reflexivity|]. split; [vm_compute; reflexivity|].
  split; [vm_compute; reflexivity|]. split; [apply Qc_is_canon; vm_compute; reflexivity|vm_compute; reflexivity].
Qed.

(** ** C209: functions without a rule *)

(** A function of two quantities for which there is no rule is refused. *)
Theorem C209_two : forall (D U : Type) asarray get has_shape usum umul udiv upow (a b : object D U) name f,
  reads_like asarray get -> shape (meaning asarray a) = shape (meaning asarray b) ->
  ~ In name (map lit ["int"; "float"; "lt"; "less"; "le"; "less_equal"; "less equal"; "gt"; "greater";
                      "ge"; "greater_equal"; "greater equal"; "abs"; "absolute"; "pos"; "positive"; "neg"; "negative";
                      "ceil"; "ceiling"; "floor"; "trunc"; "truncate"; "round"; "add"; "sub"; "subtract"; "mul";
                      "multiply"; "truediv"; "true_divide"; "true divide"; "pow"; "power"; "divide"]%string) ->
  array_ufunc asarray get has_shape usum umul udiv upow name (Two f) [AVar a; AVar b] = Err MetadataError.
Proof.
  intros D U asarray get has_shape usum umul udiv upow a b name f R Es Hn.
  rewrite same_two; [|exact R| |exact Es].
  - rewrite eval_unknown_two; [reflexivity|].
    destruct (kind_of name) as [k|] eqn:K; [exfalso; apply Hn|reflexivity]. clear Hn. unfold kind_of in K.
    destruct (find _ _) as [[k' l]|] eqn:Fd; [|discriminate K]. apply find_some in Fd. destruct Fd as [I E].
    apply existsb_exists in E. destruct E as (x & Ix & Ex). cbn [snd] in Ix.
    destruct (str_eqb_spec name x) as [<-|]; [|discriminate Ex].
    cbn in I. repeat (destruct I as [I|I]; [injection I as <- <-; cbn in Ix; cbn; tauto|]). destruct I.
  - destruct (multiplicative name) eqn:M; [exfalso; apply Hn|reflexivity]. unfold multiplicative in M.
    apply existsb_exists in M. destruct M as (x & Ix & Ex). destruct (str_eqb_spec name x) as [<-|]; [|discriminate Ex].
    cbn in Ix. cbn. tauto.
Qed.
Print Assumptions C209_two.

(** Functions of one quantity without a rule keep the unit: the amounts of a
    square are wrong unless the unit has size 1 (or the amount is 0). *)
Theorem C209_square_refuted : forall (D U : Type) asarray get has_shape usum umul udiv upow (size : U -> Qc) (o : object D U),
  reads_like asarray get -> proper asarray o -> o_dims o <> [] -> size (o_unit o) <> 0%Qc -> size (o_unit o) <> 1%Qc ->
  exists r, array_ufunc asarray get has_shape usum umul udiv upow (lit "square") (One (fun x => x * x)%Qc) [AVar o] = Ok (Result r) /\
    o_unit r = o_unit o /\
    forall i, inside (shape (meaning asarray o)) i -> at_ (meaning asarray o) i <> 0%Qc ->
      amount asarray size r i <> (amount asarray size o i * amount asarray size o i)%Qc.
Proof.
  intros D U asarray get has_shape usum umul udiv upow size o R (So & Fo & No) Ne N0 N1.
  assert (K : kind_of (lit "square") = None) by (vm_compute; reflexivity).
  assert (K' : lit "square" <> lit "sqrt") by (intro K'; vm_compute in K'; discriminate K').
  destruct (one_ok asarray get has_shape usum umul udiv upow R (lit "square") (fun x => x * x)%Qc o (o_unit o) So Fo Ne
              (eval_one usum umul udiv upow (lit "square") o (or_intror (conj K K')))) as (r & E & Er & Eu & L & H).
  exists r. repeat (split; [assumption|]). intros i I Nx. unfold amount. rewrite H, Eu by exact I.
  clear H. revert Nx N0 N1. generalize (at_ (meaning asarray o) i) (size (o_unit o)). intros x c Nx N0 N1 E'.
  apply N1. assert (Z : (x * x * c * (c - 1))%Qc = 0%Qc) by (transitivity (x * c * (x * c) - x * x * c)%Qc; [ring|rewrite <- E'; ring]).
  apply Qcmult_integral in Z. destruct Z as [Z|Z].
  - exfalso. revert Z. repeat apply Qc_mult_neq_0; assumption.
  - replace c with (c - 1 + 1)%Qc by ring. rewrite Z. ring.
Qed.
Print Assumptions C209_square_refuted.

Example C209_example :
  let o := object_of [3] ["x"]%string 6%Z in
  proper sample_array o /\
  result_is (sample_call (lit "square") (One (fun x => x * x)%Qc) [AVar o]) [3] [0; 1; 4] 6 = true /\
  sample_call (lit "maximum") (Two (fun x y => if Qc_leb x y then y else x)) [AVar o; AVar o] = Err MetadataError.
Proof. cbv zeta. split; [proper_sample|]. split; vm_compute; reflexivity. Qed.

(** ** C210: ordering *)

Definition less (x y : Qc) : Qc := if Qc_ltb x y then 1%Qc else 0%Qc.

(** Missing: quantities with different units, and axes in another order. *)
Theorem C210_less_partial : forall (D U : Type) asarray get has_shape usum umul udiv upow (size : U -> Qc) (a b : object D U),
  reads_like asarray get -> proper asarray a -> proper asarray b ->
  o_dims a = o_dims b -> shape (meaning asarray a) = shape (meaning asarray b) ->
  o_unit a = o_unit b -> (0 < size (o_unit a))%Qc ->
  exists r, array_ufunc asarray get has_shape usum umul udiv upow (lit "less") (Two less) [AVar a; AVar b] = Ok (Plain r) /\
    shape r = shape (meaning asarray a) /\
    forall i, inside (shape (meaning asarray a)) i -> tells (at_ r i) (amount asarray size a i < amount asarray size b i)%Qc.
Proof.
  intros D U asarray get has_shape usum umul udiv upow size a b R Pa Pb Ed Es Eu Sz.
  rewrite same_two by (auto; reflexivity). change (evaluate usum umul udiv upow (lit "less") [AVar a; AVar b] a) with (@Ok (option (U * list str)) None).
  cbn [bind]. eexists. split; [unfold new_from_func; destruct (shape (build _ _)); reflexivity|].
  split; [reflexivity|]. intros i I. rewrite at_build, bindex_inside by exact I. unfold amount. rewrite <- Eu.
  revert Sz. generalize (at_ (meaning asarray a) i) (at_ (meaning asarray b) i) (size (o_unit a)). intros x y c Sz.
  unfold tells, less. destruct (Qc_ltb_spec x y) as [L|L]; [left|right]; (split; [reflexivity|]); [|intro H; apply L]; qnra.
Qed.
Print Assumptions C210_less_partial.

(** 1 of a unit of size 1000 is less than 2 of a unit of size 1. *)
Theorem C210_less_refuted :
  let a := mkObject (Source (true, mkArr [1] [1%Qc])) None 1%Qc 1000%Z [lit "x"] : object sample Z in
  let b := mkObject (Source (true, mkArr [1] [Qc_of_Z 2])) None 1%Qc 1%Z [lit "x"] : object sample Z in
  proper sample_array a /\ proper sample_array b /\
  plain_is (sample_call (lit "less") (Two less) [AVar a; AVar b]) [1] [1] = true /\
  (amount sample_array z_size b [0%nat] < amount sample_array z_size a [0%nat])%Qc.
Proof.
  cbv zeta. split; [proper_sample|]. split; [proper_sample|]. split; vm_compute; reflexivity.
Qed.
Print Assumptions C210_less_refuted.

Example C210_example :
  let a := object_of [3] ["x"]%string 6%Z in
  let b := mkObject (Source (true, mkArr [3] [1; 1; 1]%Qc)) None 1%Qc 6%Z [lit "x"] : object sample Z in
  proper sample_array a /\ proper sample_array b /\
  plain_is (sample_call (lit "less") (Two less) [AVar a; AVar b]) [3] [1; 0; 0] = true.
Proof. cbv zeta. split; [proper_sample|]. split; [proper_sample|]. vm_compute. reflexivity. Qed.

(** ** C211: equality *)

(** Missing: axes in another order. *)
Theorem C211_equal_partial : forall (D U : Type) asarray get ueq (a b : object D U),
  reads_like asarray get -> proper asarray a -> proper asarray b ->
  (forall e, ueq (o_unit b) (o_unit a) <> Err e) ->
  (o_dims a = o_dims b \/ exists d, In d (o_dims a) /\ ~ In d (o_dims b)) ->
  exists r, quantity_eq asarray get ueq a b = Ok r /\
    (r = true <-> ueq (o_unit b) (o_unit a) = Ok true /\ o_dims a = o_dims b /\
                  shape (meaning asarray a) = shape (meaning asarray b) /\
                  forall i, inside (shape (meaning asarray a)) i -> at_ (meaning asarray a) i = at_ (meaning asarray b) i).
Proof.
  intros D U asarray get ueq a b R (Sa & Fa & Na) (Sb & Fb & Nb) He Hd. unfold quantity_eq.
  destruct (ueq (o_unit b) (o_unit a)) as [[]|e] eqn:E; [| |exfalso; now apply (He e)]; cbn [bind negb].
  2:{ eexists. split; [reflexivity|]. split; [discriminate|]. intros [H _]. discriminate H. }
  destruct (dims_eq (o_dims b) (DDims (o_dims a))) eqn:Dq; cbn [negb].
  - apply dims_eq_spec in Dq. assert (Ed : o_dims a = o_dims b).
    { destruct Hd as [Hd|(d & I & N)]; [exact Hd|]. exfalso. apply N. now apply (proj2 Dq). }
    destruct (get_array_ok asarray get R a NAll) as (a' & -> & _).
    destruct (get_array_ok asarray get R b NAll) as (b' & -> & _). cbn [missing fst bind].
    eexists. split; [reflexivity|]. rewrite filled_equal by assumption. split.
    + intros [Es H]. repeat split; auto. intros i I. symmetry. apply H. now rewrite Es.
    + intros (_ & _ & Es & H). split; [auto|]. intros i I. symmetry. apply H. now rewrite Es.
  - eexists. split; [reflexivity|]. split; [discriminate|]. intros (_ & Ed & _).
    exfalso. rewrite Ed in Dq. enough (dims_eq (o_dims b) (DDims (o_dims b)) = true) by congruence.
    apply dims_eq_spec. split; [reflexivity|apply incl_refl].
Qed.
Print Assumptions C211_equal_partial.

(** Two arrays with axes in opposite order compare equal although they have
    different values at x = 0, y = 1. *)
Theorem C211_equal_refuted :
  let a := object_of [2; 2] ["x"; "y"]%string 1%Z in
  let b := object_of [2; 2] ["y"; "x"]%string 1%Z in
  quantity_eq sample_array sample_get z_eq a b = Ok true /\
  at_ (meaning sample_array a) [0; 1] = Qc_of_Z 1 /\
  at_ (meaning sample_array b) (restrict_to (o_dims b) (o_dims a) [0; 1]) = Qc_of_Z 2.
Proof. cbv zeta. repeat split; vm_compute; reflexivity. Qed.
Print Assumptions C211_equal_refuted.

Example C211_example :
  let a := object_of [2; 2] ["x"; "y"]%string 1%Z in
  proper sample_array a /\ quantity_eq sample_array sample_get z_eq a a = Ok true /\
  quantity_eq sample_array sample_get z_eq a (object_of [2; 2] ["x"; "z"]%string 1%Z) = Ok false /\
  quantity_eq sample_array sample_get z_eq a (object_of [2; 2] ["x"; "y"]%string 2%Z) = Ok false /\
  quantity_eq sample_array sample_get z_eq a (object_of [2; 3] ["x"; "y"]%string 1%Z) = Ok false.
Proof. cbv zeta. split; [proper_sample|]. repeat split; vm_compute; reflexivity. Qed.

(** ** C212: inequality *)

(** [a != b] never has a value for quantities of the same shape. *)
Theorem C212_unequal_refuted : forall (D U : Type) asarray get has_shape usum umul udiv upow (a b : object D U),
  reads_like asarray get -> shape (meaning asarray a) = shape (meaning asarray b) ->
  quantity_ne asarray get has_shape usum umul udiv upow a b = Err MetadataError.
Proof.
  intros D U asarray get has_shape usum umul udiv upow a b R Es. unfold quantity_ne. apply C209_two; auto.
  cbn. intuition discriminate.
Qed.
Print Assumptions C212_unequal_refuted.

Example C212_example :
  let a := object_of [2; 2] ["x"; "y"]%string 1%Z in
  quantity_eq sample_array sample_get z_eq a a = Ok true /\
  quantity_ne sample_array sample_get sample_shape z_sum z_mul z_div z_pow a a = Err MetadataError.
Proof. cbv zeta. split; vm_compute; reflexivity. Qed.

(** ** C213: scaling by numbers *)

(** Missing: numbers and arrays of numpy on the left. *)
Theorem C213_scale_partial : forall (D U : Type) asarray get has_shape usum umul udiv upow (size : U -> Qc) (o : object D U) q x,
  reads_like asarray get -> proper asarray o -> o_dims o <> [] -> x = ANum q \/ x = ANp q ->
  exists r s t,
    array_ufunc asarray get has_shape usum umul udiv upow (lit "multiply") (Two Qcmult) [AVar o; x] = Ok (Result r) /\
    array_ufunc asarray get has_shape usum umul udiv upow (lit "multiply") (Two Qcmult) [ANum q; AVar o] = Ok (Result s) /\
    array_ufunc asarray get has_shape usum umul udiv upow (lit "true_divide") (Two Qcdiv) [AVar o; x] = Ok (Result t) /\
    (forall p, In p [r; s; t] -> o_dims p = o_dims o /\ o_unit p = o_unit o /\
                                 shape (meaning asarray p) = shape (meaning asarray o)) /\
    forall i, inside (shape (meaning asarray o)) i ->
      amount asarray size r i = (q * amount asarray size o i)%Qc /\
      amount asarray size s i = (q * amount asarray size o i)%Qc /\
      (q <> 0%Qc -> amount asarray size t i = (amount asarray size o i / q)%Qc).
Proof.
  intros D U asarray get has_shape usum umul udiv upow size o q x R (So & Fo & No) Ne Hx.
  assert (Px : plain_of x = Some (mkArr [] [q])) by (destruct Hx as [-> | ->]; reflexivity).
  rewrite !(call_right asarray get has_shape usum umul udiv upow R _ _ o x _ Px).
  rewrite (call_left asarray get has_shape usum umul udiv upow R _ _ o (ANum q) _ eq_refl).
  rewrite !number_right, number_left. cbn [bind].
  rewrite (eval_scale_right usum umul udiv upow (lit "multiply") o x _ (or_introl eq_refl) Px No).
  rewrite (eval_scale_right usum umul udiv upow (lit "true_divide") o x _ (or_intror eq_refl) Px No).
  rewrite (eval_scale_left usum umul udiv upow o (ANum q) _ eq_refl No). cbn [bind].
  destruct (number_ok asarray get has_shape o (fun y => y * q)%Qc (o_unit o) So Ne) as (r & E1 & A1 & A2 & A3 & A4).
  destruct (number_ok asarray get has_shape o (fun y => q * y)%Qc (o_unit o) So Ne) as (s & E2 & B1 & B2 & B3 & B4).
  destruct (number_ok asarray get has_shape o (fun y => y / q)%Qc (o_unit o) So Ne) as (t & E3 & C1 & C2 & C3 & C4).
  exists r, s, t. split; [exact E1|]. split; [exact E2|]. split; [exact E3|].
  split; [intros p [<- | [<- | [<- | []]]]; auto|].
  intros i I. unfold amount. rewrite A4, B4, C4, A2, B2, C2 by exact I. split; [ring|]. split; [ring|]. intro Nq. now field.
Qed.
Print Assumptions C213_scale_partial.

(** A number or an array of numpy on the left raises TypeError. *)
Theorem C213_left_refuted : forall (D U : Type) asarray get has_shape usum umul udiv upow (o : object D U) q c,
  reads_like asarray get -> NoDup (o_dims o) ->
  array_ufunc asarray get has_shape usum umul udiv upow (lit "multiply") (Two Qcmult) [ANp q; AVar o] = Err TypeError /\
  array_ufunc asarray get has_shape usum umul udiv upow (lit "multiply") (Two Qcmult)
    [AArr (mkArr (shape (meaning asarray o)) c); AVar o] = Err TypeError.
Proof.
  intros D U asarray get has_shape usum umul udiv upow o q c R No.
  rewrite (call_left asarray get has_shape usum umul udiv upow R _ _ o (ANp q) _ eq_refl), number_left.
  rewrite (call_left asarray get has_shape usum umul udiv upow R _ _ o (AArr _) _ eq_refl).
  unfold ufunc2. cbn [shape]. rewrite broadcast_self. cbn [bind].
  pose proof (eval_scale_left usum umul udiv upow o (ANp q) _ eq_refl No) as E1.
  pose proof (eval_scale_left usum umul udiv upow o (AArr (mkArr (shape (meaning asarray o)) c)) _ eq_refl No) as E2.
  cbv iota in E1, E2. rewrite E1, E2. split; reflexivity.
Qed.
Print Assumptions C213_left_refuted.

Example C213_example :
  let o := object_of [3] ["x"]%string 6%Z in
  proper sample_array o /\
  result_is (sample_call (lit "multiply") (Two Qcmult) [ANum (Qc_of_Z 2); AVar o]) [3] [0; 2; 4] 6 = true /\
  result_is (sample_call (lit "multiply") (Two Qcmult) [AVar o; ANp (Qc_of_Z 2)]) [3] [0; 2; 4] 6 = true /\
  sample_call (lit "multiply") (Two Qcmult) [ANp (Qc_of_Z 2); AVar o] = Err TypeError.
Proof. cbv zeta. split; [proper_sample|]. repeat split; vm_compute; reflexivity. Qed.

(** ** C214: units are kept *)

(** Every result of arithmetic is a quantity, if it has an axis.  Missing:
    results without axes. *)
Theorem C214_kept_partial : forall (D U : Type) asarray get has_shape usum umul udiv upow name f (args : list (operand D U)) a,
  array_ufunc asarray get has_shape usum umul udiv upow name f args = Ok (Plain a) ->
  ~ In name (map lit ["int"; "float"; "lt"; "less"; "le"; "less_equal"; "less equal"; "gt"; "greater";
                      "ge"; "greater_equal"; "greater equal"]%string) ->
  shape a = [].
Proof.
  intros D U asarray get has_shape usum umul udiv upow name f args a E Hn. unfold array_ufunc in E.
  destruct (self_of args) as [self|]; [|discriminate E]. cbn [bind] in E.
  destruct (existsb is_other args); [discriminate E|].
  destruct (arrays asarray get has_shape name args) as [xs|]; [|discriminate E]. cbn [bind] in E.
  destruct (compute_data f xs) as [r|]; [|discriminate E]. cbn [bind] in E.
  assert (K : kind_of name <> Some KNone).
  { intro K. apply Hn. unfold kind_of in K. destruct (find _ _) as [[k' l]|] eqn:Fd; [|discriminate K].
    apply find_some in Fd. destruct Fd as [I Ex]. injection K as ->.
    apply existsb_exists in Ex. destruct Ex as (x & Ix & Ex). cbn [snd] in Ix.
    destruct (str_eqb_spec name x) as [<-|]; [|discriminate Ex].
    cbn in I. destruct I as [I|I]; [injection I as <-; exact Ix|].
    repeat (destruct I as [I|I]; [discriminate I|]). destruct I. }
  unfold evaluate in E. destruct (kind_of name) as [[]|]; try (exfalso; now apply K);
    (destruct (negb _); [discriminate E|]); cbn [bind] in E;
    (destruct (operator_call _ _ _ _) as [u|]; [|discriminate E]); cbn [bind] in E;
    (destruct (operator_call _ _ _ _) as [d|]; [|discriminate E]); cbn [bind] in E;
    unfold new_from_func in E; destruct (shape r) eqn:Sr; try (injection E as <-; exact Sr);
    destruct (new_from_data _ _ _ _ _ _); discriminate E.
Qed.
Print Assumptions C214_kept_partial.

(** Twice an array without axes is a number without a unit. *)
Theorem C214_scalar_refuted : forall (D U : Type) asarray get has_shape usum umul udiv upow (o : object D U) q,
  reads_like asarray get -> o_dims o = [] -> shape (meaning asarray o) = [] ->
  exists a, array_ufunc asarray get has_shape usum umul udiv upow (lit "multiply") (Two Qcmult) [ANum q; AVar o] = Ok (Plain a).
Proof.
  intros D U asarray get has_shape usum umul udiv upow o q R Ed Es.
  rewrite (call_left asarray get has_shape usum umul udiv upow R _ _ o (ANum q) _ eq_refl), number_left. cbn [bind].
  rewrite (eval_scale_left usum umul udiv upow o (ANum q) _ eq_refl) by (rewrite Ed; constructor). cbn [bind].
  eexists. unfold new_from_func. cbn [shape build]. rewrite Es. reflexivity.
Qed.
Print Assumptions C214_scalar_refuted.

Example C214_example :
  let o := mkObject (Source (true, mkArr [] [Qc_of_Z 2])) None 1%Qc 6%Z [] : object sample Z in
  proper sample_array o /\
  plain_is (sample_call (lit "multiply") (Two Qcmult) [ANum (Qc_of_Z 2); AVar o]) [] [4] = true.
Proof. cbv zeta. split; [proper_sample|vm_compute; reflexivity]. Qed.

(** ** C215: refused operations *)

(** A number or array over a quantity, and powers with quantities or arrays
    as exponents, raise OperandTypeError whatever the numbers. *)
Theorem C215_refused : forall (D U : Type) asarray get has_shape usum umul udiv upow (o p : object D U) f q c,
  reads_like asarray get -> shape (meaning asarray o) = shape (meaning asarray p) ->
  let a := mkArr (shape (meaning asarray o)) c in
  let refused name args := array_ufunc asarray get has_shape usum umul udiv upow (lit name) (Two f) args = Err OperandTypeError in
  refused "true_divide"%string [ANum q; AVar o] /\ refused "true_divide"%string [ANp q; AVar o] /\
  refused "true_divide"%string [AArr a; AVar o] /\
  refused "power"%string [AVar o; AVar p] /\ refused "power"%string [ANum q; AVar o] /\
  refused "power"%string [AArr a; AVar o] /\ refused "power"%string [AVar o; AArr a] /\ refused "power"%string [AVar o; AList a].
Proof.
  intros D U asarray get has_shape usum umul udiv upow o p f q c R Es a refused. unfold refused.
  rewrite !(call_left asarray get has_shape usum umul udiv upow R _ _ o (ANum q) _ eq_refl).
  rewrite !(call_left asarray get has_shape usum umul udiv upow R _ _ o (ANp q) _ eq_refl).
  rewrite !(call_left asarray get has_shape usum umul udiv upow R _ _ o (AArr a) _ eq_refl).
  rewrite !(call_right asarray get has_shape usum umul udiv upow R _ _ o (AArr a) _ eq_refl).
  rewrite !(call_right asarray get has_shape usum umul udiv upow R _ _ o (AList a) _ eq_refl).
  rewrite same_two by (auto; reflexivity).
  rewrite !number_left. unfold ufunc2, a. cbn [shape]. rewrite !broadcast_self. cbn [bind].
  repeat split; (rewrite eval_refused by reflexivity); reflexivity.
Qed.
Print Assumptions C215_refused.

(** Operands of other types are refused, whatever the function. *)
Theorem C215_types : forall (D U : Type) asarray get has_shape usum umul udiv upow name f (args : list (operand D U)),
  In AOther args ->
  array_ufunc asarray get has_shape usum umul udiv upow name f args = Err TypeError.
Proof.
  intros D U asarray get has_shape usum umul udiv upow name f args I. unfold array_ufunc, self_of.
  assert (E : existsb is_other args = true) by (apply existsb_exists; eexists; split; [exact I|reflexivity]).
  rewrite E. destruct (find is_var args) as [[]|]; reflexivity.
Qed.
Print Assumptions C215_types.

Example C215_example :
  let o := object_of [3] ["x"]%string 6%Z in
  sample_call (lit "true_divide") (Two Qcdiv) [ANum 1; AVar o] = Err OperandTypeError /\
  sample_call (lit "power") (Two sample_power) [AVar o; AVar o] = Err OperandTypeError /\
  sample_call (lit "multiply") (Two Qcmult) [AVar o; AOther] = Err TypeError.
Proof. cbv zeta. repeat split; vm_compute; reflexivity. Qed.

(** ** C216: looking for a value *)

(** Exactly: a value is found iff it is an element, or it lies between two
    elements and is near one.  Missing: values that are near an element but
    beyond all elements. *)
Theorem C216_contains_partial : forall (D U : Type) asarray get (o : object D U) v,
  reads_like asarray get -> filled (meaning asarray o) -> cells (meaning asarray o) <> [] ->
  exists b, array_contains asarray get o v = Ok b /\
  (b = true <-> In v (cells (meaning asarray o)) \/
     (exists x, In x (cells (meaning asarray o)) /\ (x <= v)%Qc) /\
     (exists x, In x (cells (meaning asarray o)) /\ (v <= x)%Qc) /\
     exists x, In x (cells (meaning asarray o)) /\ near v x).
Proof. intros. now apply contains_spec. Qed.
Print Assumptions C216_contains_partial.

(** Looking for a value in an empty array raises. *)
Theorem C216_empty_refuted : forall (D U : Type) asarray get (o : object D U) v,
  reads_like asarray get -> filled (meaning asarray o) -> cells (meaning asarray o) = [] ->
  array_contains asarray get o v = Err ValueError.
Proof. intros. now apply contains_empty. Qed.
Print Assumptions C216_empty_refuted.

(** 1000001 is near 1000000 and is found if 2000000 is there too, but not if
    1000000 is the highest element. *)
Theorem C216_contains_refuted :
  let one l := mkObject (Source (true, mkArr [length l] (map Qc_of_Z l))) None 1%Qc 1%Z [lit "x"] : object sample Z in
  near (Qc_of_Z 1000001) (Qc_of_Z 1000000) /\
  array_contains sample_array sample_get (one [1; 1000000; 2000000]%Z) (Qc_of_Z 1000001) = Ok true /\
  array_contains sample_array sample_get (one [1; 1000000]%Z) (Qc_of_Z 1000001) = Ok false.
Proof. cbv zeta. split; [unfold near; vm_compute; discriminate|]. split; vm_compute; reflexivity. Qed.
Print Assumptions C216_contains_refuted.

Example C216_example :
  let o := object_of [4] ["x"]%string 1%Z in
  filled (meaning sample_array o) /\ cells (meaning sample_array o) <> [] /\
  array_contains sample_array sample_get o (Qc_of_Z 2) = Ok true /\
  array_contains sample_array sample_get o (Q2Qc (5 # 2)) = Ok false.
Proof. cbv zeta. split; [reflexivity|]. split; [discriminate|]. split; vm_compute; reflexivity. Qed.
Example C216_empty_example :
  let o := object_of [0] ["x"]%string 1%Z in
  filled (meaning sample_array o) /\ cells (meaning sample_array o) = [].
Proof. cbv zeta. split; reflexivity. Qed.
