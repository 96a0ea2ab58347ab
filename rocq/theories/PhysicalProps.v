(** Properties of named quantities (physical.py). *)

From Coq Require Import String Ascii List Bool ZArith QArith Qcanon Lia.
From Verif Require Import Py PyFacts PyDict MetadataModel ArrayModel ArraySpec ArrayProofs ArrayOpsProofs ArrayProps PhysicalModel PhysicalSpec PhysicalProofs.
Import ListNotations.
Open Scope list_scope.
Open Scope nat_scope.
Open Scope py_scope.

(** ** Data for the examples *)

(** Units are dimensions, as in [kg = 1], [s = 2], [kg s = 3]: a product adds
    them, and sums need equal units. *)
Definition sample_ubin (op : binary) (a b : uvalue Z) : res Z :=
  match op, a, b with
  | (Add | Sub), VUnit u, VUnit w => if Z.eqb u w then Ok u else Err TypeError
  | Mul, VUnit u, VUnit w => Ok (u + w)%Z
  | Mul, VUnit u, VNumber _ | Mul, VNumber _, VUnit u => Ok u
  | Div, VUnit u, VUnit w => Ok (u - w)%Z
  | Div, VUnit u, VNumber _ => Ok u
  | Pow, VUnit u, VNumber n => Ok (u * 2)%Z
  | _, _, _ => Err TypeError
  end.
Definition sample_pow (x y : Qc) : res Qc := if Qc_eqb y (Qc_of_Z 2) then Ok (x * x)%Qc else Err ValueError.
Definition whole (l : list Z) : list Qc := map Qc_of_Z l.
Definition vec (l : list Z) (u : Z) : operand Z := OpQ (Vector (whole l) u [lit "v"]).
Definition sca (v : Z) (u : Z) : operand Z := OpQ (Scalar (Qc_of_Z v) u [lit "s"]).
Definition quantity_is (r : res (quantity Z)) (vector : bool) (l : list Z) (u : Z) : bool :=
  match r with
  | Ok (Vector m w _) => vector && same_values m (whole l) && Z.eqb u w
  | Ok (Scalar v w _) => negb vector && same_values [v] (whole l) && Z.eqb u w
  | Err _ => false
  end.

(** ** C262: arithmetic with vectors *)

(** An operation whose left operand is a vector, or a number before a vector,
    gives the vector of the results for the values at each position, in the
    unit of the result; and it gives one whenever the operation is defined for
    such operands, for their sizes, for each pair of values and for the
    units. *)
Theorem C262_vector_arithmetic : forall (U : Type) ubin data_pow op (a b : operand U) r,
  is_vector a \/ ~ is_scalar a /\ is_vector b ->
  arithmetic ubin data_pow op a b = Ok r <->
  allowed op a b /\
  exists l u, r = Vector l u no_name /\ fits a b (length l) /\
    (forall k, k < length l -> exact data_pow op (value_at a k) (value_at b k) (nth k l 0%Qc)) /\
    ubin op (unit_or_number a) (unit_or_number b) = Ok u.
Proof. intros. now apply vector_arithmetic. Qed.
Print Assumptions C262_vector_arithmetic.

(** An operation whose left operand is a scalar, or a number before a scalar,
    gives the scalar of the result, in the unit of the result; the other
    operand may be a vector with one value. *)
Theorem C262_scalar_arithmetic : forall (U : Type) ubin data_pow op (a b : operand U) r,
  is_scalar a \/ ~ is_vector a /\ is_scalar b ->
  arithmetic ubin data_pow op a b = Ok r <->
  allowed op a b /\ fits a b 1 /\
  exists z u, r = Scalar z u no_name /\ exact data_pow op (value_at a 0) (value_at b 0) z /\
    ubin op (unit_or_number a) (unit_or_number b) = Ok u.
Proof. intros. now apply scalar_arithmetic. Qed.
Print Assumptions C262_scalar_arithmetic.

(** When the operation on the values is defined: operands that are not allowed
    raise OperandTypeError; an operation that their units (or the number) do
    not have raises its own error, except that TypeError becomes MetadataError
    between two quantities. *)
Theorem C262_refused : forall (U : Type) ubin data_pow op (a b : operand U) l,
  is_vector a \/ is_scalar a \/ is_vector b \/ is_scalar b ->
  fits a b (length l) ->
  (forall k, k < length l -> exact data_pow op (value_at a k) (value_at b k) (nth k l 0%Qc)) ->
  (~ allowed op a b -> arithmetic ubin data_pow op a b = Err OperandTypeError)
  /\ (forall e, allowed op a b -> ubin op (unit_or_number a) (unit_or_number b) = Err e ->
      arithmetic ubin data_pow op a b =
      Err (match e, a, b with TypeError, OpQ _, OpQ _ => MetadataError | _, _, _ => e end)).
Proof. intros. now apply (refused ubin data_pow op a b l). Qed.
Print Assumptions C262_refused.
Example C262_refused_meets :
  arithmetic sample_ubin sample_pow Add (sca 3 2) (sca 4 5) = Err MetadataError
  /\ arithmetic sample_ubin sample_pow Add (sca 3 2) (OpN (Qc_of_Z 4)) = Err TypeError
  /\ (fits (sca 3 2) (sca 4 5) (length [Qc_of_Z 7]) /\ exact sample_pow Add (value_at (sca 3 2) 0) (value_at (sca 4 5) 0) (Qc_of_Z 7)).
Proof. repeat split; try (vm_compute; reflexivity). Qed.

Example C262_scalar_example :
  quantity_is (arithmetic sample_ubin sample_pow Mul (sca 3 2) (vec [10]%Z 2)) false [30]%Z 4 = true /\
  quantity_is (arithmetic sample_ubin sample_pow Add (sca 3 2) (sca 4 2)) false [7]%Z 2 = true /\
  arithmetic sample_ubin sample_pow Pow (sca 3 2) (sca 2 2) = Err OperandTypeError.
Proof. repeat split; vm_compute; reflexivity. Qed.

Example C262_example :
  (is_vector (vec [1; 2; 3]%Z 1) \/ ~ is_scalar (vec [1; 2; 3]%Z 1) /\ is_vector (vec [10]%Z 2)) /\
  (is_vector (@OpN Z (Qc_of_Z 4)) \/ ~ is_scalar (@OpN Z (Qc_of_Z 4)) /\ is_vector (vec [1; 2]%Z 5)) /\
  quantity_is (arithmetic sample_ubin sample_pow Mul (vec [1; 2; 3]%Z 1) (vec [10]%Z 2)) true [10; 20; 30]%Z 3 = true /\
  quantity_is (arithmetic sample_ubin sample_pow Sub (vec [5; 7]%Z 1) (vec [1; 2]%Z 1)) true [4; 5]%Z 1 = true /\
  quantity_is (arithmetic sample_ubin sample_pow Div (vec [8; 6]%Z 5) (sca 2 1)) true [4; 3]%Z 4 = true /\
  quantity_is (arithmetic sample_ubin sample_pow Mul (OpN (Qc_of_Z 4)) (vec [1; 2]%Z 5)) true [4; 8]%Z 5 = true /\
  quantity_is (arithmetic sample_ubin sample_pow Pow (vec [3; 2]%Z 5) (OpN (Qc_of_Z 2))) true [9; 4]%Z 10 = true /\
  arithmetic sample_ubin sample_pow Add (vec [1; 2]%Z 1) (vec [1; 2]%Z 2) = Err MetadataError /\
  arithmetic sample_ubin sample_pow Add (vec [1; 2]%Z 1) (vec [1; 2; 3]%Z 1) = Err ValueError /\
  arithmetic sample_ubin sample_pow Div (OpN (Qc_of_Z 4)) (vec [1; 2]%Z 1) = Err OperandTypeError.
Proof. split; [left; exact I|]. split; [right; split; [intros []|exact I]|]. repeat split; vm_compute; reflexivity. Qed.

(** ** C263: the order of the operands of sums and products *)

(** The values and the unit do not depend on the order, for units whose sums
    or products do not.  Missing: a scalar and a vector with other than one
    value. *)
Theorem C263_order_partial : forall (U : Type) ubin data_pow op (a b : operand U),
  op = Add \/ op = Mul -> (forall x y, ubin op x y = ubin op y x) ->
  is_vector a \/ is_vector b \/ is_scalar a \/ is_scalar b ->
  (is_scalar a -> is_vector b -> extent b = Some 1) -> (is_vector a -> is_scalar b -> extent a = Some 1) ->
  rmap seen (arithmetic ubin data_pow op a b) = rmap seen (arithmetic ubin data_pow op b a).
Proof. intros. now apply swap_operands. Qed.
Print Assumptions C263_order_partial.

(** A scalar before such a vector never gives a result. *)
Theorem C263_scalar_first : forall (U : Type) ubin data_pow op v (u : U) n l w m r,
  length l <> 1 -> arithmetic ubin data_pow op (OpQ (Scalar v u n)) (OpQ (Vector l w m)) <> Ok r.
Proof. intros. now apply scalar_vector. Qed.
Print Assumptions C263_scalar_first.

Theorem C263_order_refuted :
  quantity_is (arithmetic sample_ubin sample_pow Mul (vec [1; 2]%Z 1) (sca 3 2)) true [3; 6]%Z 3 = true /\
  arithmetic sample_ubin sample_pow Mul (sca 3 2) (vec [1; 2]%Z 1) = Err TypeError.
Proof. split; vm_compute; reflexivity. Qed.
Print Assumptions C263_order_refuted.

Example C263_example :
  (forall x y, sample_ubin Mul x y = sample_ubin Mul y x) /\
  quantity_is (arithmetic sample_ubin sample_pow Mul (vec [1; 2]%Z 1) (vec [3; 5]%Z 2)) true [3; 10]%Z 3 = true /\
  quantity_is (arithmetic sample_ubin sample_pow Mul (vec [7]%Z 1) (sca 3 2)) true [21]%Z 3 = true /\
  quantity_is (arithmetic sample_ubin sample_pow Mul (sca 3 2) (vec [7]%Z 1)) false [21]%Z 3 = true.
Proof.
  split; [intros [u|n] [w|m]; cbn; try reflexivity; f_equal; lia|]. repeat split; vm_compute; reflexivity.
Qed.

(** ** C264: vectors made from other objects *)

(** From numbers, with the unit and name given; from a scalar, and from a
    measurement without a name, with theirs.  Missing: vectors, and names for
    measurements. *)
Theorem C264_made_partial : forall (U : Type) (one : U) l u n v w m,
  new_vector one (FromData l) (Some u) (Some n) = Vector l u n /\
  new_vector one (FromData l) None None = Vector l one no_name /\
  new_vector one (FromQuantity (Scalar v w m)) None None = Vector [v] w m /\
  new_vector one (FromMeasurement l w) None None = Vector l w no_name.
Proof. repeat split. Qed.
Print Assumptions C264_made_partial.

(** A vector made from a vector has neither its unit nor its name, and the name
    given for a measurement is ignored. *)
Theorem C264_made_refuted :
  let v := Vector (whole [1; 2]%Z) 1000%Z [lit "v"] in
  new_vector 1%Z (FromQuantity v) None None = Vector (whole [1; 2]%Z) 1%Z no_name /\
  new_vector 1%Z (FromMeasurement (whole [3]%Z) 1000%Z) None (Some [lit "m"]) = Vector (whole [3]%Z) 1000%Z no_name /\
  [lit "m"] <> no_name.
Proof. cbv zeta. repeat split. intro K. vm_compute in K. discriminate K. Qed.
Print Assumptions C264_made_refuted.

Example C264_example :
  new_vector 1%Z (FromData (whole [1; 2]%Z)) (Some 60%Z) (Some [lit "t"]) = Vector (whole [1; 2]%Z) 60%Z [lit "t"].
Proof. reflexivity. Qed.

(** ** C265: the elements of a vector *)

(** A position between [-n] and [n - 1] gives the value there, in the vector's
    unit; one above, or one below [-2 n], raises IndexError.  Missing: between
    [-2 n] and [-n - 1]. *)
Theorem C265_element_partial : forall (U : Type) l (u : U) (i : Z),
  let n := Z.of_nat (length l) in
  ((0 <= i < n)%Z -> element l u i = Ok (Scalar (nth (Z.to_nat i) l 0%Qc) u no_name)) /\
  ((- n <= i < 0)%Z -> element l u i = Ok (Scalar (nth (Z.to_nat (n + i)) l 0%Qc) u no_name)) /\
  ((i < - 2 * n \/ n <= i)%Z -> element l u i = Err IndexError).
Proof.
  intros U l u i n. rewrite element_exact. fold n. split; [|split]; intros H.
  - rewrite (proj2 (Z.leb_le _ _)), (proj2 (Z.ltb_lt _ _)) by lia. cbn [andb]. now rewrite Z.mod_small by lia.
  - rewrite (proj2 (Z.leb_le _ _)), (proj2 (Z.ltb_lt _ _)) by lia. cbn [andb].
    rewrite <- (Z.mod_unique i n (-1) (n + i)); [reflexivity|lia|lia].
  - destruct (Z.leb_spec (-2 * n) i), (Z.ltb_spec i n); cbn [andb]; try reflexivity. lia.
Qed.
Print Assumptions C265_element_partial.

(** Between them, every position of every vector gives an element. *)
Theorem C265_element_refuted : forall (U : Type) l (u : U) (i : Z),
  let n := Z.of_nat (length l) in
  (- 2 * n <= i < - n)%Z -> element l u i = Ok (Scalar (nth (Z.to_nat (2 * n + i)) l 0%Qc) u no_name).
Proof.
  intros U l u i n H. rewrite element_exact. fold n. rewrite (proj2 (Z.leb_le _ _)), (proj2 (Z.ltb_lt _ _)) by lia.
  cbn [andb]. rewrite <- (Z.mod_unique i n (-2) (2 * n + i)); [reflexivity|lia|lia].
Qed.
Print Assumptions C265_element_refuted.

Example C265_example :
  quantity_is (element (whole [10; 20; 30]%Z) 7%Z (-1)) false [30]%Z 7 = true /\
  quantity_is (element (whole [10; 20; 30]%Z) 7%Z 1) false [20]%Z 7 = true /\
  element (whole [10; 20; 30]%Z) 7%Z 3 = Err IndexError /\
  quantity_is (element (whole [10; 20; 30]%Z) 7%Z (-4)) false [30]%Z 7 = true.
Proof. repeat split; vm_compute; reflexivity. Qed.

(** ** C266: slices of a vector *)

(** A slice with a positive step and bounds inside the vector gives the list of
    every [step]-th value before the stop, as scalars in the vector's unit; one
    with the step -1 and no bounds gives all of them backwards; a step of 0
    raises ValueError. *)
Theorem C266_slices : forall (U : Type) l (u : U),
  (forall a b s : Z, (0 <= a)%Z -> (a <= b <= Z.of_nat (length l))%Z -> (0 < s)%Z ->
     exists r, elements l u (Some a) (Some b) (Some s) = Ok r /\
       (forall k, (k < length r)%nat <-> (a + Z.of_nat k * s < b)%Z) /\
       forall k, k < length r ->
         nth_error r k = Some (Scalar (nth (Z.to_nat (a + Z.of_nat k * s)) l 0%Qc) u no_name)) /\
  elements l u None None None = Ok (map (fun v => Scalar v u no_name) l) /\
  elements l u None None (Some (-1)%Z) = Ok (map (fun v => Scalar v u no_name) (rev l)) /\
  (forall a b, elements l u a b (Some 0%Z) = Err ValueError).
Proof.
  intros U l u. split; [|split; [|split]].
  - intros a b s Ha Hb Hs. unfold elements, slice_positions.
    rewrite (proj2 (Z.eqb_neq s 0)), (proj2 (Z.ltb_ge s 0)) by lia.
    rewrite (proj2 (Z.ltb_ge a 0)), (proj2 (Z.ltb_ge b 0)) by lia. rewrite !Z.min_l by lia. cbn [bind].
    eexists. split; [reflexivity|]. rewrite map_map, map_length, seq_length.
    set (c := if (a <? b)%Z then _ else _).
    assert (C : forall k, k < Z.to_nat c <-> (a + Z.of_nat k * s < b)%Z).
    { intros k. unfold c. destruct (Z.ltb_spec a b).
      - pose proof (Z.div_mod (b - a - 1) s ltac:(lia)) as D. pose proof (Z.mod_pos_bound (b - a - 1) s Hs) as M.
        assert (0 <= (b - a - 1) / s)%Z by (apply Z.div_pos; lia).
        set (q := ((b - a - 1) / s)%Z) in *. split; intros K.
        + assert (Z.of_nat k <= q)%Z by lia. nia.
        + assert (Z.of_nat k <= q)%Z by nia. lia.
      - split; [cbn; lia|nia]. }
    split; [exact C|]. intros k Hk. rewrite nth_error_map.
    assert (K : nth_error (seq 0 (Z.to_nat c)) k = Some k).
    { rewrite (nth_error_nth' _ 0) by (now rewrite seq_length). now rewrite seq_nth. }
    rewrite K. reflexivity.
  - unfold elements, slice_positions. cbn [Z.eqb Z.ltb Z.compare bind]. rewrite map_map.
    destruct (Z.ltb_spec 0 (Z.of_nat (length l))).
    + rewrite Z.div_1_r. replace (Z.to_nat _) with (length l) by lia. f_equal.
      rewrite <- (map_map (fun k => nth (Z.to_nat (0 + Z.of_nat k * 1)) l 0%Qc) (fun v => Scalar v u no_name)). f_equal.
      apply nth_ext with (d := nth 0 l 0%Qc) (d' := 0%Qc); [now rewrite map_length, seq_length|].
      intros k Hk. rewrite map_length, seq_length in Hk.
      rewrite (map_nth (fun k => nth (Z.to_nat (0 + Z.of_nat k * 1)) l 0%Qc) _ 0). rewrite seq_nth by lia. f_equal. lia.
    + assert (L0 : length l = 0) by lia. destruct l; [reflexivity|discriminate L0].
  - unfold elements, slice_positions. cbn [Z.eqb Z.ltb Z.compare bind Z.opp]. rewrite map_map.
    destruct (Z.ltb_spec (-1) (Z.of_nat (length l) - 1)).
    + rewrite Z.div_1_r. replace (Z.to_nat (Z.of_nat (length l) - 1 - -1 - 1 + 1)) with (length l) by lia. f_equal.
      rewrite <- (map_map (fun k => nth (Z.to_nat (Z.of_nat (length l) - 1 + Z.of_nat k * -1)) l 0%Qc) (fun v => Scalar v u no_name)).
      f_equal.
      apply nth_ext with (d := nth (Z.to_nat (Z.of_nat (length l) - 1 + Z.of_nat 0 * -1)) l 0%Qc) (d' := 0%Qc);
        [now rewrite map_length, seq_length, rev_length|].
      intros k Hk. rewrite map_length, seq_length in Hk.
      rewrite (map_nth (fun k => nth (Z.to_nat (Z.of_nat (length l) - 1 + Z.of_nat k * -1)) l 0%Qc) _ 0).
      rewrite seq_nth by lia. rewrite rev_nth by lia. f_equal. lia.
    + assert (L0 : length l = 0) by lia. destruct l; [reflexivity|discriminate L0].
  - reflexivity.
Qed.
Print Assumptions C266_slices.

Example C266_example :
  match elements (whole [10; 20; 30; 40; 50]%Z) 7%Z (Some 1%Z) (Some 5%Z) (Some 2%Z) with
  | Ok [a; b] => quantity_is (Ok a) false [20]%Z 7 && quantity_is (Ok b) false [40]%Z 7
  | _ => false
  end = true.
Proof. vm_compute. reflexivity. Qed.

(** ** C267: equality of vectors *)

Theorem C267_equality : forall (U : Type) (ueq : U -> U -> res bool) l u m w,
  vector_eq ueq l u m w = Ok true <-> ueq u w = Ok true /\ l = m.
Proof. intros. apply vector_eq_iff. Qed.
Print Assumptions C267_equality.

Example C267_example :
  vector_eq z_eq (whole [1; 2]%Z) 5%Z (whole [1; 2]%Z) 5%Z = Ok true /\
  vector_eq z_eq (whole [1; 2]%Z) 5%Z (whole [1]%Z) 5%Z = Ok false /\
  vector_eq z_eq (whole [1; 2]%Z) 1000%Z (whole [1000; 2000]%Z) 1%Z = Ok false.
Proof. repeat split; vm_compute; reflexivity. Qed.

(** ** C268: making sure of a scalar *)

(** One value, however it is given, becomes a scalar with that value and unit;
    several raise ValueError and none raises Unmeasurable.  (Two steps are
    enough.) *)
Theorem C268_scalar : forall (U : Type) (one : U) fuel v w n l u,
  (exists m, scalar one (S (S fuel)) (AQuantity (Scalar v u n)) = Ok (Scalar v u m)) /\
  (exists m, scalar one (S (S fuel)) (AQuantity (Vector [v] u n)) = Ok (Scalar v u m)) /\
  (exists m, scalar one (S (S fuel)) (AMeasurement [v] u) = Ok (Scalar v u m)) /\
  (exists m, scalar one (S (S fuel)) (AValues v [] (Some u)) = Ok (Scalar v u m)) /\
  (exists m, scalar one (S (S fuel)) (AValues v [] None) = Ok (Scalar v one m)) /\
  scalar one (S (S fuel)) (AQuantity (Vector (v :: w :: l) u n)) = Err ValueError /\
  scalar one (S (S fuel)) (AMeasurement (v :: w :: l) u) = Err ValueError /\
  (forall x, scalar one (S (S fuel)) (AValues v (w :: l) x) = Err ValueError) /\
  scalar one (S (S fuel)) (AQuantity (Vector [] u n)) = Err UnmeasurableError /\
  scalar one (S (S fuel)) (AMeasurement [] u) = Err UnmeasurableError /\
  scalar one (S (S fuel)) ANothing = Err UnmeasurableError.
Proof. intros. repeat split; try (eexists; reflexivity); reflexivity. Qed.
Print Assumptions C268_scalar.

Example C268_example :
  quantity_is (scalar 1%Z 2 (AQuantity (Vector (whole [3]%Z) 60%Z [lit "t"]))) false [3]%Z 60 = true /\
  quantity_is (scalar 1%Z 2 (AValues (Qc_of_Z 3) [] None)) false [3]%Z 1 = true /\
  scalar 1%Z 2 (AMeasurement (whole [3; 4]%Z) 60%Z) = Err ValueError.
Proof. repeat split; vm_compute; reflexivity. Qed.

(** ** C269: names of scalars made from named quantities *)

(** Missing: vectors. *)
Theorem C269_names_partial : forall (U : Type) (one : U) fuel v u n,
  scalar one (S fuel) (AQuantity (Scalar v u n)) = Ok (Scalar v u n) /\
  new_vector one (FromQuantity (Scalar v u n)) None None = Vector [v] u n.
Proof. repeat split. Qed.
Print Assumptions C269_names_partial.

(** The scalar made from a vector with one value, its elements, and a scalar or
    vector in another unit have no name. *)
Theorem C269_names_refuted : forall (U : Type) (one : U) fuel v u n ueq uor ufactor (q r : quantity U) w,
  scalar one (S fuel) (AQuantity (Vector [v] u n)) = Ok (Scalar v u no_name) /\
  element [v] u 0 = Ok (Scalar v u no_name) /\
  (convert ueq uor ufactor q w = Ok r -> ueq w (unit_of q) = Ok false -> name_of r = no_name).
Proof.
  intros U one fuel v u n ueq uor ufactor q r w. split; [reflexivity|]. split; [reflexivity|].
  unfold convert. intros H E. rewrite E in H. cbn [bind] in H. destruct (uor _ _) as [[|]|]; cbn in H; try discriminate.
  destruct (ufactor _ _); cbn in H; try discriminate. injection H as <-. now destruct q.
Qed.
Print Assumptions C269_names_refuted.

Example C269_example :
  let r := convert z_eq z_or z_factor (Scalar (Qc_of_Z 2) 1000%Z [lit "r"]) 1%Z in
  quantity_is r false [2000]%Z 1 = true /\ z_eq 1 1000 = Ok false /\ rmap name_of r = Ok [[]].
Proof. cbv zeta. repeat split; vm_compute; reflexivity. Qed.

(** ** C270: scalars and vectors in another unit *)

(** If units have sizes of which the conversion factors are the ratios, a new
    unit leaves the physical amounts as they were. *)
Theorem C270_amounts : forall (U : Type) (ueq uor : U -> U -> res bool) ufactor (size : U -> Qc) q r w,
  (forall u, size u <> 0%Qc) -> (forall u u', ueq u u' = Ok true -> size u = size u') ->
  (forall u u' f, ufactor u u' = Ok f -> f = (size u / size u')%Qc) ->
  convert ueq uor ufactor q w = Ok r ->
  amounts size r = amounts size q /\ (unit_of r = w \/ ueq w (unit_of q) = Ok true /\ r = q).
Proof. intros. eapply convert_amounts; eauto. Qed.
Print Assumptions C270_amounts.

(** Units without a common dimension are refused. *)
Theorem C270_refuses : forall (U : Type) (ueq uor : U -> U -> res bool) ufactor (q : quantity U) w,
  ueq w (unit_of q) = Ok false -> uor (unit_of q) w = Ok false -> convert ueq uor ufactor q w = Err ValueError.
Proof. intros U ueq uor ufactor q w E F. unfold convert. now rewrite E, F. Qed.
Print Assumptions C270_refuses.

Example C270_example :
  let size := fun u : positive => Qc_of_Z (Zpos u) in
  let factor := fun u w : positive => Ok (size u / size w)%Qc in
  (forall u, size u <> 0%Qc) /\ (forall u u' f, factor u u' = Ok f -> f = (size u / size u')%Qc) /\
  match convert (fun u w => Ok (Pos.eqb u w)) (fun _ _ => Ok true) factor (Vector (whole [1; 2]%Z) 1000%positive no_name) 10%positive with
  | Ok (Vector l 10%positive _) => same_values l (whole [100; 200]%Z)
  | _ => false
  end = true.
Proof.
  cbv zeta. split; [|split; [intros u u' f H; now injection H as <-|vm_compute; reflexivity]].
  intros u H. assert (K : (this (Qc_of_Z (Zpos u)) == 0)%Q) by (rewrite H; reflexivity).
  unfold Qc_of_Z in K. cbn [this Q2Qc] in K. rewrite Qred_correct in K. discriminate K.
Qed.

(** ** C271: arrays as values *)

(** Every history of creating, reading, converting and subscripting arrays
    shows the same as on values, units and names that never change, with
    nothing cached and nothing deferred. *)
Theorem C271_arrays : forall (D U : Type) asarray get has_shape ueq uor ufactor (l : list (paction D U)),
  reads_like asarray get -> without_copies l ->
  prun asarray get has_shape ueq uor ufactor [] l = pvalue_run asarray ueq uor ufactor [] l.
Proof.
  intros. apply prun_ok with (b := true); auto using pheap_nil. discriminate.
Qed.
Print Assumptions C271_arrays.

Definition view_is (o : pview Z) (s l : list nat) : bool :=
  match o with
  | SeenValues (Ok a) => arr_is a s l
  | SeenScalar v _ _ => arr_is (mkArr [] [v]) s l
  | _ => false
  end.
Example C271_example :
  let h := [PMake (false, counting [2; 3]) [lit "a"] 1000%Z; PRead 0 (NStd (Many [IInt 1; IInt 0])); PConvert 0 1%Z;
            PRead 1 NAll; PSubset 1 (Many [IInt 1; full_slice]); PRead 2 NAll; PConvert 2 10%Z; PSubset 3 (Bare (IInt (-1)))] in
  without_copies h /\
  match prun sample_array sample_get sample_shape z_eq z_or z_factor [] h with
  | [_; a; _; b; _; c; _; d] =>
      view_is a [] [3] && view_is b [2; 3] [0; 1000; 2000; 3000; 4000; 5000] &&
      view_is c [3] [3000; 4000; 5000] && view_is d [] [500]
  | _ => false
  end = true.
Proof.
  cbv zeta. split; [|vm_compute; reflexivity].
  intros k H. repeat (destruct H as [H|H]; [discriminate|]). destruct H.
Qed.

(** ** C272: copies of arrays *)

(** Histories in which the copies come after all conversions.  Missing: units
    of copies of converted arrays. *)
Theorem C272_copies_partial : forall (D U : Type) asarray get has_shape ueq uor ufactor (l : list (paction D U)),
  reads_like asarray get -> copies_last l ->
  prun asarray get has_shape ueq uor ufactor [] l = pvalue_run asarray ueq uor ufactor [] l.
Proof. intros. now apply copies_last_ok. Qed.
Print Assumptions C272_copies_partial.

(** 1 and 2 km, converted to m, copied, and converted back to km, are 0.001 and
    0.002 km. *)
Theorem C272_copies_refuted :
  let h := [PMake (false, mkArr [2] [Qc_of_Z 1; Qc_of_Z 2]) [lit "a"] 1000%Z; PConvert 0 1%Z; PCopy 1; PRead 2 NAll;
            PConvert 2 1000%Z; PRead 3 NAll] in
  let r := prun sample_array sample_get sample_shape z_eq z_or z_factor [] h in
  view_is (nth 3 r (SeenError KeyError)) [2] [1000; 2000] = true /\
  view_is (nth 5 r (SeenError KeyError)) [2] [1; 2] = false /\
  view_is (nth 5 (pvalue_run sample_array z_eq z_or z_factor [] h) (SeenError KeyError)) [2] [1; 2] = true.
Proof. cbv zeta. repeat split; vm_compute; reflexivity. Qed.
Print Assumptions C272_copies_refuted.

Example C272_example :
  let h := [PMake (true, counting [3]) [lit "a"] 1000%Z; PConvert 0 1%Z; PCopy 1; PSubset 2 (Bare (IInt (-1)))] in
  copies_last h /\
  view_is (nth 3 (prun sample_array sample_get sample_shape z_eq z_or z_factor [] h) (SeenError KeyError)) [] [2000] = true.
Proof.
  cbv zeta. split; [|vm_compute; reflexivity].
  exists [PMake (true, counting [3]) [lit "a"] 1000%Z; PConvert 0 1%Z], [PCopy 1; PSubset 2 (Bare (IInt (-1)))].
  split; [reflexivity|]. split.
  - intros k H. repeat (destruct H as [H|H]; [discriminate|]). destruct H.
  - intros k u H. repeat (destruct H as [H|H]; [discriminate|]). destruct H.
Qed.

(** ** C273: subscripts of arrays *)

(** What a subscript gave is this part of the array's values, with its unit and
    name: a scalar if the part has no axes, else an array. *)
Definition gave {D U} (asarray : D -> arr) (r : res (part (D := D))) (a : arr) (u : U) (name : list str) : Prop :=
  match shape a, cells a with
  | [], [v] => r = Ok (PNumber v u name)
  | _, _ => exists n, r = Ok (PArray n) /\ meaning asarray n = a /\ o_unit n = u /\ o_dims n = name
  end.

(** Positions, slices, an ellipsis, alone or in a tuple (which can also contain
    [None]), give what numpy gives for the array's values.  The array itself
    stays as it is. *)
Theorem C273_subscript : forall (D U : Type) asarray get has_shape (o : object D U) s,
  reads_like asarray get -> coherent asarray o ->
  match s with Bare i => builtin i = true /\ i <> INone | Many l => forallb builtin l = true /\ 2 <= length l end ->
  let (r, o') := subscripted asarray get has_shape o s in
  meaning asarray o' = meaning asarray o /\ o_unit o' = o_unit o /\ o_dims o' = o_dims o /\
  match basic (meaning asarray o) (match s with Bare i => [i] | Many l => l end) with
  | Ok a => gave asarray r a (o_unit o) (o_dims o)
  | Err e => r = Err e
  end.
Proof.
  intros D U asarray get has_shape o s R H Hs.
  destruct (standard_subscript asarray get has_shape R o s H Hs) as (r & o' & E & S & W). rewrite E.
  split; [now apply same_meaning|]. destruct S as (_ & _ & S3 & S4 & _). split; [exact S3|]. split; [exact S4|].
  destruct (basic (meaning asarray o) _) as [a|e] eqn:B; [|exact W].
  assert (F : filled a).
  { unfold basic in B. destruct (Nat.ltb _ _); [discriminate|]. destruct (Nat.ltb _ _); [discriminate|].
    destruct (select _ _) as [x|]; [|discriminate]. cbn in B. injection B as <-. apply filled_build. }
  unfold gave. destruct a as [[|n sh] [|y cs]]; cbn [shape cells] in *.
  - discriminate F.
  - unfold filled in F. cbn in F. destruct cs; [exact W|discriminate F].
  - eexists. split; [exact W|]. cbn. split; [|auto]. apply (proj1 (related_new asarray (Memory _) (o_unit o) (o_dims o))).
  - eexists. split; [exact W|]. cbn. split; [|auto]. apply (proj1 (related_new asarray (Memory _) (o_unit o) (o_dims o))).
Qed.
Print Assumptions C273_subscript.

Definition sample_part (o : object sample Z) (s : subscript) : res (part (D := sample) (U := Z)) :=
  fst (subscripted sample_array sample_get sample_shape o s).
Definition part_is (r : res (part (D := sample) (U := Z))) (s l : list nat) : bool :=
  match r with
  | Ok (PNumber v _ _) => arr_is (mkArr [] [v]) s l
  | Ok (PArray o) => arr_is (meaning sample_array o) s l
  | Err _ => false
  end.
Example C273_example :
  let o := object_of [2; 3] ["a"]%string 5%Z in
  coherent sample_array o /\
  part_is (sample_part o (Bare (IInt 1))) [3] [3; 4; 5] = true /\
  part_is (sample_part o (Many [IInt 1; IInt (-1)])) [] [5] = true /\
  part_is (sample_part o (Many [full_slice; ISlice None None (Some 2%Z)])) [2; 2] [0; 2; 3; 5] = true /\
  part_is (sample_part o (Many [IEll; IInt 0])) [2] [0; 3] = true /\
  sample_part o (Bare (IInt 2)) = Err IndexError.
Proof. cbv zeta. split; [reflexivity|]. repeat split; vm_compute; reflexivity. Qed.

(** ** C274: lists and new axes in subscripts of arrays *)

(** Lists of positions, each for an axis of its own, give the values at every
    combination of them, with whole axes where the subscript is [:].  Missing:
    a single list, ranges beside a list, and [None] alone. *)
Theorem C274_lists_partial : forall (D U : Type) asarray get has_shape (o : object D U) l,
  reads_like asarray get -> coherent asarray o ->
  Forall2 cross_index (shape (meaning asarray o)) l -> (exists q, In (ISeq q) l) -> 2 <= length l ->
  exists n o', subscripted asarray get has_shape o (Many l) = (Ok (PArray n), o') /\
    meaning asarray o' = meaning asarray o /\ o_unit n = o_unit o /\ o_dims n = o_dims o /\
    shape (meaning asarray n) = map2 cross_extent (shape (meaning asarray o)) l /\
    forall j, inside (shape (meaning asarray n)) j ->
      at_ (meaning asarray n) j = at_ (meaning asarray o) (cross_all (shape (meaning asarray o)) l j).
Proof.
  intros D U asarray get has_shape o l R H F Q L.
  destruct (list_subscript asarray get has_shape R o l H F Q L) as (a & o' & E & S & Sa & Aa).
  pose proof (proj1 (proj1 (related_new asarray (Memory a) (o_unit o) (o_dims o)))) as M. cbn in M.
  eexists; exists o'. split; [exact E|]. split; [now apply same_meaning|]. split; [reflexivity|]. split; [reflexivity|].
  rewrite M. auto.
Qed.
Print Assumptions C274_lists_partial.

(** A range beside a list is read as the whole axis; a single list raises
    ValueError, or gives everything if it is empty; [None] gives the array as it
    is instead of a new axis. *)
Theorem C274_lists_refuted :
  let o := object_of [3; 2] ["a"]%string 1%Z in
  part_is (sample_part o (Many [ISlice (Some 0%Z) (Some 1%Z) None; ISeq [1%Z; 0%Z]])) [3; 2] [1; 0; 3; 2; 5; 4] = true /\
  sample_part (object_of [3] ["a"]%string 1%Z) (Bare (ISeq [0%Z; 1%Z])) = Err ValueError /\
  part_is (sample_part (object_of [3] ["a"]%string 1%Z) (Bare (ISeq []))) [3] [0; 1; 2] = true /\
  part_is (sample_part (object_of [3] ["a"]%string 1%Z) (Bare INone)) [3] [0; 1; 2] = true.
Proof. cbv zeta. repeat split; vm_compute; reflexivity. Qed.
Print Assumptions C274_lists_refuted.

Example C274_example :
  let o := object_of [3; 2] ["a"]%string 1%Z in
  let l := [ISeq [2%Z; (-3)%Z]; full_slice] in
  coherent sample_array o /\ Forall2 cross_index (shape (meaning sample_array o)) l /\
  part_is (sample_part o (Many l)) [2; 2] [4; 5; 0; 1] = true.
Proof.
  cbv zeta. split; [reflexivity|]. split; [|vm_compute; reflexivity].
  constructor; [|constructor; [exact I|constructor]]. cbn. repeat constructor; lia.
Qed.

(** ** C275: equality of arrays *)

(** Two arrays are equal exactly if their units are and their values, in those
    units, have the same shape and are the same; neither how they were made nor
    their names matter. *)
Theorem C275_equality : forall (D U : Type) asarray get (ueq : U -> U -> res bool) (a b : object D U),
  reads_like asarray get -> filled (meaning asarray a) -> filled (meaning asarray b) ->
  arrays_eq asarray get ueq a b = Ok true <->
  ueq (o_unit a) (o_unit b) = Ok true /\ meaning asarray a = meaning asarray b.
Proof.
  intros D U asarray get ueq a b R Fa Fb. rewrite arrays_eq_ok by exact R.
  destruct (ueq (o_unit a) (o_unit b)) as [[|]|e]; cbn [bind].
  - split.
    + intros H. injection H as H. apply array_equal_iff in H; auto.
    + intros [_ ->]. f_equal. now apply array_equal_iff.
  - split; [discriminate|]. intros [H _]. discriminate.
  - split; [discriminate|]. intros [H _]. discriminate.
Qed.
Print Assumptions C275_equality.

Example C275_example :
  let a := object_of [2] ["a"]%string 1000%Z in
  let b := mkObject (Source (true, counting [2])) None (Qc_of_Z 1000) 1%Z [] in
  let c := mkObject (Source (false, mkArr [2] [Qc_of_Z 0; Qc_of_Z 1000])) None 1%Qc 1%Z [lit "c"] in
  filled (meaning sample_array a) /\ filled (meaning sample_array b) /\ filled (meaning sample_array c) /\
  arrays_eq sample_array sample_get z_eq b c = Ok true /\ arrays_eq sample_array sample_get z_eq a b = Ok false.
Proof. cbv zeta. repeat split; vm_compute; reflexivity. Qed.

(** ** C276: numpy functions of arrays *)

(** A function of numpy, called with arrays and other arguments, gives what it
    gives for the arrays' values in their current units; an argument of a
    foreign array type is refused. *)
Theorem C276_functions : forall (D U X Y : Type) asarray get (f : list (plain X) -> res Y)
    (args : list (argument (D := D) (U := U) X)),
  reads_like asarray get ->
  (forall g, (forall a, In a args -> match a with
                 | AnArray _ o => g a = PlainArray X (meaning asarray o)
                 | ANumpy _ v => g a = PlainArray X v
                 | AnOther _ x => g a = PlainOther X x
                 | AForeign _ => False end) ->
     array_function asarray get f args = rmap (Plain Y) (f (map g args))) /\
  (In (AForeign X) args -> array_function asarray get f args = Err TypeError).
Proof.
  intros D U X Y asarray get f args R. rewrite array_function_ok by exact R. split.
  - intros g Hg. replace (existsb _ args) with false.
    + do 2 f_equal. apply map_ext_in. intros a Ha. specialize (Hg a Ha). destruct a; try (symmetry; exact Hg). contradiction.
    + symmetry. apply not_true_iff_false. intros K. apply existsb_exists in K as (a & Ha & K). specialize (Hg a Ha).
      destruct a; try discriminate. contradiction.
  - intros H. replace (existsb _ args) with true; [reflexivity|]. symmetry. apply existsb_exists.
    exists (AForeign X). split; [exact H|reflexivity].
Qed.
Print Assumptions C276_functions.

(** The sum of the values, and twice the values, of one argument. *)
Definition np_sum (l : list (plain unit)) : res arr :=
  match l with
  | [PlainArray _ a] => Ok (mkArr [] [sumQc (cells a)])
  | _ => Err TypeError
  end.
Definition np_doubled (l : list (plain unit)) : res arr :=
  match l with
  | [PlainArray _ a] => Ok (scale_arr (Qc_of_Z 2) a)
  | _ => Err TypeError
  end.
Definition in_metres : object sample Z := mkObject (Source (false, mkArr [2] [Qc_of_Z 1; Qc_of_Z 2])) None (Qc_of_Z 1000) 1%Z [lit "r"].
Example C276_example :
  match array_function (X := unit) sample_array sample_get np_sum [AnArray _ in_metres] with
  | Ok (Plain _ a) => arr_is a [] [3000]
  | _ => false
  end = true /\
  array_function (X := unit) sample_array sample_get np_sum [AnArray _ in_metres; AForeign _] = Err TypeError.
Proof. split; vm_compute; reflexivity. Qed.

(** ** C277: units of the results of numpy functions *)

(** The result never has a unit. *)
Theorem C277_units_refuted : forall (D U X Y : Type) asarray get (f : list (plain X) -> res Y)
    (args : list (argument (D := D) (U := U) X)) r,
  reads_like asarray get -> array_function asarray get f args = Ok r -> exists y, r = Plain Y y.
Proof.
  intros D U X Y asarray get f args r R. rewrite array_function_ok by exact R.
  destruct (existsb _ args); [discriminate|]. destruct (f _) as [y|e]; cbn; [|discriminate].
  intros H. injection H as <-. eauto.
Qed.
Print Assumptions C277_units_refuted.

Example C277_example :
  match array_function (X := unit) sample_array sample_get np_doubled [AnArray _ in_metres] with
  | Ok (Plain _ a) => arr_is a [2] [2000; 4000]
  | _ => false
  end = true.
Proof. vm_compute. reflexivity. Qed.
