(** Properties of measurements and quantities (measurable.py). *)

From Coq Require Import String Ascii List Bool ZArith QArith Qcanon Lia.
From Verif Require Import Py PyFacts SymbolicModel SymbolicSpec SymbolicTermProofs SymbolicReduceProofs SymbolicExprProofs SymbolicLawProofs AliasedModel.
From Verif Require Import IterablesModel MetricTables MetricModel MetricSpec MetricProofs MetricTableProofs MetadataModel MeasurableModel MeasurableSpec.
From Verif Require Import MeasurableProofs QuantityProofs.
Import SymbolicSpec ListNotations.
Open Scope list_scope.
Open Scope nat_scope.

Definition T (c : Q) (b : string) (e : Q) : term := mkTerm (Q2Qc c) (lit b) (Q2Qc e).
Definition unit_named (s : string) : unit_obj :=
  match fresh_unit true (lit s) with Ok u => u | Err _ => mkUnit true [] end.
Definition quantity_of (n : Z) (s : string) : quantity := mkQuantity (Qc_of_Z n) (unit_named s).
(** The result has this data and this unit. *)
Definition yields (r : res quantity) (d : Qc) (s : string) : bool :=
  match r with
  | Ok q => Qc_eqb (q_data q) d && str_eqb (expr_format F64 (u_terms (q_unit q))) (lit s)
  | Err _ => false
  end.

Ltac plain_by x :=
  split; [canon_by x|]; split; [wf_list|]; split;
  [repeat (apply Forall_cons; [split; [reflexivity|]; split; [reflexivity|]; split; [compute_eq|]; right;
     split; [reflexivity|]; split; [decide_legal|apply not_starts; reflexivity]|]); apply Forall_nil
  |unfold integral; repeat (apply Forall_cons;
     [match goal with |- exists z, expo ?t = _ => exists (Qc_num (expo t)); compute_eq end|]); apply Forall_nil].

(** ** C34: changing the unit *)

(** Missing: units that are products, whose factors C32 shows to be wrong in
    some cases. *)
Theorem C34_amount_partial : forall F named canonicals bases qs systems l nodes size q new q' f checked,
  let old := expr_format F (u_terms (q_unit q)) in
  sizes named (connect l) size ->
  convert_strings named (connect l) nodes (search_fuel nodes) [] old (expr_format F (u_terms new)) = (Ok (Some f), checked) ->
  change_unit F named canonicals bases qs systems (connect l) nodes q new = Ok q' ->
  unit_eqb F named canonicals bases qs systems (connect l) nodes (u_terms new) (u_terms (q_unit q)) = Ok false ->
  q_unit q' = new /\ (q_data q' * size (expr_format F (u_terms new)) = q_data q * size old)%Qc.
Proof. exact change_amount. Qed.
Print Assumptions C34_amount_partial.

Theorem C34_same_unit_unchanged : forall F named canonicals bases qs systems conns nodes q new,
  unit_eqb F named canonicals bases qs systems conns nodes (u_terms new) (u_terms (q_unit q)) = Ok true ->
  change_unit F named canonicals bases qs systems conns nodes q new = Ok q.
Proof. exact change_same. Qed.
Print Assumptions C34_same_unit_unchanged.

Theorem C34_there_and_back_partial : forall F named canonicals bases qs systems l nodes size q new q' q'' f g c c',
  let old := q_unit q in
  let name u := expr_format F (u_terms u) in
  let same u v := unit_eqb F named canonicals bases qs systems (connect l) nodes (u_terms u) (u_terms v) in
  sizes named (connect l) size ->
  convert_strings named (connect l) nodes (search_fuel nodes) [] (name old) (name new) = (Ok (Some f), c) ->
  convert_strings named (connect l) nodes (search_fuel nodes) [] (name new) (name old) = (Ok (Some g), c') ->
  same new old = Ok false -> same old new = Ok false ->
  change_unit F named canonicals bases qs systems (connect l) nodes q new = Ok q' ->
  change_unit F named canonicals bases qs systems (connect l) nodes q' old = Ok q'' ->
  q'' = q.
Proof. exact change_back. Qed.
Print Assumptions C34_there_and_back_partial.

(** Through an intermediate unit, or directly. *)
Theorem C34_chain_partial : forall F named canonicals bases qs systems l nodes size q u v q1 q2 q' f g h c c' c'',
  let name u := expr_format F (u_terms u) in
  let same u v := unit_eqb F named canonicals bases qs systems (connect l) nodes (u_terms u) (u_terms v) in
  let find u v := convert_strings named (connect l) nodes (search_fuel nodes) [] (name u) (name v) in
  sizes named (connect l) size ->
  find (q_unit q) u = (Ok (Some f), c) -> find u v = (Ok (Some g), c') -> find (q_unit q) v = (Ok (Some h), c'') ->
  same u (q_unit q) = Ok false -> same v u = Ok false -> same v (q_unit q) = Ok false ->
  change_unit F named canonicals bases qs systems (connect l) nodes q u = Ok q1 ->
  change_unit F named canonicals bases qs systems (connect l) nodes q1 v = Ok q2 ->
  change_unit F named canonicals bases qs systems (connect l) nodes q v = Ok q' ->
  q2 = q'.
Proof. exact change_chain. Qed.
Print Assumptions C34_chain_partial.

(** Units that cannot be converted are refused. *)
Theorem C34_refuses : forall F named canonicals bases qs systems conns nodes q new,
  unit_eqb F named canonicals bases qs systems conns nodes (u_terms new) (u_terms (q_unit q)) = Ok false ->
  unit_or F named canonicals bases qs systems conns nodes (u_terms (q_unit q)) (u_terms new) = Ok false ->
  change_unit F named canonicals bases qs systems conns nodes q new = Err ValueError.
Proof. exact change_refuses. Qed.
Print Assumptions C34_refuses.

(** 3 J in [kg km^2 s^-2] is given as 3 J, and so is 3 au in minutes given as
    3 au; but 3 km in m is 3000 m. *)
Theorem C34_amount_refuted :
  yields (m_change_unit (quantity_of 3 "km") (unit_named "m")) (Qc_of_Z 3000) "m" = true
  /\ yields (m_change_unit (quantity_of 3 "J") (unit_named "kg km^2 s^-2")) (Qc_of_Z 3) "J" = true
  /\ yields (m_change_unit (quantity_of 3 "au") (unit_named "min")) (Qc_of_Z 3) "au" = true.
Proof. split; [vm_compute; reflexivity|]. split; vm_compute; reflexivity. Qed.
Print Assumptions C34_amount_refuted.

Example C34_example :
  sizes identified (connect declared) the_size
  /\ yields (m_change_unit (quantity_of 3 "h") (unit_named "s")) (Qc_of_Z 10800) "s" = true
  /\ match fst (convert_strings identified (connect declared) the_nodes (search_fuel the_nodes) [] (lit "h") (lit "s")) with
     | Ok (Some f) => Qc_eqb f (Qc_of_Z 3600) | _ => false end = true
  /\ m_unit_eqb mks_first (u_terms (unit_named "s")) (u_terms (unit_named "h")) = Ok false
  /\ m_unit_eqb mks_first (u_terms (unit_named "h")) (u_terms (unit_named "s")) = Ok false.
Proof.
  split; [exact the_sizes|]. split; [vm_compute; reflexivity|]. split; [vm_compute; reflexivity|].
  split; vm_compute; reflexivity.
Qed.

(** ** C37: arithmetic *)

Theorem C235_sum_needs_equal_units : forall F named canonicals bases qs systems conns nodes data_pow op a b q,
  op = Add \/ op = Sub ->
  arithmetic F named canonicals bases qs systems conns nodes data_pow op (OpQ a) b = Ok q ->
  exists b', b = OpQ b'
    /\ unit_eqb F named canonicals bases qs systems conns nodes (u_terms (q_unit a)) (u_terms (q_unit b')) = Ok true
    /\ q_data q = match op with Add => q_data a + q_data b' | _ => q_data a - q_data b' end%Qc
    /\ q_unit q = q_unit a.
Proof. exact sum_ok. Qed.
Print Assumptions C235_sum_needs_equal_units.

Theorem C235_sum_of_equal_units : forall F named canonicals bases qs systems conns nodes data_pow op a b,
  op = Add \/ op = Sub -> u_meta (q_unit a) = true ->
  unit_eqb F named canonicals bases qs systems conns nodes (u_terms (q_unit a)) (u_terms (q_unit b)) = Ok true ->
  arithmetic F named canonicals bases qs systems conns nodes data_pow op (OpQ a) (OpQ b)
  = Ok (mkQuantity (match op with Add => q_data a + q_data b | _ => q_data a - q_data b end)%Qc (q_unit a)).
Proof. exact sum_equal. Qed.
Print Assumptions C235_sum_of_equal_units.

(** Units that differ: the dimensions agree if they do in both systems. *)
Theorem C235_sum_of_different_units : forall F named canonicals bases qs systems conns nodes data_pow op a b mks cgs mks' cgs',
  op = Add \/ op = Sub -> u_meta (q_unit a) = true -> u_meta (q_unit b) = true ->
  unit_eqb F named canonicals bases qs systems conns nodes (u_terms (q_unit a)) (u_terms (q_unit b)) = Ok false ->
  dimensions_of F named canonicals (u_terms (q_unit a)) = Ok (mks, cgs) ->
  dimensions_of F named canonicals (u_terms (q_unit b)) = Ok (mks', cgs') ->
  exists e, arithmetic F named canonicals bases qs systems conns nodes data_pow op (OpQ a) (OpQ b) = Err e
    /\ (same_dimension F mks mks' /\ same_dimension F cgs cgs' -> e = ScaleMismatch)
    /\ (~ (same_dimension F mks mks' /\ same_dimension F cgs cgs') -> e = DimensionMismatch).
Proof. exact sum_unequal_kind. Qed.
Print Assumptions C235_sum_of_different_units.

(** Units of the base class cannot be added, and differ from units of the
    derived class without saying how. *)
Theorem C235_sum_of_base_units : forall F named canonicals bases qs systems conns nodes data_pow op a b,
  op = Add \/ op = Sub ->
  let sum := arithmetic F named canonicals bases qs systems conns nodes data_pow op (OpQ a) (OpQ b) in
  (u_meta (q_unit a) = false -> sum = Err MetadataError)
  /\ (u_meta (q_unit a) = true -> u_meta (q_unit b) = false ->
      unit_eqb F named canonicals bases qs systems conns nodes (u_terms (q_unit a)) (u_terms (q_unit b)) = Ok false -> sum = Err UnitError).
Proof. exact sum_base. Qed.
Print Assumptions C235_sum_of_base_units.

Theorem C235_sum_with_number : forall F named canonicals bases qs systems conns nodes data_pow op a n,
  op = Add \/ op = Sub ->
  arithmetic F named canonicals bases qs systems conns nodes data_pow op (OpQ a) (OpN n) = Err TypeError
  /\ arithmetic F named canonicals bases qs systems conns nodes data_pow op (OpN n) (OpQ a) = Err TypeError.
Proof. exact sum_number. Qed.
Print Assumptions C235_sum_with_number.

(** Numbers change the data and keep the unit. *)
Theorem C236_scaling : forall F named canonicals bases qs systems conns nodes data_pow a n,
  u_meta (q_unit a) = true ->
  let run := arithmetic F named canonicals bases qs systems conns nodes data_pow in
  run Mul (OpQ a) (OpN n) = Ok (mkQuantity (q_data a * n) (q_unit a))
  /\ run Mul (OpN n) (OpQ a) = Ok (mkQuantity (n * q_data a) (q_unit a))
  /\ (n <> 0%Qc -> run Div (OpQ a) (OpN n) = Ok (mkQuantity (q_data a / n) (q_unit a))).
Proof. exact scale_ok. Qed.
Print Assumptions C236_scaling.

Theorem C236_no_quotient_or_power : forall F named canonicals bases qs systems conns nodes data_pow a,
  let run := arithmetic F named canonicals bases qs systems conns nodes data_pow in
  (forall n, q_data a <> 0%Qc -> run Div (OpN n) (OpQ a) = Err OperandTypeError)
  /\ (forall b d, data_pow (value_of b) (q_data a) = Ok d -> run Pow b (OpQ a) = Err OperandTypeError).
Proof.
  intros F named canonicals bases qs systems conns nodes data_pow a. split.
  - intro n. exact (no_quotient F named canonicals bases qs systems conns nodes data_pow n a).
  - intros b d. exact (no_power F named canonicals bases qs systems conns nodes data_pow b a d).
Qed.
Print Assumptions C236_no_quotient_or_power.

(** Whole powers of the data; zero has no negative power. *)
Theorem C236_power_of_data : forall a k q,
  m_arithmetic Pow (OpQ a) (OpN (Qc_of_Z k)) = Ok q -> q_data q = Qc_zpow (q_data a) k /\ (q_data a = 0%Qc -> (0 <= k)%Z).
Proof. exact power_data. Qed.
Print Assumptions C236_power_of_data.

Theorem C236_power_of_zero : forall a k, q_data a = 0%Qc -> (k < 0)%Z ->
  m_arithmetic Pow (OpQ a) (OpN (Qc_of_Z k)) = Err ZeroDivisionError.
Proof. exact power_zero. Qed.
Print Assumptions C236_power_of_zero.

(** Missing: results that do not survive being written as text, fractional
    exponents, and decompositions that change the size. *)
Theorem C37_product_partial : forall F named canonicals bases qs systems conns nodes data_pow rho p q a b z,
  let run := arithmetic F named canonicals bases qs systems conns nodes data_pow in
  let decomposes := decomposes F (decompose F named canonicals bases qs systems) rho in
  sizing rho -> decomposes p a -> decomposes q b ->
  expr_eqb F (u_terms (q_unit p)) (u_terms (q_unit q)) = false ->
  plain F z -> same_monomial z (a ++ b) ->
  exists r, run Mul (OpQ p) (OpQ q) = Ok r /\ amount rho r = (amount rho p * amount rho q)%Qc.
Proof. exact product_amount. Qed.
Print Assumptions C37_product_partial.

Theorem C37_quotient_partial : forall F named canonicals bases qs systems conns nodes data_pow rho p q a b z,
  let run := arithmetic F named canonicals bases qs systems conns nodes data_pow in
  let decomposes := decomposes F (decompose F named canonicals bases qs systems) rho in
  sizing rho -> decomposes p a -> decomposes q b ->
  expr_eqb F (u_terms (q_unit p)) (u_terms (q_unit q)) = false -> q_data q <> 0%Qc ->
  plain F z -> same_monomial z (a ++ inverse b) ->
  exists r, run Div (OpQ p) (OpQ q) = Ok r /\ amount rho r = (amount rho p / amount rho q)%Qc.
Proof. exact quotient_amount. Qed.
Print Assumptions C37_quotient_partial.

Theorem C37_power_partial : forall F named canonicals bases qs systems conns nodes data_pow rho p a n z,
  let run := arithmetic F named canonicals bases qs systems conns nodes data_pow in
  sizing rho -> decomposes F (decompose F named canonicals bases qs systems) rho p a -> n <> 0%Z ->
  data_pow (q_data p) (Qc_of_Z n) = Ok (Qc_zpow (q_data p) n) -> exact_power F n a ->
  plain F z -> same_monomial z (power n a) ->
  exists r, run Pow (OpQ p) (OpN (Qc_of_Z n)) = Ok r /\ amount rho r = Qc_zpow (amount rho p) n.
Proof. exact power_amount. Qed.
Print Assumptions C37_power_partial.

(** The same unit. *)
Theorem C37_square_partial : forall F named canonicals bases qs systems conns nodes data_pow rho p q z,
  let run := arithmetic F named canonicals bases qs systems conns nodes data_pow in
  sizing rho -> u_terms (q_unit q) = u_terms (q_unit p) -> plain F (u_terms (q_unit p)) ->
  exact_power F 2 (u_terms (q_unit p)) ->
  plain F z -> same_monomial z (power 2 (u_terms (q_unit p))) ->
  exists r, run Mul (OpQ p) (OpQ q) = Ok r /\ amount rho r = (amount rho p * amount rho q)%Qc.
Proof. exact square_amount. Qed.
Print Assumptions C37_square_partial.

Theorem C236_same_quotient : forall F named canonicals bases qs systems conns nodes data_pow p q one,
  u_terms (q_unit q) = u_terms (q_unit p) -> q_data q <> 0%Qc ->
  expression_of_str F false (lit "1") = Ok one ->
  arithmetic F named canonicals bases qs systems conns nodes data_pow Div (OpQ p) (OpQ q)
  = Ok (mkQuantity (q_data p / q_data q) (mkUnit (u_meta (q_unit p)) one)).
Proof. exact same_quotient. Qed.
Print Assumptions C236_same_quotient.

(** The volt and the ohm decompose into the same units, so that a voltage and a
    resistance times the same current get the same unit. *)
Theorem C37_product_refuted :
  yields (m_arithmetic Mul (OpQ (quantity_of 3 "V")) (OpQ (quantity_of 4 "A"))) (Qc_of_Z 12) "m^2 kg s^-3" = true
  /\ yields (m_arithmetic Mul (OpQ (quantity_of 3 "ohm")) (OpQ (quantity_of 4 "A"))) (Qc_of_Z 12) "m^2 kg s^-3" = true.
Proof. split; vm_compute; reflexivity. Qed.
Print Assumptions C37_product_refuted.

(** Degrees are the same unit as plain numbers. *)
Theorem C37_sum_refuted :
  yields (m_arithmetic Add (OpQ (quantity_of 90 "deg")) (OpQ (quantity_of 1 "1"))) (Qc_of_Z 91) "deg" = true.
Proof. vm_compute. reflexivity. Qed.
Print Assumptions C37_sum_refuted.

(** The hypotheses for 3 J and 4 s: with these sizes of the base units the
    joule is 18/25. *)
Definition sizes_example (b : str) : Qc :=
  if str_eqb b (lit "kg") then Qc_of_Z 2 else if str_eqb b (lit "m") then Qc_of_Z 3
  else if str_eqb b (lit "s") then Qc_of_Z 5 else if str_eqb b (lit "J") then Q2Qc (18 # 25) else 1%Qc.
Example C37_example :
  let F := F64 in
  let a := [T 1 "m" 2; T 1 "kg" 1; T 1 "s" (-2#1)] in
  let b := [T 1 "s" 1] in
  let z := [T 1 "m" 2; T 1 "kg" 1; T 1 "s" (-1#1)] in
  sizing sizes_example
  /\ decomposes F (m_decompose mks_first) sizes_example (quantity_of 3 "J") a
  /\ decomposes F (m_decompose mks_first) sizes_example (quantity_of 4 "s") b
  /\ plain F z /\ same_monomial z (a ++ b) /\ exact_power F 2 a.
Proof.
  cbn zeta. split.
  { split; [reflexivity|]. intro b. unfold sizes_example.
    repeat match goal with |- (if ?c then _ else _) <> _ => destruct c; [discriminate|] end. discriminate. }
  split; [split; [compute_eq|]; split; [plain_by [T 1 "m" 2; T 1 "kg" 1; T 1 "s" (-2#1)]|compute_eq]|].
  split; [split; [compute_eq|]; split; [plain_by [T 1 "s" 1]|compute_eq]|].
  split; [plain_by [T 1 "m" 2; T 1 "kg" 1; T 1 "s" (-1#1)]|].
  split.
  - split; [compute_eq|]. intros b N.
    assert (forall x y, str_eqb b x = true -> b = y -> True) by auto.
    unfold total_expo. cbn [map filter app base T].
    repeat match goal with |- context [str_eqb b ?x] => destruct (str_eqb_spec b x) as [->|?] end; compute_eq.
  - repeat (apply Forall_cons; [split; [apply computes_some; vm_compute; reflexivity|]; split; compute_eq|]). apply Forall_nil.
Qed.

(** ** C41: measuring *)

(** Missing: the arguments that the docstring of [ismeasurable] does not list,
    for which numbers are lost. *)
Theorem C41_measure_partial : forall is_unity show args ns u,
  measured is_unity (OSeq KTuple args) ns u ->
  measure is_unity show args = Ok (map ONum ns, OStr u) /\ numbers_of (OSeq KTuple args) = ns.
Proof.
  intros is_unity show args ns u M. split; [now apply measure_measured|].
  exact (measured_numbers is_unity _ _ _ _ (le_n _) M).
Qed.
Print Assumptions C41_measure_partial.

(** The recorded unit is '1' if the given one equals the unit '1'. *)
Theorem C41_unit : forall ns s x b, ns <> [] -> expression_of_str F64 false s = Ok x ->
  m_unit_eqb mks_first [mkTerm 1 (lit "1") 1] x = Ok b ->
  m_measure (map ONum ns ++ [OStr s]) = Ok (map ONum ns, OStr (if b then lit "1" else s)).
Proof. exact measure_unit. Qed.
Print Assumptions C41_unit.

Theorem C237_conflict_rejected : forall is_unity show args ps,
  args <> [] -> Forall container args ->
  Forall2 (fun o p => measured is_unity o (fst p) (snd p)) args ps ->
  (exists p q, In p ps /\ In q ps /\ snd p <> snd q) ->
  measure is_unity show args = Err MeasuringTypeError.
Proof. exact measure_conflict. Qed.
Print Assumptions C237_conflict_rejected.

Theorem C237_two_units_rejected : forall is_unity show args,
  Forall (fun o => ~ container o) args -> 1 < length (filter is_str args) ->
  measure is_unity show args = Err MeasuringTypeError.
Proof. exact measure_two_units. Qed.
Print Assumptions C237_two_units_rejected.

(** Numbers are lost, values become units, and degrees become numbers. *)
Theorem C41_measure_refuted :
  let l := OSeq KList in
  m_measure [ONum 1; l [ONum 2; ONum 3]] = Ok ([ONum 1], OStr (lit "1"))
  /\ m_measure [l [ONum 1; ONum 2]; l [ONum 3; ONum 4]; OStr (lit "m")] = Ok ([ONum 1; ONum 2], OStr (lit "m"))
  /\ m_measure [l [ONum 1; OStr (lit "km")]; OStr (lit "m")] = Ok ([ONum 1; OStr (lit "km")], OStr (lit "m"))
  /\ m_measure [ONum 90; OStr (lit "deg")] = Ok ([ONum 90], OStr (lit "1")).
Proof.
  cbn zeta. split; [vm_compute; reflexivity|]. split; [vm_compute; reflexivity|].
  split; vm_compute; reflexivity.
Qed.
Print Assumptions C41_measure_refuted.

Example C41_example :
  let l := OSeq KList in
  measured module_unity (OSeq KTuple [l [ONum 1; ONum 2; OStr (lit "m")]; l [l [ONum 3; ONum 4]; OStr (lit "m")]]) [1; 2; 3; 4]%Z (lit "m")
  /\ measured module_unity (l [ONum 5; OStr (lit "km")])  [5]%Z (lit "km").
Proof. exact measured_example. Qed.

(** ** C42: in-place operations *)

(** If evaluating the operation raises, the quantity is unchanged.  Missing:
    every other case. *)
Theorem C42_unchanged_partial : forall F named canonicals bases qs systems conns nodes data_pow op self other e,
  arithmetic F named canonicals bases qs systems conns nodes data_pow op (OpQ self) other = Err e ->
  inplace F named canonicals bases qs systems conns nodes data_pow op self other = (self, Some e).
Proof. exact inplace_failed. Qed.
Print Assumptions C42_unchanged_partial.

(** Otherwise the data has been replaced when the statement raises. *)
Theorem C42_unchanged_refuted : forall F named canonicals bases qs systems conns nodes data_pow op self other q,
  arithmetic F named canonicals bases qs systems conns nodes data_pow op (OpQ self) other = Ok q ->
  inplace F named canonicals bases qs systems conns nodes data_pow op self other
  = (mkQuantity (q_data q) (q_unit self), Some ValueError).
Proof. exact inplace_after. Qed.
Print Assumptions C42_unchanged_refuted.

Example C42_example :
  (exists q, m_arithmetic Mul (OpQ (quantity_of 3 "m")) (OpQ (quantity_of 4 "s")) = Ok q
             /\ q_data q <> q_data (quantity_of 3 "m"))
  /\ m_arithmetic Add (OpQ (quantity_of 3 "m")) (OpQ (quantity_of 4 "s")) = Err DimensionMismatch.
Proof.
  split; [|vm_compute; reflexivity]. eexists. split; [vm_compute; reflexivity|]. intro H. vm_compute in H. discriminate H.
Qed.

(** ** C93: [ismeasurable] predicts [measure] *)

Theorem C93_measurable_partial : forall is_unity show args ns u,
  measured is_unity (OSeq KTuple args) ns u ->
  ismeasurable (S (MeasurableModel.depth (OSeq KTuple args))) (OSeq KTuple args) = Ok true
  /\ measure is_unity show args = Ok (map ONum ns, OStr u).
Proof.
  intros is_unity show args ns u M. split; [|now apply measure_measured].
  exact (measured_measurable is_unity _ _ _ _ _ (le_n _) (Nat.lt_succ_diag_r _) M).
Qed.
Print Assumptions C93_measurable_partial.

(** Texts and [None] are not measurable, however wrapped. *)
Theorem C93_not_measurable : forall fuel o, alone o -> fuel <> 0 -> ismeasurable fuel o = Ok false.
Proof. exact alone_not_measurable. Qed.
Print Assumptions C93_not_measurable.
Example C93_not_measurable_case : alone (OSeq KList [OSeq KTuple [OStr (lit "m")]]) /\ alone ONone.
Proof. split; repeat constructor. Qed.

(** An empty list and a pair of values with two strings are called measurable. *)
Theorem C93_measurable_refuted :
  let l := OSeq KList in
  ismeasurable 9 (l []) = Ok true /\ m_measure [l []] = Err UnmeasurableError
  /\ ismeasurable 9 (l [l [ONum 1; ONum 2]; OStr (lit "x"); OStr (lit "m")]) = Ok true
  /\ m_measure [l [l [ONum 1; ONum 2]; OStr (lit "x"); OStr (lit "m")]] = Err MeasuringTypeError
  /\ ismeasurable 9 (l [ONum 1; l [ONum 2; ONum 3]]) = Ok true
  /\ m_measure [l [ONum 1; l [ONum 2; ONum 3]]] = Ok ([ONum 1], OStr (lit "1")).
Proof. repeat split; vm_compute; reflexivity. Qed.
Print Assumptions C93_measurable_refuted.

(** ** C94: indexing a measurement *)

Theorem C94_index_partial : forall (A : Type) (data : list A) unit i, let n := Z.of_nat (length data) in
  ((0 <= i < n)%Z -> exists v, nth_error data (Z.to_nat i) = Some v /\ measurement_getitem data unit i = Ok [(v, unit)])
  /\ ((- n <= i < 0)%Z -> exists v, nth_error data (Z.to_nat (n + i)) = Some v
        /\ measurement_getitem data unit i = Ok [(v, unit)])
  /\ ((n <= i)%Z -> measurement_getitem data unit i = Err IndexError).
Proof. exact getitem_index. Qed.
Print Assumptions C94_index_partial.

(** One before the first value is the last value. *)
Theorem C94_index_refuted : forall (A : Type) (data : list A) unit v,
  measurement_getitem (data ++ [v]) unit (- Z.of_nat (length (data ++ [v])) - 1) = Ok [(v, unit)].
Proof. exact getitem_wraps. Qed.
Print Assumptions C94_index_refuted.

(** ** C95: comparisons *)

Theorem C95_comparison_needs_equal_units : forall F named canonicals bases qs systems conns nodes cmp a b r,
  compare F named canonicals bases qs systems conns nodes cmp a (OpQ b) = Ok r ->
  unit_eqb F named canonicals bases qs systems conns nodes (u_terms (q_unit b)) (u_terms (q_unit a)) = Ok true
  /\ r = cmp (q_data a) (q_data b).
Proof.
  intros F named canonicals bases qs systems conns nodes cmp a b r. rewrite compare_quantities.
  destruct (unit_eqb F named canonicals bases qs systems conns nodes (u_terms (q_unit b)) (u_terms (q_unit a))) as [[]|];
    cbn [bind]; intro H; try discriminate. injection H as <-. auto.
Qed.
Print Assumptions C95_comparison_needs_equal_units.

Theorem C95_comparison : forall F named canonicals bases qs systems conns nodes cmp a b e,
  unit_eqb F named canonicals bases qs systems conns nodes (u_terms (q_unit b)) (u_terms (q_unit a)) = Ok e ->
  compare F named canonicals bases qs systems conns nodes cmp a (OpQ b)
  = if e then Ok (cmp (q_data a) (q_data b)) else Err ValueError.
Proof. intros. rewrite compare_quantities, H. reflexivity. Qed.
Print Assumptions C95_comparison.

Theorem C95_with_number : forall F named canonicals bases qs systems conns nodes cmp a n,
  compare F named canonicals bases qs systems conns nodes cmp a (OpN n) = Ok (cmp (q_data a) n).
Proof. exact compare_number. Qed.
Print Assumptions C95_with_number.

Theorem C95_equality : forall F named canonicals bases qs systems conns nodes a b,
  quantity_eq F named canonicals bases qs systems conns nodes a (OpQ b) = Ok true <->
  q_data a = q_data b
  /\ unit_eqb F named canonicals bases qs systems conns nodes (u_terms (q_unit a)) (u_terms (q_unit b)) = Ok true.
Proof. exact quantity_eq_true. Qed.
Print Assumptions C95_equality.

Example C95_example :
  m_unit_eqb mks_first (u_terms (unit_named "J")) (u_terms (unit_named "N m")) = Ok true
  /\ m_unit_eqb mks_first (u_terms (unit_named "km")) (u_terms (unit_named "m")) = Ok false.
Proof. split; vm_compute; reflexivity. Qed.

(** ** C96: units created before *)

(** As long as only units of quantities are created, every unit supports the
    arithmetic of quantities.  Missing: programs that also create units of the
    metric module. *)
Theorem C96_history_partial : forall F named history s u st,
  only_meta history ->
  unit_call F named true (unit_calls F named (mkMap [] []) history) (UText s) = (Ok u, st) ->
  u_meta u = true.
Proof. exact history_meta. Qed.
Print Assumptions C96_history_partial.

(** After [metric.Unit('m')], the product of 3 m and 2 has the unit '2 m', and
    the sum of 3 m and 3 m raises. *)
Theorem C96_history_refuted : exists u st,
  m_unit_call true (m_unit_calls (mkMap [] []) [(false, UText (lit "m"))]) (UText (lit "m")) = (Ok u, st)
  /\ yields (m_arithmetic Mul (OpQ (mkQuantity (Qc_of_Z 3) u)) (OpN (Qc_of_Z 2))) (Qc_of_Z 6) "2 m" = true
  /\ m_arithmetic Add (OpQ (mkQuantity (Qc_of_Z 3) u)) (OpQ (mkQuantity (Qc_of_Z 3) u)) = Err MetadataError
  /\ yields (m_arithmetic Mul (OpQ (quantity_of 3 "m")) (OpN (Qc_of_Z 2))) (Qc_of_Z 6) "m" = true.
Proof.
  do 2 eexists. split; [vm_compute; reflexivity|]. split; [vm_compute; reflexivity|].
  split; vm_compute; reflexivity.
Qed.
Print Assumptions C96_history_refuted.

Example C96_example :
  only_meta [(true, UText (lit "m")); (true, UText (lit "km / s"))]
  /\ exists u st, m_unit_call true (m_unit_calls (mkMap [] []) [(true, UText (lit "m")); (true, UText (lit "km / s"))])
       (UText (lit "meter")) = (Ok u, st).
Proof. split; [repeat constructor|]. do 2 eexists. vm_compute. reflexivity. Qed.
