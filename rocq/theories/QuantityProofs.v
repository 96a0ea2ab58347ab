(** Proofs about arithmetic on quantities, comparisons, changes of unit and
    the instances of units. *)

From Coq Require Import String Ascii List Bool ZArith QArith Qcanon Lia.
From Verif Require Import Py PyFacts SymbolicModel SymbolicSpec SymbolicTermProofs SymbolicReduceProofs SymbolicChainProofs SymbolicExprProofs
  IterablesModel AliasedModel MetricTables MetricModel MetricSpec MetricProofs MetadataModel MeasurableModel MeasurableSpec.
Import SymbolicSpec ListNotations.
Open Scope list_scope.
Open Scope nat_scope.
Open Scope py_scope.

(** * Values of expressions *)

Lemma value_monomial rho xs ys : sizing rho -> integral xs -> integral ys -> same_monomial xs ys ->
  value rho xs = value rho ys.
Proof.
  intros [H1 H0] Ix Iy S. rewrite !value_value_in.
  assert (forall z w, exists k, (Qc_of_Z z + Qc_of_Z w)%Qc = Qc_of_Z k) as HP.
  { intros z w. exists (z + w)%Z. now rewrite Qc_of_Z_add. }
  apply (value_same Qcmult 1%Qc Qcmult_assoc Qcmult_comm Qcmult_1_l (fun c => c)
           (fun b p => Qc_zpow (rho b) (Qc_num p)) (fun p => exists z, p = Qc_of_Z z)); auto.
  - exists 0%Z. reflexivity.
  - intros p q [z ->] [w ->]. apply HP.
  - intros b p q [z ->] [w ->]. rewrite <- Qc_of_Z_add, !Qc_num_of_Z. now apply Qc_zpow_add.
  - intro p. now rewrite H1, Qc_zpow_1_l.
Qed.

Lemma value_app rho xs ys : value rho (xs ++ ys) = (value rho xs * value rho ys)%Qc.
Proof.
  unfold value. induction xs as [|t xs IH]; cbn [map app prodQc fold_right].
  - unfold prodQc. simpl. ring.
  - unfold prodQc in *. cbn [fold_right]. rewrite IH. ring.
Qed.
Lemma value_power rho n xs : integral xs -> value rho (power n xs) = Qc_zpow (value rho xs) n.
Proof.
  intro I. induction I as [|t xs [z E] _ IH].
  - unfold value, prodQc. simpl. now rewrite Qc_zpow_1_l.
  - change (power n (t :: xs)) with (mkTerm (Qc_zpow (coef t) n) (base t) (expo t * Qc_of_Z n)%Qc :: power n xs).
    unfold value, prodQc in *. cbn [map fold_right coef base expo]. rewrite IH, !Qc_zpow_mul. f_equal. f_equal.
    rewrite E, Qc_num_of_Z, <- Qc_zpow_pow. f_equal.
    rewrite <- (Qc_num_of_Z (z * n)). f_equal. symmetry. apply Qc_of_Z_mul.
Qed.
Lemma value_inverse rho xs : integral xs -> value rho (inverse xs) = (/ value rho xs)%Qc.
Proof. intro I. rewrite inverse_power, value_power by auto. apply Qc_zpow_m1. Qed.
Lemma value_neq_0 rho xs : sizing rho -> Forall wf xs -> value rho xs <> 0%Qc.
Proof.
  intros [H1 H0] W. induction W as [|t xs [C [E B]] _ IH]; unfold value, prodQc in *; cbn [map fold_right].
  - discriminate.
  - intro H. apply Qcmult_integral in H as [H|H]; auto. apply Qcmult_integral in H as [H|H]; auto.
    apply (Qc_zpow_neq_0 (rho (base t)) (Qc_num (expo t))); auto.
Qed.
Lemma integral_app xs ys : integral xs -> integral ys -> integral (xs ++ ys).
Proof. intros. apply Forall_app. auto. Qed.
Lemma integral_power n xs : integral xs -> integral (power n xs).
Proof.
  induction 1 as [|t xs [z E] _ IH]; constructor; auto. cbn [expo]. exists (z * n)%Z. now rewrite E, Qc_of_Z_mul.
Qed.
Lemma integral_inverse xs : integral xs -> integral (inverse xs).
Proof. intro I. rewrite inverse_power. now apply integral_power. Qed.

Lemma plain_read F x : plain F x -> expression_of_terms F x = Ok x.
Proof.
  intros [C [W [P _]]]. apply terms_read; auto using same_monomial_refl. destruct C as [? [? [_ [N _]]]]. auto.
Qed.
Lemma plain_nonempty F x : plain F x -> x <> [].
Proof. intros [[? [? [_ [N _]]]] _]. auto. Qed.

(** * Arithmetic *)

Section Arithmetic.
Variable F : flops.
Variable named : str -> option named_unit.
Variable canonicals : list canonical_row.
Variable bases : list (str * str).
Variable qs : list (str * qdef).
Variable systems : list system.
Variable conns : connections.
Variable nodes : list str.
Variable data_pow : Qc -> Qc -> res Qc.

Notation unit_eqb := (unit_eqb F named canonicals bases qs systems conns nodes).
Notation decompose := (decompose F named canonicals bases qs systems).
Notation arithmetic := (arithmetic F named canonicals bases qs systems conns nodes data_pow).
Notation evaluate_unit := (evaluate_unit F named canonicals bases qs systems conns nodes).
Notation unit_mul := (unit_mul F named canonicals bases qs systems).
Notation unit_div := (unit_div F named canonicals bases qs systems).
Notation unit_pow := (unit_pow F named canonicals bases qs systems).
Notation terms q := (u_terms (q_unit q)).

Lemma supports_same op : op <> Pow -> supports class class_eqb subclass (operation_of op) [CSelf; CSelf] = true.
Proof. destruct op; intro H; try reflexivity. congruence. Qed.
Lemma supports_number op : supports class class_eqb subclass (operation_of op) [CSelf; CNumber] = true.
Proof. destruct op; reflexivity. Qed.

(** Sums and differences. *)
Lemma sum_ok op a b q : op = Add \/ op = Sub -> arithmetic op (OpQ a) b = Ok q ->
  exists b', b = OpQ b' /\ unit_eqb (terms a) (terms b') = Ok true
    /\ q_data q = (match op with Add => q_data a + q_data b' | _ => q_data a - q_data b' end)%Qc /\ q_unit q = q_unit a.
Proof.
  intros Hop H. unfold MeasurableModel.arithmetic in H.
  destruct b as [b'|n].
  2: { destruct Hop as [-> | ->]; cbn in H; discriminate. }
  exists b'. split; auto.
  assert (data_binary data_pow op (q_data a) (q_data b') = Ok (match op with Add => q_data a + q_data b' | _ => q_data a - q_data b' end)%Qc) as D
    by (destruct Hop as [-> | ->]; reflexivity).
  cbn [value_of] in H. rewrite D in H. cbn [bind] in H.
  unfold MeasurableModel.evaluate_unit in H. cbn [class_of unit_of has_unit andb] in H.
  rewrite supports_same in H by (destruct Hop; subst; discriminate). cbn [negb] in H.
  assert (unit_binary F named canonicals bases qs systems conns nodes op (VUnit (q_unit a)) (VUnit (q_unit b'))
          = if u_meta (q_unit a) then add_sub F named canonicals bases qs systems conns nodes (q_unit a) (q_unit b') else Err TypeError) as U
    by (destruct Hop; subst; reflexivity).
  rewrite U in H. clear U. destruct (u_meta (q_unit a)); [|discriminate].
  unfold add_sub in H.
  destruct (unit_eqb (terms a) (terms b')) as [e|e] eqn:E.
  2: { cbn [bind] in H. destruct e; discriminate. }
  cbn [bind] in H. destruct e; cbn [bind] in H.
  - injection H as <-. auto.
  - exfalso. destruct (u_meta (q_unit b')); [|discriminate].
    destruct (dimensions_of F named canonicals (terms a)) as [d1|[]]; cbn [bind] in H; try discriminate.
    destruct (dimensions_of F named canonicals (terms b')) as [d2|[]]; cbn [bind] in H; try discriminate.
    destruct (dims_eqb F d1 d2); discriminate.
Qed.

Lemma sum_equal op a b : op = Add \/ op = Sub -> u_meta (q_unit a) = true ->
  unit_eqb (terms a) (terms b) = Ok true ->
  arithmetic op (OpQ a) (OpQ b)
  = Ok (mkQuantity (match op with Add => q_data a + q_data b | _ => q_data a - q_data b end)%Qc (q_unit a)).
Proof.
  intros Hop M E. destruct Hop; subst; unfold MeasurableModel.arithmetic; cbn [data_binary value_of bind];
  unfold MeasurableModel.evaluate_unit; cbn [class_of unit_of has_unit andb]; rewrite supports_same by discriminate;
  cbn [negb unit_binary]; rewrite M; unfold add_sub; rewrite E; reflexivity.
Qed.

Lemma sum_unequal op a b d1 d2 : op = Add \/ op = Sub -> u_meta (q_unit a) = true -> u_meta (q_unit b) = true ->
  unit_eqb (terms a) (terms b) = Ok false ->
  dimensions_of F named canonicals (terms a) = Ok d1 -> dimensions_of F named canonicals (terms b) = Ok d2 ->
  arithmetic op (OpQ a) (OpQ b) = Err (if dims_eqb F d1 d2 then ScaleMismatch else DimensionMismatch).
Proof.
  intros Hop M M' E D1 D2. destruct Hop; subst; unfold MeasurableModel.arithmetic; cbn [data_binary value_of bind];
  unfold MeasurableModel.evaluate_unit; cbn [class_of unit_of has_unit andb]; rewrite supports_same by discriminate;
  cbn [negb unit_binary]; rewrite M; unfold add_sub; rewrite E; cbn [bind]; rewrite M', D1, D2; cbn [bind];
  destruct (dims_eqb F d1 d2); reflexivity.
Qed.

Lemma same_dimension_eqb x y : match x, y with Some e, Some f => expr_eqb F e f | None, None => true | _, _ => false end = true <-> same_dimension F x y.
Proof.
  split.
  - destruct x, y; intro H; try discriminate; now constructor.
  - now intros [].
Qed.
Lemma sum_unequal_kind op a b mks cgs mks' cgs' : op = Add \/ op = Sub -> u_meta (q_unit a) = true -> u_meta (q_unit b) = true ->
  unit_eqb (terms a) (terms b) = Ok false ->
  dimensions_of F named canonicals (terms a) = Ok (mks, cgs) -> dimensions_of F named canonicals (terms b) = Ok (mks', cgs') ->
  exists e, arithmetic op (OpQ a) (OpQ b) = Err e
    /\ (same_dimension F mks mks' /\ same_dimension F cgs cgs' -> e = ScaleMismatch)
    /\ (~ (same_dimension F mks mks' /\ same_dimension F cgs cgs') -> e = DimensionMismatch).
Proof.
  intros Hop M M' E D1 D2. rewrite (sum_unequal op a b _ _ Hop M M' E D1 D2). eexists. split; [reflexivity|].
  rewrite <- !same_dimension_eqb. unfold dims_eqb. cbn [fst snd]. rewrite <- andb_true_iff.
  destruct (_ && _); split; intro H; try reflexivity; try discriminate. now contradiction H.
Qed.
Lemma sum_base op a b : op = Add \/ op = Sub ->
  let sum := arithmetic op (OpQ a) (OpQ b) in
  (u_meta (q_unit a) = false -> sum = Err MetadataError)
  /\ (u_meta (q_unit a) = true -> u_meta (q_unit b) = false -> unit_eqb (terms a) (terms b) = Ok false -> sum = Err UnitError).
Proof.
  intros Hop sum. unfold sum. split; [intro M|intros M M' E]; destruct Hop; subst; unfold MeasurableModel.arithmetic; cbn [data_binary value_of bind];
  unfold MeasurableModel.evaluate_unit; cbn [class_of unit_of has_unit andb]; rewrite supports_same by discriminate;
  cbn [negb unit_binary]; rewrite M; try reflexivity; unfold add_sub; rewrite E; cbn [bind]; rewrite M'; reflexivity.
Qed.

Lemma sum_number op a n : op = Add \/ op = Sub ->
  arithmetic op (OpQ a) (OpN n) = Err TypeError /\ arithmetic op (OpN n) (OpQ a) = Err TypeError.
Proof. intros [-> | ->]; split; reflexivity. Qed.

(** Numbers keep the unit. *)
Lemma scale_ok a n : u_meta (q_unit a) = true ->
  arithmetic Mul (OpQ a) (OpN n) = Ok (mkQuantity (q_data a * n) (q_unit a))
  /\ arithmetic Mul (OpN n) (OpQ a) = Ok (mkQuantity (n * q_data a) (q_unit a))
  /\ (n <> 0%Qc -> arithmetic Div (OpQ a) (OpN n) = Ok (mkQuantity (q_data a / n) (q_unit a))).
Proof.
  intro M.
  assert (forall op n' m', evaluate_unit op n' m' = (if negb (supports class class_eqb subclass (operation_of op) [class_of n'; class_of m'])
    then Err OperandTypeError
    else match unit_binary F named canonicals bases qs systems conns nodes op (unit_of n') (unit_of m') with
       | Err TypeError => if has_unit n' && has_unit m' then Err MetadataError else Err TypeError
       | r => r
       end)) as U by reflexivity.
  split; [|split].
  - unfold MeasurableModel.arithmetic. rewrite U. cbn. now rewrite M.
  - unfold MeasurableModel.arithmetic. rewrite U. cbn. now rewrite M.
  - intro N. unfold MeasurableModel.arithmetic. rewrite U. cbn [data_binary value_of].
    destruct (Qc_eqb_spec n 0); [contradiction|]. cbn. now rewrite M.
Qed.

(** Divisions of numbers and powers by quantities. *)
Lemma no_quotient n a : q_data a <> 0%Qc -> arithmetic Div (OpN n) (OpQ a) = Err OperandTypeError.
Proof.
  intro N. unfold MeasurableModel.arithmetic. cbn [data_binary value_of].
  destruct (Qc_eqb_spec (q_data a) 0); [contradiction|]. reflexivity.
Qed.
Lemma no_power b a d : data_pow (value_of b) (q_data a) = Ok d -> arithmetic Pow b (OpQ a) = Err OperandTypeError.
Proof.
  intro N. unfold MeasurableModel.arithmetic. cbn [data_binary value_of]. rewrite N. destruct b; reflexivity.
Qed.

(** Products, quotients and powers. *)
Notation decomposes := (decomposes F decompose).

Lemma product_amount rho p q a b z : sizing rho -> decomposes rho p a -> decomposes rho q b ->
  expr_eqb F (terms p) (terms q) = false ->
  plain F z -> same_monomial z (a ++ b) ->
  exists r, arithmetic Mul (OpQ p) (OpQ q) = Ok r /\ amount rho r = (amount rho p * amount rho q)%Qc.
Proof.
  intros R [Da [Pa Va]] [Db [Pb Vb]] E Pz S. unfold MeasurableModel.arithmetic. cbn [data_binary value_of bind].
  unfold MeasurableModel.evaluate_unit. cbn [class_of unit_of]. rewrite supports_same by discriminate. cbn [negb unit_binary].
  assert (unit_mul (terms p) (terms q) = Ok z) as ->.
  { unfold MetricModel.unit_mul. rewrite E, Da, Db. cbn [bind]. rewrite (plain_read F a Pa), (plain_read F b Pb).
    cbn [bind].
    destruct Pa as [Ca [Wa [Ra Ia]]], Pb as [Cb [Wb [Rb Ib]]].
    rewrite (product_ok F a b z); try apply Pz; auto.
    - cbn [bind]. now apply plain_read.
    - destruct Ca as [? [? [_ [N _]]]]. intro K. apply app_eq_nil in K as [K _]. auto. }
  cbn [bind]. eexists. split; [reflexivity|]. unfold amount. cbn [q_data q_unit u_terms].
  rewrite (value_monomial rho z (a ++ b)); auto; try apply Pz.
  2: { apply integral_app; [apply Pa|apply Pb]. }
  rewrite value_app, Va, Vb. ring.
Qed.

Lemma quotient_amount rho p q a b z : sizing rho -> decomposes rho p a -> decomposes rho q b ->
  expr_eqb F (terms p) (terms q) = false -> q_data q <> 0%Qc ->
  plain F z -> same_monomial z (a ++ inverse b) ->
  exists r, arithmetic Div (OpQ p) (OpQ q) = Ok r /\ amount rho r = (amount rho p / amount rho q)%Qc.
Proof.
  intros R [Da [Pa Va]] [Db [Pb Vb]] E N0 Pz S. unfold MeasurableModel.arithmetic. cbn [data_binary value_of bind].
  destruct (Qc_eqb_spec (q_data q) 0); [contradiction|]. cbn [bind].
  unfold MeasurableModel.evaluate_unit. cbn [class_of unit_of]. rewrite supports_same by discriminate. cbn [negb unit_binary].
  assert (unit_div (terms p) (terms q) = Ok z) as ->.
  { unfold MetricModel.unit_div. rewrite E, Da, Db. cbn [bind]. rewrite (plain_read F a Pa), (plain_read F b Pb).
    cbn [bind].
    destruct Pa as [Ca [Wa [Ra Ia]]], Pb as [Cb [Wb [Rb Ib]]].
    rewrite (quotient_ok F a b z); try apply Pz; auto.
    - cbn [bind]. now apply plain_read.
    - destruct Ca as [? [? [_ [N _]]]]. intro K. apply app_eq_nil in K as [K _]. auto. }
  cbn [bind]. eexists. split; [reflexivity|]. unfold amount. cbn [q_data q_unit u_terms].
  rewrite (value_monomial rho z (a ++ inverse b)); auto; try apply Pz.
  2: { apply integral_app; [apply Pa|apply integral_inverse, Pb]. }
  rewrite value_app, value_inverse, Va, Vb by apply Pb.
  assert (value rho (terms q) <> 0%Qc) by (rewrite <- Vb; apply value_neq_0; [auto|apply Pb]).
  field. auto.
Qed.

Lemma power_amount rho p a n z : sizing rho -> decomposes rho p a -> n <> 0%Z ->
  data_pow (q_data p) (Qc_of_Z n) = Ok (Qc_zpow (q_data p) n) ->
  Forall (fun t => fpow F (coef t) (Qc_of_Z n) = Some (Qc_zpow (coef t) n)
                   /\ fl F (expo t) = expo t
                   /\ fl F (expo t * Qc_of_Z n)%Qc = (expo t * Qc_of_Z n)%Qc) a ->
  plain F z -> same_monomial z (power n a) ->
  exists r, arithmetic Pow (OpQ p) (OpN (Qc_of_Z n)) = Ok r /\ amount rho r = Qc_zpow (amount rho p) n.
Proof.
  intros R [Da [Pa Va]] Nn D E Pz S. unfold MeasurableModel.arithmetic. cbn [data_binary value_of bind]. rewrite D. cbn [bind].
  unfold MeasurableModel.evaluate_unit. cbn [class_of unit_of]. rewrite supports_number. cbn [negb unit_binary].
  assert (unit_pow (terms p) (Qc_of_Z n) = Ok z) as ->.
  { unfold MetricModel.unit_pow. rewrite Da. cbn [bind]. rewrite (plain_read F a Pa). cbn [bind].
    assert (N := plain_nonempty F a Pa). destruct Pa as [Ca [Wa [Ra Ia]]].
    rewrite (power_ok F a n z); try apply Pz; auto. cbn [bind]. now apply plain_read. }
  cbn [bind]. eexists. split; [reflexivity|]. unfold amount. cbn [q_data q_unit u_terms].
  rewrite (value_monomial rho z (power n a)); auto; try apply Pz.
  2: { apply integral_power, Pa. }
  rewrite value_power, Va, Qc_zpow_mul by apply Pa. reflexivity.
Qed.

(** Equal units. *)
Lemma square_amount rho p q z : sizing rho -> u_terms (q_unit q) = terms p -> plain F (terms p) ->
  Forall (fun t => fpow F (coef t) (Qc_of_Z 2) = Some (Qc_zpow (coef t) 2)
                   /\ fl F (expo t) = expo t
                   /\ fl F (expo t * Qc_of_Z 2)%Qc = (expo t * Qc_of_Z 2)%Qc) (terms p) ->
  plain F z -> same_monomial z (power 2 (terms p)) ->
  exists r, arithmetic Mul (OpQ p) (OpQ q) = Ok r /\ amount rho r = (amount rho p * amount rho q)%Qc.
Proof.
  intros R T Pp E Pz S. unfold MeasurableModel.arithmetic. cbn [data_binary value_of bind].
  unfold MeasurableModel.evaluate_unit. cbn [class_of unit_of]. rewrite supports_same by discriminate. cbn [negb unit_binary].
  assert (unit_mul (terms p) (terms q) = Ok z) as ->.
  { unfold MetricModel.unit_mul. rewrite T, eqb_refl.
    assert (N := plain_nonempty F _ Pp). destruct Pp as [Ca [Wa [Ra Ia]]].
    apply power_ok; auto; try apply Pz. discriminate. }
  cbn [bind]. eexists. split; [reflexivity|]. unfold amount. cbn [q_data q_unit u_terms]. rewrite T.
  rewrite (value_monomial rho z (power 2 (terms p))); auto; try apply Pz.
  2: { apply integral_power, Pp. }
  rewrite value_power by apply Pp. change 2%Z with (1 + 1)%Z.
  rewrite Qc_zpow_add, Qc_zpow_1_r. 2: { apply value_neq_0; [auto|apply Pp]. }
  ring.
Qed.
Lemma same_quotient p q one : u_terms (q_unit q) = terms p -> q_data q <> 0%Qc ->
  expression_of_str F false (lit "1") = Ok one ->
  arithmetic Div (OpQ p) (OpQ q) = Ok (mkQuantity (q_data p / q_data q) (mkUnit (u_meta (q_unit p)) one)).
Proof.
  intros T N O. unfold MeasurableModel.arithmetic. cbn [data_binary value_of].
  destruct (Qc_eqb_spec (q_data q) 0); [contradiction|]. cbn [bind].
  unfold MeasurableModel.evaluate_unit. cbn [class_of unit_of]. rewrite supports_same by discriminate. cbn [negb unit_binary].
  unfold MetricModel.unit_div. rewrite T, eqb_refl, O. reflexivity.
Qed.

(** * In place *)

Notation inplace := (inplace F named canonicals bases qs systems conns nodes data_pow).

Lemma inplace_always_raises op self other : snd (inplace op self other) <> None.
Proof.
  unfold MeasurableModel.inplace. destruct (data_binary data_pow op (q_data self) (value_of other)); [|discriminate].
  destruct (evaluate_unit op (OpQ self) other); discriminate.
Qed.
Lemma inplace_after op self other q : arithmetic op (OpQ self) other = Ok q ->
  inplace op self other = (mkQuantity (q_data q) (q_unit self), Some ValueError).
Proof.
  unfold MeasurableModel.arithmetic, MeasurableModel.inplace. cbn [value_of].
  destruct (data_binary data_pow op (q_data self) (value_of other)); [|discriminate]. cbn [bind].
  destruct (evaluate_unit op (OpQ self) other); [|discriminate]. cbn [bind]. intro H. injection H as <-. reflexivity.
Qed.
Lemma inplace_failed op self other e : arithmetic op (OpQ self) other = Err e ->
  inplace op self other = (self, Some e).
Proof.
  unfold MeasurableModel.arithmetic, MeasurableModel.inplace. cbn [value_of].
  destruct (data_binary data_pow op (q_data self) (value_of other)); cbn [bind]; [|intro H; injection H as <-; auto].
  destruct (evaluate_unit op (OpQ self) other); [discriminate|]. cbn [bind]. intro H. injection H as <-. reflexivity.
Qed.

(** * Comparisons *)

Notation compare := (compare F named canonicals bases qs systems conns nodes).
Notation quantity_eq := (quantity_eq F named canonicals bases qs systems conns nodes).

Lemma unit_eqb_refl x : unit_eqb x x = Ok true.
Proof. unfold MetricModel.unit_eqb. now rewrite eqb_refl. Qed.
Lemma compare_quantities cmp a b : compare cmp a (OpQ b) =
  do e <- unit_eqb (terms b) (terms a); if e then Ok (cmp (q_data a) (q_data b)) else Err ValueError.
Proof.
  unfold MeasurableModel.compare. rewrite unit_eqb_refl. cbn [bind].
  destruct (unit_eqb (terms b) (terms a)) as [e|e]; reflexivity.
Qed.
Lemma compare_number cmp a n : compare cmp a (OpN n) = Ok (cmp (q_data a) n).
Proof. unfold MeasurableModel.compare. now rewrite unit_eqb_refl. Qed.
Lemma quantity_eq_true a b : quantity_eq a (OpQ b) = Ok true <->
  q_data a = q_data b /\ unit_eqb (terms a) (terms b) = Ok true.
Proof.
  unfold MeasurableModel.quantity_eq. destruct (Qc_eqb_spec (q_data b) (q_data a)) as [E|E]; cbn [negb].
  - split; [auto|]. intros [_ H]. exact H.
  - split; [discriminate|]. intros [H _]. congruence.
Qed.

(** * Changing the unit *)

Notation change_unit := (change_unit F named canonicals bases qs systems conns nodes).
Notation convert := (convert F named canonicals bases qs conns nodes).

Lemma change_cases q new q' : change_unit q new = Ok q' ->
  (unit_eqb (u_terms new) (terms q) = Ok true /\ q' = q)
  \/ exists f, unit_eqb (u_terms new) (terms q) = Ok false
       /\ convert (expr_format F (terms q)) (expr_format F (u_terms new)) = Ok f
       /\ q' = mkQuantity (q_data q * f) new.
Proof.
  unfold MeasurableModel.change_unit. destruct (unit_eqb (u_terms new) (terms q)) as [[]|]; cbn [bind]; try discriminate.
  - intro H. injection H as <-. auto.
  - destruct (unit_or F named canonicals bases qs systems conns nodes (terms q) (u_terms new)) as [[]|]; cbn [bind negb]; try discriminate.
    destruct (convert (expr_format F (terms q)) (expr_format F (u_terms new))) as [f|]; cbn [bind]; try discriminate.
    intro H. injection H as <-. right. exists f. auto.
Qed.
Lemma change_same q new : unit_eqb (u_terms new) (terms q) = Ok true -> change_unit q new = Ok q.
Proof. intro E. unfold MeasurableModel.change_unit. rewrite E. reflexivity. Qed.
Lemma change_refuses q new : unit_eqb (u_terms new) (terms q) = Ok false ->
  unit_or F named canonicals bases qs systems conns nodes (terms q) (u_terms new) = Ok false -> change_unit q new = Err ValueError.
Proof. intros E R. unfold MeasurableModel.change_unit. rewrite E. cbn [bind]. rewrite R. reflexivity. Qed.
End Arithmetic.

(** The conversion of one named unit to another. *)
Lemma change_amount F named canonicals bases qs systems l nodes size q new q' f checked :
  sizes named (connect l) size ->
  convert_strings named (connect l) nodes (search_fuel nodes) [] (expr_format F (u_terms (q_unit q))) (expr_format F (u_terms new)) = (Ok (Some f), checked) ->
  change_unit F named canonicals bases qs systems (connect l) nodes q new = Ok q' ->
  unit_eqb F named canonicals bases qs systems (connect l) nodes (u_terms new) (u_terms (q_unit q)) = Ok false ->
  q_unit q' = new /\ (q_data q' * size (expr_format F (u_terms new)) = q_data q * size (expr_format F (u_terms (q_unit q))))%Qc.
Proof.
  intros Z C H E. apply change_cases in H as [[E' _]|[g [_ [G ->]]]]; [congruence|].
  unfold convert in G. rewrite C in G. cbn [fst bind] in G. injection G as <-.
  split; auto. apply conv_derives in C as [C _]. apply (derives_size named (connect l) size) in C; auto.
  cbn [q_data]. rewrite C. ring.
Qed.

Lemma Qcmult_integral_r (a b c : Qc) : c <> 0%Qc -> (a * c = b * c)%Qc -> a = b.
Proof.
  intros N H. assert ((a - b) * c = 0)%Qc as E by (transitivity (a * c - b * c)%Qc; [ring|rewrite H; ring]).
  apply Qcmult_integral in E as [E|E]; [|contradiction]. rewrite <- (Qcplus_0_r b), <- E. ring.
Qed.
Lemma change_back F named canonicals bases qs systems l nodes size q new q' q'' f g c c' :
  let old := q_unit q in
  let name u := expr_format F (u_terms u) in
  let same u v := unit_eqb F named canonicals bases qs systems (connect l) nodes (u_terms u) (u_terms v) in
  sizes named (connect l) size ->
  convert_strings named (connect l) nodes (search_fuel nodes) [] (name old) (name new) = (Ok (Some f), c) ->
  convert_strings named (connect l) nodes (search_fuel nodes) [] (name new) (name old) = (Ok (Some g), c') ->
  same new old = Ok false -> same old new = Ok false ->
  change_unit F named canonicals bases qs systems (connect l) nodes q new = Ok q' ->
  change_unit F named canonicals bases qs systems (connect l) nodes q' old = Ok q'' ->
  q'' = q.
Proof.
  intros old name same Z C C' E E' H H'.
  destruct (change_amount F named canonicals bases qs systems l nodes size q new q' f c) as [U A]; auto.
  rewrite <- U in C', E'.
  destruct (change_amount F named canonicals bases qs systems l nodes size q' old q'' g c') as [U' A']; auto.
  rewrite U in A'. assert (size (name old) <> 0%Qc) as N by apply Z. fold (name new) in A, A'. fold old in A. fold (name old) in A, A'.
  rewrite A in A'. destruct q'' as [d'' u''], q as [d u]. cbn [q_data q_unit] in *. subst u''. f_equal.
  now apply (Qcmult_integral_r _ _ _ N).
Qed.
Lemma change_chain F named canonicals bases qs systems l nodes size q u v q1 q2 q' f g h c c' c'' :
  let name u := expr_format F (u_terms u) in
  let same u v := unit_eqb F named canonicals bases qs systems (connect l) nodes (u_terms u) (u_terms v) in
  let find u v := convert_strings named (connect l) nodes (search_fuel nodes) [] (name u) (name v) in
  sizes named (connect l) size ->
  find (q_unit q) u = (Ok (Some f), c) -> find u v = (Ok (Some g), c') -> find (q_unit q) v = (Ok (Some h), c'') ->
  same u (q_unit q) = Ok false -> same v u = Ok false -> same v (q_unit q) = Ok false ->
  change_unit F named canonicals bases qs systems (connect l) nodes q u = Ok q1 ->
  change_unit F named canonicals bases qs systems (connect l) nodes q1 v = Ok q2 ->
  change_unit F named canonicals bases qs systems (connect l) nodes q v = Ok q' ->
  q2 = q'.
Proof.
  intros name same find Z C1 C2 C3 E1 E2 E3 H1 H2 H3.
  destruct (change_amount F named canonicals bases qs systems l nodes size q u q1 f c) as [U1 A1]; auto.
  unfold find in C2. rewrite <- U1 in C2, E2.
  destruct (change_amount F named canonicals bases qs systems l nodes size q1 v q2 g c') as [U2 A2]; auto.
  destruct (change_amount F named canonicals bases qs systems l nodes size q v q' h c'') as [U3 A3]; auto.
  rewrite U1, A1, <- A3 in A2. destruct q2 as [d2 u2], q' as [d' u']. cbn [q_data q_unit] in *. subst u2 u'. f_equal.
  assert (size (expr_format F (u_terms v)) <> 0%Qc) as N by apply Z.
  now apply (Qcmult_integral_r _ _ _ N).
Qed.

(** * The instances of units *)

Section Instances.
Variable V : Type.
Variable P : V -> Prop.
Variable mkset : list str -> list str.
Definition every (m : @amap V) : Prop := Forall P (map snd (as_dict m)).

Lemma every_dset d g v : Forall P (map snd d) -> P v -> Forall P (map snd (dset (V := V) d g v)).
Proof.
  intros H Pv. induction d as [|[h w] d IH]; cbn [dset map snd]; [repeat constructor; auto|].
  inversion H; subst. destruct (gmatch g h); cbn [map snd]; constructor; auto.
Qed.
Lemma every_ddel d g : Forall P (map snd d) -> Forall P (map snd (ddel (V := V) d g)).
Proof.
  intros H. induction d as [|[h w] d IH]; cbn [ddel map snd]; auto.
  inversion H; subst. destruct (gmatch g h); cbn [map snd]; auto.
Qed.
Lemma every_dget d g v : Forall P (map snd d) -> dget (V := V) d g = Some v -> P v.
Proof.
  intros H. induction d as [|[h w] d IH]; cbn [dget map snd]; [discriminate|].
  inversion H; subst. destruct (gmatch g h); auto. intro E. injection E as <-. auto.
Qed.
Lemma every_getitem m a v : every m -> getitem m a = Ok v -> P v.
Proof.
  intros H. unfold getitem. destruct (truthy (resolve_key m a)) as [g|]; [|discriminate].
  destruct (dget (as_dict m) g) eqn:E; [|discriminate]. intro K. injection K as <-. now apply every_dget in E.
Qed.
Lemma every_setitem_many m l v : every m -> P v -> every (setitem_many mkset m l v).
Proof. intros. now apply every_dset. Qed.
Lemma every_delitem m a m' : every m -> delitem m a = Ok m' -> every m'.
Proof.
  intros H. unfold delitem. destruct (truthy (resolve_key m a)); [|discriminate].
  intro K. injection K as <-. now apply every_ddel.
Qed.
Lemma every_alias m a l : every m -> every (snd (alias_set mkset m a l)).
Proof.
  unfold alias_set. revert m. induction l as [|b l IH]; intros m H; cbn [alias_loop]; auto.
  destruct (str_eqb b a); auto. unfold alias_step.
  destruct (gin b (flat_keys m)); [destruct (resolve_key m a); auto|].
  destruct (resolve_key m a) as [g|]; auto.
  destruct (getitem m a) as [v|] eqn:G; auto.
  assert (every (mkMap (dset (as_dict m) (group_or mkset g (mkset [b])) v) (flat_dict m))) as K
    by (apply every_dset; auto; eapply every_getitem; eauto).
  destruct (delitem _ a) as [m2|] eqn:D; auto. apply IH. now apply every_delitem in D.
Qed.
End Instances.

Definition only_meta (l : list (bool * unit_arg)) : Prop :=
  Forall (fun c => fst c = true /\ match snd c with UUnit u => u_meta u = true | _ => True end) l.

Lemma unit_call_meta F named st a u st' : every unit_obj (fun u => u_meta u = true) st ->
  match a with UUnit u => u_meta u = true | _ => True end ->
  unit_call F named true st a = (u, st') ->
  every unit_obj (fun u => u_meta u = true) st' /\ forall v, u = Ok v -> u_meta v = true.
Proof.
  intros H A E. unfold unit_call in E. destruct a as [s|w].
  - destruct (getitem st s) as [v|] eqn:G.
    { injection E as <- <-. split; auto. intros v' K. injection K as <-. exact (every_getitem unit_obj (fun u => u_meta u = true) st s v H G). }
    destruct (expression_of_str F false s) as [x|]; [|injection E as <- <-; split; auto; discriminate].
    unfold unit_create in E. destruct (getitem st (expr_format F x)) as [v|] eqn:G'.
    + assert (K := every_alias unit_obj (fun u => u_meta u = true) (nodup str_eq_dec) st (expr_format F x) [s] H).
      destruct (alias_set (nodup str_eq_dec) st (expr_format F x) [s]) as [[t|e2] st2]; injection E as <- <-; split; auto.
      * intros v' K'. injection K' as <-. exact (every_getitem unit_obj (fun u => u_meta u = true) st _ v H G').
      * discriminate.
    + injection E as <- <-. split; [apply every_setitem_many; auto|]. intros v K. injection K as <-. reflexivity.
  - rewrite A in E. cbn [negb orb] in E. injection E as <- <-. split; auto. intros v K. injection K as <-. auto.
Qed.
Lemma unit_calls_meta F named l : only_meta l -> every unit_obj (fun u => u_meta u = true) (unit_calls F named (mkMap [] []) l).
Proof.
  assert (every unit_obj (fun u => u_meta u = true) (mkMap [] [])) as E by constructor. revert E.
  generalize (@mkMap unit_obj [] []). induction l as [|[m a] l IH]; intros st E H; cbn [unit_calls]; auto.
  inversion H as [|? ? [M A] H']; subst. cbn [fst snd] in *. subst m. apply IH; auto.
  destruct (unit_call F named true st a) as [u st'] eqn:C. cbn [snd]. now apply (unit_call_meta F named st a u st').
Qed.

Lemma history_meta F named history s u st :
  only_meta history ->
  unit_call F named true (unit_calls F named (mkMap [] []) history) (UText s) = (Ok u, st) ->
  u_meta u = true.
Proof.
  intros H C. destruct (unit_call_meta F named _ (UText s) (Ok u) st (unit_calls_meta F named history H) I C) as [_ K]. auto.
Qed.

Lemma int_pow_Z x k : int_pow x (Qc_of_Z k) = if Qc_eqb x 0 && (k <? 0)%Z then Err ZeroDivisionError else Ok (Qc_zpow x k).
Proof.
  unfold int_pow. rewrite Qc_num_of_Z. destruct (Qc_eqb x 0 && (k <? 0)%Z); [reflexivity|].
  assert (Qc_den (Qc_of_Z k) = 1%positive) as -> by apply Qc_den_of_Z. reflexivity.
Qed.
Lemma power_data a k q : m_arithmetic Pow (OpQ a) (OpN (Qc_of_Z k)) = Ok q ->
  q_data q = Qc_zpow (q_data a) k /\ (q_data a = 0%Qc -> (0 <= k)%Z).
Proof.
  unfold m_arithmetic, arithmetic. cbn [data_binary value_of]. rewrite int_pow_Z.
  destruct (Qc_eqb_spec (q_data a) 0) as [Z|N]; destruct (Z.ltb_spec k 0); cbn [andb bind]; try discriminate;
    (destruct (evaluate_unit _ _ _ _ _ _ _ _ _ _ _) as [u|]; [|discriminate]); intro H'; injection H' as <-; cbn [q_data]; split; auto; try congruence; lia.
Qed.
Lemma power_zero a k : q_data a = 0%Qc -> (k < 0)%Z -> m_arithmetic Pow (OpQ a) (OpN (Qc_of_Z k)) = Err ZeroDivisionError.
Proof.
  intros Z H. unfold m_arithmetic, arithmetic. cbn [data_binary value_of]. rewrite int_pow_Z, Z. now apply Z.ltb_lt in H as ->.
Qed.
