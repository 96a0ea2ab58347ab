(** Properties of conversions, quotients of units, collections of dimensions
    and reductions. *)

From Coq Require Import String Ascii List Bool ZArith QArith Qcanon Lia.
From Verif Require Import MeasurableModel.
From Verif Require Import Py PyFacts PyDict SymbolicModel SymbolicSpec ParametersModel ParametersSpec IterablesModel MetricTables MetricModel MetricSpec
  SymbolicLawProofs MetricProofs MetricTableProofs MetricProps SystemModel SystemSpec SystemProofs ConverterModel ConverterSpec ConverterProofs UnitQuantityProofs.
Import ListNotations.
Open Scope list_scope.
Open Scope nat_scope.

(** ** C278 A conversion is computed once and means the same in every history *)

(** Whatever was converted before, [Conversion(u0, u1)] has the factor that
    the search finds, or fails as the search fails. *)
Theorem C278_factor : forall F named canonical bases qs l nodes units_of history u0 u1,
  let search := convert F named canonical bases qs (connect l) nodes in
  let w := after search units_of history in
  match search u0 u1 with
  | Ok f => exists i c, fst (conversion_call search w u0 u1) = Ok i
      /\ nth_error (w_objects (snd (conversion_call search w u0 u1))) i = Some c
      /\ c_from c = u0 /\ c_to c = u1 /\ to_float c = Ok f /\ truth c = true
  | Err e => fst (conversion_call search w u0 u1) = Err e
  end.
Proof.
  intros F named canonical bases qs l nodes units_of history u0 u1 search w.
  assert (forall u v f, search u v = Ok f -> f <> 0%Qc) as N by (intros u v f; apply convert_nonzero).
  destruct (call_ok search units_of N w u0 u1) as (_ & _ & C); [now apply after_sound|].
  destruct (search u0 u1) as [f|e] eqn:E; [|apply C]. destruct C as (i & I & O). exists i, (mkConversion u0 u1 f).
  split; [exact I|]. split; [exact O|]. unfold to_float, truth. cbn. rewrite (Qc_eqb_neq _ _ (N _ _ _ E)). auto.
Qed.
Print Assumptions C278_factor.

(** Once created, the object is used again, and it does not change. *)
Theorem C278_same_object : forall F named canonical bases qs l nodes units_of history later u0 u1 i,
  let search := convert F named canonical bases qs (connect l) nodes in
  let w := after search units_of history in
  fst (conversion_call search w u0 u1) = Ok i ->
  let w' := after search units_of (history ++ MakeConversion u0 u1 :: later) in
  fst (conversion_call search w' u0 u1) = Ok i
  /\ nth_error (w_objects w') i = nth_error (w_objects (snd (conversion_call search w u0 u1))) i.
Proof.
  intros F named canonical bases qs l nodes units_of history later u0 u1 i search w I w'.
  assert (forall u v f, search u v = Ok f -> f <> 0%Qc) as N by (intros u v f; apply convert_nonzero).
  pose proof (after_sound search units_of N history) as S. fold w in S.
  destruct (call_ok search units_of N w u0 u1 S) as (S' & _ & C).
  assert (exists f, nth_error (w_objects (snd (conversion_call search w u0 u1))) i = Some (mkConversion u0 u1 f)) as [f O].
  { destruct (search u0 u1) as [f|e]; [|destruct C as [C _]; congruence]. destruct C as (j & J & O). exists f. congruence. }
  assert (w' = fold_left (step search units_of) later (snd (conversion_call search w u0 u1))) as W.
  { unfold w'. rewrite after_app. reflexivity. }
  destruct (steps_ok search units_of N later _ S') as [S'' X]. rewrite <- W in S'', X.
  pose proof (e_objects _ _ X i _ O) as O'. rewrite (call_known search units_of N w' u0 u1 i f S'' O'). split; [reflexivity|]. now rewrite O.
Qed.
Print Assumptions C278_same_object.

(** The inverse of a conversion converts back, and its inverse is the first. *)
Theorem C278_inverse : forall F named canonical bases qs l nodes units_of history i c,
  let search := convert F named canonical bases qs (connect l) nodes in
  let w := after search units_of history in
  nth_error (w_objects w) i = Some c ->
  match search (c_to c) (c_from c) with
  | Ok g => exists j d, fst (inverse search w i) = Ok j /\ nth_error (w_objects (snd (inverse search w i))) j = Some d
      /\ c_from d = c_to c /\ c_to d = c_from c /\ to_float d = Ok g
      /\ fst (inverse search (snd (inverse search w i)) j) = Ok i
  | Err e => fst (inverse search w i) = Err e
  end.
Proof.
  intros F named canonical bases qs l nodes units_of history i c search w O.
  assert (forall u v f, search u v = Ok f -> f <> 0%Qc) as N by (intros u v f; apply convert_nonzero).
  pose proof (after_sound search units_of N history) as S. fold w in S.
  destruct (call_ok search units_of N w (c_to c) (c_from c) S) as (S' & X & C). assert (inverse search w i = conversion_call search w (c_to c) (c_from c)) as V by (unfold inverse; now rewrite O). rewrite V.
  destruct (search (c_to c) (c_from c)) as [g|e] eqn:E; [|apply C]. destruct C as (j & J & P).
  exists j, (mkConversion (c_to c) (c_from c) g). split; [exact J|]. split; [exact P|].
  split; [reflexivity|]. split; [reflexivity|]. split.
  - unfold to_float, truth. cbn. now rewrite (Qc_eqb_neq _ _ (N _ _ _ E)).
  - unfold inverse. rewrite P. cbn [c_to c_from]. destruct c as [a b f]. cbn [c_to c_from] in *.
    rewrite (call_known search units_of N _ a b i f S'); [reflexivity|]. exact (e_objects _ _ X i _ O).
Qed.
Print Assumptions C278_inverse.

(** The function: the factor, or nothing or an error if there is no
    conversion. *)
Theorem C278_function : forall F named canonical bases qs l nodes units_of history strict u0 u1,
  let search := convert F named canonical bases qs (connect l) nodes in
  let w := after search units_of history in
  (forall f, search u0 u1 = Ok f -> fst (conversion_function search w strict u0 u1) = Ok (Some f))
  /\ (search u0 u1 = Err UnitConversionError ->
      fst (conversion_function search w strict u0 u1) = if strict then Err UnitConversionError else Ok None)
  /\ (forall e, e <> UnitConversionError -> search u0 u1 = Err e -> fst (conversion_function search w strict u0 u1) = Err e).
Proof.
  intros F named canonical bases qs l nodes units_of history strict u0 u1 search w.
  assert (forall u v f, search u v = Ok f -> f <> 0%Qc) as N by (intros u v f; apply convert_nonzero).
  destruct (function_ok search units_of N w strict u0 u1) as (_ & _ & ->); [now apply after_sound|].
  split; [|split].
  - now intros f ->.
  - now intros ->.
  - intros e K ->. destruct e; congruence.
Qed.
Print Assumptions C278_function.

Example C278_example : m_convert (lit "J") (lit "erg") = Ok (Q2Qc 10000000)
  /\ m_convert (lit "m") (lit "s") = Err UnitConversionError.
Proof. split; vm_compute; reflexivity. Qed.

(** ** C279 Converting the unit of a quantity *)

(** [Quantity(key).convert(a).to(b)], in every history. *)
Theorem C279_converts : forall limit history later key q a b u v, 10 <= limit -> spells key q ->
  (exists s t, unit_text s q t) -> stands_for q a u -> stands_for q b v ->
  let units := m_units limit in
  let w := after m_convert units history in
  exists i, fst (quantity_convert units w key a) = Ok i
    /\ fst (converter_to m_convert (snd (quantity_convert units w key a)) i b) = m_convert u v
    /\ let w' := after m_convert units (history ++ ConvertQuantity key a :: later) in
       fst (quantity_convert units w' key a) = Ok i /\ fst (converter_to m_convert w' i b) = m_convert u v.
Proof.
  intros limit history later key q a b u v L K (s & t & us & ds & R & _) A B units w.
  assert (lower key = q) as E by (apply lower_word; [now apply (row_name q us ds)|exact K]).
  assert (units q = Ok us) as U by (apply (row_prop q us ds limit L R)).
  pose proof (after_sound m_convert units m_nonzero history) as S. fold w in S.
  unfold quantity_convert. rewrite E, U.
  destruct (made_ok m_convert units w a q S) as (S' & X & C). rewrite U in C. destruct C as (i & I & M & D). exists i.
  rewrite (substituted_ok q us ds a u R A) in M. split; [exact I|].
  assert (forall w', sound m_convert units w' -> nth_error (w_made w') i = Some (mkConverter u q us) ->
            fst (converter_to m_convert w' i b) = m_convert u v) as T.
  { intros w' S1 M1. rewrite (to_ok m_convert units m_nonzero w' i _ b S1 M1 (convert_self _ _ _ _ _ _ _)). cbn [v_unit v_subs].
    now rewrite (substituted_ok q us ds b v R B). }
  split; [now apply T|]. set (w' := after m_convert units (history ++ ConvertQuantity key a :: later)).
  assert (w' = fold_left (step m_convert units) later (snd (converter_call units w a q))) as W.
  { unfold w'. rewrite after_app. cbn [fold_left step]. unfold quantity_convert. rewrite E, U. reflexivity. }
  destruct (steps_ok m_convert units m_nonzero later _ S') as [S'' Y]. rewrite <- W in S'', Y. split.
  - unfold converter_call. now rewrite (e_converters _ _ Y _ _ D).
  - apply T; [exact S''|]. exact (e_made _ _ Y _ _ M).
Qed.
Print Assumptions C279_converts.

(** The quantity is not checked: a length is converted as an energy. *)
Theorem C279_quantity_refuted : ~ forall key q a b i f w, spells key q ->
  (exists s t, unit_text s q t) ->
  quantity_convert (m_units 10) start key a = (Ok i, w) -> fst (converter_to m_convert w i b) = Ok f ->
  (exists s, a = named_as s) \/ measures a q.
Proof.
  intro H. destruct (quantity_convert (m_units 10) start (lit "energy") (lit "m")) as [r w] eqn:E.
  assert (r = Ok 0) as -> by (change r with (fst (r, w)); rewrite <- E; vm_compute; reflexivity).
  destruct (H (lit "energy") (lit "energy") (lit "m") (lit "cm") 0 (Q2Qc 100) w) as [[s K]|(n & N & Q)].
  - apply spells_self.
  - exists Mks, (lit "J"). eexists _, _. split; vm_compute; reflexivity.
  - exact E.
  - change w with (snd (@Ok nat 0, w)). rewrite <- E. vm_compute. reflexivity.
  - destruct s; discriminate.
  - vm_compute in N. injection N as <-. vm_compute in Q. discriminate.
Qed.
Print Assumptions C279_quantity_refuted.

(** The names of systems are found in small letters only. *)
Theorem C279_case_refuted : exists name w i, spells name (named_as Cgs) /\ new_system name = Ok Cgs
  /\ quantity_convert (m_units 10) start (lit "energy") (lit "J") = (Ok i, w)
  /\ fst (converter_to m_convert w i (named_as Cgs)) = Ok (Q2Qc 10000000)
  /\ fst (converter_to m_convert w i name) = Err UnitParsingError.
Proof.
  destruct (quantity_convert (m_units 10) start (lit "energy") (lit "J")) as [r w] eqn:E.
  assert (r = Ok 0) as -> by (change r with (fst (r, w)); rewrite <- E; vm_compute; reflexivity).
  exists (lit "CGS"), w, 0. split.
  - repeat (constructor; [right; match goal with |- exists n, _ /\ ?c = _ /\ _ =>
      let k := eval vm_compute in (nat_of_ascii c - 65) in exists k; split; [lia|split; reflexivity] end|]). constructor.
  - split; [reflexivity|]. split; [reflexivity|]. split; change w with (snd (@Ok nat 0, w)); rewrite <- E; vm_compute; reflexivity.
Qed.
Print Assumptions C279_case_refuted.

Example C279_example : spells (lit "energy") (lit "energy") /\ stands_for (lit "energy") (lit "mks") (lit "J")
  /\ stands_for (lit "energy") (lit "eV") (lit "eV") /\ exists f, m_convert (lit "J") (lit "eV") = Ok f.
Proof.
  split; [apply spells_self|]. split; [left; exists Mks; split; [reflexivity|]; eexists _, _; split; vm_compute; reflexivity|].
  split; [right; split; [intros [] K; vm_compute in K; discriminate K|reflexivity]|]. eexists. vm_compute. reflexivity.
Qed.

(** ** C280 The quotient of two units *)

(** An amount in [v] is the quotient [u // v] times as much in [u]. *)
Theorem C280_quotient : forall size units_of history x y u v, sizes identified the_connections size ->
  expr_format F64 x = u -> expr_format F64 y = v -> comparable v u ->
  let w := after m_convert units_of history in
  exists f, size v = (f * size u)%Qc
    /\ fst (unit_floordiv m_convert F64 w x (DUnit y)) = Ok f
    /\ fst (unit_floordiv m_convert F64 w x (DText v)) = Ok f
    /\ fst (unit_rfloordiv m_convert F64 w (DUnit x) y) = Ok f
    /\ fst (unit_rfloordiv m_convert F64 w (DText u) y) = Ok f.
Proof.
  intros size units_of history x y u v Z X Y C w. destruct (comparable_size size v u Z C) as (f & E & Q). exists f. split; [exact Q|].
  destruct (function_ok m_convert units_of m_nonzero w true v u) as (_ & _ & K); [apply after_sound; apply m_nonzero|].
  rewrite E in K. unfold unit_floordiv, unit_rfloordiv, divisor_text. rewrite X, Y.
  destruct (conversion_function m_convert w true v u) as [r w']. cbn [fst] in K. subst r. auto.
Qed.
Print Assumptions C280_quotient.

Theorem C280_laws : forall units_of history x y z f g h,
  comparable (expr_format F64 y) (expr_format F64 x) -> comparable (expr_format F64 x) (expr_format F64 y) ->
  comparable (expr_format F64 z) (expr_format F64 y) -> comparable (expr_format F64 z) (expr_format F64 x) ->
  let w := after m_convert units_of history in
  fst (unit_floordiv m_convert F64 w x (DUnit y)) = Ok f ->
  fst (unit_floordiv m_convert F64 w y (DUnit z)) = Ok g ->
  fst (unit_floordiv m_convert F64 w x (DUnit z)) = Ok h ->
  fst (unit_floordiv m_convert F64 w x (DUnit x)) = Ok 1%Qc
  /\ (exists k, fst (unit_floordiv m_convert F64 w y (DUnit x)) = Ok k /\ (f * k = 1)%Qc)
  /\ (f * g)%Qc = h.
Proof.
  intros units_of history x y z f g h YX XY ZY ZX w Ef Eg Eh. destruct C233_module_table_consistent as [size Z].
  assert (forall a, comparable a a -> True) as _ by auto.
  destruct (C280_quotient size units_of history x y _ _ Z eq_refl eq_refl YX) as (f' & Q1 & F1 & _).
  destruct (C280_quotient size units_of history y x _ _ Z eq_refl eq_refl XY) as (k & Q2 & F2 & _).
  destruct (C280_quotient size units_of history y z _ _ Z eq_refl eq_refl ZY) as (g' & Q3 & F3 & _).
  destruct (C280_quotient size units_of history x z _ _ Z eq_refl eq_refl ZX) as (h' & Q4 & F4 & _).
  fold w in F1, F2, F3, F4. rewrite F1 in Ef. rewrite F3 in Eg. rewrite F4 in Eh.
  injection Ef as <-. injection Eg as <-. injection Eh as <-.
  assert (forall a b c, size c <> 0%Qc -> (a * size c = b * size c)%Qc -> a = b) as R.
  { intros a b c Nc E. assert ((a - b) * size c = 0)%Qc as D by (transitivity (a * size c - b * size c)%Qc; [ring|rewrite E; ring]).
    apply Qcmult_integral in D as [D|D]; [|contradiction]. transitivity (a - b + b)%Qc; [ring|]. rewrite D. ring. }
  split; [|split].
  - unfold unit_floordiv, divisor_text.
    destruct (function_ok m_convert units_of m_nonzero w true (expr_format F64 x) (expr_format F64 x)) as (_ & _ & K); [apply after_sound; apply m_nonzero|].
    rewrite (convert_self F64 identified the_canonical base_quantities quantities the_connections the_nodes (expr_format F64 x) : m_convert _ _ = _) in K.
    destruct (conversion_function m_convert w true (expr_format F64 x) (expr_format F64 x)) as [r w']. cbn [fst] in K. now subst r.
  - exists k. split; [exact F2|]. apply (R _ _ (expr_format F64 y) (size_nonzero _ _ _ Z _)).
    transitivity (f' * (k * size (expr_format F64 y)))%Qc; [ring|]. rewrite <- Q2, <- Q1. ring.
  - apply (R _ _ (expr_format F64 x) (size_nonzero _ _ _ Z _)). rewrite <- Q4, Q3, Q1. ring.
Qed.
Print Assumptions C280_laws.

(** Any other object is refused. *)
Theorem C280_others : forall search F w x, fst (unit_floordiv search F w x DOther) = Err TypeError
  /\ fst (unit_rfloordiv search F w DOther x) = Err TypeError.
Proof. auto. Qed.
Print Assumptions C280_others.

Lemma member_in (x : str) l : existsb (str_eqb x) l = true -> In x l.
Proof. intro H. apply existsb_exists in H as (y & I & E). destruct (str_eqb_spec x y) as [->|]; [exact I|discriminate]. Qed.
Example C280_example_prefix : comparable (lit "cm") (lit "m").
Proof.
  destruct (identified (lit "cm")) as [m|] eqn:M; [|vm_compute in M; discriminate M].
  destruct (identified (lit "m")) as [n|] eqn:N; [|vm_compute in N; discriminate N].
  left. exists m, n. split; [exact M|]. split; [exact N|].
  assert (match identified (lit "cm"), identified (lit "m") with
          | Some m, Some n => n_base m = n_base n /\ Qc_eqb (n_scale m) 0%Qc = false /\ Qc_eqb (n_scale n) 0%Qc = false
          | _, _ => False end) as E by (vm_compute; repeat split).
  rewrite M, N in E. destruct E as (E & P & Q). split; [exact E|]. split; intro K; rewrite K in *; discriminate.
Qed.
Example C280_example_chain : comparable (lit "au") (lit "m").
Proof. right. split; [apply member_in; vm_compute; reflexivity|]. apply (chain_connected the_connections [lit "m"]). vm_compute. reflexivity. Qed.
Example C280_example_text : exists x, expression_of_str F64 false (lit "cm") = Ok x /\ expr_format F64 x = lit "cm".
Proof. exists [mkTerm 1 (lit "cm") 1]. split; [apply computes; vm_compute; reflexivity|]. vm_compute. reflexivity. Qed.

(** C84: of two units between which there is a conversion, those of the same
    size are never found different, if both or none are dimensionless. *)
Theorem C84_same_size_partial : forall size systems x y p r, sizes identified the_connections size ->
  comparable (expr_format F64 y) (expr_format F64 x) ->
  dimensionless F64 identified the_canonical x = Ok p -> dimensionless F64 identified the_canonical y = Ok p ->
  m_unit_eqb systems x y = Ok r -> size (expr_format F64 x) = size (expr_format F64 y) -> r = true.
Proof.
  intros size systems x y p r Z C Px Py E S. destruct (comparable_size size _ _ Z C) as (f & Ef & Q).
  assert (f = 1%Qc) as ->.
  { rewrite S in Q. assert (N0 := size_nonzero _ _ _ Z (expr_format F64 y)).
    assert ((f - 1) * size (expr_format F64 y) = 0)%Qc as D.
    { transitivity (f * size (expr_format F64 y) - size (expr_format F64 y))%Qc; [ring|]. rewrite <- Q. ring. }
    apply Qcmult_integral in D as [D|D]; [|contradiction]. transitivity (f - 1 + 1)%Qc; [ring|]. rewrite D. ring. }
  unfold m_unit_eqb, unit_eqb in E. destruct (expr_eqb F64 x y); [congruence|].
  destruct (forallb _ _); [congruence|]. destruct (decompose _ _ _ _ _ _ x) as [a|]; [|discriminate E].
  destruct (decompose _ _ _ _ _ _ y) as [b|]; [|discriminate E]. cbn [bind] in E. destruct (same_terms a b); [congruence|].
  destruct (expression_of_terms F64 a) as [ea|]; [|discriminate E]. destruct (expression_of_terms F64 b) as [eb|]; [|discriminate E].
  cbn [bind] in E. destruct (expr_eqb F64 ea eb); [congruence|]. rewrite Px, Py in E. cbn [bind] in E.
  rewrite eqb_reflx in E. cbn [negb] in E. change (convert F64 identified the_canonical base_quantities quantities the_connections the_nodes) with m_convert in E.
  rewrite Ef in E. injection E as <-. apply Qc_eqb_refl.
Qed.
Print Assumptions C84_same_size_partial.
Example C84_same_size_example : exists x y,
  expr_format F64 x = lit "centimeter" /\ expr_format F64 y = lit "cm" /\ comparable (lit "cm") (lit "centimeter")
  /\ dimensionless F64 identified the_canonical x = Ok false /\ dimensionless F64 identified the_canonical y = Ok false
  /\ m_unit_eqb mks_first x y = Ok true /\ x <> y.
Proof.
  exists [mkTerm 1 (lit "centimeter") 1], [mkTerm 1 (lit "cm") 1]. split; [vm_compute; reflexivity|]. split; [vm_compute; reflexivity|]. split.
  - destruct (identified (lit "cm")) as [m|] eqn:M; [|vm_compute in M; discriminate M].
    assert (identified (lit "centimeter") = Some m) as N by (rewrite <- M; vm_compute; reflexivity).
    left. exists m, m. split; [exact M|]. split; [exact N|]. split; [reflexivity|].
    assert (match identified (lit "cm") with Some m => Qc_eqb (n_scale m) 0%Qc = false | _ => False end) as E by (vm_compute; reflexivity).
    rewrite M in E. split; intro K; rewrite K in *; discriminate.
  - split; [vm_compute; reflexivity|]. split; [vm_compute; reflexivity|]. split; [vm_compute; reflexivity|discriminate].
Qed.

(** ** C281 Collections of dimensions *)

Theorem C281_lookup_partial : forall F order common systems d s key, both order -> NoDup (map fst systems) ->
  dimensions_new F order common systems = Ok d -> spells key (named_as s) ->
  (forall a, In (named_as s, a) systems ->
     (forall t, given a t -> exists e, expression_of_str F false t = Ok e /\ dimensions_get d key = Ok (Some e))
     /\ (nothing a -> nothing common -> dimensions_get d key = Ok None)
     /\ (forall t, nothing a -> given common t -> exists e, expression_of_str F false t = Ok e /\ dimensions_get d key = Ok (Some e)))
  /\ (~ In (named_as s) (map fst systems) -> dimensions_get d key = Ok None).
Proof.
  intros F order common systems d s key [B1 B2] N H S. rewrite named_system in *. split.
  - intros a I. destruct (lookup_in F order common systems d _ a H N I) as (default & e & D & E & G).
    specialize (G key (lower_system key s S)). split; [|split].
    + intros t T. rewrite (dimension_given F a t default T) in E. destruct (expression_of_str F false t) as [x|]; cbn [bind] in E; [|discriminate].
      injection E as <-. eauto.
    + intros A C. rewrite (dimension_nothing F a default A) in E. injection E as <-. rewrite (dimension_nothing F common None C) in D.
      injection D as <-. exact G.
    + intros t A C. rewrite (dimension_nothing F a default A) in E. injection E as <-. rewrite (dimension_given F common t None C) in D.
      destruct (expression_of_str F false t) as [x|]; cbn [bind] in D; [|discriminate]. injection D as <-. eauto.
  - intro I. apply (lookup_absent F order common systems d s key H); auto. destruct s; auto.
Qed.
Print Assumptions C281_lookup_partial.

Theorem C281_unknown : forall F order common systems d key, dimensions_new F order common systems = Ok d ->
  (forall s, ~ spells key (named_as s)) -> (forall k, In k (map fst systems) -> ~ same_but_case key k) ->
  dimensions_get d key = Err KeyError.
Proof.
  intros F order common systems d key H S K. apply (lookup_unknown F order common systems d key H); auto.
Qed.
Print Assumptions C281_unknown.

(** It can be created if and only if there is a dimension to store. *)
Theorem C281_created : forall F order common systems, NoDup (map fst systems) ->
  (forall t, given common t -> exists e, expression_of_str F false t = Ok e) ->
  (forall j b t, In (j, b) systems -> given b t -> exists e, expression_of_str F false t = Ok e) ->
  ((exists k a, In (k, a) systems /\ ((exists t, given a t) \/ exists t, given common t)) ->
     exists d, dimensions_new F order common systems = Ok d)
  /\ ((forall k a, In (k, a) systems -> nothing a) -> nothing common \/ systems = [] ->
     dimensions_new F order common systems = Err TypeError).
Proof.
  intros F order common systems N C S. split.
  - intros (k & a & I & G). now apply (dimensions_accept F order common systems k a).
  - intros A G. destruct common as [[|c t]|].
    + now apply (dimensions_refuse F order (Some []) systems None).
    + destruct (C (c :: t)) as [e E]; [split; [reflexivity|discriminate]|]. apply (dimensions_refuse F order (Some (c :: t)) systems (Some e)); auto.
      rewrite (dimension_given F _ (c :: t) None); [|split; [reflexivity|discriminate]]. now rewrite E.
    + now apply (dimensions_refuse F order None systems None).
Qed.
Print Assumptions C281_created.

(** The dimension for all systems cannot stand alone, and is not given to the
    systems that are left out. *)
Theorem C281_common_refuted : forall order t e, both order -> t <> [] -> writes t e ->
  dimensions_new F64 order (Some t) [] = Err TypeError
  /\ exists d, dimensions_new F64 order (Some t) [(lit "mks", Some t)] = Ok d /\ dimensions_get d (lit "cgs") = Ok None.
Proof.
  intros order t e [B1 B2] N W. assert (given (Some t) t) as G by (split; [reflexivity|exact N]).
  assert (forall t', given (Some t) t' -> exists e, expression_of_str F64 false t' = Ok e) as C.
  { intros t' [K _]. injection K as <-. eauto. }
  split.
  - apply (proj2 (C281_created F64 order (Some t) [] (NoDup_nil _) C (fun j b t' (I : In (j, b) []) => match I with end))); [intros k a []|now right].
  - assert (NoDup (map fst [(lit "mks", Some t)])) as Nd by (constructor; [intros []|constructor]).
    destruct (C281_created F64 order (Some t) [(lit "mks", Some t)] Nd C) as [Ac _].
    { intros j b t' [K|[]]. injection K as <- <-. apply C. }
    destruct Ac as [d D].
    { exists (lit "mks"), (Some t). split; [now left|]. left. eauto. }
    exists d. split; [exact D|]. apply (lookup_absent F64 order _ _ d Cgs (lit "cgs") D B2); [|apply spells_self].
    intros [K|[]]. vm_compute in K. discriminate K.
Qed.
Print Assumptions C281_common_refuted.

(** A dimension given under a capitalized name is never found. *)
Theorem C281_capital_refuted : forall order s name t e, both order -> t <> [] -> writes t e ->
  spells name (named_as s) -> name <> named_as s ->
  exists d, dimensions_new F64 order None [(name, Some t)] = Ok d /\ dimensions_get d name = Ok None /\ dimensions_get d (named_as s) = Ok None.
Proof.
  intros order s name t e [B1 B2] N W S D.
  assert (NoDup (map fst [(name, Some t)])) as Nd by (constructor; [intros []|constructor]).
  destruct (C281_created F64 order None [(name, Some t)] Nd) as [Ac _].
  { intros t' [G _]. discriminate. }
  { intros j b t' [K|[]] [G _]. injection K as <- <-. injection G as <-. eauto. }
  destruct Ac as [d H].
  { exists name, (Some t). split; [now left|]. left. exists t. split; [reflexivity|exact N]. }
  exists d. split; [exact H|]. rewrite named_system in *.
  assert (forall key, spells key (system_name s) -> dimensions_get d key = Ok None) as L.
  { intros key K. apply (lookup_absent F64 order _ _ d s key H); [destruct s; auto|intros [E|[]]; now apply D|exact K]. }
  split; apply L; [exact S|apply spells_self].
Qed.
Print Assumptions C281_capital_refuted.

Example C281_example : (exists d, dimensions_new F64 [Mks; Cgs] (Some (lit "L")) [(lit "mks", None); (lit "cgs", Some (lit "M T"))] = Ok d)
  /\ both [Mks; Cgs] /\ exists e, writes (lit "M T") e.
Proof.
  assert (writes (lit "M T") [mkTerm 1 (lit "M") 1; mkTerm 1 (lit "T") 1]) as W by (apply computes; vm_compute; reflexivity).
  assert (writes (lit "L") [mkTerm 1 (lit "L") 1]) as V by (apply computes; vm_compute; reflexivity).
  split; [|split; [split; cbn; auto|eauto]]. apply C281_created.
  - constructor; [|constructor; [intros []|constructor]]. intros [K|[]]. vm_compute in K. discriminate K.
  - intros t [K _]. injection K as <-. eauto.
  - intros j b t [K|[K|[]]] [G _]; injection K as <- <-; [discriminate|]. injection G as <-. eauto.
  - exists (lit "mks"), None. split; [now left|]. right. exists (lit "L"). split; [reflexivity|discriminate].
Qed.

(** ** C282 The metric systems of a named unit *)

Theorem C282_systems_partial : forall order text n, identified text = Some n -> b_symbol (n_base n) <> lit "lx" -> both order ->
  exists fundamental defined allowed, m_systems_of order n = Ok (fundamental, defined, allowed)
  /\ (forall s, (In s fundamental <-> used_in n s) /\ (In s defined <-> scaled_in n s)
        /\ (In s allowed <-> scaled_in n s \/ forall s', ~ scaled_in n s'))
  /\ incl fundamental defined /\ incl defined allowed /\ allowed <> [].
Proof.
  intros order text n I X B. destruct (dimensions_known text n I) as [K _]. destruct (K X) as ([us ds] & d & R & _).
  destruct (systems_ok order n us ds R) as (fs & dfs & als & E & H). exists fs, dfs, als. split; [exact E|].
  assert (forall s, In s order) as O by (destruct B; intros []; auto).
  assert (forall s, (In s fs <-> used_in n s) /\ (In s dfs <-> scaled_in n s) /\ (In s als <-> scaled_in n s \/ forall s', ~ scaled_in n s')) as G.
  { intro s. destruct (H s) as (P & Q & T). specialize (O s). tauto. }
  split; [exact G|]. split; [|split].
  - intros s J. apply G. left. now apply G.
  - intros s J. apply G. left. now apply G.
  - intro A. subst als. destruct (defined_ok n us ds Mks R) as (m & _ & M). destruct (defined_ok n us ds Cgs R) as (c & _ & C).
    assert (forall s, ~ scaled_in n s) as Z.
    { intros s Sc. destruct (G s) as (_ & _ & T). apply (proj2 T). now left. }
    destruct (G Mks) as (_ & _ & T). apply (proj2 T). now right.
Qed.
Print Assumptions C282_systems_partial.

(** The systems of the lux cannot be told: its quantity is misspelled. *)
Theorem C282_lux_refuted : forall order text n, identified text = Some n -> b_symbol (n_base n) = lit "lx" -> order <> [] ->
  m_systems_of order n = Err KeyError.
Proof.
  intros [|s order] text n I X O; [congruence|].
  assert (sd_get the_canonical (n_quantity n) = None) as R.
  { rewrite identified_fun in I.
    pose proof (checked_all prefixes units named_units named_units_computed
      (fun n => if str_eqb (b_symbol (n_base n)) (lit "lx") then match sd_get the_canonical (n_quantity n) with None => true | _ => false end else true)) as C.
    specialize (C ltac:(vm_compute; reflexivity) text n I). cbv beta in C. rewrite X in C. rewrite str_eqb_refl in C. now destruct (sd_get the_canonical (n_quantity n)). }
  unfold m_systems_of. cbn [systems_of]. unfold is_fundamental_in, canonical_unit. now rewrite R.
Qed.
Print Assumptions C282_lux_refuted.

Example C282_example : exists n fs ds als, identified (lit "kg") = Some n /\ b_symbol (n_base n) <> lit "lx"
  /\ m_systems_of [Cgs; Mks] n = Ok (fs, ds, als) /\ fs = [Mks] /\ ds = [Cgs; Mks].
Proof.
  eexists _, _, _, _. split; [vm_compute; reflexivity|]. split; [intro K; vm_compute in K; discriminate K|]. split; [vm_compute; reflexivity|]. auto.
Qed.

(** ** C283 Reducing an expression to base units *)

(** The scale is the product of the scales of the reduced units. *)
Theorem C283_scale_partial : forall given x ks r,
  Forall2 (fun t k => exists n s z, identified (base t) = Some n /\ m_reduce n given = Ok (Some s)
             /\ expo t = Qc_of_Z z /\ red_scale s <> 0%Qc /\ k = Qc_zpow (red_scale s) z) x ks ->
  m_reduction_of x given = Ok (Some r) -> red_scale r = prodQc ks.
Proof. intros given x ks r C. apply (reduction_scale F64 identified m_reduce given x ks r C). Qed.
Print Assumptions C283_scale_partial.

(** The units of every term after the first are lost. *)
Theorem C283_units_refuted : (forall given t x r r0, m_reduction_of [t] given = Ok (Some r0) ->
    m_reduction_of (t :: x) given = Ok (Some r) -> red_units r = red_units r0)
  /\ exists x r, writes (lit "km g") x /\ m_reduction_of x None = Ok (Some r) /\ forall t, In t (red_units r) -> base t = lit "g".
Proof.
  split; [intros given t x r r0; apply reduction_first|].
  assert (exists x, writes (lit "km g") x /\ match m_reduction_of x None with
            | Ok (Some r) => forallb (fun t => str_eqb (base t) (lit "g")) (red_units r) | _ => false end = true) as (x & W & E).
  { exists [mkTerm 1 (lit "g") 1; mkTerm 1 (lit "km") 1]. split; [apply computes|]; vm_compute; reflexivity. }
  destruct (m_reduction_of x None) as [[r|]|] eqn:R; try discriminate. exists x, r. split; [exact W|]. split; [exact R|].
  intros t I. rewrite forallb_forall in E. apply E in I. destruct (str_eqb_spec (base t) (lit "g")); [assumption|discriminate].
Qed.
Print Assumptions C283_units_refuted.

Example C283_example : exists x r, writes (lit "km^2 g^-1") x /\ m_reduction_of x None = Ok (Some r) /\ red_scale r = Q2Qc 1000000.
Proof.
  assert (exists x, writes (lit "km^2 g^-1") x /\ match m_reduction_of x None with
            | Ok (Some r) => Qc_eqb (red_scale r) (Q2Qc 1000000) | _ => false end = true) as (x & W & E).
  { exists [mkTerm 1 (lit "km") (Q2Qc 2); mkTerm 1 (lit "g") (Q2Qc (-1))]. split; [apply computes|]; vm_compute; reflexivity. }
  destruct (m_reduction_of x None) as [[r|]|] eqn:R; try discriminate. exists x, r. split; [exact W|]. split; [exact R|].
  destruct (Qc_eqb_spec (red_scale r) (Q2Qc 1000000)); [assumption|discriminate].
Qed.

(** ** C284 Metric consistency of units *)

(** Units with the same dimension in some system, or related by a conversion,
    are consistent; units that are not have neither. *)
Theorem C284_meaning_partial : forall F named canonical bases qs systems conns nodes x y a b, both systems ->
  dimensions_of F named canonical x = Ok a -> dimensions_of F named canonical y = Ok b ->
  (forall s s' e f, dimension_of F named canonical s x = Ok e -> dimension_of F named canonical s' y = Ok f -> expr_eqb F e f = true ->
     unit_or F named canonical bases qs systems conns nodes x y = Ok true)
  /\ (unit_or F named canonical bases qs systems conns nodes x y = Ok false ->
     (forall s s' e f, dimension_of F named canonical s x = Ok e -> dimension_of F named canonical s' y = Ok f -> expr_eqb F e f = false)
     /\ convert F named canonical bases qs conns nodes (expr_format F y) (expr_format F x) = Err UnitConversionError).
Proof.
  intros F named canonical bases qs systems conns nodes x y a b B A A'. split.
  - intros. eapply unit_or_dimension; eauto.
  - now apply (unit_or_apart F named canonical bases qs systems conns nodes x y a b).
Qed.
Print Assumptions C284_meaning_partial.

Theorem C284_reflexive : forall F named canonical bases qs systems conns nodes x a q,
  dimensions_of F named canonical x = Ok a -> MeasurableModel.unit_quantity F named x = Ok q ->
  unit_or F named canonical bases qs systems conns nodes x x = Ok true.
Proof. intros. eapply unit_or_refl; eauto. Qed.
Print Assumptions C284_reflexive.

(** The order of the units matters at most if there is a conversion in one
    direction only. *)
Theorem C284_symmetric_partial : forall F named canonical bases qs systems conns nodes x y, both systems ->
  unit_or F named canonical bases qs systems conns nodes x y = Ok true ->
  unit_or F named canonical bases qs systems conns nodes y x = Ok true
  \/ (exists f, convert F named canonical bases qs conns nodes (expr_format F y) (expr_format F x) = Ok f)
     /\ forall f, convert F named canonical bases qs conns nodes (expr_format F x) (expr_format F y) <> Ok f.
Proof. intros. now apply unit_or_sym. Qed.
Print Assumptions C284_symmetric_partial.

(** Consistent units may have no conversion in either direction: [Unit('Hz') |
    Unit('Bq')]. *)
Theorem C284_convertible_refuted : exists x y, writes (lit "Hz") x /\ writes (lit "Bq") y
  /\ unit_or F64 identified the_canonical base_quantities quantities mks_first the_connections the_nodes x y = Ok true
  /\ m_convert (lit "Hz") (lit "Bq") = Err UnitConversionError /\ m_convert (lit "Bq") (lit "Hz") = Err UnitConversionError.
Proof.
  exists [mkTerm 1 (lit "Hz") 1], [mkTerm 1 (lit "Bq") 1]. split; [apply computes; vm_compute; reflexivity|].
  split; [apply computes; vm_compute; reflexivity|]. repeat split; vm_compute; reflexivity.
Qed.
Print Assumptions C284_convertible_refuted.

Example C284_example : both mks_first
  /\ unit_or F64 identified the_canonical base_quantities quantities mks_first the_connections the_nodes (read "F") (read "cm") = Ok true
  /\ unit_or F64 identified the_canonical base_quantities quantities mks_first the_connections the_nodes (read "s") (read "cm") = Ok false.
Proof. split; [split; cbn; auto|]. split; vm_compute; reflexivity. Qed.

(** ** C324 Which units are consistent *)

(** Units are consistent exactly if they have the same dimension in some
    systems, or measure the same quantity, or one converts to the other. *)
Theorem C324_meaning : forall F named canonical bases qs systems conns nodes x y a b p r, both systems ->
  dimensions_of F named canonical x = Ok a -> dimensions_of F named canonical y = Ok b ->
  MeasurableModel.unit_quantity F named x = Ok p -> MeasurableModel.unit_quantity F named y = Ok r ->
  (unit_or F named canonical bases qs systems conns nodes x y = Ok true <->
     (exists s s' e f, dimension_of F named canonical s x = Ok e /\ dimension_of F named canonical s' y = Ok f /\ expr_eqb F e f = true)
     \/ expr_eqb F p r = true
     \/ exists c, convert F named canonical bases qs conns nodes (expr_format F y) (expr_format F x) = Ok c).
Proof. intros. now apply unit_or_exact with a b. Qed.
Print Assumptions C324_meaning.

(** The quantity of a product of units is the product of their quantities,
    with blanks written as underscores. *)
Theorem C324_quantity : forall x, product_of_units x ->
  exists z, MeasurableModel.unit_quantity F64 identified x = Ok z /\ canonical z /\ total_coef z = 1%Qc
    /\ forall u q, measures u q -> ~ In q photometric -> total_expo (replace (lit " ") (lit "_") q) z = exponent_of q x.
Proof. exact product_quantity. Qed.
Print Assumptions C324_quantity.

(** Products of units of the package always have a dimension in one of the
    systems, and a quantity, so that the rule above decides for them. *)
Theorem C324_units : forall systems x y, both systems -> product_of_units x -> product_of_units y ->
  exists p r, MeasurableModel.unit_quantity F64 identified x = Ok p /\ MeasurableModel.unit_quantity F64 identified y = Ok r
    /\ (unit_or F64 identified the_canonical base_quantities quantities systems the_connections the_nodes x y = Ok true <->
     (exists s s' e f, dimension_of F64 identified the_canonical s x = Ok e /\ dimension_of F64 identified the_canonical s' y = Ok f /\ expr_eqb F64 e f = true)
     \/ expr_eqb F64 p r = true
     \/ exists c, m_convert (expr_format F64 y) (expr_format F64 x) = Ok c).
Proof.
  intros systems x y B P P'. destruct (dims_product x P) as [a A], (dims_product y P') as [b A'].
  destruct (product_quantity x P) as (p & Q & _), (product_quantity y P') as (r & Q' & _). exists p, r. split; [exact Q|]. split; [exact Q'|].
  exact (unit_or_exact _ _ _ _ _ _ _ _ x y a b p r B A A' Q Q').
Qed.
Print Assumptions C324_units.

Theorem C324_same_quantity : forall systems x y, both systems ->
  product_of_units x -> product_of_units y -> (forall q, exponent_of q x = exponent_of q y) ->
  unit_or F64 identified the_canonical base_quantities quantities systems the_connections the_nodes x y = Ok true.
Proof.
  intros systems x y B P P' E. destruct (dims_product x P) as [a A], (dims_product y P') as [b A'].
  destruct (same_quantity x y P P' E) as (z & Q & Q').
  apply (unit_or_exact _ _ _ _ _ _ _ _ x y a b z z B A A' Q Q'). right. left. apply SymbolicExprProofs.eqb_refl.
Qed.
Print Assumptions C324_same_quantity.

Example C324_example : let x := [mkTerm 1 (lit "J") 1] in let y := [mkTerm 1 (lit "erg") 1] in
  product_of_units x /\ product_of_units y /\ forall q, exponent_of q x = exponent_of q y.
Proof.
  assert (forall b, match identified b with Some n => str_eqb (n_quantity n) (lit "energy") | None => false end = true ->
    product_of_units [mkTerm 1 b 1] /\ forall q, exponent_of q [mkTerm 1 b 1] = if str_eqb (lit "energy") q then 1%Qc else 0%Qc) as H.
  { intros b H. destruct (identified b) as [n|] eqn:E; [|discriminate]. destruct (str_eqb_spec (n_quantity n) (lit "energy")) as [Q|]; [|discriminate].
    split.
    - split; [discriminate|]. split; [|vm_compute; discriminate]. constructor; [|constructor]. split.
      + exists (lit "energy"). split; [exists n; auto|]. cbn. intros [X|[X|[X|[]]]]; discriminate.
      + exists 1%Z. split; [reflexivity|discriminate].
    - intro q. unfold exponent_of. cbn [filter base]. unfold measures_b. rewrite E, Q. destruct (str_eqb (lit "energy") q); reflexivity. }
  destruct (H (lit "J")) as [P Q]; [vm_compute; reflexivity|]. destruct (H (lit "erg")) as [P' Q']; [vm_compute; reflexivity|].
  split; [exact P|]. split; [exact P'|]. intro q. now rewrite Q, Q'.
Qed.
