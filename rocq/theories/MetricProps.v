(** Properties of metric units (metric.py). *)

From Coq Require Import String Ascii List Bool ZArith QArith Qcanon Relations.
From Verif Require Import Py PyFacts PyDict SymbolicModel SymbolicSpec SymbolicTermProofs SymbolicExprProofs AliasedModel AliasedSpec.
From Verif Require Import IterablesModel IterablesMoreProofs MetricTables MetricModel MetricSpec MetricProofs MetricMoreProofs MetricTableProofs.
From Verif Require SymbolicReduceProofs TermsProofs.
Import ListNotations.
Open Scope list_scope.
Open Scope nat_scope.

(** Results of computations on the module's tables. *)
Definition gives (r : res Qc) (q : Qc) : bool := match r with Ok x => Qc_eqb x q | Err _ => false end.
Lemma gives_ok r q : gives r q = true -> r = Ok q.
Proof. destruct r as [x|e]; simpl; [|discriminate]. destruct (Qc_eqb_spec x q); congruence. Qed.
Definition q (n : Z) (d : positive) : Qc := Q2Qc (n # d).
Definition read (s : string) : expression :=
  match expression_of_str F64 false (lit s) with Ok x => x | Err _ => [] end.

(** ** C31: ratios of named units *)

Theorem C31_ratio_is_quotient : forall u v, n_base u = n_base v -> n_scale v <> 0%Qc ->
  ratio u v = Ok (n_scale u / n_scale v)%Qc.
Proof. exact ratio_ok. Qed.
Print Assumptions C31_ratio_is_quotient.

Theorem C31_ratio_self : forall u, ratio u u = Ok 1%Qc.
Proof. intro u. unfold ratio. now destruct (named_eqb_spec u u). Qed.
Print Assumptions C31_ratio_self.

Theorem C31_ratio_reciprocal : forall u v, n_base u = n_base v -> n_scale u <> 0%Qc -> n_scale v <> 0%Qc ->
  exists r s, ratio u v = Ok r /\ ratio v u = Ok s /\ (r * s = 1)%Qc.
Proof.
  intros u v B U V. exists (n_scale u / n_scale v)%Qc, (n_scale v / n_scale u)%Qc.
  split; [now apply ratio_ok|]. split; [now apply ratio_ok|]. field. auto.
Qed.
Print Assumptions C31_ratio_reciprocal.

Theorem C31_ratio_chain : forall u v w, n_base u = n_base v -> n_base v = n_base w ->
  n_scale v <> 0%Qc -> n_scale w <> 0%Qc ->
  exists r s t, ratio u v = Ok r /\ ratio v w = Ok s /\ ratio u w = Ok t /\ (r * s = t)%Qc.
Proof.
  intros u v w B C V W. exists (n_scale u / n_scale v)%Qc, (n_scale v / n_scale w)%Qc, (n_scale u / n_scale w)%Qc.
  split; [now apply ratio_ok|]. split; [now apply ratio_ok|]. split; [apply ratio_ok; congruence|]. field. auto.
Qed.
Print Assumptions C31_ratio_chain.

Theorem C31_ratio_rejects : forall u v, n_base u <> n_base v <-> ratio u v = Err ValueError.
Proof. exact ratio_rejects. Qed.
Print Assumptions C31_ratio_rejects.

(** [u // v] is the number of [u] in one [v]. *)
Theorem C31_floordiv : forall u v, n_base u = n_base v -> n_scale u <> 0%Qc ->
  floordiv u v = Ok (n_scale v / n_scale u)%Qc.
Proof. intros u v B N. apply ratio_ok; auto. Qed.
Print Assumptions C31_floordiv.

Example C31_example : exists km m g,
  identified (lit "km") = Some km /\ identified (lit "m") = Some m /\ identified (lit "g") = Some g
  /\ n_base km = n_base m /\ n_scale m <> 0%Qc /\ n_base m <> n_base g
  /\ gives (ratio km m) (q 1000 1) = true.
Proof.
  do 3 eexists. split; [vm_compute; reflexivity|]. split; [vm_compute; reflexivity|]. split; [vm_compute; reflexivity|].
  split; [reflexivity|]. split; [discriminate|]. split; [discriminate|]. vm_compute. reflexivity.
Qed.

(** ** C32: conversion factors *)

(** Whatever the search finds follows from the declared conversions. *)
Theorem C233_factor_derives : forall named l nodes fuel checked u0 u1 f checked',
  convert_strings named (connect l) nodes fuel checked u0 u1 = (Ok (Some f), checked') ->
  derives named (connect l) u0 u1 f /\ f <> 0%Qc.
Proof. exact conv_derives. Qed.
Print Assumptions C233_factor_derives.

(** If every unit has one size, the factor is the quotient of the sizes. *)
Theorem C233_factor_is_quotient : forall named l nodes fuel checked u0 u1 f checked' size,
  sizes named (connect l) size ->
  convert_strings named (connect l) nodes fuel checked u0 u1 = (Ok (Some f), checked') ->
  size u0 = (f * size u1)%Qc.
Proof.
  intros named l nodes fuel checked u0 u1 f checked' size Z C. apply conv_derives in C as [C _].
  now apply (derives_size named (connect l)).
Qed.
Print Assumptions C233_factor_is_quotient.

Theorem C233_there_and_back : forall named l nodes fuel fuel' checked checked' u0 u1 f g c c' size,
  sizes named (connect l) size ->
  convert_strings named (connect l) nodes fuel checked u0 u1 = (Ok (Some f), c) ->
  convert_strings named (connect l) nodes fuel' checked' u1 u0 = (Ok (Some g), c') ->
  (f * g = 1)%Qc.
Proof.
  intros named l nodes fuel fuel' checked checked' u0 u1 f g c c' size Z C C'.
  apply conv_derives in C as [C _]. apply conv_derives in C' as [C' _].
  apply (derives_size named (connect l) size) in C; auto. apply (derives_size named (connect l) size) in C'; auto.
  assert (size u0 <> 0%Qc) as N by apply Z. rewrite C' in C.
  assert (size u0 * (f * g - 1) = 0)%Qc as E.
  { transitivity (f * (g * size u0) - size u0)%Qc; [ring|]. rewrite <- C. ring. }
  apply Qcmult_integral in E as [E|E]; [contradiction|]. rewrite <- (Qcplus_0_l 1), <- E. ring.
Qed.
Print Assumptions C233_there_and_back.

(** The module's own table is consistent: there is one size for every unit. *)
Theorem C233_module_table_consistent : exists size, sizes identified the_connections size.
Proof. exact (ex_intro _ the_size the_sizes). Qed.
Print Assumptions C233_module_table_consistent.

(** Products of powers of units.  Missing: the conversion by dimensions, and
    numerical factors and fractional powers in the two expressions. *)
Theorem C32_products_partial : forall F named canonical l nodes size checked ts f,
  sizes named (connect l) size ->
  exact_on F ts -> integral ts ->
  (forall t n d, In t ts -> named (base t) = Some n -> dimensions F named canonical n = Ok d ->
     (forall one, expression_of_str F false (lit "1") = Ok one ->
        expr_eqb F (fst d) one = true /\ expr_eqb F (snd d) one = true) ->
     size (base t) = 1%Qc) ->
  fst (resolve_terms F named canonical (connect l) nodes checked ts) = Ok (Some f) ->
  f = size_of size ts.
Proof.
  intros F named canonical l nodes size checked ts f Z E I D H.
  exact (resolve_terms_sound F named canonical l nodes size Z ts E I D checked f H).
Qed.
Print Assumptions C32_products_partial.

(** [conversion('au', 'min')] is 1: units that do not reduce are left out. *)
Theorem C32_different_quantities_refuted : exists u v m n,
  identified u = Some m /\ identified v = Some n /\ n_quantity m <> n_quantity n
  /\ gives (m_convert u v) 1 = true.
Proof.
  exists (lit "au"), (lit "min"). do 2 eexists. split; [vm_compute; reflexivity|]. split; [vm_compute; reflexivity|].
  split; [discriminate|]. vm_compute. reflexivity.
Qed.
Print Assumptions C32_different_quantities_refuted.

(** The prefix is lost in the conversion by dimensions. *)
Theorem C32_prefix_lost_refuted :
  gives (m_convert (lit "J") (lit "kg m^2 s^-2")) 1 = true
  /\ gives (m_convert (lit "km") (lit "m")) (q 1000 1) = true
  /\ gives (m_convert (lit "J") (lit "kg km^2 s^-2")) 1 = true.
Proof. split; [vm_compute; reflexivity|]. split; vm_compute; reflexivity. Qed.
Print Assumptions C32_prefix_lost_refuted.

(** So is a numerical factor. *)
Theorem C32_coefficient_lost_refuted :
  gives (m_convert (lit "m") (lit "cm")) (q 100 1) = true
  /\ gives (m_convert (lit "2 m") (lit "cm")) (q 100 1) = true.
Proof. split; vm_compute; reflexivity. Qed.
Print Assumptions C32_coefficient_lost_refuted.

(** Converting through an intermediate unit differs from converting directly. *)
Theorem C32_intermediate_refuted : exists u v w f g h,
  m_convert u v = Ok f /\ m_convert v w = Ok g /\ m_convert u w = Ok h /\ (f * g)%Qc <> h.
Proof.
  exists (lit "deg / s"), (lit "1 / min"), (lit "rad / s"), (q 60 1), (q 1 60), (q 176855943800711 10133099161583616).
  split; [apply gives_ok; vm_compute; reflexivity|]. split; [apply gives_ok; vm_compute; reflexivity|].
  split; [apply gives_ok; vm_compute; reflexivity|]. discriminate.
Qed.
Print Assumptions C32_intermediate_refuted.

(** The hypotheses hold of the module's own tables. *)
Example C32_example :
  fst (convert_strings identified (connect declared) the_nodes (search_fuel the_nodes) [] (lit "h") (lit "d"))
  = Ok (Some (q 1 24))
  /\ sizes identified (connect declared) the_size.
Proof.
  split; [|exact the_sizes].
  assert (match fst (convert_strings identified (connect declared) the_nodes (search_fuel the_nodes) [] (lit "h") (lit "d"))
          with Ok (Some x) => Qc_eqb x (q 1 24) | _ => false end = true) as H by (vm_compute; reflexivity).
  revert H. generalize (fst (convert_strings identified (connect declared) the_nodes (search_fuel the_nodes) [] (lit "h") (lit "d"))).
  intros [[x|]|e]; try discriminate. destruct (Qc_eqb_spec x (q 1 24)); congruence.
Qed.

(** 'km min^2' over 'm s^2' resolves to 3600000. *)
Definition ts_example : list term :=
  [mkTerm 1 (lit "km") 1; mkTerm 1 (lit "min") (Qc_of_Z 2); mkTerm 1 (lit "m") (Qc_of_Z (-1)); mkTerm 1 (lit "s") (Qc_of_Z (-2))].
Example C32_products_example :
  match fst (resolve_terms F64 identified the_canonical (connect declared) the_nodes [] ts_example) with
  | Ok (Some f) => gives (Ok f) (q 3600000 1) | _ => false end = true
  /\ gives (Ok (size_of the_size ts_example)) (q 3600000 1) = true
  /\ integral ts_example.
Proof.
  split; [vm_compute; reflexivity|]. split; [vm_compute; reflexivity|].
  apply Forall_cons; [exists 1%Z; reflexivity|]. apply Forall_cons; [exists 2%Z; reflexivity|].
  apply Forall_cons; [exists (-1)%Z; reflexivity|]. apply Forall_cons; [exists (-2)%Z; reflexivity|]. apply Forall_nil.
Qed.

(** ** C33: the search terminates *)

(** It visits the first unit and then other nodes, each of them once. *)
Theorem C33_search_terminates : forall named l nodes fuel u0 u1,
  enumerates (connect l) nodes -> length nodes < fuel ->
  fst (convert_strings named (connect l) nodes fuel [] u0 u1) <> Err OutOfFuel
  /\ exists new, snd (convert_strings named (connect l) nodes fuel [] u0 u1) = u0 :: new
     /\ NoDup (u0 :: new) /\ incl new nodes.
Proof.
  intros named l nodes fuel u0 u1 E L.
  destruct (conv_halts named l nodes E fuel [] u0 u1) as [H [new [S [N I]]]].
  { pose proof (unchecked_all nodes ([] ++ [u0])). apply Nat.le_lt_trans with (length nodes); auto. }
  split; auto. exists new. split; auto. split.
  - constructor; auto. intro J. apply I in J as [_ J]. apply J. now left.
  - intros x J. now apply I in J.
Qed.
Print Assumptions C33_search_terminates.

(** A whole conversion, between any two strings. *)
Theorem C33_conversion_terminates : forall F named canonical bases qs l nodes u0 u1,
  enumerates (connect l) nodes ->
  convert F named canonical bases qs (connect l) nodes u0 u1 <> Err OutOfFuel.
Proof. intros. now apply convert_halts. Qed.
Print Assumptions C33_conversion_terminates.

(** A cyclic table, in which no conversion from [a] to [x] exists. *)
Definition cycle : list (edge * weight) :=
  [((lit "a", lit "b"), Some (q 2 1)); ((lit "b", lit "c"), Some (q 3 1)); ((lit "c", lit "a"), Some (q 1 6))].
Example C33_example :
  enumerates (connect cycle) [lit "b"; lit "a"; lit "c"]
  /\ convert_strings (fun _ => None) (connect cycle) [lit "b"; lit "a"; lit "c"] 4 [] (lit "a") (lit "x")
     = (Ok None, [lit "a"; lit "b"; lit "c"]).
Proof. split; [exact (nodes_enumerate (connect cycle))|]. vm_compute. reflexivity. Qed.

(** ** C35: names of units *)

(** For any tables in which no two units share a name. *)
Theorem C234_name_denotes : forall ps us p u s,
  separate ps us -> In p ps -> In u us -> goes_by p u s ->
  identify (unit_table ps us) s = Some (mkNamed p u).
Proof. intros ps us p u s D P U N. apply (identify_table ps us s p u); auto using separate_disjoint. now apply aliases_named. Qed.
Print Assumptions C234_name_denotes.

(** A name is only known if the tables define it. *)
Theorem C234_only_defined_names : forall ps us s n, identify (unit_table ps us) s = Some n ->
  In (n_prefix n) ps /\ In (n_base n) us /\ goes_by (n_prefix n) (n_base n) s.
Proof. intros ps us s n. rewrite <- aliases_named. apply identify_sound. Qed.
Print Assumptions C234_only_defined_names.

(** The module's tables.  Missing: 'cd'. *)
Theorem C35_module_names_partial : forall p u s, In p prefixes -> In u units ->
  goes_by p u s -> s <> lit "cd" -> identified s = Some (mkNamed p u).
Proof. intros p u s. rewrite <- aliases_named. apply names_ok. Qed.
Print Assumptions C35_module_names_partial.

(** 'cd', the symbol of the candela, denotes the centiday. *)
Theorem C35_candela_refuted : exists p u n, In p prefixes /\ In u units
  /\ b_name u = lit "candela" /\ goes_by p u (lit "cd")
  /\ identified (lit "cd") = Some n /\ n_name n = lit "centiday".
Proof.
  exists (mkPrefix [] (Some []) 1), (mkBase (lit "cd") (lit "candela") (lit "luminous intensity")).
  eexists. split; [repeat ((left; reflexivity) || right)|]. split; [repeat ((left; reflexivity) || right)|].
  split; [reflexivity|]. split; [constructor|]. split; [vm_compute; reflexivity|]. reflexivity.
Qed.
Print Assumptions C35_candela_refuted.

Example C35_example :
  let ps := [mkPrefix (lit "k") (Some (lit "kilo")) (q 1000 1); mkPrefix [] (Some []) 1] in
  let us := [mkBase (lit "m") (lit "meter") (lit "length"); mkBase (lit "s") (lit "second") (lit "time")] in
  separate ps us
  /\ exists n, identify (unit_table ps us) (lit "kilometer") = Some n /\ n_symbol n = lit "km".
Proof.
  split.
  - unfold separate. simpl.
    repeat (apply FOP_cons; [repeat (apply Forall_cons; [intros a H G; rewrite <- aliases_named in H, G; revert H G;
      intros [<-|[<-|[]]] [H|[H|[]]]; discriminate|]); apply Forall_nil|]).
    apply FOP_nil.
  - eexists. split; [vm_compute; reflexivity|]. reflexivity.
Qed.

(** ** C82: the search finds every declared conversion *)

Theorem C82_linked_units_convert : forall named l nodes u0 u1,
  enumerates (connect l) nodes -> weighted (connect l) ->
  (forall u, In u nodes -> scaled_unit named u) -> scaled_unit named u1 ->
  connected (connect l) u0 u1 ->
  exists f, fst (convert_strings named (connect l) nodes (search_fuel nodes) [] u0 u1) = Ok (Some f)
            /\ derives named (connect l) u0 u1 f.
Proof.
  intros named l nodes u0 u1 E W S S1 C. destruct (conv_total named l nodes E W S u0 u1 C S1) as [f H].
  exists f. split; auto. destruct (convert_strings named (connect l) nodes (search_fuel nodes) [] u0 u1) as [r c] eqn:K.
  cbn [fst] in H. subst r. now apply conv_derives in K.
Qed.
Print Assumptions C82_linked_units_convert.

(** The module's tables meet the hypotheses. *)
Theorem C82_module_linked_units_convert : forall u0 u1,
  In u1 the_nodes -> connected the_connections u0 u1 ->
  exists f, m_convert u0 u1 = Ok f /\ the_size u0 = (f * the_size u1)%Qc.
Proof.
  intros u0 u1 I C.
  destruct (C82_linked_units_convert identified declared the_nodes u0 u1 the_nodes_enumerate the_weights
              the_nodes_scaled (the_nodes_scaled u1 I) C) as [f [H D]].
  exists f. split; [|exact (derives_size identified the_connections the_size u0 u1 f the_sizes D)].
  unfold m_convert, convert. unfold the_connections. rewrite H. reflexivity.
Qed.
Print Assumptions C82_module_linked_units_convert.

(** [chain] is a path of declared conversions. *)
Fixpoint linked_chain (conns : connections) (u : str) (chain : list str) : bool :=
  match chain with
  | [] => true
  | v :: rest => existsb (fun c => edge_eqb (fst c) (u, v)) conns && linked_chain conns v rest
  end.
Lemma chain_connected conns chain : forall u, linked_chain conns u chain = true -> connected conns u (last chain u).
Proof.
  induction chain as [|v rest IH]; intros u H; [apply rt_refl|]. simpl in H. apply andb_true_iff in H as [H K].
  apply existsb_exists in H as [[e w] [I E]]. destruct (edge_eqb_spec (fst (e, w)) (u, v)) as [X|]; [|discriminate]. simpl in X. subst e.
  apply rt_trans with v; [apply rt_step; now exists w|]. apply IH in K.
  replace (last (v :: rest) u) with (last rest v); auto. destruct rest as [|x rest]; auto.
  clear. simpl. revert x. induction rest as [|y rest IH]; intro x; auto. exact (IH y).
Qed.

Example C82_example : connected the_connections (lit "h") (lit "d").
Proof. apply (chain_connected the_connections [lit "s"; lit "d"]). vm_compute. reflexivity. Qed.

(** ** C83: a name denotes the same unit in every history *)

(** If every unit's own name and symbol denote it, the cache of instances never
    changes an answer. *)
Theorem C83_history_partial : forall t history s,
  (forall s n, identify t s = Some n -> identify t (n_name n) = Some n /\ identify t (n_symbol n) = Some n) ->
  fst (named_call t (named_calls t (of_dict []) history) s)
  = match identify t s with Some n => Ok n | None => Err UnitParsingError end.
Proof. intros t history s O. exact (cache_stable t history s O). Qed.
Print Assumptions C83_history_partial.

(** 'cd' denotes the centiday until the candela is first used. *)
Theorem C83_candela_refuted : exists s history m n,
  fst (named_call named_units (of_dict []) s) = Ok m
  /\ fst (named_call named_units (named_calls named_units (of_dict []) history) s) = Ok n
  /\ n_name m <> n_name n.
Proof.
  exists (lit "cd"), [lit "candela"]. do 2 eexists. split; [vm_compute; reflexivity|]. split; [vm_compute; reflexivity|].
  discriminate.
Qed.
Print Assumptions C83_candela_refuted.

Example C83_example : forall s n,
  identify (unit_table [mkPrefix (lit "k") (Some (lit "kilo")) (q 1000 1)] [mkBase (lit "m") (lit "meter") (lit "length")]) s = Some n ->
  n_symbol n = lit "km".
Proof.
  intros s n H. apply identify_sound in H as [[P|[]] [[U|[]] _]]. destruct n. simpl in *. now subst.
Qed.

(** ** C84: equality of units *)

Theorem C84_reflexive_partial : forall F named canonical bases qs systems conns nodes x,
  unit_eqb F named canonical bases qs systems conns nodes x x = Ok true.
Proof. intros. unfold unit_eqb. now rewrite eqb_refl. Qed.
Print Assumptions C84_reflexive_partial.

(** Units of which the texts stand for the same product of powers are equal,
    however they are written. *)
Theorem C84_spelling_partial : forall F named canonical bases qs systems conns nodes strict strict' s t x y,
  expression_of_str F strict s = Ok x -> expression_of_str F strict' t = Ok y -> same_monomial x y ->
  unit_eqb F named canonical bases qs systems conns nodes x y = Ok true.
Proof.
  intros F named canonical bases qs systems conns nodes strict strict' s t x y X Y S.
  apply TermsProofs.text_canonical in X as [Cx _], Y as [Cy _].
  rewrite (SymbolicReduceProofs.canonical_unique x y Cx Cy S). apply C84_reflexive_partial.
Qed.
Print Assumptions C84_spelling_partial.

(** So are units that differ in terms '#' and '1' only, on either side. *)
Theorem C84_unity_partial : forall F named canonical bases qs systems conns nodes x y,
  fl F 1 = 1%Qc ->
  (forall t, In t x \/ In t y -> (In t x /\ In t y) \/ t = mkTerm 1 (lit "#") 1 \/ t = mkTerm 1 (lit "1") 1) ->
  unit_eqb F named canonical bases qs systems conns nodes x y = Ok true.
Proof.
  intros F named canonical bases qs systems conns nodes x y F1 H. unfold unit_eqb.
  destruct (expr_eqb F x y); [reflexivity|].
  assert (forallb (fun t => unity (format_term F t)) (expr_difference x y ++ expr_difference y x) = true) as ->; [|reflexivity].
  apply forallb_forall. intros t I.
  assert ((In t x \/ In t y) /\ ~ (In t x /\ In t y)) as [I1 I2].
  { apply in_app_or in I as [I|I]; apply TermsProofs.difference_in in I as [I N]; tauto. }
  destruct (H t I1) as [E|[->| ->]]; [contradiction|reflexivity|].
  unfold format_term, format_coef. cbn [base coef]. rewrite F1. reflexivity.
Qed.
Print Assumptions C84_unity_partial.

Example C84_unity_example :
  read "# / s" = [mkTerm 1 (lit "#") 1; mkTerm 1 (lit "s") (q (-1) 1)] /\ read "1 / s" = [mkTerm 1 (lit "s") (q (-1) 1)]
  /\ fl F64 1 = 1%Qc /\ same_monomial (read "m / s") (read "s^-1 * m").
Proof.
  split; [vm_compute; reflexivity|]. split; [vm_compute; reflexivity|]. split; [apply Qc_is_canon; reflexivity|].
  assert (read "m / s" = read "s^-1 * m") as -> by (vm_compute; reflexivity).
  split; reflexivity.
Qed.

(** Equality is not transitive: 'J' is equal to 'kg m^2 s^-2' and to
    'kg km^2 s^-2'. *)
Theorem C84_transitive_refuted : exists x y z,
  m_unit_eqb mks_first x y = Ok true /\ m_unit_eqb mks_first y z = Ok true /\ m_unit_eqb mks_first x z = Ok false.
Proof.
  exists (read "kg m^2 s^-2"), (read "J"), (read "kg km^2 s^-2").
  split; [vm_compute; reflexivity|]. split; vm_compute; reflexivity.
Qed.
Print Assumptions C84_transitive_refuted.

(** [Unit('au') == Unit('min')]. *)
Theorem C84_length_equals_time_refuted :
  match m_unit_eqb mks_first (read "au") (read "min") with Ok b => b | Err _ => false end = true
  /\ the_size (lit "au") <> the_size (lit "min").
Proof.
  split; [vm_compute; reflexivity|]. intro H.
  assert (Qc_eqb (the_size (lit "au")) (the_size (lit "min")) = false) as K by (vm_compute; reflexivity).
  rewrite H, Qc_eqb_refl in K. discriminate.
Qed.
Print Assumptions C84_length_equals_time_refuted.

(** [Unit('J') == Unit('kg km^2 s^-2')], although 'km' is 1000 'm' and
    [Unit('J') == Unit('kg m^2 s^-2')]. *)
Theorem C84_prefix_ignored_refuted :
  match m_unit_eqb mks_first (read "J") (read "kg km^2 s^-2") with Ok b => b | Err _ => false end = true
  /\ match m_unit_eqb mks_first (read "J") (read "kg m^2 s^-2") with Ok b => b | Err _ => false end = true
  /\ match m_unit_eqb mks_first (read "m") (read "km") with Ok b => negb b | Err _ => false end = true.
Proof. split; [vm_compute; reflexivity|]. split; vm_compute; reflexivity. Qed.
Print Assumptions C84_prefix_ignored_refuted.

(** [Unit('V') == Unit('ohm')]: the table gives both the same dimension. *)
Theorem C84_volt_equals_ohm_refuted :
  match m_unit_eqb mks_first (read "V") (read "ohm") with Ok b => b | Err _ => false end = true.
Proof. vm_compute. reflexivity. Qed.
Print Assumptions C84_volt_equals_ohm_refuted.

(** Comparing two units may raise an exception: [Unit('kJ') == Unit('N m')]. *)
Theorem C84_raises_refuted :
  match m_unit_eqb mks_first (read "kJ") (read "N m") with Err SystemAmbiguityError => true | _ => false end = true.
Proof. vm_compute. reflexivity. Qed.
Print Assumptions C84_raises_refuted.

Example C84_example : read "kg m^2 s^-2" <> [] /\ read "J" <> read "kg m^2 s^-2".
Proof. split; vm_compute; discriminate. Qed.

(** ** C85: the non-strict conversion of unknown names *)

(** [conversion('foo', 'bar')] raises an exception. *)
Theorem C85_unknown_names_refuted : exists u v,
  identified u = None /\ identified v = None /\ m_conversion u v = Err UnitParsingError.
Proof.
  exists (lit "foo"), (lit "bar"). split; [vm_compute; reflexivity|]. split; [vm_compute; reflexivity|].
  vm_compute. reflexivity.
Qed.
Print Assumptions C85_unknown_names_refuted.

(** It never reports an undefined conversion by an exception. *)
Theorem C85_no_conversion_error_partial : forall F named canonical bases qs conns nodes u v,
  conversion F named canonical bases qs conns nodes u v <> Err UnitConversionError
  /\ (conversion F named canonical bases qs conns nodes u v = Ok None
      <-> convert F named canonical bases qs conns nodes u v = Err UnitConversionError).
Proof.
  intros F named canonical bases qs conns nodes u v. unfold conversion.
  destruct (convert F named canonical bases qs conns nodes u v) as [f|e]; [split; [discriminate|split; discriminate]|].
  destruct e; (split; [discriminate|split; congruence]).
Qed.
Print Assumptions C85_no_conversion_error_partial.

Example C85_example : match m_conversion (lit "m") (lit "s") with Ok None => true | _ => false end = true.
Proof. vm_compute. reflexivity. Qed.

(** ** C86: decomposition does not depend on the order of the set of systems *)

Theorem C86_decomposition_order : forall s n, identified s = Some n ->
  m_decomposed [Mks; Cgs] n = m_decomposed [Cgs; Mks] n.
Proof. exact decomposed_order. Qed.
Print Assumptions C86_decomposition_order.

Example C86_example : exists n, identified (lit "J") = Some n
  /\ match m_decomposed mks_first n with Ok (Some l) => Nat.eqb (length l) 3 | _ => false end = true.
Proof. eexists. split; [vm_compute; reflexivity|]. vm_compute. reflexivity. Qed.

(** ** C87: every known unit has a dimension *)

(** In at least one system the dimension is the one in the row of the unit's
    quantity in the table.  Missing: the lux, whose quantity is misspelled in
    the table. *)
Theorem C87_dimension_partial : forall s n, identified s = Some n -> b_symbol (n_base n) <> lit "lx" ->
  exists row d, sd_get the_canonical (n_quantity n) = Some row /\ m_dimensions n = Ok d
  /\ exists sys, expression_of_str F64 false (pick sys (snd row)) = Ok (pick sys d).
Proof. intros s n H. apply (dimensions_known s n H). Qed.
Print Assumptions C87_dimension_partial.

Theorem C87_lux_refuted : forall s n, identified s = Some n -> b_symbol (n_base n) = lit "lx" ->
  m_dimensions n = Err KeyError.
Proof. intros s n H. apply (dimensions_known s n H). Qed.
Print Assumptions C87_lux_refuted.

Example C87_example : (exists n, identified (lit "klx") = Some n /\ b_symbol (n_base n) = lit "lx")
  /\ exists n, identified (lit "kN") = Some n /\ b_symbol (n_base n) <> lit "lx".
Proof.
  split.
  - eexists. split; [vm_compute; reflexivity|]. reflexivity.
  - eexists. split; [vm_compute; reflexivity|]. discriminate.
Qed.
