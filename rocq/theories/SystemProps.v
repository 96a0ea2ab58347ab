(** Properties C183-C190: metric systems, quantities and the norms of units. *)

From Coq Require Import String Ascii List Bool ZArith QArith Qcanon Lia.
From Verif Require Import Py PyFacts PyDict SymbolicModel SymbolicSpec SymbolicReduceProofs SymbolicExprProofs SymbolicLawProofs
  IterablesModel MetricTables MetricModel MetricTableProofs ParametersModel ParametersSpec ParametersProofs
  SystemModel SystemSpec SystemAlgebraProofs SystemNormProofs SystemProofs.
Import ListNotations.
Open Scope list_scope.
Open Scope nat_scope.

(** A unit or a dimension, for use in examples. *)
Definition the (t : string) : expression := get_ok (expression_of_str F64 false (lit t)).
Definition gives_units (r : res (expression * expression)) (a b : expression) : bool :=
  match r with Ok (x, y) => terms_are x a && terms_are y b | Err _ => false end.
Lemma gives_units_ok r a b : gives_units r a b = true -> r = Ok (a, b).
Proof.
  destruct r as [[x y]|]; [|discriminate]. cbn [gives_units]. rewrite andb_true_iff. intros [A B].
  apply terms_are_eq in A, B. now subst.
Qed.
Definition gives_factor (r : res Qc) (q : Qc) : bool := match r with Ok x => Qc_eqb x q | Err _ => false end.
Lemma gives_factor_ok r q : gives_factor r q = true -> r = Ok q.
Proof. destruct r as [x|e]; simpl; [|discriminate]. destruct (Qc_eqb_spec x q); congruence. Qed.
Lemma in_dec_b (q : str) l : existsb (str_eqb q) l = false -> ~ In q l.
Proof.
  intros H I. assert (existsb (str_eqb q) l = true) as T; [|congruence]. apply existsb_exists. exists q. split; [exact I|apply str_eqb_refl].
Qed.
Lemma mech_b_ok d : mech_b d = true -> mechanical d.
Proof.
  intros H t I. unfold mech_b in H. rewrite forallb_forall in H. apply H, existsb_exists in I as (b & I & E).
  destruct (str_eqb_spec (base t) b) as [->|]; [exact I|discriminate].
Qed.
Lemma differ a b : Qc_eqb a b = false -> a <> b.
Proof. intros H ->. rewrite Qc_eqb_refl in H. discriminate. Qed.
Lemma agree a b : Qc_eqb a b = true -> a = b.
Proof. destruct (Qc_eqb_spec a b); congruence. Qed.
Ltac row q := match eval vm_compute in (sd_get the_canonical (lit q)) with Some (?us, ?ds) => exists us, ds; split; vm_compute; reflexivity end.

(** ** C183 Units of mechanics convert coherently between the systems *)

Theorem C183_mechanics_partial : forall q d a b,
  declared Mks q d -> mechanical d -> ~ In q incoherent ->
  total_expo (lit "M") d = Qc_of_Z a -> total_expo (lit "L") d = Qc_of_Z b ->
  factor q (Qc_zpow (Qc_of_Z 1000) a * Qc_zpow (Qc_of_Z 100) b)%Qc.
Proof. exact coherent. Qed.
Print Assumptions C183_mechanics_partial.

Example C183_example : declared Mks (lit "energy") (the "M L^2 T^-2") /\ mechanical (the "M L^2 T^-2")
  /\ factor (lit "energy") (Qc_of_Z 10000000).
Proof.
  split; [|split].
  - exists (lit "(M * L^2) / T^2"). split; [row "energy"%string|]. apply computes. vm_compute. reflexivity.
  - apply mech_b_ok. vm_compute. reflexivity.
  - exists (lit "J"), (lit "erg"). split; [row "energy"%string|]. split; [row "energy"%string|]. apply gives_factor_ok. vm_compute. reflexivity.
Qed.

(** The units of three quantities do not: two cannot be converted at all, and
    one activity changes its number although it has no mass or length. *)
Theorem C183_mechanics_refuted :
  (forall q f, q = lit "power density" \/ q = lit "thermal conductivity" -> ~ factor q f)
  /\ exists f d, factor (lit "radioactivity") f /\ declared Mks (lit "radioactivity") d /\ mechanical d
     /\ total_expo (lit "M") d = Qc_of_Z 0 /\ total_expo (lit "L") d = Qc_of_Z 0 /\ f <> 1%Qc.
Proof.
  split.
  - assert (forall q us ds f, sd_get the_canonical q = Some (us, ds) -> (exists e, m_convert (fst us) (snd us) = Err e) -> ~ factor q f) as H.
    { intros q us ds f E (e & C) (u & v & (us' & ds' & E1 & <-) & (us'' & ds'' & E2 & <-) & F). rewrite E in E1, E2.
      injection E1 as <- <-. injection E2 as <- <-. cbn [pick] in F. congruence. }
    intros q f [->| ->]; (eapply H; [vm_compute; reflexivity|]); exists UnitConversionError; vm_compute; reflexivity.
  - exists (Q2Qc (1 # 37000000000)), (the "1 / T"). split; [|split; [|split; [|split; [|split]]]].
    + exists (lit "Bq"), (lit "Ci"). split; [row "radioactivity"%string|]. split; [row "radioactivity"%string|].
      apply gives_factor_ok. vm_compute. reflexivity.
    + exists (lit "1 / T"). split; [row "radioactivity"%string|]. apply computes. vm_compute. reflexivity.
    + apply mech_b_ok. vm_compute. reflexivity.
    + apply agree. vm_compute. reflexivity.
    + apply agree. vm_compute. reflexivity.
    + apply differ. vm_compute. reflexivity.
Qed.
Print Assumptions C183_mechanics_refuted.

(** ** C184 Electric units convert coherently between the systems *)

Lemma factor_row q u v f : (exists us ds, sd_get the_canonical q = Some (us, ds) /\ us = (u, v)) -> gives_factor (m_convert u v) f = true ->
  forall g, factor q g <-> g = f.
Proof.
  intros (us & ds & E & ->) G g. apply gives_factor_ok in G. split.
  - intros (u' & v' & (us' & ds' & E1 & <-) & (us'' & ds'' & E2 & <-) & F). rewrite E in E1, E2.
    injection E1 as <- <-. injection E2 as <- <-. cbn [pick fst snd] in F. congruence.
  - intros ->. exists u, v. split; [exists (u, v), ds; auto|]. split; [exists (u, v), ds; auto|exact G].
Qed.
Ltac factor_of q u v := apply (factor_row (lit q) (lit u) (lit v));
  [match eval vm_compute in (sd_get the_canonical (lit q)) with Some (?us, ?ds) => exists us, ds; split; vm_compute; reflexivity end
  | vm_compute; reflexivity].

Lemma charge_factor g : factor (lit "charge") g <-> g = Qc_of_Z 299792458000.
Proof. revert g. factor_of "charge"%string "C"%string "statC"%string. Qed.
Lemma current_factor g : factor (lit "current") g <-> g = Qc_of_Z 299792458000.
Proof. revert g. factor_of "current"%string "A"%string "statA"%string. Qed.
Lemma potential_factor g : factor (lit "potential") g <-> g = Q2Qc (5000 # 149896229).
Proof. revert g. factor_of "potential"%string "V"%string "statV"%string. Qed.
Lemma capacitance_factor g : factor (lit "capacitance") g <-> g = Q2Qc (22468879468420441 # 25000).
Proof. revert g. factor_of "capacitance"%string "F"%string "cm"%string. Qed.
Lemma conductance_factor g : factor (lit "conductance") g <-> g = Q2Qc (44937758936840882 # 5).
Proof. revert g. factor_of "conductance"%string "S"%string "cm / s"%string. Qed.
Lemma inductance_factor g : factor (lit "inductance") g <-> g = Q2Qc (5 # 44937758936840882).
Proof. revert g. factor_of "inductance"%string "H"%string "s^2 / cm"%string. Qed.
Lemma impedance_factor g : factor (lit "impedance") g <-> g = Q2Qc (5 # 44937758936840882).
Proof. revert g. factor_of "impedance"%string "ohm"%string "s / cm"%string. Qed.
Lemma energy_factor g : factor (lit "energy") g <-> g = Qc_of_Z 10000000.
Proof. revert g. factor_of "energy"%string "J"%string "erg"%string. Qed.
Lemma polarization_factor g : factor (lit "polarization") g <-> g = Q2Qc (149896229 # 5).
Proof. revert g. factor_of "polarization"%string "C m^-2"%string "statC cm^-2"%string. Qed.
Lemma displacement_factor g : factor (lit "displacement") g <-> g = Qc_of_Z 299792458000.
Proof. revert g. factor_of "displacement"%string "C / m^2"%string "statC / m^2"%string. Qed.

(** Charge, current, potential, conductance, impedance and inductance convert
    consistently with each other and with energy. *)
Theorem C184_electric_partial :
  (exists f, factor (lit "charge") f) /\ (exists f, factor (lit "current") f) /\ (exists f, factor (lit "potential") f)
  /\ (exists f, factor (lit "conductance") f) /\ (exists f, factor (lit "impedance") f) /\ (exists f, factor (lit "inductance") f)
  /\ (exists f, factor (lit "energy") f)
  /\ forall charge current potential conductance impedance inductance energy,
     factor (lit "charge") charge -> factor (lit "current") current -> factor (lit "potential") potential ->
     factor (lit "conductance") conductance -> factor (lit "impedance") impedance -> factor (lit "inductance") inductance ->
     factor (lit "energy") energy ->
     charge = current /\ (charge * potential)%Qc = energy /\ (conductance * potential)%Qc = current
     /\ (impedance * current)%Qc = potential /\ (inductance * current)%Qc = potential.
Proof.
  split; [eexists; now apply charge_factor|]. split; [eexists; now apply current_factor|]. split; [eexists; now apply potential_factor|].
  split; [eexists; now apply conductance_factor|]. split; [eexists; now apply impedance_factor|]. split; [eexists; now apply inductance_factor|].
  split; [eexists; now apply energy_factor|].
  intros c i p g z l e C I P G Z L E. apply charge_factor in C. apply current_factor in I. apply potential_factor in P.
  apply conductance_factor in G. apply impedance_factor in Z. apply inductance_factor in L. apply energy_factor in E. subst.
  split; [reflexivity|]. repeat split; apply agree; vm_compute; reflexivity.
Qed.
Print Assumptions C184_electric_partial.

(** Capacitance is not charge over potential, and displacement is not charge
    over area. *)
Theorem C184_capacitance_refuted : exists capacitance charge potential,
  factor (lit "capacitance") capacitance /\ factor (lit "charge") charge /\ factor (lit "potential") potential
  /\ (capacitance * potential)%Qc <> charge.
Proof.
  exists (Q2Qc (22468879468420441 # 25000)), (Qc_of_Z 299792458000), (Q2Qc (5000 # 149896229)).
  split; [now apply capacitance_factor|]. split; [now apply charge_factor|]. split; [now apply potential_factor|].
  apply differ. vm_compute. reflexivity.
Qed.
Theorem C184_displacement_refuted : exists displacement polarization d,
  declared Cgs (lit "displacement") d /\ declared Cgs (lit "polarization") d
  /\ factor (lit "displacement") displacement /\ factor (lit "polarization") polarization /\ displacement <> polarization.
Proof.
  exists (Qc_of_Z 299792458000), (Q2Qc (149896229 # 5)), (the "M^1/2 / (L^1/2 * T)").
  split; [|split; [|split; [|split]]].
  - exists (lit "M^1/2 / (L^1/2 * T)"). split; [row "displacement"%string|]. apply computes. vm_compute. reflexivity.
  - exists (lit "M^1/2 L^-1/2 T^-1"). split; [row "polarization"%string|]. apply computes. vm_compute. reflexivity.
  - now apply displacement_factor.
  - now apply polarization_factor.
  - apply differ. vm_compute. reflexivity.
Qed.
Print Assumptions C184_capacitance_refuted.
Print Assumptions C184_displacement_refuted.

(** ** C185 The unit of a quantity has the dimension of the quantity *)

Theorem C185_dimension_partial : forall s q u d, ~ In q mismatched -> unit_is s q u -> declared s q d ->
  m_dimension (mkProperties s u) = Ok (Some d).
Proof. exact dimension_declared. Qed.
Print Assumptions C185_dimension_partial.

Example C185_example : ~ In (lit "power") mismatched /\ unit_is Cgs (lit "power") (the "erg / s") /\ declared Cgs (lit "power") (the "M L^2 T^-3").
Proof.
  split; [apply in_dec_b; reflexivity|]. split.
  - exists (lit "erg / s"). split; [row "power"%string|]. apply computes. vm_compute. reflexivity.
  - exists (lit "M * L^2 / T^3"). split; [row "power"%string|]. apply computes. vm_compute. reflexivity.
Qed.

Theorem C185_dimension_refuted : forall q, In q mismatched -> exists u d e,
  unit_is Mks q u /\ declared Mks q d /\ m_dimension (mkProperties Mks u) = Ok (Some e) /\ ~ same_monomial d e.
Proof.
  assert (forall q ut dt u d e, unit_text Mks q ut -> dimension_text Mks q dt -> reads_b ut u = true -> reads_b dt d = true ->
      match m_dimension (mkProperties Mks u) with Ok (Some x) => terms_are x e | _ => false end = true ->
      (exists b, b <> lit "1" /\ negb (Qc_eqb (total_expo b d) (total_expo b e)) = true) ->
      exists u d e, unit_is Mks q u /\ declared Mks q d /\ m_dimension (mkProperties Mks u) = Ok (Some e) /\ ~ same_monomial d e) as H.
  { intros q ut dt u d e U D Ru Rd M (b & Nb & B). exists u, d, e. split; [exists ut; split; [exact U|now apply reads_b_ok]|].
    split; [exists dt; split; [exact D|now apply reads_b_ok]|]. split.
    - destruct (m_dimension _) as [[x|]|]; try discriminate. apply terms_are_eq in M. now subst x.
    - intros [_ S]. rewrite (S b Nb), Qc_eqb_refl in B. discriminate. }
  intros q [<-|[<-|[<-|[<-|[]]]]].
  - apply (H _ (lit "cd * sr / m^2") (lit "J / L^2") (the "cd * sr / m^2") (the "J / L^2") (the "T L^-2")); [row "illumunance"%string|row "illumunance"%string|vm_compute; reflexivity..|].
    exists (lit "J"). split; [discriminate|vm_compute; reflexivity].
  - apply (H _ (lit "cd * sr") (lit "J") (the "cd * sr") (the "J") (the "T")); [row "luminous flux"%string|row "luminous flux"%string|vm_compute; reflexivity..|].
    exists (lit "J"). split; [discriminate|vm_compute; reflexivity].
  - apply (H _ (lit "cd") (lit "J") (the "cd") (the "J") (the "T")); [row "luminous intensity"%string|row "luminous intensity"%string|vm_compute; reflexivity..|].
    exists (lit "J"). split; [discriminate|vm_compute; reflexivity].
  - apply (H _ (lit "F / m") (lit "T^4 * I / (M * L^3)") (the "F / m") (the "T^4 * I / (M * L^3)") (the "T^4 I^2 M^-1 L^-3"));
      [row "permittivity"%string|row "permittivity"%string|vm_compute; reflexivity..|].
    exists (lit "I"). split; [discriminate|vm_compute; reflexivity].
Qed.
Print Assumptions C185_dimension_refuted.

(** ** C186 Quantities and systems are found by name, whatever its letter case *)

Theorem C252_quantity : forall limit key q s u, 10 <= limit -> spells key q -> unit_is s q u ->
  exists y, m_new limit key = Ok y
    /\ (forall name, spells name (named_as s) -> m_in y name = Ok (mkProperties s u))
    /\ (forall name, (forall s', ~ spells name (named_as s')) -> m_in y name = Err QuantityError).
Proof.
  intros limit key q s u L S U. destruct (quantity_ok limit key q s u (named_as s) L S U) as (y & Y & _). exists y. split; [exact Y|].
  split; intros name H; destruct (quantity_ok limit key q s u name L S U) as (y' & Y' & A & B);
    rewrite Y in Y'; injection Y' as <-; auto.
Qed.
Theorem C252_system : forall limit key q s u, 10 <= limit -> spells key q -> unit_is s q u ->
  m_get limit s key = Ok (mkProperties s u)
  /\ forall name, (forall s', spells name (named_as s') -> new_system name = Ok s')
               /\ ((forall s', ~ spells name (named_as s')) -> new_system name = Err KeyError).
Proof.
  intros limit key q s u L S U. split; [now apply (get_ok' limit key q s u)|]. intro name. unfold new_system. split.
  - intros s' H. now rewrite (exact_name_spells name s' H).
  - intro H. now rewrite (exact_name_other name H).
Qed.
(** Iterating over a system gives the names of its quantities, each once. *)
Theorem C252_names : forall s, NoDup (system_keys quantities)
  /\ forall q, In q (system_keys quantities) <-> exists u, unit_is s q u.
Proof. exact system_keys_ok. Qed.
Print Assumptions C252_names.
Print Assumptions C252_quantity.
Print Assumptions C252_system.

Example C186_example : spells (lit "Magnetic FIELD") (lit "magnetic field") /\ spells (lit "MKS") (named_as Mks)
  /\ unit_is Mks (lit "magnetic field") (the "T").
Proof.
  split; [|split].
  - repeat (constructor; [first [now left | right; match goal with |- exists n, _ /\ ?c = _ /\ _ =>
      let k := eval vm_compute in (nat_of_ascii c - 65) in exists k; split; [lia|split; reflexivity] end]|]). constructor.
  - repeat (constructor; [right; match goal with |- exists n, _ /\ ?c = _ /\ _ =>
      let k := eval vm_compute in (nat_of_ascii c - 65) in exists k; split; [lia|split; reflexivity] end|]). constructor.
  - exists (lit "T"). split; [row "magnetic field"%string|]. apply computes. vm_compute. reflexivity.
Qed.

(** A word that names no quantity is not reported as missing: the search does
    not end, whatever the limit on recursion. *)
Theorem C186_unknown_refuted : forall limit s key w, unknown_word w -> spells key w ->
  m_new limit key = Err OutOfFuel /\ m_get limit s key = Err OutOfFuel.
Proof. intros limit s key w (N & W & Q & U) S. now apply (unknown_get limit s key w). Qed.
Print Assumptions C186_unknown_refuted.
Example C186_unknown_example : unknown_word (lit "weight").
Proof.
  split; [discriminate|]. split; [|split].
  - repeat (constructor; [match goal with |- exists n, _ /\ ?c = _ =>
      let k := eval vm_compute in (nat_of_ascii c - 97) in exists k; split; [lia|reflexivity] end|]). constructor.
  - intros (r & H). discriminate H.
  - apply in_dec_b. vm_compute. reflexivity.
Qed.

(** ** C187 Searching a system for a unit *)

(** By a unit: the answer is in the system, has the same dimension, and the
    other arguments do not matter. *)
Theorem C253_unit : forall limit s t x q, 6 <= limit ->
  (t = Expr x \/ exists w, t = Text w /\ w <> [] /\ writes w x) -> target_text F64 t <> lit "1" ->
  product_of_units x -> exponent_of q x <> 0%Qc ->
  exists y, (forall dimension quantity, m_get_unit limit s (Some t) dimension quantity = Ok y)
    /\ (forall u, In u y -> belongs s (base u))
    /\ (Forall (fun u => belongs s (base u)) x -> exists d, m_dimension_of s y = Ok d /\ m_dimension_of s x = Ok d).
Proof.
  intros limit s t x q L T N P E. destruct (norm_full limit x q L P E) as (r & Er & H). exists (pick s r).
  destruct (H s) as (_ & B & _ & D & _). split; [|split].
  - intros d' q'. rewrite (by_unit limit s t x d' q' T N), Er. reflexivity.
  - intros u I. now apply B.
  - exact D.
Qed.
(** By a dimension: the answer is the unit of a quantity with that dimension,
    and the search fails if and only if there is none. *)
Theorem C187_dimension_partial : forall limit s d, canonical d -> exactly d -> expr_format F64 d <> lit "1" ->
  match m_get_unit limit s None (Some (Expr d)) None with
  | Ok u => exists q, declared s q d /\ unit_is s q u
            /\ (~ In q mismatched -> m_dimension (mkProperties s u) = Ok (Some d))
  | Err e => e = SearchError /\ forall q, ~ declared s q d
  end.
Proof.
  intros limit s d C X N. pose proof (by_dimension limit s d C X N) as H.
  destruct (m_get_unit limit s None (Some (Expr d)) None) as [u|e]; [|exact H].
  destruct H as (q & D & U). exists q. split; [exact D|]. split; [exact U|]. intro M. now apply dimension_declared with q.
Qed.
(** By a quantity. *)
Theorem C253_quantity : forall limit s key q u, 10 <= limit -> spells key q -> unit_is s q u -> key <> [] -> key <> lit "1" ->
  m_get_unit limit s None None (Some (Text key)) = Ok u.
Proof.
  intros limit s key q u L S U N1 N2. unfold m_get_unit, get_unit. cbn [first_unit target_text].
  replace (truthy (Text key)) with true by (destruct key; [congruence|reflexivity]). rewrite str_eqb_neq by exact N2.
  unfold from_quantity. cbn [target_text]. pose proof (get_ok' limit key q s u L S U) as G. unfold m_get in G. now rewrite G.
Qed.
(** By a quantity after a dimension that no quantity has. *)
Theorem C253_fallback : forall limit s d key q u, canonical d -> exactly d -> expr_format F64 d <> lit "1" ->
  (forall q', ~ declared s q' d) -> 10 <= limit -> spells key q -> unit_is s q u -> key <> [] -> key <> lit "1" ->
  m_get_unit limit s None (Some (Expr d)) (Some (Text key)) = Ok u.
Proof.
  intros limit s d key q u C X N A L S U N1 N2. rewrite past_dimension by assumption. now apply C253_quantity with q.
Qed.
(** By nothing, and by the number 1. *)
Theorem C253_nothing : forall limit s,
  m_get_unit limit s None None None = Err SearchError
  /\ forall t d q, 10 <= limit -> target_text F64 t = lit "1" -> exists e, writes (lit "1") e /\ m_get_unit limit s (Some t) d q = Ok e.
Proof.
  intros limit s. split; [reflexivity|]. intros t d q L E. destruct (by_one limit s t L) as [(e & W & H)|H]; [|contradiction].
  exists e. auto.
Qed.
(** By an empty text: as if that argument had not been given. *)
Theorem C253_empty : forall limit s unit dimension quantity,
  m_get_unit limit s (Some (Text [])) dimension quantity = m_get_unit limit s None dimension quantity
  /\ m_get_unit limit s unit (Some (Text [])) quantity = m_get_unit limit s unit None quantity
  /\ m_get_unit limit s unit dimension (Some (Text [])) = m_get_unit limit s unit dimension None.
Proof. intros. repeat split. Qed.
Print Assumptions C253_empty.
Print Assumptions C253_unit.
Print Assumptions C187_dimension_partial.
Print Assumptions C253_quantity.
Print Assumptions C253_fallback.
Print Assumptions C253_nothing.

Example C187_example : canonical (the "L / T") /\ exactly (the "L / T") /\ expr_format F64 (the "L / T") <> lit "1"
  /\ declared Mks (lit "velocity") (the "L / T") /\ unit_is Mks (lit "velocity") (the "m / s").
Proof.
  assert (exact_b (the "L / T") = true) as H by (vm_compute; reflexivity). apply exact_b_ok in H as [C X].
  split; [exact C|]. split; [exact X|]. split; [vm_compute; discriminate|]. split.
  - exists (lit "L T^-1"). split; [row "velocity"%string|]. apply computes. vm_compute. reflexivity.
  - exists (lit "m s^-1"). split; [row "velocity"%string|]. apply computes. vm_compute. reflexivity.
Qed.

Example C187_fallback_example : canonical (the "L^7") /\ exactly (the "L^7") /\ expr_format F64 (the "L^7") <> lit "1"
  /\ forall q, ~ declared Mks q (the "L^7").
Proof.
  assert (exact_b (the "L^7") = true) as H by (vm_compute; reflexivity). apply exact_b_ok in H as [C X].
  assert (expr_format F64 (the "L^7") <> lit "1") as N by (vm_compute; discriminate).
  split; [exact C|]. split; [exact X|]. split; [exact N|].
  pose proof (by_dimension 10 Mks (the "L^7") C X N) as B.
  assert (m_get_unit 10 Mks None (Some (Expr (the "L^7"))) None = Err SearchError) as E by (vm_compute; reflexivity).
  rewrite E in B. exact (proj2 B).
Qed.

(** The same dimension given as text is found or not according to the way it is
    written. *)
Theorem C187_text_refuted : exists a b d u, writes a d /\ writes b d
  /\ m_get_unit 10 Mks None (Some (Text a)) None = Ok u /\ m_get_unit 10 Mks None (Some (Text b)) None = Err SearchError.
Proof.
  exists (lit "L T^-1"), (lit "L / T"), (the "L / T"), (the "m / s").
  split; [apply computes; vm_compute; reflexivity|]. split; [apply computes; vm_compute; reflexivity|].
  split; [apply computes; vm_compute; reflexivity|]. vm_compute. reflexivity.
Qed.
(** The unit found for a luminous intensity has another dimension. *)
Theorem C187_dimension_refuted : exists d u e, m_get_unit 10 Mks None (Some (Expr d)) None = Ok u
  /\ m_dimension (mkProperties Mks u) = Ok (Some e) /\ ~ same_monomial d e.
Proof.
  exists (the "J"), (the "cd sr"), (the "T"). split; [apply computes; vm_compute; reflexivity|]. split.
  - assert (match m_dimension (mkProperties Mks (the "cd sr")) with Ok (Some x) => terms_are x (the "T") | _ => false end = true) as M
      by (vm_compute; reflexivity).
    destruct (m_dimension _) as [[x|]|]; try discriminate. apply terms_are_eq in M. now subst x.
  - intros [_ S]. assert (lit "J" <> lit "1") as N by discriminate. specialize (S _ N).
    assert (Qc_eqb (total_expo (lit "J") (the "J")) (total_expo (lit "J") (the "T")) = false) as D by (vm_compute; reflexivity).
    rewrite S, Qc_eqb_refl in D. discriminate.
Qed.
Print Assumptions C187_text_refuted.
Print Assumptions C187_dimension_refuted.

(** ** C188 The norm of a unit measures the same quantity in each system *)

Theorem C188_norm_partial : forall limit x q, 6 <= limit -> product_of_units x -> exponent_of q x <> 0%Qc ->
  exists r, m_norm limit x = Ok r /\ forall s,
    canonical (pick s r)
    /\ (forall t, In t (pick s r) -> belongs s (base t) /\ coef t = 1%Qc)
    /\ (forall c, c <> lit "1" -> exists es,
          Forall2 (fun t e => exists q, measures (base t) q /\ share s c q e) x es
          /\ total_expo c (pick s r) = sumQc (map (fun p => (expo (fst p) * snd p)%Qc) (combine x es)))
    /\ (Forall (fun t => belongs s (base t)) x ->
          exists d, m_dimension_of s (pick s r) = Ok d /\ m_dimension_of s x = Ok d)
    /\ exists r', m_norm limit (pick s r) = Ok r' /\ pick s r' = pick s r.
Proof. exact norm_full. Qed.
Print Assumptions C188_norm_partial.

Example C188_example : product_of_units (the "J s / au") /\ exponent_of (lit "energy") (the "J s / au") <> 0%Qc
  /\ m_norm 6 (the "J s / au") = Ok (the "J s / m", the "erg s / cm").
Proof.
  split; [|split].
  - split; [vm_compute; discriminate|]. split; [|vm_compute; discriminate].
    assert (forall l : list term, forallb (fun t => match identified (base t) with
        | Some n => negb (existsb (str_eqb (n_quantity n)) photometric) | None => false end
        && Qc_is_int (expo t) && negb (Qc_num (expo t) =? 0)%Z) l = true ->
      Forall (fun t => (exists q, measures (base t) q /\ ~ In q photometric) /\ exists k, expo t = Qc_of_Z k /\ k <> 0%Z) l) as H.
    { intros l H. rewrite forallb_forall in H. apply Forall_forall. intros t I. specialize (H t I). rewrite !andb_true_iff, !negb_true_iff in H.
      destruct H as [[H1 H2] H3]. split.
      - destruct (identified (base t)) as [n|] eqn:En; [|discriminate]. apply negb_true_iff in H1. exists (n_quantity n).
        split; [exists n; auto|now apply in_dec_b].
      - exists (Qc_num (expo t)). split; [|now apply Z.eqb_neq]. unfold Qc_is_int in H2. apply Pos.eqb_eq in H2. apply Qc_is_canon.
        unfold Qc_of_Z. cbn [this Q2Qc]. rewrite Qred_correct. unfold Qc_num, Qc_den in *.
        destruct (this (expo t)) as [a b]. cbn [Qnum Qden] in *. subst b. reflexivity. }
    apply H. vm_compute. reflexivity.
  - apply differ. vm_compute. reflexivity.
  - apply gives_units_ok. vm_compute. reflexivity.
Qed.

(** A product of units whose quantities cancel has no norm: computing it does
    not end. *)
Theorem C188_cancelling_refuted : forall limit x, product_of_units x -> (forall q, exponent_of q x = 0%Qc) ->
  m_norm limit x = Err OutOfFuel.
Proof. exact cancelling. Qed.
Print Assumptions C188_cancelling_refuted.
Example C188_cancelling_example : forall q, exponent_of q (the "m / km") = 0%Qc.
Proof.
  intro q. assert (forall b k : str, exponent_of q [mkTerm 1 b 1; mkTerm 1 k (Qc_of_Z (-1))] = 0%Qc \/ ~ (forall p, measures_b b p = measures_b k p)) as H.
  { intros b k. unfold exponent_of. cbn [filter base]. destruct (measures_b b q) eqn:B, (measures_b k q) eqn:K.
    - left. reflexivity.
    - right. intro H. rewrite H in B. congruence.
    - right. intro H. rewrite H in B. congruence.
    - left. reflexivity. }
  assert (the "m / km" = [mkTerm 1 (lit "m") 1; mkTerm 1 (lit "km") (Qc_of_Z (-1))]) as -> by (apply terms_are_eq; vm_compute; reflexivity).
  destruct (H (lit "m") (lit "km")) as [E|E]; [exact E|]. exfalso. apply E. intro p. unfold measures_b.
  assert (match identified (lit "m"), identified (lit "km") with Some n, Some k => str_eqb (n_quantity n) (n_quantity k) | _, _ => false end = true) as S
    by (vm_compute; reflexivity).
  destruct (identified (lit "m")) as [n|]; [|discriminate]. destruct (identified (lit "km")) as [k|]; [|discriminate].
  destruct (str_eqb_spec (n_quantity n) (n_quantity k)) as [->|]; [reflexivity|discriminate].
Qed.

(** Numbers are lost, units of two systems do not keep their dimension, and the
    units of light lose their meaning. *)
Theorem C188_norm_refuted :
  (exists x y, total_coef x <> total_coef y /\ exists z, m_norm 10 x = Ok (y, z))
  /\ (exists x y z d e, m_norm 10 x = Ok (y, z) /\ m_dimension_of Mks x = Ok d /\ m_dimension_of Mks y = Ok e /\ ~ same_monomial d e)
  /\ (m_norm 10 (the "cd") = Ok (the "s", the "s"))
  /\ forall limit, m_norm limit (the "lx") = Err OutOfFuel.
Proof.
  split; [|split; [|split]].
  - exists (the "2 m"), (the "m"). split; [apply differ; vm_compute; reflexivity|]. exists (the "cm"). apply gives_units_ok. vm_compute. reflexivity.
  - exists (the "statC m"), (the "C m"), (the "statC cm"), (the "L^5/2 M^1/2 T^-1"), (the "I L T").
    split; [apply gives_units_ok; vm_compute; reflexivity|]. split; [apply computes; vm_compute; reflexivity|].
    split; [apply computes; vm_compute; reflexivity|].
    intros [_ S]. assert (lit "I" <> lit "1") as N by discriminate. specialize (S _ N).
    assert (Qc_eqb (total_expo (lit "I") (the "L^5/2 M^1/2 T^-1")) (total_expo (lit "I") (the "I L T")) = false) as D by (vm_compute; reflexivity).
    rewrite S, Qc_eqb_refl in D. discriminate.
  - apply gives_units_ok. vm_compute. reflexivity.
  - intro limit. unfold m_norm, norm. fold m_quantity.
    assert (m_quantity (the "lx") = Ok [mkTerm 1 (lit "illuminance") 1]) as -> by (apply computes; vm_compute; reflexivity).
    cbn [bind]. unfold norm_in. cbn [mapM base].
    assert (unknown_word (lit "illuminance")) as (N & W & Q & U).
    { split; [discriminate|]. split; [|split].
      - repeat (constructor; [match goal with |- exists n, _ /\ ?c = _ =>
          let k := eval vm_compute in (nat_of_ascii c - 97) in exists k; split; [lia|reflexivity] end|]). constructor.
      - intros (r & H). discriminate H.
      - apply in_dec_b. vm_compute. reflexivity. }
    pose proof (unknown_diverges false (lit "illuminance") N W Q U limit) as D. unfold m_prop in D. rewrite D. reflexivity.
Qed.
Print Assumptions C188_norm_refuted.

(** ** C189 Equality and equivalence of quantities *)

Theorem C254_equality : forall limit a b x y, m_new limit a = Ok x -> m_new limit b = Ok y ->
  (same_quantity x y = true <-> same_but_case a b) /\ (quantity_is x b = true <-> same_but_case a b).
Proof.
  intros limit a b x y X Y. apply new_name in X, Y. unfold same_quantity, quantity_is. rewrite X, Y, <- !lower_same.
  destruct (str_eqb_spec (lower a) (lower b)) as [E|E].
  - rewrite E, str_eqb_refl. tauto.
  - rewrite (str_eqb_neq (lower b) (lower a)) by congruence. split; (split; [discriminate|contradiction]).
Qed.
Theorem C189_equivalence_partial : forall limit a b p q, 10 <= limit -> spells a p -> spells b q ->
  In p (map fst the_canonical) -> In q (map fst the_canonical) -> ~ In p mismatched -> ~ In q mismatched ->
  exists x y, m_new limit a = Ok x /\ m_new limit b = Ok y
    /\ exists v, m_equivalent x y = Ok v /\ (v = true <-> forall s d, declared s p d <-> declared s q d).
Proof. exact equivalent_ok. Qed.
Print Assumptions C254_equality.
Print Assumptions C189_equivalence_partial.

Example C189_example : exists x y z, m_new 10 (lit "Energy") = Ok x /\ m_new 10 (lit "work") = Ok y /\ m_new 10 (lit "power") = Ok z
  /\ same_quantity x y = false /\ m_equivalent x y = Ok true /\ m_equivalent x z = Ok false.
Proof.
  eexists _, _, _. split; [vm_compute; reflexivity|]. split; [vm_compute; reflexivity|]. split; [vm_compute; reflexivity|].
  split; [vm_compute; reflexivity|]. split; vm_compute; reflexivity.
Qed.

Theorem C189_equivalence_refuted : exists x y, m_new 10 (lit "luminous intensity") = Ok x /\ m_new 10 (lit "time") = Ok y
  /\ m_equivalent x y = Ok true
  /\ exists d e, declared Mks (lit "luminous intensity") d /\ declared Mks (lit "time") e /\ ~ same_monomial d e.
Proof.
  eexists _, _. split; [vm_compute; reflexivity|]. split; [vm_compute; reflexivity|]. split; [vm_compute; reflexivity|].
  exists (the "J"), (the "T"). split; [|split].
  - exists (lit "J"). split; [row "luminous intensity"%string|]. apply computes. vm_compute. reflexivity.
  - exists (lit "T"). split; [row "time"%string|]. apply computes. vm_compute. reflexivity.
  - intros [_ S]. assert (lit "J" <> lit "1") as N by discriminate. specialize (S _ N).
    assert (Qc_eqb (total_expo (lit "J") (the "J")) (total_expo (lit "J") (the "T")) = false) as D by (vm_compute; reflexivity).
    rewrite S, Qc_eqb_refl in D. discriminate.
Qed.
Print Assumptions C189_equivalence_refuted.

(** ** C190 The quantities that have a dimension *)

Theorem C255_quantities : forall s d, canonical d -> exactly d ->
  exists r, m_quantities d (named_as s) = Ok r /\ forall q, In q r <-> declared s q d.
Proof. exact quantities_ok. Qed.
Theorem C190_name_refuted : forall d, exists name, spells name (named_as Mks) /\ new_system name = Ok Mks /\ m_quantities d name = Err KeyError.
Proof.
  intro d. exists (lit "MKS"). split; [|split; reflexivity].
  repeat (constructor; [right; match goal with |- exists n, _ /\ ?c = _ /\ _ =>
      let k := eval vm_compute in (nat_of_ascii c - 65) in exists k; split; [lia|split; reflexivity] end|]). constructor.
Qed.
Print Assumptions C255_quantities.
Print Assumptions C190_name_refuted.
Example C190_example : m_quantities (the "1 / T") (lit "mks") = Ok [lit "frequency"; lit "radioactivity"; lit "vorticity"].
Proof. vm_compute. reflexivity. Qed.
