(** Properties of the EPREM interface. *)

From Coq Require Import String Ascii List Bool ZArith QArith Qcanon Lia Permutation.
From Verif Require Import Py PyFacts PyDict QcOrder EpremModel EpremSpec EpremProofs.
Import ListNotations.
Open Scope list_scope.
Open Scope nat_scope.

(** ** C57: species symbols *)

Lemma table_distinct : NoDup (map fst elements_table).
Proof.
  assert (forall l : list str, (fix go l := match l with [] => true | x :: l' => negb (inb x l') && go l' end) l = true -> NoDup l) as H.
  { induction l as [|x l IH]; intro E; constructor; apply andb_true_iff in E as [E1 E2].
    - intro I. apply inb_in in I. now rewrite I in E1.
    - now apply IH. }
  apply H. vm_compute. reflexivity.
Qed.

(** For every list of masses, each is that of a first element in the table or
    of none. *)
Theorem C258_cases : forall mass,
  (exists symbols, Forall2 (first_element elements_table) mass symbols)
  \/ exists q, In q mass /\ no_element elements_table q.
Proof.
  induction mass as [|q mass [(symbols & F)|(x & I & H)]].
  - left. exists []. constructor.
  - destruct (element_cases elements_table table_distinct q) as [H|[s H]].
    + right. exists q. split; [now left|assumption].
    + left. exists (s :: symbols). now constructor.
  - right. exists x. split; [now right|assumption].
Qed.
Print Assumptions C258_cases.

(** Masses of elements and integral charges give the symbols of the elements
    with a sign for each charge; unknown masses and lists of different length
    are rejected. *)
Theorem C258_elements : forall mass charge,
  (forall symbols charges, charge = map Qc_of_Z charges -> length mass = length charges ->
     Forall2 (first_element elements_table) mass symbols ->
     elements elements_table mass charge = Ok (map (fun p => fst p ++ charged (snd p)) (combine symbols charges)))
  /\ (forall q, length mass = length charge -> In q mass -> no_element elements_table q ->
     elements elements_table mass charge = Err MassValueError)
  /\ (length mass <> length charge -> elements elements_table mass charge = Err TypeError).
Proof.
  intros mass charge. split; [|split].
  - intros symbols charges -> L F. rewrite (elements_ok elements_table table_distinct mass _ symbols); [|now rewrite map_length|assumption].
    f_equal. clear. revert charges. induction symbols as [|s symbols IH]; intros [|z charges]; cbn [combine map]; [reflexivity..|].
    cbn [fst snd]. rewrite signs_Z. f_equal. apply IH.
  - intros q L I H. now apply (elements_unknown elements_table table_distinct mass charge q).
  - intro N. unfold elements. destruct (Nat.eqb_spec (length mass) (length charge)); [contradiction|reflexivity].
Qed.
Print Assumptions C258_elements.

(** An element is identified by its own mass, unless one before it in the table
    has the same rounded mass. *)
Theorem C57_identified_partial : forall before after s m z, elements_table = before ++ (s, m) :: after ->
  (forall e k, In e before -> rounds m k -> ~ rounds (snd e) k) ->
  elements elements_table [m] [Qc_of_Z z] = Ok [s ++ charged z].
Proof.
  intros b a s m z E H. destruct (C258_elements [m] [Qc_of_Z z]) as [K _].
  rewrite (K [s] [z]); [reflexivity..|]. constructor; [|constructor].
  exists b, a, m, (py_round m). split; [assumption|]. split; [apply py_round_rounds|]. split; [apply py_round_rounds|].
  intros e I. apply H; [assumption|apply py_round_rounds].
Qed.
Print Assumptions C57_identified_partial.

(** Calcium (of mass 40.08) is taken for argon. *)
Theorem C57_identified_refuted : In (lit "Ca", Q2Qc (1002 # 25)) elements_table
  /\ elements elements_table [Q2Qc (1002 # 25)] [Qc_of_Z 2] = Ok [lit "Ar++"].
Proof.
  split; [|vm_compute; reflexivity].
  apply (nth_error_In _ 19). reflexivity.
Qed.
Print Assumptions C57_identified_refuted.

Example C57_case : elements elements_table [Q2Qc (100797 # 100000); Q2Qc 4; Q2Qc (325 # 2)] (map Qc_of_Z [1%Z; 2%Z; (-3)%Z])
  = Ok [lit "H+"; lit "He++"; lit "Dy---"]
  /\ elements elements_table [Q2Qc 2] [Qc_of_Z 1] = Err MassValueError.
Proof. split; vm_compute; reflexivity. Qed.

(** ** C58: dimensions of computed quantities *)

(** What is computed: the dimensions added by the function or by any function
    on which it depends, and those of the variables on which it depends that no
    function removes; the axes of the dataset first, in its order; each once. *)
Theorem C242_members : forall names variables functions listing fuel key l,
  (forall s, Permutation s (listing s)) ->
  get_dimensions names variables functions listing fuel key = Ok l ->
  exists f, functions key = Some f
  /\ (forall d, In d l <->
        (In d (f_added f) \/ exists h, below variables functions f h /\ In d (f_added h))
        \/ (uses variables functions f d /\ ~ In d (f_removed f) /\ forall h, below variables functions f h -> ~ In d (f_removed h)))
  /\ in_dataset_order names l /\ (NoDup names -> NoDup l).
Proof. intros names variables functions listing fuel key l P. now apply dimensions_members. Qed.
Print Assumptions C242_members.

(** There are no dimensions of what is not a function. *)
Theorem C242_unknown : forall names variables functions listing fuel key, functions key = None ->
  get_dimensions names variables functions listing fuel key = Err AttributeError.
Proof. intros names variables functions listing fuel key H. unfold get_dimensions. now rewrite H. Qed.
Print Assumptions C242_unknown.

(** If the functions are not recursive, there is a result, whatever the depth of
    the dependencies. *)
Theorem C242_terminates : forall names variables functions listing rank key f,
  ranked variables functions rank -> functions key = Some f ->
  forall limit, rank key < limit -> exists l, get_dimensions names variables functions listing limit key = Ok l.
Proof. intros. now apply (dimensions_total names variables functions listing rank key f). Qed.
Print Assumptions C242_terminates.

(** The dimensions of a function are those of its dependencies, without the
    removed and with the added ones, provided that what a function removes is
    not a dimension of another dependency and that no added dimension is
    removed.  Missing: that it holds without these conditions. *)
Theorem C58_composed_partial : forall names variables functions listing fuel key f l,
  (forall s, Permutation s (listing s)) -> functions key = Some f ->
  (forall h d, below variables functions f h -> In d (f_removed h) -> forall p, In p (f_params f) -> ~ has_dimension variables functions p d) ->
  (forall g h d, g = f \/ below variables functions f g -> h = f \/ below variables functions f h -> In d (f_added g) -> ~ In d (f_removed h)) ->
  get_dimensions names variables functions listing fuel key = Ok l ->
  forall d, In d l <-> function_dimension variables functions f d.
Proof.
  intros names variables functions listing fuel key f l P F C1 C2 G d.
  destruct (dimensions_members names variables functions listing P fuel key l G) as (f' & F' & M & _).
  rewrite F in F'. injection F' as <-. rewrite M. symmetry. now apply composed.
Qed.
Print Assumptions C58_composed_partial.

(** A registry: [f] depends on the variable [v], with dimensions time and mu, and
    on [g], which averages [v] over mu; a second function depends on [g] only. *)
Definition case_variables (p : str) : option (list str) :=
  if str_eqb p (lit "v") then Some [lit "mu"; lit "time"] else None.
Definition case_functions (p : str) : option fn :=
  if str_eqb p (lit "f") then Some (mkFn [lit "v"; lit "g"] [] [])
  else if str_eqb p (lit "g") then Some (mkFn [lit "v"] [lit "mu"] [])
  else if str_eqb p (lit "h") then Some (mkFn [lit "g"; lit "lambda0"] [] [lit "minimum energy"]) else None.
Definition case_dimensions : str -> res (list str) :=
  get_dimensions [lit "time"; lit "shell"; lit "mu"] case_variables case_functions (fun l => l) 5.

(** The dimension mu of [v] is lost from [f], because [g] removes it from its own
    result. *)
Theorem C58_composed_refuted : case_dimensions (lit "f") = Ok [lit "time"]
  /\ exists f, case_functions (lit "f") = Some f /\ function_dimension case_variables case_functions f (lit "mu").
Proof.
  split; [reflexivity|]. eexists. split; [reflexivity|]. right. split; [|intros []]. exists (lit "v"). split; [now left|].
  apply (of_variable _ _ _ [lit "mu"; lit "time"]); [reflexivity|now left].
Qed.
Print Assumptions C58_composed_refuted.

Example C58_case : case_dimensions (lit "h") = Ok [lit "time"; lit "minimum energy"]
  /\ case_dimensions (lit "g") = Ok [lit "time"]
  /\ ranked case_variables case_functions (fun p => if str_eqb p (lit "g") then 1 else 2).
Proof.
  split; [reflexivity|]. split; [reflexivity|]. intros p f q F I V N.
  assert (q = lit "g") as ->.
  { unfold case_functions in F. destruct (str_eqb p (lit "f")); [|destruct (str_eqb p (lit "g")); [|destruct (str_eqb p (lit "h")); [|discriminate]]];
      injection F as <-; cbn [f_params] in I.
    - destruct I as [<-|[<-|[]]]; [discriminate V|reflexivity].
    - destruct I as [<-|[]]. discriminate V.
    - destruct I as [<-|[<-|[]]]; [reflexivity|]. exfalso. now apply N. }
  destruct (str_eqb_spec p (lit "g")) as [->|]; [|cbn; lia]. injection F as <-. destruct I as [E|[]]. discriminate E.
Qed.

(** The conditions of [C58_composed_partial] hold of [h]. *)
Example C58_case_conditions : forall f, case_functions (lit "h") = Some f ->
  (forall h d, below case_variables case_functions f h -> In d (f_removed h) -> forall p, In p (f_params f) -> ~ has_dimension case_variables case_functions p d)
  /\ (forall g h d, g = f \/ below case_variables case_functions f g -> h = f \/ below case_variables case_functions f h -> In d (f_added g) -> ~ In d (f_removed h)).
Proof.
  intros f F. injection F as <-.
  assert (forall h, below case_variables case_functions (mkFn [lit "g"; lit "lambda0"] [] [lit "minimum energy"]) h -> h = mkFn [lit "v"] [lit "mu"] []) as B.
  { intros h H. inversion H as [p h' I V F|p g h' I V F Bg]; subst; cbn [f_params] in I; destruct I as [<-|[<-|[]]]; try discriminate F.
    - now injection F as <-.
    - injection F as <-. inversion Bg as [q h' I' V' F'|q g' h' I' V' F' _]; cbn [f_params] in I'; destruct I' as [<-|[]]; discriminate V'. }
  split.
  - intros h d H I p J X. apply B in H as ->. cbn [f_removed f_params] in I, J. destruct I as [<-|[]].
    destruct J as [<-|[<-|[]]]; inversion X as [q dims d V D|q f d V F A|q f r d V F A D N]; subst; try discriminate.
    + injection F as <-. destruct A.
    + injection F as <-. apply N. now left.
  - intros g h d [->|G] [->|H] A R; try (apply B in G; subst); try (apply B in H; subst); cbn [f_added f_removed] in A, R.
    + destruct R.
    + destruct A as [<-|[]]. destruct R as [R|[]]. discriminate R.
    + destruct A.
    + destruct A.
Qed.

(** ** C59: unit strings *)

Theorem C59_standardize : forall num den,
  (~ In "/"%char num -> ~ In (num ++ "/"%char :: den) (map fst unit_map) ->
     standardize (num ++ "/"%char :: den) = strip num ++ lit " / (" ++ strip den ++ lit ")")
  /\ (~ In "/"%char num -> ~ In num (map fst unit_map) -> standardize num = num).
Proof. intros num den. split; [apply standardize_slash|apply standardize_plain]. Qed.
Print Assumptions C59_standardize.

(** The non-standard units. *)
Theorem C59_substitutions :
  map (fun p => (fst p, standardize (fst p))) unit_map =
  [(lit "julian date", lit "day"); (lit "shell", lit "1"); (lit "cos(mu)", lit "1"); (lit "e-", lit "e");
   (lit "# / cm^2 s sr MeV", lit "# / (cm^2 s sr MeV/nuc)")].
Proof. reflexivity. Qed.
Print Assumptions C59_substitutions.

Example C59_case : standardize (lit "J /  cm^2 s ") = lit "J / (cm^2 s)" /\ standardize (lit "km/s") = lit "km / (s)".
Proof. split; reflexivity. Qed.

(** ** C121: standard unit strings *)

(** A unit without a slash is standard after being standardised once. *)
Theorem C121_plain_partial : forall u, ~ In "/"%char u -> standardize (standardize u) = standardize u.
Proof.
  intros u N. unfold standardize at 2 3. destruct (d_get str_eqb unit_map u) as [v|] eqn:E.
  - assert (In v (map snd unit_map)) as I.
    { apply (d_get_in str_eqb str_eqb_spec) in E. apply in_map_iff. now exists (u, v). }
    assert (u <> lit "# / cm^2 s sr MeV") as M by (intros ->; apply N; cbn; tauto).
    destruct I as [<-|[<-|[<-|[<-|[<-|[]]]]]]; try reflexivity.
    exfalso. apply M. apply (d_get_in str_eqb str_eqb_spec) in E.
    destruct E as [E|[E|[E|[E|[E|[]]]]]]; try discriminate. now injection E as <-.
  - rewrite split_slash_none by assumption. apply standardize_plain; [assumption|].
    intro I. apply (d_get_none str_eqb str_eqb_spec) in E. contradiction.
Qed.
Print Assumptions C121_plain_partial.

Theorem C121_idempotent_refuted : standardize (lit "km/s") = lit "km / (s)"
  /\ standardize (standardize (lit "km/s")) = lit "km / ((s))".
Proof. split; reflexivity. Qed.
Print Assumptions C121_idempotent_refuted.

(** ** C122: units of computed quantities *)

(** A quantity requested in another unit has the new unit and the old number,
    also for everyone who asks for it by that name later. *)
Theorem C122_unit_refuted : forall default result cache k u,
  call default result (set_unit default cache k u) k = (fst (call default result cache k), u).
Proof.
  intros. unfold call, set_unit, get_quantity at 1. cbn [fst snd]. rewrite d_get_set_same by apply str_eqb_spec. reflexivity.
Qed.
Print Assumptions C122_unit_refuted.

(** Other names are not affected, and without a request the unit is that of the
    metric system. *)
Theorem C122_others_partial : forall default result cache k u j, j <> k ->
  call default result (set_unit default cache k u) j = call default result cache j
  /\ call default result [] j = (result j, default j).
Proof.
  intros default result cache k u j N. split; [|reflexivity].
  unfold call, set_unit. cbn [fst snd]. f_equal.
  assert (d_get str_eqb (d_set str_eqb (fst (get_quantity default cache k)) k u) j = d_get str_eqb cache j) as E.
  { rewrite d_get_set_other by (apply str_eqb_spec || assumption). unfold get_quantity. destruct (d_get str_eqb cache k); [reflexivity|].
    cbn [fst]. now apply (d_get_set_other str_eqb str_eqb_spec). }
  unfold get_quantity at 1 3. rewrite E. now destruct (d_get str_eqb cache j).
Qed.
Print Assumptions C122_others_partial.

Example C122_case : call (fun _ => lit "m / s") (fun _ => Qc_of_Z 5) (set_unit (fun _ => lit "m / s") [] (lit "V") (lit "km / s")) (lit "V")
  = (Qc_of_Z 5, lit "km / s").
Proof. reflexivity. Qed.

(** ** C123: resolving dimensions *)

(** Strict resolution gives the axes of the dataset among the names, in its
    order, and no others; appending adds the others; any other mode fails
    exactly if there are others. *)
Theorem C123_resolve : forall names given,
  resolve names given Strict = Ok (filter (fun n => inb n given) names)
  /\ (forall d, In d (filter (fun n => inb n given) names) <-> In d names /\ In d given)
  /\ (exists l, resolve names given Append = Ok l /\ (forall d, In d l <-> In d given) /\ in_dataset_order names l)
  /\ (resolve names given OtherMode = Err ValueError <-> exists d, In d given /\ ~ In d names).
Proof.
  intros names given. split; [reflexivity|]. split; [intro d; now rewrite filter_In, inb_in|]. split.
  - destruct (resolve_append names given) as (l & E & M & O & _). eauto.
  - unfold resolve. set (ordered := filter (fun n => inb n given) names).
    assert (forall d, In d (filter (fun n => negb (inb n ordered)) given) <-> In d given /\ ~ In d names) as X.
    { intro d. rewrite filter_In, negb_true_iff. destruct (inb d ordered) eqn:E.
      - apply inb_in in E. unfold ordered in E. apply filter_In in E. intuition congruence.
      - assert (~ In d ordered) as F by (intro G; apply inb_in in G; congruence). unfold ordered in F. rewrite filter_In, inb_in in F. tauto. }
    destruct (filter (fun n => negb (inb n ordered)) given) as [|x extra].
    + split; [discriminate|]. intros (d & H). now apply X in H.
    + split; [|reflexivity]. intros _. exists x. apply X. now left.
Qed.
Print Assumptions C123_resolve.

Example C123_case : resolve [lit "time"; lit "shell"] [lit "x"; lit "shell"; lit "time"] Append = Ok [lit "time"; lit "shell"; lit "x"]
  /\ resolve [lit "time"; lit "shell"] [lit "x"; lit "shell"] OtherMode = Err ValueError.
Proof. split; reflexivity. Qed.
