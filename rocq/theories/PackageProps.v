(** Properties of the interface to the package's own parameters, with the
    definitions in runtime.py and runtime.json. *)

From Coq Require Import String Ascii List Bool ZArith QArith Qcanon Lia.
From Verif Require Import Py PyFacts PyDict SymbolicModel AliasedModel AliasedSpec RuntimeModel RuntimeSpec RuntimeProofs.
From Verif Require Import PackageModel PackageSpec PackageProofs PackageNameProofs.
Import ListNotations.
Open Scope list_scope.
Open Scope nat_scope.

(** ** C305: numerals *)

(** A text is a real number exactly when it is a decimal numeral, possibly
    between spaces, and it is then the number written; it is a whole number
    exactly when the numeral has neither a point nor an exponent. *)
Theorem C305_numerals : forall s q,
  (read_float s = Some q <->
     exists b x a, s = b ++ decimal_text x ++ a /\ spaces b /\ spaces a /\ decimal_ok x /\ q = decimal_value x)
  /\ (read_int s = Some q <->
     exists b x a, s = b ++ decimal_text x ++ a /\ spaces b /\ spaces a /\ decimal_ok x /\ is_whole x /\ q = decimal_value x)
  /\ (cast s = Some q <->
     exists b x a, s = b ++ decimal_text x ++ a /\ spaces b /\ spaces a /\ decimal_ok x /\ q = decimal_value x).
Proof.
  intros s q. split; [|split]; split.
  - apply read_float_inv.
  - intros (b & x & a & -> & B & A & X & ->). now apply read_float_text.
  - apply read_int_inv.
  - intros (b & x & a & -> & B & A & X & W & ->). now apply read_int_text.
  - apply cast_inv.
  - intros (b & x & a & -> & B & A & X & ->). now apply cast_text.
Qed.
Print Assumptions C305_numerals.

Example C305_meets : let x := mkDecimal (Some true) (lit "4") (Some (lit "25")) (Some ("e"%char, Some false, lit "3")) in
  decimal_ok x /\ decimal_text x = lit "-4.25e+3" /\ decimal_value x = Qc_of_Z (-4250).
Proof.
  cbv zeta. split; [|split; [reflexivity|apply Qc_is_canon; reflexivity]].
  split; [repeat constructor; vm_compute; tauto|]. split; [split; [repeat constructor; vm_compute; tauto|left; discriminate]|].
  split; [now left|]. split; [repeat constructor; vm_compute; tauto|discriminate].
Qed.

(** ** C306: values of parameters *)

Lemma file_read file : Forall (line_ok ["#"%char]) (lines_of file) ->
  match option_map file_text file with Some s => config_file [] s | None => Ok [] end = Ok (d_of str_eqb (entries (lines_of file))).
Proof. intros H. destruct file as [ls|]; [|reflexivity]. apply config_ok; [intros []|exact H]. Qed.
Lemma means_given_file ls n v : means (given (d_of str_eqb (entries ls))) n v <-> means (chosen ls) n v.
Proof. split; apply means_ext; intros m; [|symmetry]; apply chosen_given. Qed.

(** Every text that can be read has the value that it means: each parameter of
    the package has the user's value, or else the value of its default, which
    may be that of other parameters. *)
Theorem C306_values_partial : forall file, Forall (line_ok ["#"%char]) (lines_of file) ->
  exists user, match option_map file_text file with Some s => config_file [] s | None => Ok [] end = Ok user
  /\ forall n v, means (chosen (lines_of file)) n v ->
     exists N, forall fuel, N <= fuel -> runtime_getitem F64 (the_run user) fuel n = Ok v.
Proof.
  intros file H. exists (d_of str_eqb (entries (lines_of file))). split; [now apply file_read|]. intros n v M. apply means_given_file in M.
  destruct (means_evaluated _ _ _ M) as [N E]. exists N. intros k L. unfold runtime_getitem. change (r_reference (the_run _)) with parameters.
  assert (d_has str_eqb parameters n = true) as -> by (apply (d_has_in str_eqb str_eqb_spec); exact (means_parameter _ _ _ M)). now apply E.
Qed.
Print Assumptions C306_values_partial.

(** Exactly one meaning for each of the parameters, as long as all texts can
    be read and the stop time is known. *)
Theorem C306_meanings_partial : forall ls, all_read (chosen ls) -> stops (chosen ls) ->
  forall n, In n (map fst parameters) -> exists! v, means (chosen ls) n v.
Proof.
  intros ls A S n I. destruct (every_meaning (chosen ls) A n I) as [v M].
  - intros -> G. now apply S.
  - exists v. split; [exact M|]. intros w Mw. apply (means_functional (d_of str_eqb (entries ls)) n); now apply means_given_file.
Qed.
Print Assumptions C306_meanings_partial.

Lemma getitem_evaluate user fuel n : In n (map fst parameters) -> runtime_getitem F64 (the_run user) fuel n = evaluate F64 (the_run user) fuel (RStr n).
Proof.
  intros I. unfold runtime_getitem. change (r_reference (the_run user)) with parameters.
  assert (d_has str_eqb parameters n = true) as -> by (now apply (d_has_in str_eqb str_eqb_spec)). reflexivity.
Qed.
Lemma mapM_fails {A B} (f : A -> res B) (bad : A) e l : In bad l -> f bad = Err e -> (forall x, In x l -> x <> bad -> exists y, f x = Ok y) ->
  (forall x y : A, {x = y} + {x <> y}) -> mapM f l = Err e.
Proof.
  intros I Fb G dec. induction l as [|x l IH]; [destruct I|]. cbn [mapM]. destruct (dec x bad) as [->|N]; [now rewrite Fb|].
  destruct (G x (or_introl eq_refl) N) as [y ->]. cbn [bind]. destruct I as [->|I]; [contradiction|].
  rewrite IH; [reflexivity|exact I|]. intros z J. apply G. now right.
Qed.
(** When the start time and the step cancel, there is no stop time, and no
    parameter at all can be read. *)
Theorem C306_stop_time_refuted : forall mkset file x y, Forall (line_ok ["#"%char]) (lines_of file) ->
  let user := chosen (lines_of file) in
  all_read user -> user (lit "simStopTime") = None ->
  means user (lit "simStartTime") (RReal x) -> means user (lit "tDel") (RReal y) -> (x + y = 0)%Qc ->
  exists N, forall fuel, N <= fuel -> open_package F64 mkset fuel (option_map file_text file) = Err TypeError.
Proof.
  intros mkset file x y H user A G Mx My Z. unfold user in *. set (u := d_of str_eqb (entries (lines_of file))).
  assert (eventually (fun k => forall n, In n (map fst parameters) -> n <> lit "simStopTime" -> exists v, evaluate F64 (the_run u) k (RStr n) = Ok v)) as [N1 H1].
  { apply eventually_all. intros n I. destruct (str_eqb_spec n (lit "simStopTime")) as [->|Nn]; [exists 0; intros k _ X; contradiction|].
    destruct (every_meaning _ A n I) as [v M]; [intros ->; contradiction|]. apply means_given_file in M.
    destruct (means_evaluated _ _ _ M) as [N E]. exists N. intros k L _. exists v. now apply E. }
  destruct (stop_zero u x y) as [N2 H2]; [unfold u; now rewrite chosen_given|now apply means_given_file|now apply means_given_file|exact Z|].
  exists (N1 + N2). intros k L. unfold open_package. rewrite (file_read file H). cbn [bind]. unfold all_values.
  rewrite (mapM_fails _ (lit "simStopTime") TypeError); [reflexivity| | | |apply str_eq_dec].
  - exact (row_in _ _ _ stop_row).
  - rewrite getitem_evaluate by exact (row_in _ _ _ stop_row). fold u. rewrite H2 by lia. reflexivity.
  - intros n I Nn. rewrite getitem_evaluate by exact I. fold u. destruct (H1 k ltac:(lia) n I Nn) as [v ->]. cbn [bind]. eauto.
Qed.
Print Assumptions C306_stop_time_refuted.
(** A whole number given as 0.0 cannot be read. *)
Theorem C306_whole_refuted : forall file n d, Forall (line_ok ["#"%char]) (lines_of file) ->
  In (n, (TInt, d)) parameters -> chosen (lines_of file) n = Some (lit "0.0") ->
  exists user, match option_map file_text file with Some s => config_file [] s | None => Ok [] end = Ok user
  /\ forall fuel, 6 <= fuel -> runtime_getitem F64 (the_run user) fuel n = Err TypeError.
Proof.
  intros file n d H I C. exists (d_of str_eqb (entries (lines_of file))). split; [now apply file_read|]. intros k L.
  rewrite getitem_evaluate by exact (row_in _ _ _ I). replace k with (6 + (k - 6)) by lia. apply (whole_zero _ n d I). now rewrite chosen_given.
Qed.
Print Assumptions C306_whole_refuted.

(** ** C307: names and units *)

(** With a file whose texts can all be read, every parameter has its value and
    its unit under each of its names, and no other name is known. *)
Theorem C307_interface : forall mkset file, set_order mkset -> Forall (line_ok ["#"%char]) (lines_of file) ->
  let user := chosen (lines_of file) in
  all_read user -> stops user ->
  exists N, forall fuel, N <= fuel -> exists m, open_package F64 mkset fuel (option_map file_text file) = Ok m
  /\ (forall k v a u, means user k v -> names_parameter k a -> has_unit k u -> getitem m a = Ok (v, u))
  /\ (forall k v a u, In (k, v) local_values -> names_parameter k a -> has_unit k u -> getitem m a = Ok (v, u))
  /\ (forall a, (forall k, a_parameter k -> ~ names_parameter k a) -> getitem m a = Err KeyError).
Proof.
  intros mkset file O H user A S. unfold user in *. set (u := d_of str_eqb (entries (lines_of file))).
  assert (eventually (fun k => forall n, In n (map fst parameters) -> forall v, means (given u) n v -> evaluate F64 (the_run u) k (RStr n) = Ok v)) as [N E].
  { apply eventually_all. intros n I. destruct (C306_meanings_partial _ A S n I) as (v & M & Un). apply means_given_file in M.
    destruct (means_evaluated _ _ _ M) as [N E]. exists N. intros k L w Mw. rewrite <- (means_functional u n v w M Mw). now apply E. }
  exists N. intros k L.
  assert (exists w, forall n, In n (map fst parameters) -> runtime_getitem F64 (the_run u) k n = Ok (w n)) as [w W].
  { exists (fun n => match runtime_getitem F64 (the_run u) k n with Ok v => v | Err _ => RNone end). intros n I.
    destruct (C306_meanings_partial _ A S n I) as (v & M & Un). apply means_given_file in M. rewrite (getitem_evaluate _ _ _ I), (E k L n I v M). reflexivity. }
  destruct (all_values_ok k u w W) as (values & V & Vp & Vl).
  destruct (open_named mkset O k (option_map file_text file) u values (file_read file H) V) as (m & Om & Nm & Xm).
  exists m. split; [exact Om|]. split; [|split].
  - intros n v a un M Na Hu. apply means_given_file in M. fold u in M. pose proof (means_parameter _ _ _ M) as I.
    rewrite (Nm n a un); [|apply in_app_iff; now right|exact Na|exact Hu]. rewrite (Vp n I). repeat f_equal.
    specialize (W n I). rewrite getitem_evaluate in W by exact I. rewrite (E k L n I v M) in W. now injection W.
  - intros n v a un I Na Hu. rewrite (Nm n a un); [|apply in_app_iff; left; exact (in_map fst _ _ I)|exact Na|exact Hu]. now rewrite (Vl n v I).
  - intros a Na. apply Xm. intros n I. apply Na. unfold base_names in I. now apply in_app_iff in I.
Qed.
Print Assumptions C307_interface.

(** ** C308: arguments *)

(** Each name gives an argument with the parameter's numbers, in order, and its
    unit; one number with a unit converts to a real number and, cut to its
    whole part, to an integer; a text is its data. *)
Theorem C308_arguments_partial : forall mkset file, set_order mkset -> Forall (line_ok ["#"%char]) (lines_of file) ->
  let user := chosen (lines_of file) in
  all_read user -> stops user ->
  exists N, forall fuel, N <= fuel -> exists m, open_package F64 mkset fuel (option_map file_text file) = Ok m
  /\ forall k v a u, means user k v -> names_parameter k a -> has_unit k u ->
     match v with
     | RReal q => exists x, package_item m a = Ok (Some x) /\ ParametersModel.a_unit x = u
         /\ ParametersModel.iterate x = [ParametersModel.IReal q] /\ ParametersModel.to_int x = Ok (Qc_trunc q)
         /\ (u <> None -> ParametersModel.to_float x = Ok q)
     | RList qs => exists x, package_item m a = Ok (Some x) /\ ParametersModel.a_unit x = u
         /\ ParametersModel.iterate x = map ParametersModel.IReal qs
     | RStr s => u = None -> exists x, package_item m a = Ok (Some x) /\ ParametersModel.a_unit x = u
         /\ ParametersModel.data x = ParametersModel.ShowOne (ParametersModel.IText s)
     | RNone => package_item m a = Ok None
     end.
Proof.
  intros mkset file O H user A S. destruct (C307_interface mkset file O H A S) as [N P]. exists N. intros k L.
  destruct (P k L) as (m & Om & G & _). exists m. split; [exact Om|]. intros n v a u M Na Hu. specialize (G n v a u M Na Hu).
  unfold package_item. rewrite G. destruct v as [q|s|qs|]; cbn [given_of].
  - destruct u as [u|]; cbn; eexists; (split; [reflexivity|]); repeat split; congruence.
  - intros ->. cbn. eexists. split; [reflexivity|]. split; reflexivity.
  - destruct u as [u|]; cbn [ParametersModel.argument_of].
    + assert (mapM ParametersModel.number (map ParametersModel.IReal qs) = Ok qs) as ->.
      { clear. induction qs as [|q qs IH]; [reflexivity|]. cbn [map mapM ParametersModel.number]. cbn [bind]. now rewrite IH. }
      cbn [bind]. eexists. split; [reflexivity|]. split; [reflexivity|]. unfold ParametersModel.iterate, ParametersModel.data. cbn [ParametersModel.a_data].
      destruct qs as [|q [|r qs]]; reflexivity.
    + cbn [bind]. eexists. split; [reflexivity|]. split; [reflexivity|]. unfold ParametersModel.iterate, ParametersModel.data. cbn [ParametersModel.a_data].
      destruct qs as [|q [|r qs]]; reflexivity.
  - reflexivity.
Qed.
Print Assumptions C308_arguments_partial.
(** A number without a unit does not convert to a real number.  This concerns
    every parameter without a unit in the package, for instance those that
    have no metadata at all. *)
Theorem C308_float_refuted : forall mkset file, set_order mkset -> Forall (line_ok ["#"%char]) (lines_of file) ->
  let user := chosen (lines_of file) in
  all_read user -> stops user ->
  exists N, forall fuel, N <= fuel -> exists m, open_package F64 mkset fuel (option_map file_text file) = Ok m
  /\ forall k q a, means user k (RReal q) -> names_parameter k a -> has_unit k None ->
     exists x, package_item m a = Ok (Some x) /\ ParametersModel.to_float x = Err TypeError.
Proof.
  intros mkset file O H user A S. destruct (C307_interface mkset file O H A S) as [N P]. exists N. intros k L.
  destruct (P k L) as (m & Om & G & _). exists m. split; [exact Om|]. intros n q a M Na Hu. specialize (G n _ a None M Na Hu).
  unfold package_item. rewrite G. cbn. eexists. split; reflexivity.
Qed.
Print Assumptions C308_float_refuted.

(** A file with a comment, a number and a list; and one in which the start
    time and the step cancel. *)
Definition ex_lines : list line :=
  [Comment "#"%char (lit " a run"); Entry (lit "lamo") (lit " ") (lit "0.5") (lit " ") (Some ("#"%char, lit " au"));
   Entry (lit "mass") [] (lit "[4, 1.5]") [] None].
Definition ex_cancel : list line :=
  [Entry (lit "simStartTime") [] (lit "-1") [] None; Entry (lit "tDel") [] (lit "1") [] None].
Ltac outside := let H := fresh in intros H; cbn in H; repeat (destruct H as [H|H]; [discriminate H|]); exact H.
Ltac blank_text := repeat (constructor; [split; [reflexivity|discriminate]|]); apply Forall_nil.
Ltac entry :=
  split; [outside|]; split; [outside|]; split; [outside|]; split; [blank_text|]; split; [blank_text|];
  split; [split; (reflexivity || exact I)|]; split; [outside|]; split; [outside|];
  split; [intros ? [<-|[]]; (split; [outside|split; outside])|];
  first [exact I | (split; [now left|]); (split; [discriminate|]); (split; [discriminate|]); split; outside].
Lemma ex_lines_ok : Forall (line_ok ["#"%char]) ex_lines.
Proof. constructor; [split; [now left|outside]|]. constructor; [entry|]. constructor; [entry|constructor]. Qed.
Lemma ex_cancel_ok : Forall (line_ok ["#"%char]) ex_cancel.
Proof. constructor; [entry|]. constructor; [entry|constructor]. Qed.
Definition point_five : decimal := mkDecimal None (lit "0") (Some (lit "5")) None.
Definition four : decimal := mkDecimal None (lit "4") None None.
Definition one_five : decimal := mkDecimal None (lit "1") (Some (lit "5")) None.
Lemma decimals_ok : decimal_ok point_five /\ decimal_ok four /\ decimal_ok one_five.
Proof. unfold decimal_ok, a_digit; cbn. repeat split; try (constructor; [tauto|constructor]); try discriminate; left; discriminate. Qed.
Lemma ex_mass : reads TList (lit "[4, 1.5]") (RList [Qc_of_Z 4; Q2Qc (3 # 2)]).
Proof.
  pose proof decimals_ok as (_ & D1 & D2).
  assert (RList [Qc_of_Z 4; Q2Qc (3 # 2)] = RList (map (fun p : str * decimal * str => decimal_value (snd (fst p))) [([], four, []); (lit " ", one_five, [])])) as ->.
  { repeat f_equal; apply Qc_is_canon; reflexivity. }
  apply (reads_list [([], four, []); (lit " ", one_five, [])]). constructor; [|constructor; [|constructor]]; cbn [fst snd].
  - split; [constructor|]. split; [exact D1|constructor].
  - split; [constructor; [now left|constructor]|]. split; [exact D2|constructor].
Qed.
Lemma ex_lamo : reads TFloat (lit "0.5") (RReal (Q2Qc (1 # 2))).
Proof.
  assert (RReal (Q2Qc (1 # 2)) = RReal (decimal_value point_five)) as -> by (f_equal; apply Qc_is_canon; reflexivity).
  apply (reads_real point_five). apply decimals_ok.
Qed.
Lemma chosen_cases ls n s : chosen ls n = Some s -> In (n, s) (entries ls).
Proof.
  unfold chosen. destruct (find _ _) as [[k v]|] eqn:E; [|discriminate]. apply find_some in E as [I E]. cbn [fst] in E.
  destruct (str_eqb_spec k n) as [->|]; [|discriminate]. apply in_rev in I. destruct v; [discriminate|]. now intros [= <-].
Qed.
Lemma ex_row n t d t' d' : In (n, (t, d)) parameters -> d_get str_eqb parameters n = Some (t', d') -> t = t' /\ d = d'.
Proof. intros I G. rewrite (row_get _ _ _ I) in G. injection G as -> ->. auto. Qed.
Lemma ex_all_read : all_read (chosen ex_lines).
Proof.
  intros n t d s I C. apply chosen_cases in C. cbn [ex_lines entries flat_map app] in C. destruct C as [C|[C|C]]; [| |destruct C].
  - injection C as <- <-. destruct (ex_row _ _ _ TFloat (lit "1.0") I) as [-> _]; [vm_compute; reflexivity|]. exists (RReal (Q2Qc (1 # 2))). exact ex_lamo.
  - injection C as <- <-. destruct (ex_row _ _ _ TList (lit "[1.0]") I) as [-> _]; [vm_compute; reflexivity|]. eexists. exact ex_mass.
Qed.
Definition one_ : decimal := mkDecimal None (lit "1") None None.
Definition minus_one : decimal := mkDecimal (Some true) (lit "1") None None.
Lemma ones_ok : decimal_ok one_ /\ decimal_ok minus_one.
Proof. unfold decimal_ok, a_digit; cbn. repeat split; try (constructor; [tauto|constructor]); discriminate. Qed.
Lemma ex_one : reads TFloat (lit "1") (RReal (Qc_of_Z 1)).
Proof. assert (RReal (Qc_of_Z 1) = RReal (decimal_value one_)) as -> by (f_equal; apply Qc_is_canon; reflexivity). apply (reads_real one_). apply ones_ok. Qed.
Lemma ex_minus : reads TFloat (lit "-1") (RReal (Qc_of_Z (-1))).
Proof. assert (RReal (Qc_of_Z (-1)) = RReal (decimal_value minus_one)) as -> by (f_equal; apply Qc_is_canon; reflexivity). apply (reads_real minus_one). apply ones_ok. Qed.
Lemma ex_cancel_read : all_read (chosen ex_cancel).
Proof.
  intros n t d s I C. apply chosen_cases in C. cbn [ex_cancel entries flat_map app] in C. destruct C as [C|[C|C]]; [| |destruct C].
  - injection C as <- <-. destruct (ex_row _ _ _ TFloat (lit "0.0") I) as [-> _]; [vm_compute; reflexivity|]. eexists. exact ex_minus.
  - injection C as <- <-. destruct (ex_row _ _ _ TFloat (lit "0.01041666666667") I) as [-> _]; [vm_compute; reflexivity|]. eexists. exact ex_one.
Qed.
Definition zero_point : decimal := mkDecimal None (lit "0") (Some (lit "0")) None.
Definition step_decimal : decimal := mkDecimal None (lit "0") (Some (lit "01041666666667")) None.
Lemma ex_default n d x : In (n, (TFloat, d)) parameters -> chosen ex_lines n = None -> d = decimal_text x -> decimal_ok x ->
  means (chosen ex_lines) n (RReal (decimal_value x)).
Proof. intros I C -> X. apply (means_default _ n TFloat _ _ I C). now apply reads_real. Qed.
Lemma ex_stops : stops (chosen ex_lines).
Proof.
  intros _ x y Mx My E.
  assert (means (chosen ex_lines) (lit "simStartTime") (RReal (decimal_value zero_point))) as Mx'.
  { apply (ex_default _ _ _ start_row); [reflexivity|reflexivity|]. unfold decimal_ok, a_digit; cbn. split; [constructor; [tauto|constructor]|]. split; [|exact I].
    split; [constructor; [tauto|constructor]|left; discriminate]. }
  assert (means (chosen ex_lines) (lit "tDel") (RReal (decimal_value step_decimal))) as My'.
  { apply (ex_default _ _ _ step_row); [reflexivity|reflexivity|]. unfold decimal_ok, a_digit; cbn. split; [constructor; [tauto|constructor]|]. split; [|exact I].
    split; [repeat (constructor; [tauto|]); constructor|left; discriminate]. }
  apply means_given_file in Mx, My, Mx', My'. pose proof (means_functional _ _ _ _ Mx Mx') as Ex. pose proof (means_functional _ _ _ _ My My') as Ey.
  injection Ex as ->. injection Ey as ->. apply (f_equal this) in E. vm_compute in E. discriminate E.
Qed.
Lemma lamo_row : In (lit "lamo", (TFloat, lit "1.0")) parameters.
Proof. apply (d_get_iff str_eqb str_eqb_spec); [exact parameters_nodup|]. vm_compute. reflexivity. Qed.
Lemma lamo_metadata : In (lit "lamo", (Some [lit "lam0"; lit "lambda0"], Some (lit "au"))) metadata.
Proof. apply (d_get_iff str_eqb str_eqb_spec); [exact metadata_nodup|]. vm_compute. reflexivity. Qed.
Example C307_meets :
  Forall (line_ok ["#"%char]) ex_lines /\ all_read (chosen ex_lines) /\ stops (chosen ex_lines)
  /\ means (chosen ex_lines) (lit "lamo") (RReal (Q2Qc (1 # 2))) /\ names_parameter (lit "lamo") (lit "lambda0") /\ has_unit (lit "lamo") (Some (lit "au")).
Proof.
  split; [exact ex_lines_ok|]. split; [exact ex_all_read|]. split; [exact ex_stops|]. split; [|split].
  - apply (means_given _ _ _ _ (lit "0.5") _ lamo_row); [reflexivity|exact ex_lamo].
  - right. left. eexists. eexists. split; [exact lamo_metadata|]. right. left. reflexivity.
  - left. eexists. exact lamo_metadata.
Qed.
Example C306_cancel_meets :
  Forall (line_ok ["#"%char]) ex_cancel /\ all_read (chosen ex_cancel) /\ chosen ex_cancel (lit "simStopTime") = None
  /\ exists x y, means (chosen ex_cancel) (lit "simStartTime") (RReal x) /\ means (chosen ex_cancel) (lit "tDel") (RReal y) /\ (x + y = 0)%Qc.
Proof.
  split; [exact ex_cancel_ok|]. split; [exact ex_cancel_read|]. split; [reflexivity|]. exists (Qc_of_Z (-1)), (Qc_of_Z 1). split; [|split].
  - apply (means_given _ _ _ _ (lit "-1") _ start_row); [reflexivity|exact ex_minus].
  - apply (means_given _ _ _ _ (lit "1") _ step_row); [reflexivity|exact ex_one].
  - apply Qc_is_canon. reflexivity.
Qed.

(** ** C309: speeds *)

(** Without a configuration file the speed of the flow is 4e7 km/s and that of
    the shock 1.5e8 km/s, both faster than light: the defaults are in cm/s. *)
Theorem C309_speeds_refuted : forall mkset, set_order mkset ->
  exists N, forall fuel, N <= fuel -> exists m, open_package F64 mkset fuel None = Ok m
  /\ exists c, compute_constant F64 constants constant_types fuel (lit "C") = Ok c (* in cm/s *)
  /\ Forall (fun k => exists x q, package_item m k = Ok (Some x) /\ ParametersModel.a_unit x = Some (lit "km/s")
                       /\ ParametersModel.to_float x = Ok q /\ (c < q * Qc_of_Z 100000)%Qc)
       [lit "flowMag"; lit "idealShockSpeed"].
Proof.
  intros mkset O.
  assert (all_read (chosen (lines_of None))) as A by (intros n t d s I C; discriminate C).
  assert (forall n d x, In (n, (TFloat, d)) parameters -> d = decimal_text x -> decimal_ok x -> means (chosen (lines_of None)) n (RReal (decimal_value x))) as Df.
  { intros n d x I -> X. apply (means_default _ n TFloat _ _ I); [reflexivity|now apply reads_real]. }
  assert (stops (chosen (lines_of None))) as St.
  { intros _ x y Mx My E.
    assert (means (chosen (lines_of None)) (lit "simStartTime") (RReal (decimal_value zero_point))) as Mx'.
    { apply (Df _ _ _ start_row); [reflexivity|]. unfold decimal_ok, a_digit; cbn. split; [constructor; [tauto|constructor]|]. split; [|exact I].
      split; [constructor; [tauto|constructor]|left; discriminate]. }
    assert (means (chosen (lines_of None)) (lit "tDel") (RReal (decimal_value step_decimal))) as My'.
    { apply (Df _ _ _ step_row); [reflexivity|]. unfold decimal_ok, a_digit; cbn. split; [constructor; [tauto|constructor]|]. split; [|exact I].
      split; [repeat (constructor; [tauto|]); constructor|left; discriminate]. }
    apply means_given_file in Mx, My, Mx', My'. pose proof (means_functional _ _ _ _ Mx Mx') as Ex. pose proof (means_functional _ _ _ _ My My') as Ey.
    injection Ex as ->. injection Ey as ->. apply (f_equal this) in E. vm_compute in E. discriminate E. }
  destruct (C308_arguments_partial mkset None O (Forall_nil _) A St) as [N P]. exists (N + 1). intros k L. destruct (P k ltac:(lia)) as (m & Om & G).
  exists m. split; [exact Om|]. exists (Qc_of_Z 29979245800). split; [replace k with (S (k - 1)) by lia; apply computes_number; vm_compute; reflexivity|].
  assert (forall n d x, d_get str_eqb parameters n = Some (TFloat, d) -> d_get str_eqb metadata n = Some (Some [], Some (lit "km/s")) ->
            d = decimal_text x -> decimal_ok x -> (Qc_of_Z 29979245800 < decimal_value x * Qc_of_Z 100000)%Qc ->
            exists y q, package_item m n = Ok (Some y) /\ ParametersModel.a_unit y = Some (lit "km/s") /\ ParametersModel.to_float y = Ok q
              /\ (Qc_of_Z 29979245800 < q * Qc_of_Z 100000)%Qc) as T.
  { intros n d x Pn Un E X Lt. apply (d_get_iff str_eqb str_eqb_spec) in Pn; [|exact parameters_nodup]. apply (d_get_iff str_eqb str_eqb_spec) in Un; [|exact metadata_nodup].
    destruct (G n _ n (Some (lit "km/s")) (Df n d x Pn E X)) as (y & Y1 & Y2 & _ & _ & Y3); [now left|left; eexists; exact Un|].
    exists y, (decimal_value x). split; [exact Y1|]. split; [exact Y2|]. split; [apply Y3; discriminate|exact Lt]. }
  constructor; [|constructor; [|constructor]].
  - apply (T _ (lit "400.0e5") (mkDecimal None (lit "400") (Some (lit "0")) (Some ("e"%char, None, lit "5")))); [vm_compute; reflexivity|vm_compute; reflexivity|reflexivity| |vm_compute; reflexivity].
    unfold decimal_ok, a_digit; cbn. split; [repeat (constructor; [tauto|]); constructor|]. split; [split; [repeat (constructor; [tauto|]); constructor|left; discriminate]|].
    split; [now left|]. split; [repeat (constructor; [tauto|]); constructor|discriminate].
  - apply (T _ (lit "1500e5") (mkDecimal None (lit "1500") None (Some ("e"%char, None, lit "5")))); [vm_compute; reflexivity|vm_compute; reflexivity|reflexivity| |vm_compute; reflexivity].
    unfold decimal_ok, a_digit; cbn. split; [repeat (constructor; [tauto|]); constructor|]. split; [discriminate|].
    split; [now left|]. split; [repeat (constructor; [tauto|]); constructor|discriminate].
Qed.
Print Assumptions C309_speeds_refuted.

(** ** C308, C334: unknown names, and the user's own values *)

(** A name of no parameter raises KeyError. *)
Theorem C308_unknown : forall mkset file, set_order mkset -> Forall (line_ok ["#"%char]) (lines_of file) ->
  let user := chosen (lines_of file) in
  all_read user -> stops user ->
  exists N, forall fuel, N <= fuel -> exists m, open_package F64 mkset fuel (option_map file_text file) = Ok m
  /\ forall a, (forall k, a_parameter k -> ~ names_parameter k a) -> package_item m a = Err KeyError.
Proof.
  intros mkset file O H user A S. destruct (C307_interface mkset file O H A S) as [N P]. exists N. intros k L.
  destruct (P k L) as (m & Om & _ & _ & G). exists m. split; [exact Om|]. intros a Na. unfold package_item. now rewrite (G a Na).
Qed.
Print Assumptions C308_unknown.

Lemma file_has ls n : d_has str_eqb (d_of str_eqb (entries ls)) n = true <-> In n (map fst (entries ls)).
Proof.
  rewrite (d_has_in str_eqb str_eqb_spec). pose proof (d_of_get str_eqb str_eqb_spec (entries ls) n) as E.
  assert (In n (map fst (rev (entries ls))) <-> In n (map fst (entries ls))) as <- by (rewrite map_rev, <- in_rev; reflexivity).
  destruct (d_get str_eqb (rev (entries ls)) n) as [v|] eqn:G.
  - apply (d_get_in str_eqb str_eqb_spec) in E, G. apply (in_map fst) in E, G. tauto.
  - apply (d_get_none str_eqb str_eqb_spec) in E, G. tauto.
Qed.

(** The value of a parameter that the user's file assigns under the name asked
    for, and else the given default.  Missing: other names of the parameter
    (see below). *)
Theorem C334_config_partial : forall mkset file, set_order mkset -> Forall (line_ok ["#"%char]) (lines_of file) ->
  let user := chosen (lines_of file) in
  let assigned a := In a (map fst (entries (lines_of file))) in
  all_read user -> stops user ->
  exists N, forall fuel, N <= fuel -> exists m pairs, open_package F64 mkset fuel (option_map file_text file) = Ok m
  /\ match option_map file_text file with Some s => config_file [] s | None => Ok [] end = Ok pairs
  /\ forall a d,
     (~ assigned a -> package_config m pairs a d = Ok d)
  /\ ((forall k, a_parameter k -> ~ names_parameter k a) -> package_config m pairs a d = Ok d)
  /\ (forall v u, assigned a -> means user a v -> has_unit a u ->
      match v with
      | RReal q => exists x, package_config m pairs a d = Ok (Some x) /\ ParametersModel.a_unit x = u
          /\ ParametersModel.iterate x = [ParametersModel.IReal q]
      | RList qs => exists x, package_config m pairs a d = Ok (Some x) /\ ParametersModel.a_unit x = u
          /\ ParametersModel.iterate x = map ParametersModel.IReal qs
      | RStr s => u = None -> exists x, package_config m pairs a d = Ok (Some x) /\ ParametersModel.a_unit x = u
          /\ ParametersModel.data x = ParametersModel.ShowOne (ParametersModel.IText s)
      | RNone => package_config m pairs a d = Ok None
      end).
Proof.
  intros mkset file O H user assigned A S. destruct (C308_arguments_partial mkset file O H A S) as [N1 P1].
  destruct (C308_unknown mkset file O H A S) as [N2 P2]. exists (N1 + N2). intros k L.
  destruct (P1 k ltac:(lia)) as (m & Om & G). destruct (P2 k ltac:(lia)) as (m' & Om' & Un). rewrite Om in Om'. injection Om' as <-.
  exists m, (d_of str_eqb (entries (lines_of file))). split; [exact Om|]. split; [now apply file_read|].
  intros a d. unfold package_config. split; [|split].
  - intros X. destruct (d_has _ _ a) eqn:E; [|reflexivity]. apply file_has in E. contradiction.
  - intros X. rewrite (Un a X). now destruct (d_has _ _ a).
  - intros v u X M Hu. apply file_has in X. rewrite X. specialize (G a v a u M (or_introl eq_refl) Hu).
    destruct v as [q|s|qs|].
    + destruct G as (x & -> & G1 & G2 & _). eauto.
    + intros E. destruct (G E) as (x & -> & G1 & G2). eauto.
    + destruct G as (x & -> & G1 & G2). eauto.
    + now rewrite G.
Qed.
Print Assumptions C334_config_partial.

(** The other names of a parameter: a value that the file assigns is not found
    under them, and what the file assigns to them is ignored in favour of the
    parameter's own value, here its default. *)
Definition ex_other : list line := [Entry (lit "lam0") [] (lit "0.5") [] None].
Lemma ex_other_ok : Forall (line_ok ["#"%char]) ex_other.
Proof. constructor; [entry|constructor]. Qed.
Lemma ex_other_read : all_read (chosen ex_other).
Proof.
  intros n t d s I C. apply chosen_cases in C. cbn [ex_other entries flat_map app] in C. destruct C as [C|C]; [|destruct C].
  injection C as <- <-. exfalso. apply (in_map fst) in I. apply (d_has_in str_eqb str_eqb_spec) in I. vm_compute in I. discriminate I.
Qed.
Lemma ex_other_stops : stops (chosen ex_other).
Proof.
  intros _ x y Mx My E.
  assert (means (chosen ex_other) (lit "simStartTime") (RReal (decimal_value zero_point))) as Mx'.
  { apply (means_default _ _ TFloat _ _ start_row); [reflexivity|]. apply (reads_real zero_point). unfold decimal_ok, a_digit; cbn. split; [constructor; [tauto|constructor]|]. split; [|exact I].
    split; [constructor; [tauto|constructor]|left; discriminate]. }
  assert (means (chosen ex_other) (lit "tDel") (RReal (decimal_value step_decimal))) as My'.
  { apply (means_default _ _ TFloat _ _ step_row); [reflexivity|]. apply (reads_real step_decimal). unfold decimal_ok, a_digit; cbn. split; [constructor; [tauto|constructor]|]. split; [|exact I].
    split; [repeat (constructor; [tauto|]); constructor|left; discriminate]. }
  apply means_given_file in Mx, My, Mx', My'. pose proof (means_functional _ _ _ _ Mx Mx') as Ex. pose proof (means_functional _ _ _ _ My My') as Ey.
  injection Ex as ->. injection Ey as ->. apply (f_equal this) in E. vm_compute in E. discriminate E.
Qed.
Lemma lam0_names : names_parameter (lit "lamo") (lit "lam0").
Proof. right. left. eexists. eexists. split; [exact lamo_metadata|]. left. reflexivity. Qed.
Theorem C334_names_refuted : forall mkset, set_order mkset -> exists N, forall fuel, N <= fuel ->
  (exists m pairs x, open_package F64 mkset fuel (Some (file_text ex_lines)) = Ok m /\ config_file [] (file_text ex_lines) = Ok pairs
     /\ package_item m (lit "lam0") = Ok (Some x) /\ ParametersModel.iterate x = [ParametersModel.IReal (Q2Qc (1 # 2))]
     /\ forall d, package_config m pairs (lit "lam0") d = Ok d)
  /\ (exists m pairs, open_package F64 mkset fuel (Some (file_text ex_other)) = Ok m /\ config_file [] (file_text ex_other) = Ok pairs
     /\ d_get str_eqb pairs (lit "lam0") = Some (lit "0.5")
     /\ forall d, exists x, package_config m pairs (lit "lam0") d = Ok (Some x) /\ ParametersModel.iterate x = [ParametersModel.IReal 1%Qc]).
Proof.
  intros mkset O.
  destruct (C308_arguments_partial mkset (Some ex_lines) O ex_lines_ok ex_all_read ex_stops) as [N1 P1].
  destruct (C334_config_partial mkset (Some ex_lines) O ex_lines_ok ex_all_read ex_stops) as [N2 P2].
  destruct (C308_arguments_partial mkset (Some ex_other) O ex_other_ok ex_other_read ex_other_stops) as [N3 P3].
  exists (N1 + N2 + N3). intros fuel L. split.
  - destruct (P1 fuel ltac:(lia)) as (m & Om & G). destruct (P2 fuel ltac:(lia)) as (m' & pairs & Om' & R & C). rewrite Om in Om'. injection Om' as <-.
    destruct C307_meets as (_ & _ & _ & M & _ & Hu).
    destruct (G (lit "lamo") _ (lit "lam0") _ M lam0_names Hu) as (x & X1 & _ & X2 & _).
    exists m, pairs, x. split; [exact Om|]. split; [exact R|]. split; [exact X1|]. split; [exact X2|].
    intros d. apply (proj1 (C (lit "lam0") d)). intros I. apply file_has in I. vm_compute in I. discriminate I.
  - destruct (P3 fuel ltac:(lia)) as (m & Om & G). exists m, (d_of str_eqb (entries ex_other)). split; [exact Om|].
    split; [exact (file_read (Some ex_other) ex_other_ok)|]. split; [reflexivity|]. intros d.
    assert (means (chosen ex_other) (lit "lamo") (RReal (decimal_value (mkDecimal None (lit "1") (Some (lit "0")) None)))) as M.
    { apply (means_default _ _ _ _ _ lamo_row); [reflexivity|]. apply (reads_real (mkDecimal None (lit "1") (Some (lit "0")) None)).
      unfold decimal_ok, a_digit; cbn. split; [constructor; [tauto|constructor]|]. split; [split; [constructor; [tauto|constructor]|left; discriminate]|exact I]. }
    destruct (G _ _ (lit "lam0") (Some (lit "au")) M lam0_names) as (x & X1 & _ & X2 & _); [left; eexists; exact lamo_metadata|].
    exists x. unfold package_config. assert (d_has str_eqb (d_of str_eqb (entries ex_other)) (lit "lam0") = true) as -> by reflexivity. rewrite X1. split; [reflexivity|].
    rewrite X2. repeat f_equal.
Qed.
Print Assumptions C334_names_refuted.
(** The hypotheses of the theorem hold of the example file, which assigns lamo. *)
Example C334_meets : Forall (line_ok ["#"%char]) (lines_of (Some ex_lines)) /\ all_read (chosen ex_lines) /\ stops (chosen ex_lines)
  /\ In (lit "lamo") (map fst (entries (lines_of (Some ex_lines)))) /\ exists v u, means (chosen ex_lines) (lit "lamo") v /\ has_unit (lit "lamo") u.
Proof.
  destruct C307_meets as (_ & _ & _ & M & _ & Hu). split; [exact ex_lines_ok|]. split; [exact ex_all_read|]. split; [exact ex_stops|].
  split; [apply file_has; reflexivity|]. eauto.
Qed.
