(** Properties of observers. *)

From Coq Require Import String Ascii List Bool ZArith QArith Qcanon Lia.
From Verif Require Import Py PyFacts PyDict SymbolicModel SymbolicSpec SymbolicReduceProofs ObserverModel ObserverSpec ObserverProofs.
From Verif Require AliasedModel AliasedSpec SpellingModel ObservingModel RuntimeProofs.
Import ListNotations.
Open Scope list_scope.
Open Scope nat_scope.
Open Scope py_scope.

(** A set order for the examples: last occurrences. *)
Definition ord : list str -> list str := nodup str_eq_dec.
Lemma ord_is_set_order : AliasedSpec.set_order ord.
Proof. intro l. split; [apply NoDup_nodup|]. intro a. apply nodup_In. Qed.

(** * Which names are observable *)

(** C60: a name is accepted if it is a name of an observable quantity, or if
    it has a quotient or a product and is an expression in such names. *)
Theorem C243_accepts : forall F mkset observable unobservable fuel key, AliasedSpec.set_order mkset -> 2 <= fuel ->
  let available := available_name observable unobservable in
  observes F mkset fuel (observables mkset observable unobservable) key = Ok true <->
  available key
  \/ (composed key /\ exists x, expression_of_str F false key = Ok x /\ Forall (fun t => available (base t)) x).
Proof.
  intros F mkset observable unobservable fuel key SO L available. destruct fuel as [|[|fuel]]; [lia|lia|].
  destruct (known_cases mkset SO observable unobservable key) as [K|K].
  - rewrite (observes_known F mkset SO) by exact K. tauto.
  - destruct (composition_str key) eqn:C.
    + pose proof (observes_composed F mkset SO observable unobservable fuel key K C) as H.
      destruct (expression_of_str F false key) as [x|e] eqn:X.
      * destruct H as (b & -> & H). split.
        -- intros E. injection E as ->. right. split; [destruct (composed_spec key); congruence|]. exists x. split; [reflexivity|]. now apply H.
        -- intros [A|(_ & y & E & A)]; [contradiction|]. injection E as <-. f_equal. now apply H.
      * rewrite H. split; [discriminate|]. intros [A|(_ & y & E & A)]; [contradiction|discriminate].
    + rewrite (observes_plain F mkset SO) by assumption. split; [discriminate|]. intros [A|[A _]]; [contradiction|]. apply composed_yes in A. congruence.
Qed.
Print Assumptions C243_accepts.
(** C60: otherwise the answer is no, or the expression cannot be read; asking
    never goes deeper than the terms of the expression. *)
Theorem C243_decides : forall F mkset observable unobservable fuel key, AliasedSpec.set_order mkset -> 2 <= fuel ->
  match observes F mkset fuel (observables mkset observable unobservable) key with
  | Ok _ => True
  | Err e => expression_of_str F false key = Err e
  end.
Proof.
  intros F mkset observable unobservable fuel key SO L. destruct fuel as [|[|fuel]]; [lia|lia|].
  destruct (known_cases mkset SO observable unobservable key) as [K|K].
  - rewrite (observes_known F mkset SO) by exact K. exact I.
  - destruct (composition_str key) eqn:C; [|now rewrite (observes_plain F mkset SO) by assumption].
    pose proof (observes_composed F mkset SO observable unobservable fuel key K C) as H.
    destruct (expression_of_str F false key) as [x|e]; [destruct H as (b & -> & H); exact I|now rewrite H].
Qed.
Print Assumptions C243_decides.
(** C60: so an expression as users write it, with a quotient or a product, is
    accepted exactly if its numbers cancel, some name remains and all names
    that remain are names of observable quantities.  Missing: expressions
    without quotient or product ([C60_powers_refuted]). *)
Theorem C60_written_partial : forall F mkset observable unobservable fuel x0 l, AliasedSpec.set_order mkset -> 2 <= fuel ->
  let available := available_name observable unobservable in
  legal_chain F x0 l -> composed (chain_text x0 l) -> ~ available (chain_text x0 l) -> ~ available (lit "1") ->
  observes F mkset fuel (observables mkset observable unobservable) (chain_text x0 l) = Ok true <->
  total_coef (chain_denote x0 l) = 1%Qc
  /\ (exists b, b <> lit "1" /\ total_expo b (chain_denote x0 l) <> 0%Qc)
  /\ forall b, b <> lit "1" -> total_expo b (chain_denote x0 l) <> 0%Qc -> available b.
Proof.
  intros F mkset observable unobservable fuel x0 l SO L available Lc C N N1.
  rewrite (C243_accepts F mkset observable unobservable fuel _ SO L).
  destruct (RuntimeProofs.product_read F x0 l Lc) as (x & E & Cx & _ & S).
  rewrite <- (canonical_bases available x _ Cx S N1). fold available. rewrite E. split.
  - intros [A|(_ & y & Ey & A)]; [contradiction|]. now injection Ey as <-.
  - intros A. right. split; [exact C|]. exists x. auto.
Qed.
Print Assumptions C60_written_partial.
(** C60: powers of an observable quantity, and products written without an
    operator, are refused, although they are expressions in its name. *)
Theorem C60_powers_refuted : forall F fuel, 1 <= fuel ->
  let known := observables ord [[lit "Vr"; lit "vr"]; [lit "Vt"]] [] in
  observes F ord fuel known (lit "Vr^2") = Ok false /\ observes F ord fuel known (lit "Vr Vt") = Ok false
  /\ expression_of_str F64 false (lit "Vr^2") = Ok [mkTerm 1 (lit "Vr") (Qc_of_Z 2)]
  /\ expression_of_str F64 false (lit "Vr Vt") = Ok [mkTerm 1 (lit "Vr") 1; mkTerm 1 (lit "Vt") 1].
Proof.
  intros F fuel L. destruct fuel as [|fuel]; [lia|]. split; [reflexivity|]. split; [reflexivity|]. split; vm_compute; reflexivity.
Qed.
Print Assumptions C60_powers_refuted.
(** C60: a name with brackets is taken apart in an expression: 'J(E)' is a
    name of the flux, but 'J(E) * r' is read as the product of flux, energy
    and radius. *)
Theorem C60_brackets_refuted :
  In [lit "flux"; lit "Flux"; lit "J"; lit "J(E)"; lit "j"; lit "j(E)"] reference
  /\ expression_of_str F64 false (lit "J(E) * r") = Ok [mkTerm 1 (lit "E") 1; mkTerm 1 (lit "J") 1; mkTerm 1 (lit "r") 1].
Proof. split; [cbn; tauto|]. vm_compute. reflexivity. Qed.
Print Assumptions C60_brackets_refuted.
Example C60_example : forall F,
  let known := observables ord [[lit "Vr"; lit "vr"]; [lit "rho"]; [lit "mfp"; lit "mean free path"]; [lit "mu"]] [lit "mu"] in
  observes F ord 2 known (lit "mean free path") = Ok true /\ observes F64 ord 2 known (lit "mfp / Vr") = Ok true
  /\ observes F64 ord 2 known (lit "rho * mu") = Ok false /\ observes F64 ord 2 known (lit "2 * rho") = Ok false.
Proof.
  intros F known. split; [reflexivity|]. split; [vm_compute; reflexivity|]. split; vm_compute; reflexivity.
Qed.

(** C332: several names for a quantity.  The answer is yes if all of them are
    observable, and no if none of them is. *)
Theorem C332_all_partial : forall F mkset observable unobservable fuel keys, AliasedSpec.set_order mkset -> 2 <= fuel ->
  (keys <> [] -> Forall (available_name observable unobservable) keys ->
   observes_any F mkset fuel (observables mkset observable unobservable) keys = Ok true) /\
  (Forall (fun k => ~ available_name observable unobservable k /\ ~ composed k) keys ->
   observes_any F mkset fuel (observables mkset observable unobservable) keys = Ok false).
Proof.
  intros F mkset observable unobservable fuel keys SO L. destruct fuel as [|[|fuel]]; [lia|lia|]. split.
  - intros N H. destruct H as [|k l H1 H2]; [contradiction|]. cbn [observes_any].
    now rewrite (observes_known F mkset SO) by exact H1.
  - intros H. destruct H as [|k l [H1 H2] H3]; [reflexivity|]. cbn [observes_any].
    now rewrite (observes_plain F mkset SO) by auto using composed_no.
Qed.
Print Assumptions C332_all_partial.
(** C332: but if the first name is not observable, the others are not looked
    at, although one of them may be. *)
Theorem C332_first_refuted : forall F mkset observable unobservable fuel first second, AliasedSpec.set_order mkset -> 2 <= fuel ->
  ~ available_name observable unobservable first -> ~ composed first ->
  available_name observable unobservable second ->
  observes F mkset fuel (observables mkset observable unobservable) second = Ok true /\
  observes_any F mkset fuel (observables mkset observable unobservable) [first; second] = Ok false.
Proof.
  intros F mkset observable unobservable fuel first second SO L N C H. destruct fuel as [|[|fuel]]; [lia|lia|].
  cbn [observes_any]. now rewrite (observes_known F mkset SO), (observes_plain F mkset SO) by auto using composed_no.
Qed.
Print Assumptions C332_first_refuted.
Example C332_example : forall F,
  let known := observables ord [[lit "Vr"; lit "vr"]; [lit "mu"]] [lit "mu"] in
  observes_any F ord 2 known [lit "vr"; lit "Vr"] = Ok true /\ observes_any F ord 2 known [] = Ok false /\
  observes_any F ord 2 known [lit "velocity"; lit "vr"] = Ok false /\
  available_name [[lit "Vr"; lit "vr"]; [lit "mu"]] [lit "mu"] (lit "vr") /\
  ~ available_name [[lit "Vr"; lit "vr"]; [lit "mu"]] [lit "mu"] (lit "velocity") /\
  ~ composed (lit "velocity").
Proof.
  intros F known. split; [reflexivity|]. split; [reflexivity|]. split; [reflexivity|]. split; [|split].
  - exists [lit "Vr"; lit "vr"]. split; [now left|]. split; [now right; left|].
    intros u [<-|[]] [H|[H|[]]]; discriminate.
  - intros (g & [<-|[<-|[]]] & H & _); cbn in H; decompose [or] H; try discriminate; contradiction.
  - unfold composed. cbn. intuition discriminate.
Qed.

(** * Unknown names *)

Section Access.
Context {V IX SC : Type} (F : flops) (mkset : list str -> list str) (defaults : list (str * V)) (names : list str)
        (mapped : str -> bool) (unobservable : list str).
Notation get := (@observer_getitem V IX SC F mkset defaults names mapped unobservable).
Notation fresh user := (mkObserver (ObservingModel.constrain (@ObservingModel.new_context V IX SC) user false) None).

(** C140: the first access with a name of nothing raises KeyError. *)
Theorem C140_first_partial : forall fuel user key, AliasedSpec.set_order mkset -> 1 <= fuel ->
  unknown_name (names ++ map fst (d_update str_eqb defaults (d_of str_eqb user))) key ->
  fst (get fuel (fresh user) key) = Err KeyError.
Proof.
  intros fuel user key SO L U.
  destruct (@get_unknown V IX SC F mkset SO defaults names mapped unobservable fuel _ _ None key (named_fresh mkset defaults names user) U L) as (c & -> & _).
  reflexivity.
Qed.
(** C140: all further names of nothing raise TypeError. *)
Theorem C140_again_refuted : forall fuel user k l, AliasedSpec.set_order mkset -> 1 <= fuel ->
  Forall (unknown_name (names ++ map fst (d_update str_eqb defaults (d_of str_eqb user)))) (k :: l) ->
  accesses (get fuel) (fresh user) (k :: l) = Err KeyError :: map (fun _ => Err TypeError) l.
Proof.
  intros fuel user k l SO L U. inversion U as [|? ? Uk Ul]; subst. cbn [accesses].
  destruct (@get_unknown V IX SC F mkset SO defaults names mapped unobservable fuel _ _ None k (named_fresh mkset defaults names user) Uk L) as (c & -> & N).
  cbn [fst snd]. f_equal. generalize (map (fun g => Many g) (map (aliases_find mkset) (names ++ map fst (d_update str_eqb defaults (d_of str_eqb user))))) as w.
  revert c N. clear U Uk. induction Ul as [|k' l Uk Ul IH]; intros c N w; [reflexivity|]. cbn [accesses map].
  destruct (@get_unknown V IX SC F mkset SO defaults names mapped unobservable fuel _ _ (Some w) k' N Uk L) as (c' & -> & N').
  f_equal. now apply IH.
Qed.

(** C141: every name of a quantity in the data and every name of a constraint
    gives something.  Missing: other names of constraints
    ([C141_alias_refuted]). *)
Theorem C141_access_partial : forall fuel user key w, AliasedSpec.set_order mkset -> 1 <= fuel ->
  (forall k, mapped k = true <-> exists n, In n names /\ same_name n k) -> ~ composed key ->
  (exists n, In n names /\ same_name n key) \/ In key (map fst (d_update str_eqb defaults (d_of str_eqb user))) ->
  exists x, fst (get fuel (mkObserver (ObservingModel.constrain (@ObservingModel.new_context V IX SC) user false) w) key) = Ok x /\ x <> Nothing.
Proof.
  intros fuel user key w SO L M C H.
  exact (@get_known V IX SC F mkset SO defaults names mapped unobservable fuel _ _ w key (named_fresh mkset defaults names user) (composed_no _ C) L M H).
Qed.
End Access.
Print Assumptions C140_first_partial.
Print Assumptions C140_again_refuted.
Print Assumptions C141_access_partial.

(** An observer of mean free paths and radial velocities with a constraint on
    the species and one on the energy. *)
Definition quantities : list str := [lit "mean free path"; lit "Vr"; lit "theta"].
Definition is_quantity (k : str) : bool :=
  existsb (fun n => existsb (str_eqb k) (aliases_find ord n)) quantities.
Definition ask (key : list string) :=
  accesses (@observer_getitem nat nat nat F64 ord [(lit "species", 0%nat)] quantities is_quantity [lit "theta"] 3)
    (mkObserver (ObservingModel.constrain ObservingModel.new_context [(lit "energy", 7%nat)] false) None) (map lit key).
(** C140: a misspelled name does not give a suggestion: 'mfq' and 'mfp' differ
    by one letter. *)
Theorem C140_suggestions_refuted :
  ask ["mfp"; "mfq"; "mfq"]%string = [Ok (Observable (lit "mfp")); Err KeyError; Err TypeError]
  /\ SpellingModel.suggestions_for [lit "mfp"] (lit "mfq") = [lit "mfp"].
Proof. split; vm_compute; reflexivity. Qed.
Print Assumptions C140_suggestions_refuted.
(** C141: another name of a constraint is among the names of the context, but
    gives nothing. *)
Theorem C141_alias_refuted :
  ask ["energy"; "egrid"]%string = [Ok (Constraint 7%nat); Ok Nothing] /\ same_name (lit "energy") (lit "egrid").
Proof. split; [vm_compute; reflexivity|]. right. exists (nth 5 reference []). split; [cbn; tauto|]. split; cbn; tauto. Qed.
Print Assumptions C141_alias_refuted.
Example C141_example :
  ask ["T"; "vr"; "species"; "mean free path"; "mfp / vr"]%string =
  [Ok (Mapped (lit "T")); Ok (Observable (lit "vr")); Ok (Constraint 0%nat); Ok (Observable (lit "mean free path")); Ok (Observable (lit "mfp / vr"))].
Proof. vm_compute. reflexivity. Qed.

(** * What accepted names stand for *)

(** C142: a name that is accepted stands for a product of powers of names of
    observable quantities. *)
Theorem C142_evaluates : forall F mkset names unobservable fuel key, AliasedSpec.set_order mkset -> 2 <= fuel ->
  let available := available_name (map (aliases_find mkset) names) unobservable in
  (forall n, In n names -> in_reference n \/ plain_name n) -> (in_reference key -> available key) ->
  observes F mkset fuel (observables mkset (map (aliases_find mkset) names) unobservable) key = Ok true ->
  exists l, evaluated F mkset key = Ok l /\ Forall (fun t => available (fst t)) l
    /\ (available key -> exists n, l = [(n, 1%Qc)] /\ same_name key n).
Proof.
  intros F mkset names unobservable fuel key SO L available NP. exact (evaluates F mkset SO names unobservable NP fuel key L).
Qed.
Print Assumptions C142_evaluates.
Example C142_example :
  evaluated F64 ord (lit "mean free path") = Ok [(lit "mean_free_path", 1%Qc)]
  /\ evaluated F64 ord (lit "mfp / vr") = Ok [(lit "mfp", 1%Qc); (lit "vr", (- (1))%Qc)]
  /\ (forall n, In n quantities -> in_reference n \/ plain_name n).
Proof.
  split; [vm_compute; reflexivity|]. split; [vm_compute; reflexivity|].
  intros n [<-|[<-|[<-|[]]]]; left; [exists (nth 31 reference [])|exists (nth 13 reference [])|exists (nth 8 reference [])];
    (split; [cbn; tauto|cbn; tauto]).
Qed.

(** C143: the unit of a composed quantity is the product of the powers of the
    units: if [d] gives the exponent of a base unit, that of the result is the
    sum over the terms.  Missing: expressions whose first term has an exponent
    ([C143_first_exponent_refuted]). *)
Theorem C143_units_partial : forall A F mkset (get : str -> option A) mul pow truth (d : A -> Qc) target u b l,
  (forall a b c, mul a b = Ok c -> d c = (d a + d b)%Qc) -> (forall a e c, pow a e = Ok c -> d c = (e * d a)%Qc) ->
  (get target = None \/ exists a, get target = Some a /\ truth a = false) ->
  evaluated F mkset target = Ok ((b, 1%Qc) :: l) ->
  get_metadata F mkset get mul pow truth target = Ok (Some u) ->
  d u = exponent_in get d ((b, 1%Qc) :: l).
Proof. intros A F mkset get mul pow truth d target u b l Dm Dp. now apply metadata_exponent. Qed.
Print Assumptions C143_units_partial.
(** The exponent of the metre in the units of three quantities; the operations
    are those of exponents. *)
Definition metres (k : str) : option Qc :=
  if str_eqb k (lit "Vr") then Some 1%Qc else if str_eqb k (lit "mfp") then Some 1%Qc
  else if str_eqb k (lit "rho") then Some (- Qc_of_Z 3)%Qc else None.
Definition metadata_of := get_metadata F64 ord metres (fun a b => Ok (a + b)%Qc) (fun a e => Ok (e * a)%Qc) (fun _ => true).
(** C143: the exponent of the first term is ignored: the square of a velocity
    has the unit of a velocity. *)
Theorem C143_first_exponent_refuted :
  metadata_of (lit "Vr * Vr") = Ok (Some 1%Qc) /\ evaluated F64 ord (lit "Vr * Vr") = Ok [(lit "Vr", Qc_of_Z 2)]
  /\ exponent_in metres (fun a => a) [(lit "Vr", Qc_of_Z 2)] = Qc_of_Z 2.
Proof. split; [vm_compute; reflexivity|]. split; vm_compute; reflexivity. Qed.
Print Assumptions C143_first_exponent_refuted.
Example C143_example : metadata_of (lit "mfp / rho^2") = Ok (Some (Qc_of_Z 7)) /\ metadata_of (lit "rho") = Ok (Some (- Qc_of_Z 3)%Qc).
Proof. split; vm_compute; reflexivity. Qed.

(** * Data sources *)

Section Sources.
Context (find_data : str -> res (option str)) (bare : str -> bool) (parent : str -> str) (join : str -> str -> str)
        (exists_ : str -> bool) (resolve : str -> str) (cwd : str).
Notation upd := (update find_data bare parent join exists_ resolve).
Notation hist := (history find_data bare parent join exists_ resolve).
Notation mk := (make_observer find_data bare parent join exists_ resolve cwd).
Notation after config source system h := (hist (snd (mk config source system)) h).

(** C144: after any updates, whether they failed or not, an update that
    succeeds makes the observer use the data in the latest source, if there
    are any; a configuration file that it gives is looked up beside these
    data.  Missing: sources without data ([C144_no_data_refuted]) and
    configuration files given before ([C144_configuration_refuted]). *)
Theorem C144_latest_partial : forall config source system h src cfg d,
  let s := snd (upd (after config source system h) src cfg) in
  fst (upd (after config source system h) src cfg) = Ok tt ->
  find_data (latest (or_str source cwd) (settings (map fst (h ++ [(src, cfg)])))) = Ok (Some d) ->
  latest config (map Some (settings (map snd (h ++ [(src, cfg)])))) <> None ->
  exists b, s_context s = Some b /\ b_data b = d
    /\ (given cfg = true -> exists c, cfg = Some c /\ configuration bare parent join exists_ resolve d c = Some (b_conf b)).
Proof.
  intros config source system h src cfg d s R Fd K. subst s.
  destruct (make_coherent find_data bare parent join exists_ resolve cwd config source system) as (C0 & S0 & K0).
  destruct (history_source find_data bare parent join exists_ resolve h _ C0) as (C1 & S1 & K1). rewrite S0 in S1. rewrite K0 in K1.
  destruct (upd (after config source system h) src cfg) as [r s] eqn:U. cbn [fst snd] in *.
  pose proof (update_source _ _ _ _ _ _ _ _ _ _ _ U C1) as (C2 & S2 & K2). rewrite map_app, settings_app, latest_app in Fd.
  rewrite map_app, settings_app, map_app, latest_app in K. rewrite <- S1 in Fd. rewrite <- K1 in K. cbn [map fst snd] in Fd, K. rewrite <- S2 in Fd.
  assert (K' : s_config s <> None). { rewrite K2. destruct cfg as [[|x cfg]|]; try exact K; discriminate. }
  destruct (update_context _ _ _ _ _ _ _ _ _ _ _ d U C1 Fd K' R) as (b & E & D & _ & Q).
  exists b. split; [exact E|]. split; [exact D|]. intros G. exact (proj2 (Q G)).
Qed.

(** C145: an observer that is updated forgets the metric system it was made
    with. *)
Theorem C145_system_refuted : forall config source system h src cfg d,
  let s := snd (upd (after config source system h) src cfg) in
  fst (upd (after config source system h) src cfg) = Ok tt ->
  find_data (latest (or_str source cwd) (settings (map fst (h ++ [(src, cfg)])))) = Ok (Some d) ->
  latest config (map Some (settings (map snd (h ++ [(src, cfg)])))) <> None ->
  exists b, s_context s = Some b /\ b_system b = lit "mks".
Proof.
  intros config source system h src cfg d s R Fd K. subst s.
  destruct (make_coherent find_data bare parent join exists_ resolve cwd config source system) as (C0 & S0 & K0).
  destruct (history_source find_data bare parent join exists_ resolve h _ C0) as (C1 & S1 & K1). rewrite S0 in S1. rewrite K0 in K1.
  destruct (upd (after config source system h) src cfg) as [r s] eqn:U. cbn [fst snd] in *.
  pose proof (update_source _ _ _ _ _ _ _ _ _ _ _ U C1) as (C2 & S2 & K2). rewrite map_app, settings_app, latest_app in Fd.
  rewrite map_app, settings_app, map_app, latest_app in K. rewrite <- S1 in Fd. rewrite <- K1 in K. cbn [map fst snd] in Fd, K. rewrite <- S2 in Fd.
  assert (K' : s_config s <> None). { rewrite K2. destruct cfg as [[|x cfg]|]; try exact K; discriminate. }
  destruct (update_context _ _ _ _ _ _ _ _ _ _ _ d U C1 Fd K' R) as (b & E & _ & M & _). exists b. auto.
Qed.
(** C145: at first, it has the system that was asked for. *)
Theorem C145_system_partial : forall config source x l b,
  s_context (snd (mk config source (Some (x :: l)))) = Some b -> b_system b = x :: l.
Proof.
  intros config source x l b. unfold make_observer, build_context. cbn [given].
  destruct (datapath find_data _) as [[[d|]|e] s1] eqn:D.
  - destruct (confpath bare parent join exists_ resolve s1 d) as [[[c|]|e] s2] eqn:Q; cbn.
    + intros E. injection E as <-. reflexivity.
    + unfold confpath, datapath in *. cbn in D. destruct (find_data _) as [p|]; [|discriminate]. injection D as -> <-. cbn in Q. cbn.
      destruct config as [c|]; [destruct (bare c && exists_ (join (parent d) c)); [discriminate|]; destruct (exists_ (resolve c)); discriminate|].
      injection Q as <-. discriminate.
    + unfold confpath, datapath in *. cbn in D. destruct (find_data _) as [p|]; [|discriminate]. injection D as -> <-. cbn in Q.
      destruct config as [c|]; [|discriminate]. destruct (bare c && exists_ (join (parent d) c)); [discriminate|].
      destruct (exists_ (resolve c)); [discriminate|]. injection Q as _ <-. discriminate.
  - unfold datapath in D. cbn in D. destruct (find_data _) as [p|]; [|discriminate]. injection D as -> <-. discriminate.
  - unfold datapath in D. cbn in D. destruct (find_data _) as [p|]; [discriminate|]. injection D as _ <-. discriminate.
Qed.

(** C146: an update that fails leaves the observing context as it was.
    Missing: the observer keeps the wrong source ([C146_source_refuted]). *)
Theorem C146_failure_partial : forall config source system h src cfg e,
  fst (upd (after config source system h) src cfg) = Err e ->
  s_context (snd (upd (after config source system h) src cfg)) = s_context (after config source system h).
Proof.
  intros config source system h src cfg e R. destruct (upd (after config source system h) src cfg) as [r s] eqn:U. cbn in R. subst r.
  exact (update_fails _ _ _ _ _ _ _ _ _ _ _ U).
Qed.
End Sources.
Print Assumptions C144_latest_partial.
Print Assumptions C145_system_refuted.
Print Assumptions C145_system_partial.
Print Assumptions C146_failure_partial.

(** Two directories with data and configuration files, and one without
    data; other directories do not exist. *)
Definition files : list string := ["a/obs.nc"; "a/c"; "b/obs.nc"; "b/c"; "n/c"]%string.
Definition is_file (s : str) : bool := existsb (fun f => str_eqb s (lit f)) files.
Definition no_slash (s : str) : bool := negb (existsb (fun c => Ascii.eqb c "/"%char) s).
Definition data_in (s : str) : res (option str) :=
  if str_eqb s (lit "n") then Ok None
  else if str_eqb s (lit "a") || str_eqb s (lit "b") then Ok (Some (s ++ lit "/obs.nc")) else Err FileNotFoundError.
Definition beside (d : str) : str := firstn 1 d.
Definition path (d f : str) : str := d ++ lit "/" ++ f.
Definition start (config source system : string) := snd (make_observer data_in no_slash beside path is_file (fun s => s) [] (Some (lit config)) (Some (lit source)) (Some (lit system))).
Definition updated := update data_in no_slash beside path is_file (fun s => s).
(** C144: an update to a directory without data succeeds, and the observer
    goes on with the old data. *)
Theorem C144_no_data_refuted :
  let s := start "c" "a" "cgs" in
  fst (updated s (Some (lit "n")) None) = Ok tt
  /\ s_context (snd (updated s (Some (lit "n")) None)) = Some (mkBuilt (lit "a/obs.nc") (lit "a/c") (lit "cgs")).
Proof. split; reflexivity. Qed.
Print Assumptions C144_no_data_refuted.
(** C144: after a change of the source, the data come from the new directory
    and the configuration from the old one, although the new one has a file of
    the same name. *)
Theorem C144_configuration_refuted :
  s_context (snd (updated (start "c" "a" "cgs") (Some (lit "b")) None)) = Some (mkBuilt (lit "b/obs.nc") (lit "a/c") (lit "mks"))
  /\ configuration no_slash beside path is_file (fun s => s) (lit "b/obs.nc") (lit "c") = Some (lit "b/c").
Proof. split; reflexivity. Qed.
Print Assumptions C144_configuration_refuted.
(** C146: after a failed update, the same observer refuses another
    configuration that it would have taken before. *)
Theorem C146_source_refuted :
  let s := start "c" "a" "mks" in
  let s' := snd (updated s (Some (lit "z")) None) in
  fst (updated s (Some (lit "z")) None) = Err FileNotFoundError
  /\ fst (updated s None (Some (lit "b/c"))) = Ok tt /\ fst (updated s' None (Some (lit "b/c"))) = Err FileNotFoundError.
Proof. split; [reflexivity|]. split; reflexivity. Qed.
Print Assumptions C146_source_refuted.
Example C144_example :
  s_context (snd (updated (start "c" "a" "cgs") (Some (lit "b")) (Some (lit "c")))) = Some (mkBuilt (lit "b/obs.nc") (lit "b/c") (lit "mks"))
  /\ s_context (start "c" "a" "cgs") = Some (mkBuilt (lit "a/obs.nc") (lit "a/c") (lit "cgs")).
Proof. split; reflexivity. Qed.
