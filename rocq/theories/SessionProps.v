(** Properties of the caches of the parameters of a run (C285-C289). *)

From Coq Require Import String Ascii List Bool ZArith.
From Verif Require Import Py PyFacts PyDict SessionModel SessionSpec SessionProofs.
Import ListNotations.
Open Scope list_scope.
Open Scope nat_scope.

(** ** C285: parameters follow the current paths *)

(** Whatever was done before, with whatever files: when the source code has
    been the same since its path was last set (or since the creation), and the
    configuration files have been since theirs was, a parameter, the user's arguments and the constants are those of a new
    object with the current paths; if there can be no such object, the lookup
    of a parameter raises the same exception. *)
Theorem C285_follows_paths : forall (C B R K V : Type) (no_config : C) (names : R -> list str) (build : C -> R -> res K)
  (evaluate : str -> @prog B R K V) (f0 f : files) s c (o : runtime) h,
  new_runtime names f0 s c = Ok o -> unchanged f0 f h ->
  let now := later no_config names build evaluate o h in
  match new_runtime names f (source_of now) (config_of now) with
  | Ok fresh => forall a, (match a with RGet _ | RUser | RConstants => True | _ => False end) ->
      fst (act no_config names build evaluate f now a) = fst (act no_config names build evaluate f fresh a)
  | Err e => forall n, fst (act no_config names build evaluate f now (RGet n)) = SeeValue (Err e)
  end.
Proof.
  intros C B R K V no_config names build evaluate f0 f s c o h N U now.
  pose proof (unchanged_good no_config names build evaluate f0 f s c o h N U) as G. fold now in G.
  destruct (new_runtime names f (source_of now) (config_of now)) as [fresh|e] eqn:F.
  - destruct (new_good no_config names build f _ _ fresh F) as (G' & S' & C').
    intros a A. destruct a as [n| | | |l|l]; try contradiction; cbn [act].
    + destruct (item_ok no_config names build evaluate f now n G) as (E1 & _). destruct (item_ok no_config names build evaluate f fresh n G') as (E2 & _).
      destruct (getitem no_config names build evaluate f now n), (getitem no_config names build evaluate f fresh n). cbn [fst] in *. rewrite S', C' in E2. congruence.
    + destruct (user_ok no_config names build f now G) as (E1 & _). destruct (user_ok no_config names build f fresh G') as (E2 & _).
      destruct (get_user no_config f now), (get_user no_config f fresh). cbn [fst] in *. rewrite C' in E2. congruence.
    + destruct (constants_ok no_config names build f now G) as (E1 & _). destruct (constants_ok no_config names build f fresh G') as (E2 & _).
      destruct (get_constants f now), (get_constants f fresh). cbn [fst] in *. rewrite S' in E2. congruence.
  - intro n. cbn [act]. destruct (item_ok no_config names build evaluate f now n G) as (E1 & _).
    destruct (getitem no_config names build evaluate f now n). cbn [fst] in *. rewrite E1. unfold item_at.
    unfold new_runtime, get_reference in F. cbn [t_reference] in F. cbv zeta in F.
    change (source_of (mkRuntime [(lit "source", source_of now); (lit "config", config_of now)] None None None [] None : @runtime C B R K))
      with (source_of now) in F.
    destruct (read_reference f (source_of now)); [discriminate|]. now injection F as ->.
Qed.
Print Assumptions C285_follows_paths.


(** An example: references are lists of names; the value of a parameter is the
    text of the configuration file with the constants. *)
Definition ex_read (p : option str) : list str :=
  match p with Some (x :: _) => if Ascii.eqb x "n" then [lit "numNodesPerStream"; lit "simStartTime"] else [lit "simStartTime"] | _ => [lit "numRowsPerFace"] end.
Definition ex_files (user : str) : @files str (option str) (list str) :=
  mkFiles (fun p => Ok (p ++ user)) (fun p => Ok p) (fun p => Ok (ex_read p)).
Definition ex_prog (n : str) : @prog (option str) (list str) str (str * option str) :=
  AskCurrent (fun k => AskConstants (fun b => Done (Ok (k ++ n, b)))).
Definition ex_new := @new_runtime str (option str) (list str) str (fun r => r).
Definition ex_act := act [] (fun r : list str => r) (fun c _ => Ok c) ex_prog.
Definition ex_later := later [] (fun r : list str => r) (fun c _ => Ok c) ex_prog.
Definition ex_history : list (@files str (option str) (list str) * raction) :=
  [(ex_files (lit "0"), RGet (lit "simStartTime")); (ex_files (lit "1"), RGet (lit "simStartTime"));
   (ex_files (lit "2"), RSet [(lit "config", Some (lit "b.ini"))]); (ex_files (lit "3"), RGet (lit "simStartTime"));
   (ex_files (lit "3"), RSet [(lit "source", Some (lit "old"))])].
Example C285_meets : exists o, ex_new (ex_files (lit "0")) (Some (lit "new")) (Some (lit "a.ini")) = Ok o
  /\ unchanged (ex_files (lit "0")) (ex_files (lit "3")) ex_history
  /\ source_of (ex_later o ex_history) = Some (lit "old") /\ config_of (ex_later o ex_history) = Some (lit "b.ini")
  /\ fst (ex_act (ex_files (lit "3")) (ex_later o ex_history) (RGet (lit "simStartTime"))) = SeeValue (Ok (lit "b.ini3simStartTime", Some (lit "old")))
  (* the files changed and the value did not, before the path was set *)
  /\ fst (ex_act (ex_files (lit "1")) (ex_later o (firstn 2 ex_history)) (RGet (lit "simStartTime"))) = SeeValue (Ok (lit "a.ini0simStartTime", Some (lit "new")))
  (* a name that iteration gives and a lookup does not know *)
  /\ fst (ex_act (ex_files (lit "3")) (ex_later o ex_history) RKeys) = SeeKeys [lit "numNodesPerStream"; lit "simStartTime"]
  /\ fst (ex_act (ex_files (lit "3")) (ex_later o ex_history) (RGet (lit "numNodesPerStream"))) = SeeValue (Err KeyError).
Proof.
  eexists. split; [reflexivity|]. split; [|repeat split; vm_compute; reflexivity].
  split.
  - left. split; [split; reflexivity|]. repeat constructor.
  - right. exists (firstn 2 ex_history), (ex_files (lit "2"), RSet [(lit "config", Some (lit "b.ini"))]), (skipn 3 ex_history).
    split; [reflexivity|]. split; [left; reflexivity|]. repeat constructor; intros; reflexivity.
Qed.

(** ** C286: [path_to] *)

(** [path_to(name)] gives the path that was given last for the name, at the
    creation or with [path_to(name=path)]; a name for which none was ever given
    raises [KeyError]; several names give a list of their paths; nothing asked
    for and nothing set raises [TypeError]. *)
Theorem C286_last_path : forall (C B R K V : Type) (no_config : C) (names : R -> list str) (build : C -> R -> res K)
  (evaluate : str -> @prog B R K V) (f0 : files) s c (o : runtime) h f,
  new_runtime names f0 s c = Ok o ->
  let see a := fst (act no_config names build evaluate f (later no_config names build evaluate o h) a) in
  (forall asked paths, asked <> [] ->
     Forall2 (fun n p => last_path [(lit "source", s); (lit "config", c)] h n p) asked paths -> see (RPaths asked) = SeePaths (Ok paths))
  /\ (forall asked n, In n asked ->
        ~ In n (map fst ([(lit "source", s); (lit "config", c)] ++ flat_map (fun x => sets (snd x)) h)) -> see (RPaths asked) = SeePaths (Err KeyError))
  /\ see (RPaths []) = SeePaths (Err TypeError) /\ see (RSet []) = SeeSelf (Err TypeError)
  /\ (forall new, new <> [] -> see (RSet new) = SeeSelf (Ok tt)).
Proof.
  intros C B R K V no_config names build evaluate f0 s c o h f N see.
  assert (t_paths (later no_config names build evaluate o h) = d_of str_eqb ([(lit "source", s); (lit "config", c)] ++ flat_map (fun x => sets (snd x)) h)) as P.
  { destruct (later_place no_config names build evaluate h o) as [-> _]. destruct (new_parts names f0 s c o N) as (r & _ & ->).
    rewrite paths_flat. unfold d_of, d_update. rewrite fold_left_app. reflexivity. }
  assert (forall n p, last_path [(lit "source", s); (lit "config", c)] h n p -> d_get str_eqb (t_paths (later no_config names build evaluate o h)) n = Some p) as G.
  { intros n p (l1 & l2 & E & NI). rewrite P, E. destruct (d_update_last l1 n p l2 []) as [X|X]; [exact X|contradiction]. }
  repeat split.
  - intros asked paths NE A. unfold see. cbn [act fst]. f_equal. unfold paths_of. destruct asked as [|a l]; [congruence|]. clear NE.
    induction A as [|x p l' ps H A IH]; [reflexivity|]. cbn [mapM]. rewrite (G x p H). cbn [bind]. now rewrite IH.
  - intros asked n I NI. unfold see. cbn [act fst]. f_equal. unfold paths_of. destruct asked as [|a l]; [destruct I|].
    assert (d_get str_eqb (t_paths (later no_config names build evaluate o h)) n = None) as X.
    { rewrite P. exact (get_update_other _ [] n NI). }
    induction (a :: l) as [|x l' IH]; [destruct I|]. cbn [mapM]. destruct (d_get str_eqb _ x) as [p|] eqn:D; [|reflexivity].
    destruct I as [->|I]; [congruence|]. cbn [bind]. now rewrite (IH I).
  - intros new NE. unfold see. cbn [act]. destruct new; [congruence|reflexivity].
Qed.
Print Assumptions C286_last_path.

Example C286_meets : exists o, ex_new (ex_files (lit "0")) (Some (lit "new")) (Some (lit "a.ini")) = Ok o
  /\ Forall2 (last_path [(lit "source", Some (lit "new")); (lit "config", Some (lit "a.ini"))] ex_history)
       [lit "config"; lit "source"] [Some (lit "b.ini"); Some (lit "old")].
Proof.
  eexists. split; [reflexivity|]. repeat constructor.
  - exists [(lit "source", Some (lit "new")); (lit "config", Some (lit "a.ini"))], [(lit "source", Some (lit "old"))].
    split; [reflexivity|]. intros [K|[]]. vm_compute in K. discriminate K.
  - exists [(lit "source", Some (lit "new")); (lit "config", Some (lit "a.ini")); (lit "config", Some (lit "b.ini"))], [].
    split; [reflexivity|]. intros [].
Qed.

(** ** C287: a parameter that has a value keeps it *)

(** A parameter that has been read has the same value until a path is set,
    whatever happens to the files and whatever else is read. *)
Theorem C287_keeps_value : forall (C B R K V : Type) (no_config : C) (names : R -> list str) (build : C -> R -> res K)
  (evaluate : str -> @prog B R K V) (f g : files) (o : runtime) n v h,
  fst (act no_config names build evaluate f o (RGet n)) = SeeValue (Ok v) ->
  Forall (fun s => sets (snd s) = []) h ->
  fst (act no_config names build evaluate g (later no_config names build evaluate o ((f, RGet n) :: h)) (RGet n)) = SeeValue (Ok v).
Proof.
  intros C B R K V no_config names build evaluate f g o n v h H A.
  change (later no_config names build evaluate o ((f, RGet n) :: h)) with (later no_config names build evaluate (snd (act no_config names build evaluate f o (RGet n))) h).
  cbn [act] in *. destruct (getitem no_config names build evaluate f o n) as [r o'] eqn:E. cbn [fst snd] in *. injection H as ->.
  pose proof (later_keeps no_config names build evaluate h o' A) as Kp.
  pose proof (item_again no_config names build evaluate f o n v o' E g _ Kp) as Q.
  destruct (getitem no_config names build evaluate g (later no_config names build evaluate o' h) n). cbn [fst] in *. now rewrite Q.
Qed.
Print Assumptions C287_keeps_value.

(** The user's arguments, once read, are the same until the path to the
    configuration file is set, and the constants until the path to the source
    code is, whatever happens to the files. *)
Theorem C287_keeps_files : forall (C B R K V : Type) (no_config : C) (names : R -> list str) (build : C -> R -> res K)
  (evaluate : str -> @prog B R K V) (f g : files) (o : runtime) h,
  let see o a := fst (act no_config names build evaluate g o a) in
  let before a := fst (act no_config names build evaluate f o a) in
  let after a := later no_config names build evaluate o ((f, a) :: h) in
  (forall c, before RUser = SeeUser (Ok c) -> Forall (fun s => ~ In (lit "config") (map fst (sets (snd s)))) h ->
     see (after RUser) RUser = SeeUser (Ok c))
  /\ (forall b, before RConstants = SeeConstants (Ok b) -> Forall (fun s => ~ In (lit "source") (map fst (sets (snd s)))) h ->
     see (after RConstants) RConstants = SeeConstants (Ok b)).
Proof.
  intros C B R K V no_config names build evaluate f g o h. cbv zeta.
  assert (forall n (a : @raction), ~ In n (map fst (sets a)) -> forall l, a = RSet l -> existsb (str_eqb n) (map fst l) = false) as Nx.
  { intros n a N l ->. cbn [sets] in N. destruct (existsb (str_eqb n) (map fst l)) eqn:E; [|reflexivity]. apply member_spec in E. contradiction. }
  split; intros c H A.
  - change (later no_config names build evaluate o ((f, RUser) :: h)) with (later no_config names build evaluate (snd (act no_config names build evaluate f o RUser)) h).
    assert (t_user (snd (act no_config names build evaluate f o RUser)) = Some c) as U.
    { cbn [act] in *. unfold get_user in *. destruct (t_user o) eqn:E; cbn [fst snd] in *; [congruence|].
      destruct (match config_of o with Some (x :: p) => read_config f (x :: p) | _ => Ok no_config end); cbn [fst snd t_user] in *; congruence. }
    revert U A. generalize (snd (act no_config names build evaluate f o RUser)). clear H. induction h as [|[f' a] h IH]; intros q U A.
    + cbn [later fold_left act]. unfold get_user. now rewrite U.
    + inversion A as [|? ? N A']; subst. cbn [snd] in N. apply (IH (snd (act no_config names build evaluate f' q a))); [|exact A'].
      assert (sets a = [] -> t_user (snd (act no_config names build evaluate f' q a)) = Some c) as S0.
      { intros S0. exact (k_user _ _ (act_keeps no_config names build evaluate f' q a S0) c U). }
      destruct a as [n| | | |l|l]; try (apply S0; reflexivity). destruct l as [|x l]; [now apply S0|].
      cbn [act set_paths snd t_user]. rewrite (Nx _ _ N _ eq_refl). exact U.
  - change (later no_config names build evaluate o ((f, RConstants) :: h)) with (later no_config names build evaluate (snd (act no_config names build evaluate f o RConstants)) h).
    assert (t_constants (snd (act no_config names build evaluate f o RConstants)) = Some c) as U.
    { cbn [act] in *. unfold get_constants in *. destruct (t_constants o) eqn:E; cbn [fst snd] in *; [congruence|].
      destruct (read_constants f (source_of o)); cbn [fst snd t_constants] in *; congruence. }
    revert U A. generalize (snd (act no_config names build evaluate f o RConstants)). clear H. induction h as [|[f' a] h IH]; intros q U A.
    + cbn [later fold_left act]. unfold get_constants. now rewrite U.
    + inversion A as [|? ? N A']; subst. cbn [snd] in N. apply (IH (snd (act no_config names build evaluate f' q a))); [|exact A'].
      assert (sets a = [] -> t_constants (snd (act no_config names build evaluate f' q a)) = Some c) as S0.
      { intros S0. exact (k_constants _ _ (act_keeps no_config names build evaluate f' q a S0) c U). }
      destruct a as [n| | | |l|l]; try (apply S0; reflexivity). destruct l as [|x l]; [now apply S0|].
      cbn [act set_paths snd t_constants]. rewrite (Nx _ _ N _ eq_refl). exact U.
Qed.
Print Assumptions C287_keeps_files.

Example C287_meets : exists o v, ex_new (ex_files (lit "0")) (Some (lit "new")) (Some (lit "a.ini")) = Ok o
  /\ fst (ex_act (ex_files (lit "0")) o (RGet (lit "simStartTime"))) = SeeValue (Ok v)
  /\ fst (ex_act (ex_files (lit "1")) o (RGet (lit "simStartTime"))) <> SeeValue (Ok v).
Proof. eexists. eexists. split; [reflexivity|]. split; [vm_compute; reflexivity|]. intro K. vm_compute in K. discriminate K. Qed.

Example C287_files_meet : exists o c, ex_new (ex_files (lit "0")) (Some (lit "new")) (Some (lit "a.ini")) = Ok o
  /\ fst (ex_act (ex_files (lit "0")) o RUser) = SeeUser (Ok c)
  /\ fst (ex_act (ex_files (lit "1")) o RUser) <> SeeUser (Ok c).
Proof. eexists. eexists. split; [reflexivity|]. split; [vm_compute; reflexivity|]. intro K. vm_compute in K. discriminate K. Qed.

(** ** C288: constants and formats of the source code *)

(** A constant has the same value whatever was asked for before; an unknown
    name raises [KeyError], and [get] then gives the default. *)
Theorem C288_constants : forall (D V : Type) (compute : str -> res V) (defs : list (str * D)) h k,
  let o := fold_left (sact compute) h (mkSource defs []) in
  (In k (map fst defs) -> fst (constant compute o k) = compute k
     /\ (forall v m, compute k = Ok v -> m = None \/ m = Some [] -> fst (constants_get compute o k m) = Ok (GValue v))
     /\ (forall e m, compute k = Err e -> e <> KeyError -> m = None \/ m = Some [] -> fst (constants_get compute o k m) = Err e))
  /\ (~ In k (map fst defs) -> fst (constant compute o k) = Err KeyError
       /\ (forall m, m = None \/ m = Some [] \/ m = Some (lit "json") -> fst (constants_get compute o k m) = Ok GDefault))
  /\ (forall d, d_get str_eqb defs k = Some d -> fst (constants_get compute o k (Some (lit "json"))) = Ok (GDefinition d)).
Proof.
  intros D V compute defs h k o. destruct (sacts_ok compute h (mkSource defs []) (no_cache compute defs)) as [C E]. fold o in C, E. cbn [o_definitions] in E.
  destruct (constant_ok compute o k C) as (A & _).
  assert (d_has str_eqb defs k = true <-> In k (map fst defs)) as I by apply (d_has_in str_eqb str_eqb_spec).
  assert (forall m, fst (constants_get compute o k m) = got_of compute o k m) as G by (intro m; apply (got_ok compute o k m C)).
  unfold value_of in A. rewrite E in A. split; [|split].
  - intro K. apply I in K. rewrite K in A. split; [exact A|]. split.
    + intros v m Q [->| ->]; rewrite G; unfold got_of, value_of; now rewrite E, K, Q.
    + intros e m Q NE [->| ->]; rewrite G; unfold got_of, value_of; rewrite E, K, Q; destruct e; congruence.
  - intro NK. assert (d_has str_eqb defs k = false) as F by (destruct (d_has str_eqb defs k); [now apply I in NK|reflexivity] || (destruct (d_has str_eqb defs k); [exfalso; apply NK; now apply I|reflexivity])).
    rewrite F in A. split; [exact A|]. intros m [->|[->| ->]]; rewrite G; unfold got_of, value_of; rewrite E; [now rewrite F..|].
    cbn [lit]. change (str_eqb (lit "json") (lit "json")) with true. cbv iota. unfold d_has in F. destruct (d_get str_eqb defs k) eqn:Q; [discriminate|]. reflexivity.
  - intros d Q. rewrite G. unfold got_of. rewrite E, Q. reflexivity.
Qed.
Print Assumptions C288_constants.

(** [format] gives, for every name of the source code in its order, what [get]
    gives with the same format: with 'json' exactly the definitions.  Any
    other format raises [NotImplementedError], unless there is no name. *)
Theorem C288_format : forall (D V : Type) (compute : str -> res V) (defs : list (str * D)) h,
  NoDup (map fst defs) ->
  let o := fold_left (sact compute) h (mkSource defs []) in
  fst (format compute o (Some (lit "json"))) = Ok (map (fun kd => (fst kd, GDefinition (snd kd))) defs)
  /\ (forall vals, Forall2 (fun kd v => compute (fst kd) = Ok v) defs vals ->
        fst (format compute o None) = Ok (combine (map fst defs) (map GValue vals)))
  /\ (forall m, m <> [] -> m <> lit "json" -> fst (format compute o (Some m)) = match defs with [] => Ok [] | _ => Err NotImplementedError end).
Proof.
  intros D V compute defs h ND o. destruct (sacts_ok compute h (mkSource defs []) (no_cache compute defs)) as [C E]. fold o in C, E. cbn [o_definitions] in E.
  assert (forall m, fst (format compute o m) = mapM (fun k => (do g <- got_of compute o k m; Ok (k, g))%py) (map fst defs)) as F.
  { intro m. unfold format. rewrite E. apply (format_ok compute m (map fst defs) o C). }
  assert (forall kd, In kd defs -> d_get str_eqb defs (fst kd) = Some (snd kd)) as I.
  { intros [k d] I. now apply (d_get_iff str_eqb str_eqb_spec). }
  split; [|split].
  - rewrite F. assert (forall l, incl l defs -> mapM (fun k => (do g <- got_of compute o k (Some (lit "json")); Ok (k, g))%py) (map fst l)
      = Ok (map (fun kd => (fst kd, GDefinition (snd kd))) l)) as W; [|apply W, incl_refl].
    induction l as [|kd l IH]; intro S; [reflexivity|]. cbn [map mapM].
    assert (got_of compute o (fst kd) (Some (lit "json")) = Ok (GDefinition (snd kd))) as ->.
    { unfold got_of. rewrite E, (I kd) by (apply S; now left). reflexivity. }
    cbn [bind]. rewrite IH; [reflexivity|]. intros x J. apply S. now right.
  - intros vals A. rewrite F.
    assert (forall l vals, incl l defs -> Forall2 (fun kd v => compute (fst kd) = Ok v) l vals ->
      mapM (fun k => (do g <- got_of compute o k None; Ok (k, g))%py) (map fst l) = Ok (combine (map fst l) (map GValue vals))) as W; [|apply W; [apply incl_refl|exact A]].
    clear vals A. intros l vals S A. induction A as [|kd v l vals H A IH]; [reflexivity|]. cbn [map mapM combine].
    assert (got_of compute o (fst kd) None = Ok (GValue v)) as ->.
    { unfold got_of, value_of. rewrite E. unfold d_has. rewrite (I kd) by (apply S; now left). now rewrite H. }
    cbn [bind]. rewrite IH; [reflexivity|]. intros x J. apply S. now right.
  - intros m N1 N2. rewrite F. destruct defs as [|kd l]; [reflexivity|]. cbn [map mapM]. unfold got_of. destruct m as [|x m]; [congruence|].
    rewrite (str_eqb_neq _ _ N2). reflexivity.
Qed.
Print Assumptions C288_format.

(** The format 'json' of the parameters in configuration.c gives back the
    definitions as they are in the file, with the modes of reading. *)
Theorem C288_modes : forall (X : Type) (loaded : list (str * interior mode X)) k,
  reference_json (standardize loaded) k = d_get str_eqb loaded k.
Proof.
  intros X loaded k. unfold reference_json, standardize, replace_kind. rewrite map_map. cbn.
  induction loaded as [|[j [m x]] l IH]; [reflexivity|]. cbn. destruct (str_eqb k j); [destruct m; reflexivity|exact IH].
Qed.
Print Assumptions C288_modes.

Example C288_meets : let compute := fun k : str => if str_eqb k (lit "bad") then Err ValueError else Ok (length k) in
  fst (format compute (fold_left (sact compute) [SItem (lit "MP"); SFormat (Some (lit "json"))] (mkSource [(lit "MP", 1%Z); (lit "bad", 2%Z)] [])) (Some (lit "json")))
    = Ok [(lit "MP", GDefinition 1%Z); (lit "bad", GDefinition 2%Z)]
  /\ reference_json (standardize [(lit "a", mkInterior ReadString [(lit "x", 1%Z)])]) (lit "a") = Some (mkInterior ReadString [(lit "x", 1%Z)]).
Proof. split; reflexivity. Qed.

(** ** C289: names *)

(** Iteration, length and the views do not follow the path to the source code:
    their names are those of the first one for ever.  So they are those of a new
    object as long as that path is not set. *)
Theorem C289_names_partial : forall (C B R K V : Type) (no_config : C) (names : R -> list str) (build : C -> R -> res K)
  (evaluate : str -> @prog B R K V) (f0 : files) s c (o : runtime) h f,
  new_runtime names f0 s c = Ok o ->
  let now := later no_config names build evaluate o h in
  (forall r, read_reference f0 s = Ok r -> fst (act no_config names build evaluate f now RKeys) = SeeKeys (names r))
  /\ (~ In (lit "source") (map fst (flat_map (fun x => sets (snd x)) h)) -> exists fresh,
        new_runtime names f0 (source_of now) (config_of now) = Ok fresh
        /\ fst (act no_config names build evaluate f now RKeys) = fst (act no_config names build evaluate f fresh RKeys)).
Proof.
  intros C B R K V no_config names build evaluate f0 s c o h f N now.
  destruct (later_place no_config names build evaluate h o) as [P Q]. fold now in P, Q. destruct (new_parts names f0 s c o N) as (r' & E' & ->). split.
  - intros r E. cbn. rewrite Q. cbn. congruence.
  - intro NI. assert (source_of now = s) as S.
    { unfold source_of. rewrite P, paths_flat. now rewrite get_update_other by exact NI. }
    rewrite S. eexists. split.
    + unfold new_runtime, get_reference. cbn [t_reference]. cbv zeta.
      change (source_of (mkRuntime [(lit "source", s); (lit "config", config_of now)] None None None [] None : @runtime C B R K)) with s.
      rewrite E'. reflexivity.
    + cbn. now rewrite Q.
Qed.
Print Assumptions C289_names_partial.

(** With another path to the source code, a new object would have other names;
    iteration gives a name that the lookup does not know. *)
Theorem C289_names_refuted : exists (f : @files str (option str) (list str)) (o fresh : runtime) h n,
  ex_new f (Some (lit "new")) None = Ok o /\ unchanged f f h
  /\ ex_new f (source_of (ex_later o h)) (config_of (ex_later o h)) = Ok fresh
  /\ fst (ex_act f (ex_later o h) RKeys) <> fst (ex_act f fresh RKeys)
  /\ (exists l, fst (ex_act f (ex_later o h) RKeys) = SeeKeys l /\ In n l)
  /\ fst (ex_act f (ex_later o h) (RGet n)) = SeeValue (Err KeyError).
Proof.
  exists (ex_files []). eexists. eexists. exists [(ex_files [], RSet [(lit "source", Some (lit "old"))])], (lit "numNodesPerStream").
  split; [reflexivity|]. split; [split; left; (split; [split; reflexivity || reflexivity|]); repeat constructor|].
  split; [reflexivity|]. split; [intro K; vm_compute in K; discriminate K|]. split; [eexists; split; [reflexivity|now left]|].
  vm_compute. reflexivity.
Qed.
Print Assumptions C289_names_refuted.
