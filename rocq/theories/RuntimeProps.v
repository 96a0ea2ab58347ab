(** Properties of runtime parameters. *)

From Coq Require Import String Ascii List Bool ZArith QArith Qcanon Lia.
From Verif Require Import Py PyFacts PyDict SymbolicModel SymbolicSpec SymbolicLawProofs RuntimeModel RuntimeSpec RuntimeProofs.
Import SymbolicSpec ListNotations.
Open Scope list_scope.
Open Scope nat_scope.

(** Closed facts about literals. *)
Ltac outside := let H := fresh in intros H; cbn in H; repeat (destruct H as [H|H]; [discriminate H|]); exact H.
Ltac blank_text := repeat (constructor; [split; [reflexivity|discriminate]|]); apply Forall_nil.
Ltac entry :=
  split; [outside|]; split; [outside|]; split; [outside|]; split; [blank_text|]; split; [blank_text|];
  split; [split; (reflexivity || exact I)|]; split; [outside|]; split; [outside|];
  split; [intros ? [<-|[]]; (split; [outside|split; outside])|];
  first [exact I | (split; [now left|]); (split; [discriminate|]); (split; [discriminate|]); split; outside].

(** * Configuration files *)

(** C50: a file of blank lines, comments and lines key=value gives exactly
    those pairs, in order, the last assignment to a key winning.  Missing: see
    [C50_bad_line_refuted]. *)
Theorem C50_file_read_partial : forall signs ls,
  without newline signs -> Forall (line_ok (match signs with [] => ["#"%char] | _ => signs end)) ls ->
  exists pairs, config_file signs (file_text ls) = Ok pairs /\ NoDup (map fst pairs) /\
    (forall k, d_get str_eqb pairs k = d_get str_eqb (rev (entries ls)) k).
Proof.
  intros signs ls N H. exists (d_of str_eqb (entries ls)). split; [now apply config_ok|]. split.
  - apply (d_of_NoDup str_eqb str_eqb_spec).
  - intros k. apply (d_of_get str_eqb str_eqb_spec).
Qed.
(** C50: exactly the files with a line that is not empty, no comment, and
    without exactly one equals sign are rejected. *)
Theorem C50_rejected_files : forall signs contents,
  config_file signs contents = Err ValueError <->
  exists l, line_of contents l /\ bad_line (match signs with [] => ["#"%char] | _ => signs end) l.
Proof.
  intros. unfold config_file. rewrite <- parse_bad. split; intros (l & I & B); exists l; (split; [now apply split_line_of|exact B]).
Qed.
(** C50: so an equals sign in a comment at the end of a line, a line of blanks
    or an indented comment makes the file unreadable. *)
Theorem C50_bad_line_refuted :
  config_file [] (file_text [Entry (lit "a") [] (lit "1") (lit " ") (Some ("#"%char, lit " default=2"))]) = Err ValueError /\
  config_file [] (lit "a=1" ++ [newline] ++ lit "  " ++ [newline]) = Err ValueError /\
  config_file [] (lit "a=1" ++ [newline] ++ lit "  # note" ++ [newline]) = Err ValueError.
Proof. repeat split; reflexivity. Qed.
Example C50_file :
  let ls := [Comment "#"%char (lit " a=b"); Blank; Entry (lit "mass") (lit " ") (lit "1.0") (lit " ") (Some ("#"%char, lit " note"));
             Entry (lit "mass") [] (lit "4") [] None; Entry (lit "list") [] (lit "[1, 2]") [] None] in
  Forall (line_ok ["#"%char]) ls /\
  config_file [] (file_text ls) = Ok [(lit "mass", lit "4"); (lit "list", lit "[1, 2]")].
Proof.
  cbv zeta. split; [|reflexivity]. constructor; [split; [now left|outside]|]. constructor; [exact I|].
  constructor; [entry|]. constructor; [entry|]. constructor; [entry|constructor].
Qed.

(** C51: blanks around a value do not matter (the blanks of the entries are
    arbitrary).  Missing: blanks before the equals sign become part of the
    key. *)
Theorem C51_blanks_around_value_partial : forall signs k v b a b' a' n rest,
  let ok := line_ok (match signs with [] => ["#"%char] | _ => signs end) in
  without newline signs -> ok (Entry k b v a n) -> ok (Entry k b' v a' n) -> Forall ok rest ->
  config_file signs (file_text (Entry k b v a n :: rest)) = config_file signs (file_text (Entry k b' v a' n :: rest)).
Proof.
  intros signs k v b a b' a' n rest ok N H H' R. rewrite !config_ok; auto; constructor; auto.
Qed.
(** C51: the key of a line "key =value" has the blanks in it, so that the line
    does not define the parameter. *)
Theorem C51_blank_before_equals_refuted : forall v,
  line_ok ["#"%char] (Entry (lit "mass") [] v [] None) ->
  exists pairs, config_file [] (lit "mass =" ++ v ++ [newline]) = Ok pairs /\ d_get str_eqb pairs (lit "mass") = None.
Proof.
  intros v (_ & _ & _ & _ & _ & T & E & W & C & _). exists [(lit "mass ", v)]. split; [|reflexivity].
  change (config_file [] (lit "mass =" ++ v ++ [newline])) with
    (config_file [] (lit "mass " ++ "="%char :: [] ++ v ++ [newline])).
  assert (lit "mass " ++ "="%char :: [] ++ v ++ [newline] = file_text [Entry (lit "mass ") [] v [] None]) as ->.
  { unfold file_text. cbn [map concat line_text]. rewrite !app_nil_r. rewrite <- app_assoc. reflexivity. }
  rewrite config_ok; [reflexivity|intros []|]. constructor; [|constructor]. cbn [line_ok].
  split; [outside|]. split; [outside|]. split; [outside|]. split; [constructor|]. split; [constructor|]. split; [exact T|]. auto.
Qed.
Example C51_lines : line_ok ["#"%char] (Entry (lit "mass") [] (lit "4") [] None) /\
  config_file [] (lit "mass = 4") = Ok [(lit "mass ", lit "4")] /\ config_file [] (lit "mass= 4 ") = Ok [(lit "mass", lit "4")].
Proof.
  split; [entry|split; reflexivity].
Qed.

(** * Definitions *)

(** C52: if values of the known names satisfy their definitions, and the
    definitions are acyclic, then evaluating a parameter terminates with its
    value.  Missing: see the restrictions in [formula_ok] and
    [C52_definitions_refuted]. *)
Theorem C52_evaluation_partial : forall F r rho rank known n,
  solves F r rho rank known -> known n ->
  exists N, forall fuel, N <= fuel -> evaluate F r fuel (RStr n) = Ok (RReal (rho n)).
Proof. intros F r rho rank known n S K. exact (gives_name F r rho rank known S n K). Qed.

Module Run.
(** A run: some parameters with definitions, and two constants. *)
Definition reference : list (str * (rtype * str)) :=
  [(lit "rScale", (TFloat, lit "2.0")); (lit "n", (TInt, lit "3"));
   (lit "total", (TFloat, lit "2 * rScale + RS")); (lit "rest", (TFloat, lit "config.total - n"))].
Definition constants : list (str * str) := [(lit "RS", lit "0.5"); (lit "TWO", lit "RS * 4")].
Definition types : list (str * rtype) := [(lit "RS", TFloat); (lit "TWO", TFloat)].
Definition user : list (str * str) := [(lit "n", lit "4"); (lit "rScale", [])].
Definition r := mkRun user reference constants types.
Definition rho (n : str) : Qc :=
  if str_eqb n (lit "rScale") then Q2Qc 2 else if str_eqb n (lit "n") then Q2Qc 4
  else if str_eqb n (lit "RS") then Q2Qc (1 # 2) else if str_eqb n (lit "TWO") then Q2Qc 2
  else if str_eqb n (lit "total") then Q2Qc (9 # 2) else Q2Qc (1 # 2).
Definition rank (n : str) : nat :=
  if str_eqb n (lit "rest") then 2 else if str_eqb n (lit "total") then 1 else if str_eqb n (lit "TWO") then 1 else 0.
Definition known (n : str) : Prop := In n (map fst reference ++ map fst constants).
End Run.
Import Run.

Ltac qc :=
  solve [ apply Qc_is_canon; vm_compute; reflexivity
        | apply computes_some; vm_compute; reflexivity
        | apply computes_real; vm_compute; reflexivity
        | apply computes_number; vm_compute; reflexivity
        | vm_compute; reflexivity ].
Ltac legal_name := split; [decide_legal|]; split; [apply not_starts; reflexivity|]; split; [discriminate|reflexivity].
Ltac is_known := unfold known; cbn; tauto.
Example C52_run : solves F64 r rho rank known.
Proof.
  split.
  - intros n H.
    assert (In n (map fst reference ++ map fst constants)) as I by (apply in_or_app; exact H).
    cbn in I. repeat (destruct I as [<-|I]; [repeat split; try discriminate; repeat constructor|]). destruct I.
  - intros n t d K E. cbn zeta.
    cbn in K. repeat (destruct K as [<-|K]; [try discriminate E; vm_compute in E; injection E as <- <-|]); try destruct K; try discriminate E.
    + left. qc.
    + left. qc.
    + right. exists (FSum (SAtom (AProduct (WNum (Q2Qc 2)) [(Some Multiply, WVar (lit "rScale") 1%Qc)])) (SAtom (AName (lit "RS")))).
      split; [reflexivity|]. split; [now right|]. split; [intros q H; discriminate H|]. split; [|split].
      * cbn [formula_ok side_ok]. split; [|split].
        -- split; [split; reflexivity|]. split; [outside|]. split; [outside|]. split; [|split; [|split]].
           ++ split; [|constructor; [|constructor]].
              ** cbn [legal]. split; [discriminate|]. split; [compute_eq|reflexivity].
              ** split; [discriminate|]. cbn [snd legal]. legal_name.
           ++ repeat constructor; exists 1%Z; reflexivity.
           ++ constructor; [now left|]. constructor; [|constructor]. right. discriminate.
           ++ left. vm_compute. tauto.
        -- split; [split; reflexivity|]. split; [outside|]. split; [outside|exact I].
        -- intros H. vm_compute in H. discriminate H.
      * qc.
      * intros m H. vm_compute in H. destruct H as [<-|[<-|[]]]; (split; [is_known|vm_compute; lia]).
    + right. exists (FSide (SDifference (AMember (lit "total")) (AName (lit "n")))).
      split; [reflexivity|]. split; [now right|]. split; [intros q H; discriminate H|]. split; [|split].
      * cbn [formula_ok side_ok]. split; [|split].
        -- split; [split; reflexivity|]. split; [outside|]. split; [outside|exact I].
        -- split; [split; reflexivity|]. split; [outside|]. split; [outside|exact I].
        -- intros H. vm_compute in H. discriminate H.
      * qc.
      * intros m H. vm_compute in H. destruct H as [<-|[<-|[]]]; (split; [is_known|vm_compute; lia]).
  - intros n K E. cbn in K. repeat (destruct K as [<-|K]; [try discriminate E|]); try destruct K.
    + exists (lit "0.5"), TFloat. split; [reflexivity|]. split; [reflexivity|]. left. qc.
    + exists (lit "RS * 4"), TFloat. split; [reflexivity|]. split; [reflexivity|]. right.
      exists (WVar (lit "RS") 1%Qc), [(Some Multiply, WNum (Q2Qc 4))]. split; [reflexivity|]. split; [|split].
      * split; [|split; [|split]].
        -- split; [cbn [legal]; legal_name|]. constructor; [|constructor]. split; [discriminate|].
           cbn [snd legal]. split; [discriminate|]. split; [compute_eq|reflexivity].
        -- repeat constructor; exists 1%Z; reflexivity.
        -- constructor; [right; discriminate|]. constructor; [now left|constructor].
        -- left. vm_compute. tauto.
      * qc.
      * intros m H. vm_compute in H. destruct H as [<-|[]]. split; [is_known|]. split; [reflexivity|vm_compute; lia].
Qed.
Example C52_values : exists N, forall fuel, N <= fuel -> evaluate F64 r fuel (RStr (lit "rest")) = Ok (RReal (Q2Qc (1 # 2))).
Proof. apply (C52_evaluation_partial _ _ _ _ _ (lit "rest") C52_run). is_known. Qed.

(** C52: definitions whose value is not found or is wrong: a difference that is
    zero; sums of three terms lose the third; a zero for an integer parameter
    that is not written as an integer; a small number in a product. *)
Definition with_default (text : string) : run :=
  mkRun [] [(lit "a", (TFloat, lit "3")); (lit "b", (TFloat, lit "3")); (lit "c", (TFloat, lit text)); (lit "i", (TInt, lit "0.0"))] [] [].
Theorem C52_definitions_refuted :
  (forall k, evaluate F64 (with_default "a - b") (10 + k) (RStr (lit "c")) = Err TypeError) /\
  (forall k, evaluate F64 (with_default "a + b + b") (10 + k) (RStr (lit "c")) = Ok (RReal (Qc_of_Z 6))) /\
  (forall k, evaluate F64 (with_default "a - b - b - a") (10 + k) (RStr (lit "c")) = Err TypeError) /\
  (forall k, evaluate F64 (with_default "a") (10 + k) (RStr (lit "i")) = Err TypeError) /\
  (forall k, evaluate F64 (with_default "1e-3*a") (10 + k) (RStr (lit "c")) = Err TypeError).
Proof. repeat split; intros k; qc. Qed.

(** C109: a constant defined by a numeral or by a product of constants has the
    value of the product.  Missing: see [C109_factors_refuted]. *)
Theorem C109_constants_partial : forall F r rho rank known n,
  solves F r rho rank known -> known n -> d_get str_eqb (r_reference r) n = None ->
  exists N, forall fuel, N <= fuel -> compute_constant F (r_constants r) (r_types r) fuel n = Ok (rho n).
Proof. intros F r rho rank known n S K R. exact (constants_evaluate F r rho rank known S n K R). Qed.
(** C109: a factor that is not known is left out, and a factor that is zero
    counts as 1. *)
Theorem C109_factors_refuted :
  let defs := [(lit "A", lit "2.0"); (lit "Z", lit "0.0"); (lit "B", lit "A * unknown"); (lit "C", lit "A * Z")] in
  let types := [(lit "A", TFloat); (lit "Z", TFloat); (lit "B", TFloat); (lit "C", TFloat)] in
  forall k, compute_constant F64 defs types (3 + k) (lit "B") = Ok (Qc_of_Z 2) /\
            compute_constant F64 defs types (3 + k) (lit "C") = Ok (Qc_of_Z 2) /\
            compute_constant F64 defs types (3 + k) (lit "Z") = Ok 0%Qc.
Proof. intros defs types k. split; [|split]; qc. Qed.
Example C109_run : exists N, forall fuel, N <= fuel -> compute_constant F64 constants types fuel (lit "TWO") = Ok (Q2Qc 2).
Proof. apply (C109_constants_partial _ _ _ _ _ (lit "TWO") C52_run); [is_known|reflexivity]. Qed.

(** C110: evaluation depends on the user's file only through the non-empty
    values of parameters: other keys and empty values have no effect. *)
Theorem C110_relevant_pairs : forall F u v reference constants types fuel x,
  (forall k, In k (map fst reference) ->
     match d_get str_eqb u k with Some (c :: s) => Some (c :: s) | _ => None end =
     match d_get str_eqb v k with Some (c :: s) => Some (c :: s) | _ => None end) ->
  evaluate F (mkRun u reference constants types) fuel x = evaluate F (mkRun v reference constants types) fuel x.
Proof. intros. now apply evaluate_given. Qed.
Example C110_run : forall k, In k (map fst reference) ->
     match d_get str_eqb user k with Some (c :: s) => Some (c :: s) | _ => None end =
     match d_get str_eqb [(lit "unknown", lit "5"); (lit "n", lit "4")] k with Some (c :: s) => Some (c :: s) | _ => None end.
Proof. intros k H. cbn in H. repeat (destruct H as [<-|H]; [reflexivity|]). destruct H. Qed.

(** C111: evaluating a parameter whose definition leads back to itself raises
    RecursionError and never gives a value. *)
Theorem C111_cycles : forall F r (loop : str -> Prop),
  (forall n, loop n -> proper_name n /\ exists t default m,
     d_get str_eqb (r_reference r) n = Some (t, default) /\ (t = TInt \/ t = TFloat) /\
     (match d_get str_eqb (r_user r) n with Some (c :: s) => c :: s | _ => default end) = m /\ loop m) ->
  forall fuel n, loop n -> evaluate F r fuel (RStr n) = Err RuntimeError.
Proof. exact cycle_diverges. Qed.
Example C111_run :
  let r := mkRun [(lit "a", lit "b")] [(lit "a", (TInt, lit "1")); (lit "b", (TFloat, lit "a"))] [] [] in
  let loop n := n = lit "a" \/ n = lit "b" in
  forall n, loop n -> proper_name n /\ exists t default m,
     d_get str_eqb (r_reference r) n = Some (t, default) /\ (t = TInt \/ t = TFloat) /\
     (match d_get str_eqb (r_user r) n with Some (c :: s) => c :: s | _ => default end) = m /\ loop m.
Proof.
  intros r0 loop n [->| ->].
  - split; [repeat split; try discriminate; repeat constructor|]. exists TInt, (lit "1"), (lit "b"). repeat split; auto. now right.
  - split; [repeat split; try discriminate; repeat constructor|]. exists TFloat, (lit "a"), (lit "a"). repeat split; auto. now left.
Qed.

(** C108: comparing two files lists every parameter of either file once, in
    order, with its values in both. *)
Theorem C108_comparison : forall a b, NoDup (map fst a) -> NoDup (map fst b) ->
  NoDup (map fst (compare a b)) /\
  Sorted.StronglySorted (fun x y => str_leb x y = true) (map fst (compare a b)) /\
  (forall k, d_get str_eqb (compare a b) k =
     match d_get str_eqb a k, d_get str_eqb b k with None, None => None | x, y => Some (x, y) end).
Proof.
  intros a b Ha Hb. split; [now apply compare_nodup|]. split.
  - rewrite compare_keys. apply sort_by_sorted; [apply str_leb_total|apply str_leb_trans].
  - intros k. now apply compare_get.
Qed.
Example C108_files :
  compare [(lit "b", lit "1"); (lit "a", lit "2")] [(lit "c", lit "3"); (lit "b", lit "1")] =
  [(lit "a", (Some (lit "2"), None)); (lit "b", (Some (lit "1"), Some (lit "1"))); (lit "c", (None, Some (lit "3")))].
Proof. reflexivity. Qed.

(** C112: with the default comment signs, an interface gives for each
    parameter its value for the user's file.  Missing: other comment signs. *)
Theorem C112_interface_values_partial : forall F fuel signs contents reference constants types i user n,
  (signs = [] \/ signs = ["#"%char]) -> NoDup (map fst reference) ->
  open_interface F fuel signs contents reference constants types = Ok i ->
  config_file signs contents = Ok user ->
  i_user i = user /\
  interface_getitem i n = runtime_getitem F (mkRun user reference constants types) fuel n.
Proof.
  intros F fuel signs contents refs cs ts i user n Hs N O U. unfold open_interface in O.
  assert (config_file [] contents = config_file signs contents) as E by (destruct Hs as [->| ->]; reflexivity).
  rewrite E, U in O. cbn [bind] in O.
  destruct (mapM _ (map fst refs)) as [values|e] eqn:M; [|discriminate O]. cbn [bind] in O. injection O as <-.
  split; [reflexivity|]. unfold interface_getitem. cbn [i_values].
  clear -M N. unfold runtime_getitem in *. cbn [r_reference] in *.
  assert (forall n, In n (map fst refs) -> d_has str_eqb refs n = true) as H by (intros m; apply (d_has_in str_eqb str_eqb_spec)).
  assert (forall l values, (forall m, In m l -> d_has str_eqb refs m = true) ->
    mapM (fun k => do v <- (if d_has str_eqb refs k then evaluate F (mkRun user refs cs ts) fuel (RStr k) else Err KeyError); Ok (k, v))%py l = Ok values ->
    match d_get str_eqb values n with Some v => Ok v | None => Err KeyError end =
    if existsb (str_eqb n) l then evaluate F (mkRun user refs cs ts) fuel (RStr n) else Err KeyError) as G.
  { clear M values H. induction l as [|k l IH]; intros values H M.
    - cbn in M. injection M as <-. reflexivity.
    - cbn [mapM] in M. rewrite (H k) in M by now left.
      destruct (evaluate F (mkRun user refs cs ts) fuel (RStr k)) as [v|e] eqn:E; [|discriminate M]. cbn [bind] in M.
      destruct (mapM _ l) as [vs|e] eqn:M'; [|discriminate M]. cbn [bind] in M. injection M as <-.
      cbn [d_get existsb]. destruct (str_eqb_spec n k) as [->|D].
      + cbn [orb]. rewrite E. reflexivity.
      + cbn [orb]. apply IH; [intros; apply H; now right|reflexivity]. }
  rewrite (G _ _ H M).
  assert (existsb (str_eqb n) (map fst refs) = d_has str_eqb refs n) as ->; [|reflexivity].
  destruct (d_has str_eqb refs n) eqn:D.
  - apply existsb_exists. apply (d_has_in str_eqb str_eqb_spec) in D. exists n. split; [exact D|apply str_eqb_refl].
  - apply (d_has_false str_eqb str_eqb_spec) in D. destruct (existsb _ _) eqn:X; [|reflexivity].
    exfalso. apply existsb_exists in X as (m & I & E). destruct (str_eqb_spec n m) as [->|]; [contradiction|discriminate].
Qed.
(** C112: the values are read without the comment signs given to the
    interface, so that a comment becomes part of a value or makes the file
    unreadable. *)
Theorem C112_comment_signs_refuted :
  let refs := [(lit "model", (TStr, lit "x"))] in
  let file := lit "model=y ! note" in
  config_file ["!"%char] file = Ok [(lit "model", lit "y")] /\
  (forall k, exists i, open_interface F64 (3 + k) ["!"%char] file refs [] [] = Ok i /\
     interface_getitem i (lit "model") = Ok (RStr (lit "y ! note"))) /\
  (forall k, config_file ["!"%char] (lit "! note") = Ok [] /\
     open_interface F64 (3 + k) ["!"%char] (lit "! note") refs [] [] = Err ValueError).
Proof.
  intros refs file. split; [reflexivity|]. split; [|intros k; split; reflexivity].
  intros k. eexists. split; [reflexivity|reflexivity].
Qed.
Example C112_interface : exists i, open_interface F64 30 [] (lit "n=4") reference constants types = Ok i /\
  interface_getitem i (lit "n") = Ok (RReal (Qc_of_Z 4)).
Proof.
  destruct (open_interface F64 30 [] (lit "n=4") reference constants types) as [i|e] eqn:E.
  - exists i. split; [reflexivity|].
    assert (NoDup (map fst reference)) as N by (repeat (apply NoDup_cons; [outside|]); apply NoDup_nil).
    destruct (C112_interface_values_partial _ _ _ _ _ _ _ _ [(lit "n", lit "4")] (lit "n") (or_introl eq_refl) N E eq_refl) as [_ ->]. qc.
  - vm_compute in E. discriminate E.
Qed.
(** C113: an interface cannot be created at all if one parameter cannot be
    evaluated, although the others can. *)
Theorem C113_one_bad_parameter_refuted : forall k,
  let file := lit "bad=1 - 1" in
  let refs := [(lit "n", (TInt, lit "3")); (lit "bad", (TFloat, lit "0"))] in
  open_interface F64 (8 + k) [] file refs [] [] = Err TypeError /\
  runtime_getitem F64 (mkRun [(lit "bad", lit "1 - 1")] refs [] []) (8 + k) (lit "n") = Ok (RReal (Qc_of_Z 3)).
Proof. intros k file refs. split; qc. Qed.

(** C113: an interface is created exactly when every parameter can be
    evaluated (and the file read). *)
Theorem C113_all_parameters_partial : forall F fuel contents reference constants types user, NoDup (map fst reference) ->
  config_file [] contents = Ok user ->
  ((exists i, open_interface F fuel [] contents reference constants types = Ok i) <->
   (forall n, In n (map fst reference) -> exists v, runtime_getitem F (mkRun user reference constants types) fuel n = Ok v)).
Proof.
  intros F fuel contents refs cs ts user N U. split.
  - intros (i & E) n I. destruct (C112_interface_values_partial _ _ _ _ _ _ _ _ user n (or_introl eq_refl) N E U) as [_ <-].
    unfold open_interface in E. rewrite U in E. cbn [bind] in E.
    destruct (mapM _ (map fst refs)) as [values|e] eqn:M; [|discriminate E]. cbn [bind] in E. injection E as <-.
    unfold interface_getitem. cbn [i_values]. destruct (d_get str_eqb values n) eqn:G; [eauto|].
    exfalso. apply (d_get_none str_eqb str_eqb_spec) in G. apply G. clear -M I. revert values M I.
    induction (map fst refs) as [|k l IH]; intros values M I; [destruct I|]. cbn [mapM] in M.
    destruct (runtime_getitem _ _ _ k) as [v|]; [|discriminate M]. cbn [bind] in M.
    destruct (mapM _ l) as [vs|]; [|discriminate M]. cbn [bind] in M. injection M as <-.
    destruct I as [->|I]; [now left|]. right. now apply IH.
  - intros H. unfold open_interface. rewrite U. cbn [bind].
    assert (exists values, mapM (fun k => do v <- runtime_getitem F (mkRun user refs cs ts) fuel k; Ok (k, v))%py (map fst refs) = Ok values) as [values ->].
    { induction (map fst refs) as [|k l IH]; [now exists []|]. cbn [mapM]. destruct (H k) as [v ->]; [now left|]. cbn [bind].
      inversion N; subst. destruct IH as [vs ->]; auto. { intros n I. apply H. now right. } cbn [bind]. eauto. }
    cbn [bind]. eauto.
Qed.

Print Assumptions C113_all_parameters_partial.
Print Assumptions C50_file_read_partial.
Print Assumptions C50_rejected_files.
Print Assumptions C50_bad_line_refuted.
Print Assumptions C51_blanks_around_value_partial.
Print Assumptions C51_blank_before_equals_refuted.
Print Assumptions C52_evaluation_partial.
Print Assumptions C52_definitions_refuted.
Print Assumptions C109_constants_partial.
Print Assumptions C109_factors_refuted.
Print Assumptions C110_relevant_pairs.
Print Assumptions C111_cycles.
Print Assumptions C108_comparison.
Print Assumptions C112_interface_values_partial.
Print Assumptions C112_comment_signs_refuted.
Print Assumptions C113_one_bad_parameter_refuted.
