(** Proofs about the caches of the parameters of a run. *)

From Coq Require Import String Ascii List Bool ZArith Lia.
From Verif Require Import Py PyFacts PyDict SessionModel SessionSpec.
Import ListNotations.
Open Scope list_scope.
Open Scope nat_scope.

Section Runtime.
Context {C B R K V : Type} (no_config : C) (names : R -> list str) (build : C -> R -> res K) (evaluate : str -> @prog B R K V).
Notation files := (@files C B R).
Notation runtime := (@runtime C B R K).
Notation get_user := (get_user no_config).
Notation get_current := (get_current no_config names build).
Notation run := (@SessionModel.run C B R K V no_config names build).
Notation getitem := (getitem no_config names build evaluate).
Notation act := (act no_config names build evaluate).
Notation later := (later no_config names build evaluate).
Notation new_runtime := (@SessionModel.new_runtime C B R K names).

(** ** Values from the files *)

Definition user_at (f : files) (c : option str) : res C :=
  match c with Some (x :: p) => read_config f (x :: p) | _ => Ok no_config end.
Definition current_at (f : files) (s c : option str) : res K :=
  (do r <- read_reference f s; do u <- (match names r with [] => Ok no_config | _ => user_at f c end); build u r)%py.
Fixpoint run_at (f : files) (s c : option str) (p : @prog B R K V) : res V :=
  match p with
  | Done r => r
  | AskReference k => (do r <- read_reference f s; run_at f s c (k r))%py
  | AskCurrent k => (do x <- current_at f s c; run_at f s c (k x))%py
  | AskConstants k => (do b <- read_constants f s; run_at f s c (k b))%py
  end.
Definition item_at (f : files) (s c : option str) (n : str) : res V :=
  (do r <- read_reference f s; if existsb (str_eqb n) (names r) then run_at f s c (evaluate n) else Err KeyError)%py.

(** The caches hold what the files contain. *)
Record good (f : files) (o : runtime) : Prop := {
  g_user : forall u, t_user o = Some u -> user_at f (config_of o) = Ok u;
  g_constants : forall b, t_constants o = Some b -> read_constants f (source_of o) = Ok b;
  g_reference : forall r, t_reference o = Some r -> read_reference f (source_of o) = Ok r;
  g_current : forall k, t_current o = Some k -> current_at f (source_of o) (config_of o) = Ok k }.

Definition same_place (o o' : runtime) : Prop := t_paths o' = t_paths o /\ t_keys o' = t_keys o.
Lemma same_source o o' : same_place o o' -> source_of o' = source_of o.
Proof. intros [E _]. unfold source_of. now rewrite E. Qed.
Lemma same_config o o' : same_place o o' -> config_of o' = config_of o.
Proof. intros [E _]. unfold config_of. now rewrite E. Qed.
Lemma same_refl o : same_place o o. Proof. split; reflexivity. Qed.
Lemma same_trans a b c : same_place a b -> same_place b c -> same_place a c.
Proof. intros [A1 A2] [B1 B2]. split; congruence. Qed.

Ltac fresh_good G := destruct G; constructor; cbn in *; let y := fresh in let Ey := fresh in (intros y Ey; try discriminate; try (injection Ey as <-); auto).

Lemma constants_ok f o : good f o ->
  fst (get_constants f o) = read_constants f (source_of o) /\ good f (snd (get_constants f o)) /\ same_place o (snd (get_constants f o)).
Proof.
  intro G. unfold get_constants. destruct (t_constants o) as [b|] eqn:E.
  - cbn. rewrite (g_constants f o G b E). auto using same_refl.
  - destruct (read_constants f (source_of o)) as [b|e] eqn:Q; cbn; [|auto using same_refl].
    split; [reflexivity|]. split; [|split; reflexivity]. fresh_good G.
Qed.
Lemma user_ok f o : good f o ->
  fst (get_user f o) = user_at f (config_of o) /\ good f (snd (get_user f o)) /\ same_place o (snd (get_user f o)).
Proof.
  intro G. unfold SessionModel.get_user. destruct (t_user o) as [u|] eqn:E.
  - cbn. rewrite (g_user f o G u E). auto using same_refl.
  - fold (user_at f (config_of o)). destruct (user_at f (config_of o)) as [u|e] eqn:Q; cbn; [|auto using same_refl].
    split; [reflexivity|]. split; [|split; reflexivity]. fresh_good G.
Qed.
Lemma reference_ok f o : good f o ->
  fst (get_reference f o) = read_reference f (source_of o) /\ good f (snd (get_reference f o)) /\ same_place o (snd (get_reference f o)).
Proof.
  intro G. unfold get_reference. destruct (t_reference o) as [r|] eqn:E.
  - cbn. rewrite (g_reference f o G r E). auto using same_refl.
  - destruct (read_reference f (source_of o)) as [r|e] eqn:Q; cbn; [|auto using same_refl].
    split; [reflexivity|]. split; [|split; reflexivity]. fresh_good G.
Qed.
Lemma current_ok f o : good f o ->
  fst (get_current f o) = current_at f (source_of o) (config_of o) /\ good f (snd (get_current f o)) /\ same_place o (snd (get_current f o)).
Proof.
  intro G. unfold SessionModel.get_current. destruct (t_current o) as [k|] eqn:E.
  - cbn. rewrite (g_current f o G k E). auto using same_refl.
  - destruct (reference_ok f o G) as (A & G1 & S1). destruct (get_reference f o) as [r o1]. cbn [fst snd] in *.
    unfold current_at. rewrite <- A. destruct r as [r|e]; cbn [bind]; [|auto].
    assert (exists q o2, (match names r with [] => (Ok no_config, o1) | _ => get_user f o1 end) = (q, o2)
              /\ q = (match names r with [] => Ok no_config | _ => user_at f (config_of o) end) /\ good f o2 /\ same_place o o2) as (q & o2 & Q & A2 & G2 & S2).
    { destruct (names r) as [|n l]; [exists (Ok no_config), o1; auto|].
      destruct (user_ok f o1 G1) as (A2 & G2 & S2). destruct (get_user f o1) as [q o2]. exists q, o2. cbn [fst snd] in *.
      split; [reflexivity|]. split; [now rewrite A2, (same_config o o1 S1)|]. split; [exact G2|]. now apply (same_trans o o1 o2). }
    rewrite Q. rewrite <- A2. destruct q as [u|e]; cbn [bind]; [|auto]. destruct (build u r) as [k|e] eqn:Bk; cbn; [|auto].
    split; [reflexivity|]. split; [|destruct S2; split; auto].
    assert (current_at f (source_of o2) (config_of o2) = Ok k) as Ck.
    { unfold current_at. rewrite (same_source o o2 S2), (same_config o o2 S2), <- A. cbn [bind]. rewrite <- A2. exact Bk. }
    fresh_good G2.
Qed.
Lemma run_ok f p : forall o, good f o ->
  fst (run f p o) = run_at f (source_of o) (config_of o) p /\ good f (snd (run f p o)) /\ same_place o (snd (run f p o)).
Proof.
  induction p as [r|k IH|k IH|k IH]; intros o G; cbn [SessionModel.run run_at].
  - auto using same_refl.
  - destruct (reference_ok f o G) as (A & G1 & S1). destruct (get_reference f o) as [q o1]. cbn [fst snd] in *. rewrite <- A.
    destruct q as [q|e]; cbn [bind]; [|auto]. destruct (IH q o1 G1) as (A2 & G2 & S2).
    rewrite A2, (same_source o o1 S1), (same_config o o1 S1). eauto using same_trans.
  - destruct (current_ok f o G) as (A & G1 & S1). destruct (get_current f o) as [q o1]. cbn [fst snd] in *. rewrite <- A.
    destruct q as [q|e]; cbn [bind]; [|auto]. destruct (IH q o1 G1) as (A2 & G2 & S2).
    rewrite A2, (same_source o o1 S1), (same_config o o1 S1). eauto using same_trans.
  - destruct (constants_ok f o G) as (A & G1 & S1). destruct (get_constants f o) as [q o1]. cbn [fst snd] in *. rewrite <- A.
    destruct q as [q|e]; cbn [bind]; [|auto]. destruct (IH q o1 G1) as (A2 & G2 & S2).
    rewrite A2, (same_source o o1 S1), (same_config o o1 S1). eauto using same_trans.
Qed.
Lemma item_ok f o n : good f o ->
  fst (getitem f o n) = item_at f (source_of o) (config_of o) n /\ good f (snd (getitem f o n)) /\ same_place o (snd (getitem f o n)).
Proof.
  intro G. unfold SessionModel.getitem, item_at. destruct (reference_ok f o G) as (A & G1 & S1). destruct (get_reference f o) as [q o1].
  cbn [fst snd] in *. rewrite <- A. destruct q as [r|e]; cbn [bind]; [|auto]. destruct (existsb (str_eqb n) (names r)); [|auto].
  destruct (run_ok f (evaluate n) o1 G1) as (A2 & G2 & S2). rewrite A2, (same_source o o1 S1), (same_config o o1 S1). eauto using same_trans.
Qed.

(** ** Histories *)

Lemma member_spec n l : existsb (str_eqb n) l = true <-> In n l.
Proof.
  rewrite existsb_exists. split.
  - intros (x & I & E). destruct (str_eqb_spec n x) as [->|]; [exact I|discriminate].
  - intro I. exists n. split; [exact I|apply str_eqb_refl].
Qed.
Lemma get_update_other (l : list (str * option str)) : forall d k, ~ In k (map fst l) -> d_get str_eqb (d_update str_eqb d l) k = d_get str_eqb d k.
Proof.
  induction l as [|[j v] l IH]; intros d k N; [reflexivity|]. cbn. change (d_get str_eqb (d_update str_eqb (d_set str_eqb d j v) l) k = d_get str_eqb d k).
  rewrite IH by (intro; apply N; now right). apply (d_get_set_other str_eqb str_eqb_spec). intro; subst. apply N. now left.
Qed.
Lemma set_parts (o : runtime) w o' : set_paths o w = Ok o' -> o' = mkRuntime (d_update str_eqb (t_paths o) w)
  (if existsb (str_eqb (lit "config")) (map fst w) then None else t_user o)
  (if existsb (str_eqb (lit "source")) (map fst w) then None else t_constants o)
  (if existsb (str_eqb (lit "source")) (map fst w) then None else t_reference o) (t_keys o) None.
Proof. unfold set_paths. destruct w as [|x l]; [discriminate|]. intro H. now injection H as <-. Qed.
Lemma later_app o h1 h2 : later o (h1 ++ h2) = later (later o h1) h2.
Proof. apply fold_left_app. Qed.

(** Where the cached values of [o'] are from: from [o], or from the files. *)
Record derived (g : files) (o o' : runtime) : Prop := {
  v_place : same_place o o';
  v_user : forall u, t_user o' = Some u -> t_user o = Some u \/ user_at g (config_of o) = Ok u;
  v_constants : forall b, t_constants o' = Some b -> t_constants o = Some b \/ read_constants g (source_of o) = Ok b;
  v_reference : forall r, t_reference o' = Some r -> t_reference o = Some r \/ read_reference g (source_of o) = Ok r;
  v_current : forall k, t_current o' = Some k -> t_current o = Some k \/
    exists r u, (t_reference o = Some r \/ read_reference g (source_of o) = Ok r)
      /\ (names r = [] /\ u = no_config \/ names r <> [] /\ (t_user o = Some u \/ user_at g (config_of o) = Ok u)) /\ build u r = Ok k }.
Lemma derived_refl g o : derived g o o.
Proof. constructor; auto using same_refl. Qed.
Lemma derived_trans g a b c : derived g a b -> derived g b c -> derived g a c.
Proof.
  intros [P1 U1 C1 R1 K1] [P2 U2 C2 R2 K2]. rewrite (same_source a b P1), ?(same_config a b P1) in *. constructor.
  - now apply (same_trans a b c).
  - intros u E. destruct (U2 u E); auto.
  - intros u E. destruct (C2 u E); auto.
  - intros u E. destruct (R2 u E); auto.
  - intros k E. destruct (K2 k E) as [E'|(r & u & X & Y & Z)]; [now apply K1|]. right. exists r, u. split; [|split; [|exact Z]].
    + destruct X; auto.
    + destruct Y as [Y|[Y1 [Y2|Y2]]]; [now left|right; split; auto|right; split; auto].
Qed.
Ltac same_caches := constructor; cbn; [split; reflexivity|..];
  let y := fresh in let Ey := fresh in (intros y Ey; try discriminate; try (injection Ey as <-); auto).
Lemma constants_derived g o : derived g o (snd (get_constants g o)).
Proof.
  unfold get_constants. destruct (t_constants o) eqn:E; [apply derived_refl|]. destruct (read_constants g (source_of o)) eqn:Q; cbn; [|apply derived_refl]. same_caches.
Qed.
Lemma reference_derived g o : derived g o (snd (get_reference g o)).
Proof.
  unfold get_reference. destruct (t_reference o) eqn:E; [apply derived_refl|]. destruct (read_reference g (source_of o)) eqn:Q; cbn; [|apply derived_refl]. same_caches.
Qed.
Lemma user_derived g o : derived g o (snd (get_user g o)).
Proof.
  unfold SessionModel.get_user. destruct (t_user o) eqn:E; [apply derived_refl|]. fold (user_at g (config_of o)).
  destruct (user_at g (config_of o)) eqn:Q; cbn; [|apply derived_refl]. same_caches.
Qed.
Lemma reference_value (g : files) (o : runtime) r o' : get_reference g o = (Ok r, o') -> t_reference o = Some r \/ read_reference g (source_of o) = Ok r.
Proof.
  unfold get_reference. destruct (t_reference o) as [x|]; [intro H; injection H as <- _; auto|].
  destruct (read_reference g (source_of o)); [|discriminate]. intro H. injection H as <- _. auto.
Qed.
Lemma user_value (g : files) (o : runtime) r o' : get_user g o = (Ok r, o') -> t_user o = Some r \/ user_at g (config_of o) = Ok r.
Proof.
  unfold SessionModel.get_user. destruct (t_user o) as [x|]; [intro H; injection H as <- _; auto|]. fold (user_at g (config_of o)).
  destruct (user_at g (config_of o)); [|discriminate]. intro H. injection H as <- _. auto.
Qed.
Lemma current_derived g o : derived g o (snd (get_current g o)).
Proof.
  unfold SessionModel.get_current. destruct (t_current o) eqn:E; [apply derived_refl|].
  pose proof (reference_derived g o) as D1. destruct (get_reference g o) as [[r|e] o1] eqn:Q1; cbn [snd] in *; [|exact D1].
  assert (derived g o (snd (match names r with [] => (Ok no_config, o1) | _ => get_user g o1 end)) /\
    forall u o2, (match names r with [] => (Ok no_config, o1) | _ => get_user g o1 end) = (Ok u, o2) ->
      names r = [] /\ u = no_config \/ names r <> [] /\ (t_user o = Some u \/ user_at g (config_of o) = Ok u)) as [D2 U2].
  { destruct (names r) as [|n l]; [split; [exact D1|intros u o2 H; injection H as <- _; auto]|].
    split; [exact (derived_trans g o o1 _ D1 (user_derived g o1))|]. intros u o2 H. right. split; [discriminate|].
    destruct (user_value g o1 u o2 H) as [H'|H']; [|rewrite (same_config o o1 (v_place _ _ _ D1)) in H'; auto]. now apply (v_user _ _ _ D1). }
  destruct (match names r with [] => _ | _ => _ end) as [[u|e] o2]; cbn [snd] in *; [|exact D2]. destruct (build u r) as [k|e] eqn:Bk; [|exact D2].
  destruct D2 as [P2 X2 C2 R2 K2]. constructor; cbn; auto. intros k' Ek. injection Ek as <-. right. exists r, u.
  split; [now apply (reference_value g o r o1)|]. split; [now apply (U2 u o2)|exact Bk].
Qed.
Lemma run_derived g p : forall o, derived g o (snd (run g p o)).
Proof.
  induction p as [r|k IH|k IH|k IH]; intro q; cbn [SessionModel.run]; [apply derived_refl|..].
  - pose proof (reference_derived g q) as Rf. destruct (get_reference g q) as [[x|e] q1]; cbn [snd] in *; [|exact Rf]. eapply derived_trans; [exact Rf|apply IH].
  - pose proof (current_derived g q) as Rf. destruct (get_current g q) as [[x|e] q1]; cbn [snd] in *; [|exact Rf]. eapply derived_trans; [exact Rf|apply IH].
  - pose proof (constants_derived g q) as Rf. destruct (get_constants g q) as [[x|e] q1]; cbn [snd] in *; [|exact Rf]. eapply derived_trans; [exact Rf|apply IH].
Qed.
Lemma item_derived g o n : derived g o (snd (getitem g o n)).
Proof.
  unfold SessionModel.getitem. pose proof (reference_derived g o) as Rf. destruct (get_reference g o) as [[r|e] o1]; cbn [snd] in *; [|exact Rf].
  destruct (existsb (str_eqb n) (names r)); [|exact Rf]. eapply derived_trans; [exact Rf|apply run_derived].
Qed.

(** The caches hold what the files contain, under conditions. *)
Record holds (PS PC : Prop) (f : files) (o : runtime) : Prop := {
  h_user : PC -> forall u, t_user o = Some u -> user_at f (config_of o) = Ok u;
  h_constants : PS -> forall b, t_constants o = Some b -> read_constants f (source_of o) = Ok b;
  h_reference : PS -> forall r, t_reference o = Some r -> read_reference f (source_of o) = Ok r;
  h_current : PS -> PC -> forall k, t_current o = Some k -> current_at f (source_of o) (config_of o) = Ok k }.
Lemma same_user_at f g : same_configs f g -> forall c, user_at f c = user_at g c.
Proof. intros S [[|x p]|]; cbn; auto. Qed.
Lemma derived_holds PS PC f g o o' : holds PS PC f o -> derived g o o' -> holds (PS /\ same_sources f g) (PC /\ same_configs f g) f o'.
Proof.
  intros [U Cn Rf Cu] [P U' C' R' K']. constructor; rewrite ?(same_source o o' P), ?(same_config o o' P).
  - intros [H S] u E. destruct (U' u E) as [X|X]; [now apply U|]. now rewrite (same_user_at f g S).
  - intros [H [S _]] u E. destruct (C' u E) as [X|X]; [now apply Cn|]. now rewrite S.
  - intros [H [_ S]] u E. destruct (R' u E) as [X|X]; [now apply Rf|]. now rewrite S.
  - intros [HS [_ SS]] [HC SC] k E. destruct (K' k E) as [X|(r & u & X & Y & Z)]; [now apply Cu|].
    unfold current_at. assert (read_reference f (source_of o) = Ok r) as -> by (destruct X as [X|X]; [now apply Rf|now rewrite SS]). cbn [bind].
    destruct Y as [[-> ->]|[Y1 Y2]]; [exact Z|].
    assert (user_at f (config_of o) = Ok u) as -> by (destruct Y2 as [Y2|Y2]; [now apply U|now rewrite (same_user_at f g SC)]).
    destruct (names r); [congruence|exact Z].
Qed.
Lemma holds_weaker (PS PC QS QC : Prop) f o : holds PS PC f o -> (QS -> PS) -> (QC -> PC) -> holds QS QC f o.
Proof. intros [] ? ?. constructor; auto. Qed.
Lemma act_holds PS PC f g o a : holds PS PC f o ->
  holds (In (lit "source") (map fst (sets a)) \/ PS /\ same_sources f g) (In (lit "config") (map fst (sets a)) \/ PC /\ same_configs f g) f (snd (act g o a)).
Proof.
  intro H.
  assert (forall o', derived g o o' -> sets a = [] ->
    holds (In (lit "source") (map fst (sets a)) \/ PS /\ same_sources f g) (In (lit "config") (map fst (sets a)) \/ PC /\ same_configs f g) f o') as W.
  { intros o' D E. rewrite E. apply (holds_weaker _ _ _ _ f o' (derived_holds PS PC f g o o' H D)); now intros [[]|]. }
  destruct a as [n| | | |l|l]; cbn [SessionModel.act].
  - pose proof (item_derived g o n) as D. destruct (getitem g o n). now apply W.
  - pose proof (user_derived g o) as D. destruct (get_user g o). now apply W.
  - pose proof (constants_derived g o) as D. destruct (get_constants g o). now apply W.
  - apply W; [apply derived_refl|reflexivity].
  - apply W; [apply derived_refl|reflexivity].
  - destruct (set_paths o l) as [o'|e] eqn:E; [|destruct l; [|discriminate E]; apply W; [apply derived_refl|reflexivity]].
    cbn [snd sets]. rewrite (set_parts o l o' E). clear W. rename l into w.
    assert (forall n, existsb (str_eqb n) (map fst w) = false -> d_get str_eqb (d_update str_eqb (t_paths o) w) n = d_get str_eqb (t_paths o) n) as P.
    { intros n N. apply get_update_other. intro I. apply member_spec in I. congruence. }
    constructor; cbn [t_user t_constants t_reference t_current].
    + intros A y Ey. destruct (existsb (str_eqb (lit "config")) (map fst w)) eqn:Q; [discriminate|]. unfold config_of. cbn [t_paths]. rewrite P by exact Q.
      destruct A as [A|[A _]]; [apply member_spec in A; congruence|]. now apply (h_user _ _ f o H).
    + intros A y Ey. destruct (existsb (str_eqb (lit "source")) (map fst w)) eqn:Q; [discriminate|]. unfold source_of. cbn [t_paths]. rewrite P by exact Q.
      destruct A as [A|[A _]]; [apply member_spec in A; congruence|]. now apply (h_constants _ _ f o H).
    + intros A y Ey. destruct (existsb (str_eqb (lit "source")) (map fst w)) eqn:Q; [discriminate|]. unfold source_of. cbn [t_paths]. rewrite P by exact Q.
      destruct A as [A|[A _]]; [apply member_spec in A; congruence|]. now apply (h_reference _ _ f o H).
    + discriminate.
Qed.
(** The conditions along a history. *)
Definition along (name : str) (same : files -> Prop) (P : Prop) (h : list (files * raction)) : Prop :=
  fold_left (fun P s => In name (map fst (sets (snd s))) \/ P /\ same (fst s)) h P.
Lemma later_holds f h : forall o PS PC, holds PS PC f o ->
  holds (along (lit "source") (same_sources f) PS h) (along (lit "config") (same_configs f) PC h) f (later o h).
Proof.
  induction h as [|[g a] h IH]; intros o PS PC H; [exact H|].
  exact (IH (snd (act g o a)) _ _ (act_holds PS PC f g o a H)).
Qed.
Lemma along_all name same h : forall P : Prop, P -> Forall (fun s : files * raction => same (fst s)) h -> along name same P h.
Proof.
  induction h as [|s h IH]; intros P HP A; [exact HP|]. inversion A as [|? ? E A']; subst. cbn. apply IH; [now right|exact A'].
Qed.
Lemma since_along name same f0 h : since name same f0 h -> along name same (same f0) h.
Proof.
  intros [[A B']|(h1 & s & h2 & -> & S & A)]; [now apply along_all|].
  unfold along. rewrite fold_left_app. cbn. apply along_all; [now left|exact A].
Qed.
Lemma new_parts f s c o : new_runtime f s c = Ok o -> exists r, read_reference f s = Ok r /\
  o = mkRuntime [(lit "source", s); (lit "config", c)] None None (Some r) (names r) None.
Proof.
  unfold SessionModel.new_runtime, get_reference. cbn [t_reference]. cbv zeta.
  change (source_of (mkRuntime [(lit "source", s); (lit "config", c)] None None None [] None : runtime)) with s.
  destruct (read_reference f s) as [r|e]; [|discriminate]. intro H. injection H as <-. exists r. auto.
Qed.
Lemma new_good f s c o : new_runtime f s c = Ok o -> good f o /\ source_of o = s /\ config_of o = c.
Proof.
  intro H. destruct (new_parts f s c o H) as (r & Q & ->). split; [|split; reflexivity].
  constructor; cbn; intros ? E; try discriminate. injection E as <-. exact Q.
Qed.
Lemma unchanged_good f0 f s c o h : new_runtime f0 s c = Ok o -> unchanged f0 f h -> good f (later o h).
Proof.
  intros N [Us Uc]. apply since_along in Us. apply since_along in Uc.
  assert (holds (same_sources f f0) (same_configs f f0) f o) as H0.
  { destruct (new_parts f0 s c o N) as (r & Q & ->). constructor; cbn; try discriminate. intros [_ S] x E. injection E as <-. now rewrite S. }
  destruct (later_holds f h o _ _ H0) as [U Cn Rf Cu]. constructor; auto.
Qed.

(** ** Paths and names *)

Definition paths_after (start : list (str * option str)) (h : list (files * raction)) : list (str * option str) :=
  fold_left (fun d s => d_update str_eqb d (sets (snd s))) h start.
Lemma act_place f o a : t_paths (snd (act f o a)) = d_update str_eqb (t_paths o) (sets a) /\ t_keys (snd (act f o a)) = t_keys o.
Proof.
  assert (forall o, same_place o (snd (get_user f o))) as U.
  { intro q. unfold SessionModel.get_user. destruct (t_user q); [apply same_refl|]. fold (user_at f (config_of q)). destruct (user_at f (config_of q)); split; reflexivity. }
  assert (forall o, same_place o (snd (get_reference f o))) as Rf.
  { intro q. unfold get_reference. destruct (t_reference q); [apply same_refl|]. destruct (read_reference f (source_of q)); split; reflexivity. }
  assert (forall o, same_place o (snd (get_constants f o))) as Cf.
  { intro q. unfold get_constants. destruct (t_constants q); [apply same_refl|]. destruct (read_constants f (source_of q)); split; reflexivity. }
  assert (forall o, same_place o (snd (get_current f o))) as Kf.
  { intro q. unfold SessionModel.get_current. destruct (t_current q); [apply same_refl|]. specialize (Rf q). destruct (get_reference f q) as [[r|e] q1]; cbn [snd] in *; [|exact Rf].
    assert (same_place q (snd (match names r with [] => (Ok no_config, q1) | _ => get_user f q1 end))) as S.
    { destruct (names r); [exact Rf|]. eapply same_trans; [exact Rf|apply U]. }
    destruct (match names r with [] => _ | _ => _ end) as [[u|e] q2]; cbn [snd] in *; [|exact S]. destruct (build u r); [|exact S]. destruct S; split; auto. }
  assert (forall p o, same_place o (snd (run f p o))) as Pf.
  { induction p as [r|k IH|k IH|k IH]; intro q; cbn [SessionModel.run]; [apply same_refl|..].
    - specialize (Rf q). destruct (get_reference f q) as [[x|e] q1]; cbn [snd] in *; [|exact Rf]. eapply same_trans; [exact Rf|apply IH].
    - specialize (Kf q). destruct (get_current f q) as [[x|e] q1]; cbn [snd] in *; [|exact Kf]. eapply same_trans; [exact Kf|apply IH].
    - specialize (Cf q). destruct (get_constants f q) as [[x|e] q1]; cbn [snd] in *; [|exact Cf]. eapply same_trans; [exact Cf|apply IH]. }
  assert (forall q, same_place o q -> t_paths q = d_update str_eqb (t_paths o) [] /\ t_keys q = t_keys o) as Fin.
  { intros q [A D]. split; [exact A|exact D]. }
  destruct a as [n| | | |l|l]; cbn [SessionModel.act sets].
  - assert (same_place o (snd (getitem f o n))) as S.
    { unfold SessionModel.getitem. specialize (Rf o). destruct (get_reference f o) as [[r|e] o1]; cbn [snd] in *; [|exact Rf].
      destruct (existsb (str_eqb n) (names r)); [|exact Rf]. eapply same_trans; [exact Rf|apply Pf]. }
    destruct (getitem f o n). now apply Fin.
  - specialize (U o). destruct (get_user f o). now apply Fin.
  - specialize (Cf o). destruct (get_constants f o). now apply Fin.
  - now apply Fin, same_refl.
  - now apply Fin, same_refl.
  - unfold set_paths. destruct l as [|x l]; cbn [snd]; [now apply Fin, same_refl|]. split; reflexivity.
Qed.
Lemma later_place h : forall o, t_paths (later o h) = paths_after (t_paths o) h /\ t_keys (later o h) = t_keys o.
Proof.
  induction h as [|[f a] h IH]; intro o; [split; reflexivity|].
  change (t_paths (later (snd (act f o a)) h) = paths_after (d_update str_eqb (t_paths o) (sets a)) h /\ t_keys (later (snd (act f o a)) h) = t_keys o).
  destruct (act_place f o a) as [A D].
  destruct (IH (snd (act f o a))) as [A' D']. split; [now rewrite A', A|congruence].
Qed.
Lemma paths_flat h : forall start, paths_after start h = d_update str_eqb start (flat_map (fun s => sets (snd s)) h).
Proof.
  induction h as [|s h IH]; intro start; [reflexivity|]. cbn. fold (paths_after (d_update str_eqb start (sets (snd s))) h). rewrite IH.
  unfold d_update. now rewrite fold_left_app.
Qed.
Lemma d_update_last (l : list (str * option str)) name p l2 : forall d, d_get str_eqb (d_update str_eqb d (l ++ (name, p) :: l2)) name = Some p \/ In name (map fst l2).
Proof.
  intro d. destruct (in_dec (list_eq_dec ascii_dec) name (map fst l2)) as [I|N]; [now right|left].
  unfold d_update. rewrite fold_left_app. cbn.
  change (d_get str_eqb (d_update str_eqb (d_set str_eqb (d_update str_eqb d l) name p) l2) name = Some p).
  rewrite get_update_other by exact N. apply (d_get_set_same str_eqb str_eqb_spec).
Qed.

(** ** Values that were read before *)

(** [o'] has every cached value of [o]. *)
Record keeps (o o' : runtime) : Prop := {
  k_user : forall x, t_user o = Some x -> t_user o' = Some x;
  k_constants : forall x, t_constants o = Some x -> t_constants o' = Some x;
  k_reference : forall x, t_reference o = Some x -> t_reference o' = Some x;
  k_current : forall x, t_current o = Some x -> t_current o' = Some x }.
Lemma keeps_refl o : keeps o o. Proof. constructor; auto. Qed.
Lemma keeps_trans a b c : keeps a b -> keeps b c -> keeps a c.
Proof. intros [] []. constructor; auto. Qed.
Lemma user_keeps f o : keeps o (snd (get_user f o)).
Proof.
  unfold SessionModel.get_user. destruct (t_user o) eqn:E; [apply keeps_refl|]. fold (user_at f (config_of o)); destruct (user_at f (config_of o)); cbn; [|apply keeps_refl].
  constructor; cbn; auto; congruence.
Qed.
Lemma constants_keep f o : keeps o (snd (get_constants f o)).
Proof.
  unfold get_constants. destruct (t_constants o) eqn:E; [apply keeps_refl|]. destruct (read_constants f (source_of o)); cbn; [|apply keeps_refl].
  constructor; cbn; auto; congruence.
Qed.
Lemma reference_keeps f o : keeps o (snd (get_reference f o)).
Proof.
  unfold get_reference. destruct (t_reference o) eqn:E; [apply keeps_refl|]. destruct (read_reference f (source_of o)); cbn; [|apply keeps_refl].
  constructor; cbn; auto; congruence.
Qed.
Lemma current_keeps f o : keeps o (snd (get_current f o)).
Proof.
  unfold SessionModel.get_current. destruct (t_current o) eqn:E; [apply keeps_refl|]. pose proof (reference_keeps f o) as Rk.
  assert (t_current (snd (get_reference f o)) = None) as E1.
  { unfold get_reference. destruct (t_reference o); [exact E|]. destruct (read_reference f (source_of o)); exact E. }
  destruct (get_reference f o) as [[r|e] o1]; cbn [snd] in *; [|exact Rk].
  assert (keeps o (snd (match names r with [] => (Ok no_config, o1) | _ => get_user f o1 end))
          /\ t_current (snd (match names r with [] => (Ok no_config, o1) | _ => get_user f o1 end)) = None) as [S E2].
  { destruct (names r); [auto|]. split; [eapply keeps_trans; [exact Rk|apply user_keeps]|].
    unfold SessionModel.get_user. destruct (t_user o1); [exact E1|]. fold (user_at f (config_of o1)); destruct (user_at f (config_of o1)); exact E1. }
  destruct (match names r with [] => _ | _ => _ end) as [[u|e] o2]; cbn [snd] in *; [|exact S]. destruct (build u r); [|exact S].
  apply (keeps_trans o o2 _ S). constructor; cbn; auto; congruence.
Qed.
Lemma run_keeps f p : forall o, keeps o (snd (run f p o)).
Proof.
  induction p as [r|k IH|k IH|k IH]; intro q; cbn [SessionModel.run]; [apply keeps_refl|..].
  - pose proof (reference_keeps f q) as Rf. destruct (get_reference f q) as [[x|e] q1]; cbn [snd] in *; [|exact Rf]. eapply keeps_trans; [exact Rf|apply IH].
  - pose proof (current_keeps f q) as Rf. destruct (get_current f q) as [[x|e] q1]; cbn [snd] in *; [|exact Rf]. eapply keeps_trans; [exact Rf|apply IH].
  - pose proof (constants_keep f q) as Rf. destruct (get_constants f q) as [[x|e] q1]; cbn [snd] in *; [|exact Rf]. eapply keeps_trans; [exact Rf|apply IH].
Qed.
Lemma act_keeps f o a : sets a = [] -> keeps o (snd (act f o a)).
Proof.
  intro S. destruct a as [n| | | |l|l]; cbn [SessionModel.act]; try apply keeps_refl.
  - assert (keeps o (snd (getitem f o n))) as Q.
    { unfold SessionModel.getitem. pose proof (reference_keeps f o) as Rf. destruct (get_reference f o) as [[r|e] o1]; cbn [snd] in *; [|exact Rf].
      destruct (existsb (str_eqb n) (names r)); [|exact Rf]. eapply keeps_trans; [exact Rf|apply run_keeps]. }
    now destruct (getitem f o n).
  - pose proof (user_keeps f o) as Q. now destruct (get_user f o).
  - pose proof (constants_keep f o) as Q. now destruct (get_constants f o).
  - cbn in S. subst l. cbn. apply keeps_refl.
Qed.
Lemma later_keeps h : forall o, Forall (fun s => sets (snd s) = []) h -> keeps o (later o h).
Proof.
  induction h as [|[f a] h IH]; intros o A; [apply keeps_refl|]. inversion A as [|? ? E A']; subst. cbn.
  eapply keeps_trans; [now apply (act_keeps f o a)|now apply IH].
Qed.
Lemma reference_again (f : files) (o : runtime) r o' : get_reference f o = (Ok r, o') -> t_reference o' = Some r.
Proof.
  unfold get_reference. destruct (t_reference o) as [x|] eqn:E; [intro H; injection H as <- <-; exact E|].
  destruct (read_reference f (source_of o)); intro H; [injection H as <- <-; reflexivity|discriminate].
Qed.
Lemma current_again (f : files) (o : runtime) r o' : get_current f o = (Ok r, o') -> t_current o' = Some r.
Proof.
  unfold SessionModel.get_current. destruct (t_current o) as [x|] eqn:E; [intro H; injection H as <- <-; exact E|].
  destruct (get_reference f o) as [[q|e] o1]; [|discriminate]. destruct (match names q with [] => _ | _ => _ end) as [[u|e] o2]; [|discriminate].
  destruct (build u q); intro H; [injection H as <- <-; reflexivity|discriminate].
Qed.
Lemma constants_again (f : files) (o : runtime) r o' : get_constants f o = (Ok r, o') -> t_constants o' = Some r.
Proof.
  unfold get_constants. destruct (t_constants o) as [x|] eqn:E; [intro H; injection H as <- <-; exact E|].
  destruct (read_constants f (source_of o)); intro H; [injection H as <- <-; reflexivity|discriminate].
Qed.
Lemma run_again f p : forall o v o', run f p o = (Ok v, o') -> forall g o2, keeps o' o2 -> fst (run g p o2) = Ok v.
Proof.
  induction p as [r|k IH|k IH|k IH]; intros o v o' H g o2 Kp; cbn [SessionModel.run] in *.
  - injection H as -> _. reflexivity.
  - destruct (get_reference f o) as [[x|e] o1] eqn:E; [|discriminate]. pose proof (run_keeps f (k x) o1) as Q. rewrite H in Q. cbn [snd] in Q.
    pose proof (k_reference _ _ Kp _ (k_reference _ _ Q _ (reference_again f o x o1 E))) as T. unfold get_reference. rewrite T. now apply (IH x o1 v o' H).
  - destruct (get_current f o) as [[x|e] o1] eqn:E; [|discriminate]. pose proof (run_keeps f (k x) o1) as Q. rewrite H in Q. cbn [snd] in Q.
    pose proof (k_current _ _ Kp _ (k_current _ _ Q _ (current_again f o x o1 E))) as T. unfold SessionModel.get_current. rewrite T. now apply (IH x o1 v o' H).
  - destruct (get_constants f o) as [[x|e] o1] eqn:E; [|discriminate]. pose proof (run_keeps f (k x) o1) as Q. rewrite H in Q. cbn [snd] in Q.
    pose proof (k_constants _ _ Kp _ (k_constants _ _ Q _ (constants_again f o x o1 E))) as T. unfold get_constants. rewrite T. now apply (IH x o1 v o' H).
Qed.
Lemma item_again f o n v o' : getitem f o n = (Ok v, o') -> forall g o2, keeps o' o2 -> fst (getitem g o2 n) = Ok v.
Proof.
  intros H g o2 Kp. unfold SessionModel.getitem in *. destruct (get_reference f o) as [[r|e] o1] eqn:E; [|discriminate].
  assert (keeps o1 o') as Q.
  { destruct (existsb (str_eqb n) (names r)); [|discriminate]. pose proof (run_keeps f (evaluate n) o1) as Q. now rewrite H in Q. }
  pose proof (k_reference _ _ Kp _ (k_reference _ _ Q _ (reference_again f o r o1 E))) as T. unfold get_reference. rewrite T.
  destruct (existsb (str_eqb n) (names r)); [|discriminate]. now apply (run_again f (evaluate n) o1 v o' H).
Qed.
End Runtime.

(** ** Source files *)

Section Source.
Context {D V : Type} (compute : str -> res V).
Notation source := (@source D V).

Record cached (o : source) : Prop := {
  c_values : forall k v, d_get str_eqb (o_cache o) k = Some v -> compute k = Ok v;
  c_defined : forall k v, d_get str_eqb (o_cache o) k = Some v -> d_has str_eqb (o_definitions o) k = true }.
Definition value_of (o : source) (k : str) : res V := if d_has str_eqb (o_definitions o) k then compute k else Err KeyError.
Lemma constant_ok o k : cached o -> fst (constant compute o k) = value_of o k
  /\ cached (snd (constant compute o k)) /\ o_definitions (snd (constant compute o k)) = o_definitions o.
Proof.
  intro H. unfold constant, value_of. destruct (d_get str_eqb (o_cache o) k) as [v|] eqn:E.
  - cbn. rewrite (c_defined o H k v E), (c_values o H k v E). auto.
  - destruct (d_has str_eqb (o_definitions o) k) eqn:I; [|auto]. destruct (compute k) as [v|e] eqn:Q; cbn; [|auto].
    split; [reflexivity|]. split; [|reflexivity].
    constructor; cbn; intros j w G; destruct (str_eqb_spec k j) as [->|N];
      rewrite ?(d_get_set_same str_eqb str_eqb_spec), ?(d_get_set_other str_eqb str_eqb_spec) in G by congruence.
    + congruence.
    + now apply (c_values o H).
    + exact I.
    + now apply (c_defined o H j w).
Qed.
Definition got_of (o : source) (k : str) (m : option str) : res got :=
  match m with
  | None | Some [] => match value_of o k with Ok v => Ok (GValue v) | Err KeyError => Ok GDefault | Err e => Err e end
  | Some m => if str_eqb m (lit "json") then Ok (match d_get str_eqb (o_definitions o) k with Some d => GDefinition d | None => GDefault end)
              else Err NotImplementedError
  end.
Lemma got_ok o k m : cached o -> fst (constants_get compute o k m) = got_of o k m
  /\ cached (snd (constants_get compute o k m)) /\ o_definitions (snd (constants_get compute o k m)) = o_definitions o.
Proof.
  intro H. destruct (constant_ok o k H) as (A & C & D'). unfold constants_get, got_of.
  destruct m as [[|x m]|].
  - destruct (constant compute o k) as [[v|e] o']; cbn [fst snd] in *; rewrite <- A; [auto|]. destruct e; auto.
  - destruct (str_eqb (x :: m) (lit "json")); auto.
  - destruct (constant compute o k) as [[v|e] o']; cbn [fst snd] in *; rewrite <- A; [auto|]. destruct e; auto.
Qed.
Lemma got_same o o' k m : o_definitions o' = o_definitions o -> got_of o' k m = got_of o k m.
Proof. intro E. unfold got_of, value_of. now rewrite E. Qed.
Lemma mapM_same {X Y} (f g : X -> res Y) l : (forall x, f x = g x) -> mapM f l = mapM g l.
Proof. intro E. induction l as [|x l IH]; [reflexivity|]. cbn [mapM]. now rewrite E, IH. Qed.
Lemma format_ok m l : forall o, cached o -> fst (format_names compute o m l) = mapM (fun k => (do g <- got_of o k m; Ok (k, g))%py) l
  /\ cached (snd (format_names compute o m l)) /\ o_definitions (snd (format_names compute o m l)) = o_definitions o.
Proof.
  induction l as [|k l IH]; intros o H; [cbn; auto|]. cbn [format_names mapM].
  destruct (got_ok o k m H) as (A & C & D'). destruct (constants_get compute o k m) as [[g|e] o1]; cbn [fst snd] in *; rewrite <- A; cbn [bind]; [|auto].
  destruct (IH o1 C) as (A2 & C2 & D2). destruct (format_names compute o1 m l) as [r o2]. cbn [fst snd] in *.
  assert (mapM (fun k0 => (do g0 <- got_of o1 k0 m; Ok (k0, g0))%py) l = mapM (fun k0 => (do g0 <- got_of o k0 m; Ok (k0, g0))%py) l) as M.
  { apply mapM_same. intro j. now rewrite (got_same o o1 j m D'). }
  rewrite M in A2. rewrite A2. destruct (mapM (fun k0 => (do g0 <- got_of o k0 m; Ok (k0, g0))%py) l) as [r'|e]; cbn [bind fst snd]; (split; [reflexivity|]); (split; [exact C2|congruence]).
Qed.
Lemma sact_ok o a : cached o -> cached (sact compute o a) /\ o_definitions (sact compute o a) = o_definitions o.
Proof.
  intro H. destruct a as [k|k m|m]; cbn [sact].
  - destruct (constant_ok o k H) as (_ & ?); auto.
  - destruct (got_ok o k m H) as (_ & ?); auto.
  - destruct (format_ok m (map fst (o_definitions o)) o H) as (_ & ?); auto.
Qed.
Lemma sacts_ok h : forall o, cached o -> cached (fold_left (sact compute) h o) /\ o_definitions (fold_left (sact compute) h o) = o_definitions o.
Proof.
  induction h as [|a h IH]; intros o H; [auto|]. cbn. destruct (sact_ok o a H) as [C E]. destruct (IH _ C) as [C' E']. split; [exact C'|congruence].
Qed.
Lemma no_cache defs : cached (mkSource defs []).
Proof. constructor; cbn; discriminate. Qed.
End Source.
