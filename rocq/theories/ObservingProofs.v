(** Lemmas about observing contexts. *)

From Coq Require Import String Ascii List Bool ZArith QArith Qcanon Lia.
From Verif Require Import Py PyFacts PyDict ObservingModel ObservingSpec.
Import ListNotations.
Open Scope list_scope.
Open Scope nat_scope.

Lemma d_get_rev {V} (d : list (str * V)) k : NoDup (map fst d) -> d_get str_eqb (rev d) k = d_get str_eqb d k.
Proof. intros N. rewrite <- (d_of_get str_eqb str_eqb_spec). now rewrite (d_of_id str_eqb str_eqb_spec). Qed.

Section Contexts.
Context {V IX SC : Type} (defaults : list (str * V)) (find : str -> list str) (names : list str)
        (in_axes : str -> bool) (axis_all : str -> res IX) (axis_at : str -> V -> res IX)
        (as_index : V -> option IX) (constants : list (str * V)) (scalar : V -> res SC).
Notation ctx := (context V IX SC).
Notation run := (run_program defaults in_axes axis_all axis_at as_index constants scalar).
Notation index_for := (index_for in_axes axis_all axis_at as_index).
Notation value_for := (value_for constants scalar).
Notation result_for := (result_for in_axes axis_all axis_at as_index constants scalar).

(** The constraints that a context stands for. *)
Definition current (c : ctx) : list (str * V) := d_update str_eqb defaults (c_user c).
Definition consistent (c : ctx) : Prop :=
  NoDup (map fst (c_user c)) /\
  (c_constraints c = None \/ c_constraints c = Some (current c)) /\
  (forall k i, d_get str_eqb (c_indices c) k = Some i -> index_for (d_get str_eqb (current c)) k = Ok (Some i)) /\
  (forall k v, d_get str_eqb (c_values c) k = Some v -> value_for (d_get str_eqb (current c)) k = Ok (Some v)).

Lemma new_consistent : consistent new_context.
Proof. split; [constructor|]. split; [now left|]. split; intros k x; discriminate. Qed.
Lemma constrain_consistent (c : ctx) new append : consistent c -> consistent (constrain c new append).
Proof.
  intros (N & _). split; [|split; [now left|split; intros k x; discriminate]].
  cbn. destruct append; [now apply (d_update_NoDup str_eqb str_eqb_spec)|apply (d_of_NoDup str_eqb str_eqb_spec)].
Qed.
Lemma constraints_ok (c : ctx) : consistent c ->
  fst (constraints defaults c) = current c /\ consistent (snd (constraints defaults c)) /\
  c_user (snd (constraints defaults c)) = c_user c.
Proof.
  intros H. pose proof H as (N & [E|E] & I & W); unfold constraints; rewrite E; cbn [fst snd].
  - split; [reflexivity|]. split; [|reflexivity]. split; [exact N|]. split; [now right|]. split; assumption.
  - split; [reflexivity|]. split; [exact H|reflexivity].
Qed.
(** Looking at the constraints changes nothing but their own cache. *)
Lemma constraints_frame (c : ctx) : let c' := snd (constraints defaults c) in
  c_user c' = c_user c /\ c_indices c' = c_indices c /\ c_values c' = c_values c /\
  c_keys c' = c_keys c /\ c_available c' = c_available c /\ c_observable c' = c_observable c.
Proof. unfold constraints. destruct (c_constraints c); cbn; auto 10. Qed.

Lemma get_index_ok (c : ctx) k : consistent c ->
  fst (get_index defaults in_axes axis_all axis_at as_index c k) = index_for (d_get str_eqb (current c)) k /\
  consistent (snd (get_index defaults in_axes axis_all axis_at as_index c k)) /\
  c_user (snd (get_index defaults in_axes axis_all axis_at as_index c k)) = c_user c.
Proof.
  intros H. pose proof H as (N & C & I & W). unfold get_index. destruct (d_get str_eqb (c_indices c) k) as [i|] eqn:E.
  - cbn [fst snd]. rewrite (I _ _ E). auto.
  - unfold compute_index, ObservingSpec.index_for. destruct (in_axes k) eqn:Ax; cbn [negb].
    + destruct (constraints_ok c H) as (E1 & E2 & E3). destruct (constraints defaults c) as [d c'] eqn:Ec.
      cbn [fst snd] in *. subst d. split; [reflexivity|].
      set (r := match d_get str_eqb (current c) k with None => _ | Some v => _ end).
      assert (Hr : r = index_for (d_get str_eqb (current c)) k) by (unfold ObservingSpec.index_for; rewrite Ax; reflexivity).
      destruct r as [[i|]|e]; auto. cbn [c_user]. split; [|exact E3].
      destruct E2 as (N' & C' & I' & W'). unfold consistent, current in *. cbn [c_user c_constraints c_indices c_values].
      split; [exact N'|]. split; [exact C'|]. split; [|exact W'].
      intros j x. rewrite (d_get_set str_eqb str_eqb_spec). destruct (str_eqb_spec j k) as [->|Nj]; [|apply I'].
      intros [= <-]. rewrite E3. symmetry. exact Hr.
    + cbn [fst snd]. auto.
Qed.
Lemma get_value_ok (c : ctx) k : consistent c ->
  fst (get_value defaults constants scalar c k) = value_for (d_get str_eqb (current c)) k /\
  consistent (snd (get_value defaults constants scalar c k)) /\
  c_user (snd (get_value defaults constants scalar c k)) = c_user c.
Proof.
  intros H. pose proof H as (N & C & I & W). unfold get_value. destruct (d_get str_eqb (c_values c) k) as [i|] eqn:E.
  - cbn [fst snd]. rewrite (W _ _ E). auto.
  - unfold compute_value. destruct (constraints_ok c H) as (E1 & E2 & E3). destruct (constraints defaults c) as [d c'] eqn:Ec.
    cbn [fst snd] in *. subst d. split; [reflexivity|].
    set (r := match d_get str_eqb (current c) k with None => _ | Some v => _ end).
    assert (Hr : r = value_for (d_get str_eqb (current c)) k) by reflexivity.
    destruct r as [[i|]|e]; auto. cbn [c_user]. split; [|exact E3].
    destruct E2 as (N' & C' & I' & W'). unfold consistent, current in *. cbn [c_user c_constraints c_indices c_values].
    split; [exact N'|]. split; [exact C'|]. split; [exact I'|].
    intros j x. rewrite (d_get_set str_eqb str_eqb_spec). destruct (str_eqb_spec j k) as [->|Nj]; [|apply W'].
    intros [= <-]. rewrite E3. symmetry. exact Hr.
Qed.

Lemma run_ok {B} (p : program IX SC B) : forall c : ctx, consistent c ->
  fst (run p c) = result_for (d_get str_eqb (current c)) p /\ consistent (snd (run p c)) /\ c_user (snd (run p c)) = c_user c.
Proof.
  induction p as [r|k f IH|k f IH]; intros c H; cbn [run_program ObservingSpec.result_for].
  - cbn [fst snd]. auto.
  - destruct (get_index_ok c k H) as (E1 & E2 & E3).
    destruct (get_index defaults in_axes axis_all axis_at as_index c k) as [[i|e] c']; cbn [fst snd] in *; rewrite <- E1; cbn [bind].
    + destruct (IH i c' E2) as (F1 & F2 & F3). unfold current in *. rewrite E3 in *. auto.
    + auto.
  - destruct (get_value_ok c k H) as (E1 & E2 & E3).
    destruct (get_value defaults constants scalar c k) as [[i|e] c']; cbn [fst snd] in *; rewrite <- E1; cbn [bind].
    + destruct (IH i c' E2) as (F1 & F2 & F3). unfold current in *. rewrite E3 in *. auto.
    + auto.
Qed.
Lemma result_ext {B} (p : program IX SC B) d e : (forall k, d k = e k) -> result_for d p = result_for e p.
Proof.
  intros H. induction p as [r|k f IH|k f IH]; cbn [ObservingSpec.result_for]; [reflexivity| |].
  - unfold ObservingSpec.index_for. rewrite H. destruct (if negb (in_axes k) then _ else _) as [i|x]; cbn [bind]; auto.
  - unfold ObservingSpec.value_for. rewrite H. destruct (match e k with Some _ => _ | None => _ end) as [i|x]; cbn [bind]; auto.
Qed.

(** * Names *)

Lemma observable_frame (c : ctx) : let c' := snd (observable find names c) in
  c_user c' = c_user c /\ c_constraints c' = c_constraints c /\ c_indices c' = c_indices c /\ c_values c' = c_values c /\
  c_keys c' = c_keys c /\ c_available c' = c_available c.
Proof. unfold observable. destruct (c_observable c); cbn; auto 10. Qed.

(** The parts of a context that [keys] leaves alone. *)
Definition same_caches (c c' : ctx) : Prop :=
  c_user c' = c_user c /\ c_indices c' = c_indices c /\ c_values c' = c_values c /\
  (c_constraints c' = c_constraints c \/ c_constraints c' = Some (current c) /\ c_constraints c = None).
Lemma consistent_same (c c' : ctx) : same_caches c c' -> consistent c -> consistent c'.
Proof.
  intros (U & I & W & C) (N & C0 & I0 & W0). unfold consistent, current in *. rewrite U, I, W.
  split; [exact N|]. split; [|split; assumption]. destruct C as [-> | [-> _]]; auto.
Qed.
Lemma constraints_same (c : ctx) : same_caches c (snd (constraints defaults c)).
Proof. unfold constraints, same_caches. destruct (c_constraints c) eqn:E; cbn; auto 10. Qed.
Lemma available_same (c : ctx) : same_caches c (snd (available defaults find names c)).
Proof.
  unfold available. destruct (c_available c); [unfold same_caches; cbn; auto|].
  pose proof (constraints_same c) as H. destruct (constraints defaults c) as [d c1]. cbn [snd] in H.
  pose proof (observable_frame c1) as F. destruct (observable find names c1) as [o c2]. cbn [snd] in *.
  destruct H as (H1 & H2 & H3 & H4), F as (F1 & F2 & F3 & F4 & F5 & F6).
  unfold same_caches. cbn. rewrite F1, F2, F3, F4. auto.
Qed.
Lemma keys_same (c : ctx) : same_caches c (snd (keys defaults find names c)).
Proof.
  unfold keys. destruct (c_keys c); [unfold same_caches; cbn; auto|].
  pose proof (available_same c) as H. destruct (available defaults find names c) as [a c1]. exact H.
Qed.

(** * Histories *)

Context {A : Type}.
Notation cmd := (command V IX SC A).
Notation perform := (@perform V IX SC A defaults find names in_axes axis_all axis_at as_index constants scalar).
Notation after := (@after V IX SC A defaults find names in_axes axis_all axis_at as_index constants scalar).

Lemma contains_snd (c : ctx) x : snd (contains defaults find names c x) = snd (keys defaults find names c).
Proof. unfold contains. now destruct (keys defaults find names c). Qed.
Lemma perform_consistent c (x : cmd) : consistent c -> consistent (perform c x).
Proof.
  intros H. destruct x as [new append|p| |x]; cbn [ObservingSpec.perform].
  - now apply constrain_consistent.
  - now apply run_ok.
  - now apply constraints_ok.
  - rewrite contains_snd. eapply consistent_same; [apply keys_same|exact H].
Qed.
Lemma after_snoc (h : list cmd) x : after (h ++ [x]) = perform (after h) x.
Proof. unfold ObservingSpec.after. now rewrite fold_left_app. Qed.
Lemma after_consistent (h : list cmd) : consistent (after h).
Proof.
  induction h as [|x h IH] using rev_ind; [apply new_consistent|].
  rewrite after_snoc. now apply perform_consistent.
Qed.
Lemma calls_snoc (h : list cmd) x : calls (h ++ [x]) = match x with Constrain new append => [(new, append)] | _ => [] end ++ calls h.
Proof. unfold calls. rewrite flat_map_app, rev_app_distr. cbn. destruct x; reflexivity. Qed.
Lemma perform_user c (x : cmd) : consistent c -> c_user (perform c x) =
  match x with Constrain new true => d_update str_eqb (c_user c) new | Constrain new false => d_of str_eqb new | _ => c_user c end.
Proof.
  intros H. destruct x as [new append|p| |x]; cbn [ObservingSpec.perform].
  - now destruct append.
  - now apply run_ok.
  - now apply constraints_ok.
  - rewrite contains_snd. apply keys_same.
Qed.

Lemma user_effective (h : list cmd) k : d_get str_eqb (current (after h)) k = effective defaults (calls h) k.
Proof.
  assert (G : forall l, NoDup (map fst l) -> d_get str_eqb (d_update str_eqb defaults l) k =
              match d_get str_eqb l k with Some v => Some v | None => d_get str_eqb defaults k end).
  { intros l N. rewrite (d_update_get str_eqb str_eqb_spec), d_get_rev by exact N. reflexivity. }
  induction h as [|x h IH] using rev_ind.
  - reflexivity.
  - rewrite after_snoc, calls_snoc. unfold current in *.
    pose proof (after_consistent h) as Hc. pose proof Hc as (N & _).
    rewrite perform_user by exact Hc.
    destruct x as [new append|p| |x]; cbn [app]; try exact IH.
    rewrite G in IH by exact N. cbn [effective]. destruct append.
    + rewrite G by (now apply (d_update_NoDup str_eqb str_eqb_spec)).
      rewrite (d_update_get str_eqb str_eqb_spec). destruct (d_get str_eqb (rev new) k); [reflexivity|exact IH].
    + rewrite G by (apply (d_of_NoDup str_eqb str_eqb_spec)).
      rewrite (d_of_get str_eqb str_eqb_spec). reflexivity.
Qed.

Theorem constraints_effective (h : list cmd) k :
  d_get str_eqb (fst (constraints defaults (after h))) k = effective defaults (calls h) k.
Proof. destruct (constraints_ok _ (after_consistent h)) as (-> & _). apply user_effective. Qed.

Theorem run_history {B} (h : list cmd) (p : program IX SC B) :
  fst (run p (after h)) = result_for (effective defaults (calls h)) p.
Proof.
  destruct (run_ok p (after h) (after_consistent h)) as (-> & _). apply result_ext. intros k. apply user_effective.
Qed.
Theorem run_forgets {B} (h : list cmd) new (p : program IX SC B) :
  fst (run p (constrain (after h) new false)) = fst (run p (constrain new_context new false)).
Proof.
  change (constrain (after h) new false) with (perform (after h) (Constrain new false)).
  rewrite <- after_snoc.
  change (constrain new_context new false) with (after [Constrain new false]).
  rewrite !run_history, calls_snoc. apply result_ext. intros k. cbn. reflexivity.
Qed.

(** * Names over time *)

Definition asks (x : cmd) : bool := match x with AskName _ => true | _ => false end.
Lemma available_contents (c : ctx) : consistent c -> c_available c = None -> (c_observable c = None \/ c_observable c = Some (map find names)) ->
  fst (available defaults find names c) = map find names ++ map find (map fst (current c)).
Proof.
  intros H E O. unfold available. rewrite E. destruct (constraints_ok c H) as (E1 & E2 & E3).
  pose proof (constraints_frame c) as F. destruct (constraints defaults c) as [d c1]. cbn [fst snd] in *. subst d.
  destruct F as (_ & _ & _ & _ & _ & F). unfold observable. rewrite F. destruct O as [-> | ->]; reflexivity.
Qed.

Definition fresh_names (c : ctx) : Prop :=
  c_keys c = None /\ c_available c = None /\ c_observable c = None.
Lemma run_names {B} (p : program IX SC B) : forall c : ctx, let c' := snd (run p c) in
  c_keys c' = c_keys c /\ c_available c' = c_available c /\ c_observable c' = c_observable c.
Proof.
  assert (GI : forall (c : ctx) k, let c' := snd (get_index defaults in_axes axis_all axis_at as_index c k) in
    c_keys c' = c_keys c /\ c_available c' = c_available c /\ c_observable c' = c_observable c).
  { intros c k. unfold get_index. destruct (d_get str_eqb (c_indices c) k); cbn; auto. unfold compute_index.
    destruct (negb (in_axes k)); cbn; auto. pose proof (constraints_frame c) as F.
    destruct (constraints defaults c) as [d c1]. cbn [snd] in *. destruct F as (_ & _ & _ & F1 & F2 & F3).
    destruct (match d_get str_eqb d k with None => _ | Some v => _ end) as [[i|]|e]; cbn; auto. }
  assert (GV : forall (c : ctx) k, let c' := snd (get_value defaults constants scalar c k) in
    c_keys c' = c_keys c /\ c_available c' = c_available c /\ c_observable c' = c_observable c).
  { intros c k. unfold get_value. destruct (d_get str_eqb (c_values c) k); cbn; auto. unfold compute_value.
    pose proof (constraints_frame c) as F.
    destruct (constraints defaults c) as [d c1]. cbn [snd] in *. destruct F as (_ & _ & _ & F1 & F2 & F3).
    destruct (match d_get str_eqb d k with None => _ | Some v => _ end) as [[i|]|e]; cbn; auto. }
  induction p as [r|k f IH|k f IH]; intros c; cbn [run_program]; [cbn; auto| |].
  - specialize (GI c k). destruct (get_index defaults in_axes axis_all axis_at as_index c k) as [[i|e] c']; cbn [snd] in *; [|exact GI].
    specialize (IH i c'). cbn in *. intuition congruence.
  - specialize (GV c k). destruct (get_value defaults constants scalar c k) as [[i|e] c']; cbn [snd] in *; [|exact GV].
    specialize (IH i c'). cbn in *. intuition congruence.
Qed.
Lemma unasked (h : list cmd) : forallb (fun x => negb (asks x)) h = true -> fresh_names (after h).
Proof.
  induction h as [|x h IH] using rev_ind; [unfold fresh_names; cbn; auto|].
  rewrite forallb_app. intros H. apply andb_true_iff in H as [H1 H2]. specialize (IH H1).
  rewrite after_snoc. destruct IH as (I1 & I2 & I3). destruct x as [new append|p| |x]; cbn [ObservingSpec.perform].
  - cbn. unfold fresh_names. cbn. auto.
  - pose proof (run_names p (after h)) as F. cbn in F. unfold fresh_names. intuition congruence.
  - pose proof (constraints_frame (after h)) as F. cbn in F. unfold fresh_names. intuition congruence.
  - discriminate.
Qed.

Lemma d_update_keys (d l : list (str * V)) k : In k (map fst (d_update str_eqb d l)) <-> d_get str_eqb (d_update str_eqb d l) k <> None.
Proof.
  split.
  - intros I E. apply (d_get_none str_eqb str_eqb_spec) in E. contradiction.
  - intros N. destruct (in_dec str_eq_dec k (map fst (d_update str_eqb d l))) as [I|I]; [exact I|].
    exfalso. apply N. now apply (d_get_none str_eqb str_eqb_spec).
Qed.

Theorem contains_first (h : list cmd) x : forallb (fun x => negb (asks x)) h = true ->
  fst (contains defaults find names (after h) x) = true <->
  exists n, (In n names \/ effective defaults (calls h) n <> None) /\ In x (find n).
Proof.
  intros H. destruct (unasked h H) as (K & Av & Ob). unfold contains, keys. rewrite K.
  pose proof (available_contents (after h) (after_consistent h) Av (or_introl Ob)) as Ha.
  destruct (available defaults find names (after h)) as [a c1]. cbn [fst] in *. subst a.
  rewrite existsb_exists. split.
  - intros (y & I & E). destruct (str_eqb_spec x y) as [<-|]; [|discriminate].
    apply in_concat in I as (g & Ig & Ix). apply in_app_or in Ig as [Ig|Ig].
    + apply in_map_iff in Ig as (n & <- & In_). exists n. split; [now left|exact Ix].
    + apply in_map_iff in Ig as (n & <- & In_). exists n. split; [right|exact Ix].
      apply d_update_keys in In_. fold (current (after h)) in In_. now rewrite user_effective in In_.
  - intros (n & Hn & Ix). exists x. split; [|apply str_eqb_refl]. apply in_concat. exists (find n). split; [|exact Ix].
    apply in_or_app. destruct Hn as [Hn|Hn]; [left; now apply in_map|right]. apply in_map.
    apply d_update_keys. fold (current (after h)). now rewrite user_effective.
Qed.

Lemma perform_keys c (x : cmd) l : c_keys c = Some l -> c_keys (perform c x) = Some l.
Proof.
  intros E. destruct x as [new append|p| |x]; cbn [ObservingSpec.perform].
  - exact E.
  - pose proof (run_names p c) as F. cbn in F. intuition congruence.
  - pose proof (constraints_frame c) as F. cbn in F. intuition congruence.
  - rewrite contains_snd. unfold keys. now rewrite E.
Qed.
Theorem contains_frozen (h h' : list cmd) y x :
  fst (contains defaults find names (after (h ++ AskName y :: h')) x) = fst (contains defaults find names (after h) x).
Proof.
  assert (E : exists l, fst (keys defaults find names (after h)) = l /\ c_keys (after (h ++ AskName y :: h')) = Some l).
  { exists (fst (keys defaults find names (after h))). split; [reflexivity|].
    replace (h ++ AskName y :: h') with ((h ++ [AskName y]) ++ h') by (now rewrite <- app_assoc).
    induction h' as [|z h' IH] using rev_ind.
    - rewrite app_nil_r, after_snoc. cbn [ObservingSpec.perform]. rewrite contains_snd.
      unfold keys. destruct (c_keys (after h)) eqn:Ek; [exact Ek|].
      destruct (available defaults find names (after h)) as [a c1]. reflexivity.
    - rewrite app_assoc, after_snoc. now apply perform_keys. }
  destruct E as (l & E1 & E2). unfold contains at 1, keys. rewrite E2. cbn [fst].
  unfold contains. destruct (keys defaults find names (after h)) as [l' c']. cbn [fst] in *. now subst.
Qed.
End Contexts.

(** * Computations *)

Section Programs.
Context {V IX SC D : Type}
        (in_axes : str -> bool) (axis_all : str -> res IX) (axis_at : str -> V -> res IX)
        (as_index : V -> option IX) (constants : list (str * V)) (scalar : V -> res SC).
Notation index_for := (index_for in_axes axis_all axis_at as_index).
Notation value_for := (value_for constants scalar).
Notation result_for := (result_for in_axes axis_all axis_at as_index constants scalar).

Lemma bind_assoc {A B C} (m : res A) (f : A -> res B) (g : B -> res C) :
  bind (bind m f) g = bind m (fun x => bind (f x) g).
Proof. now destruct m. Qed.
Lemma bind_ext {A B} (m : res A) (f g : A -> res B) : (forall x, f x = g x) -> bind m f = bind m g.
Proof. intros H. destruct m; cbn; auto. Qed.

Lemma result_bind {A B} d (p : program IX SC A) (f : A -> program IX SC B) :
  result_for d (pbind p f) = bind (result_for d p) (fun a => result_for d (f a)).
Proof.
  induction p as [r|k g IH|k g IH]; cbn [pbind ObservingSpec.result_for].
  - now destruct r.
  - rewrite bind_assoc. apply bind_ext. exact IH.
  - rewrite bind_assoc. apply bind_ext. exact IH.
Qed.
Lemma result_map {A B} d (f : A -> program IX SC B) l :
  result_for d (pmap f l) = mapM (fun x => result_for d (f x)) l.
Proof.
  induction l as [|x l IH]; [reflexivity|]. cbn [pmap mapM]. rewrite result_bind. apply bind_ext. intros y.
  rewrite result_bind, IH. destruct (mapM _ l); reflexivity.
Qed.

(** A computation asks for the axes and parameters of a set only, and what it
    returns has a property. *)
Inductive asks_only (R : str -> Prop) {A} (P : A -> Prop) : program IX SC A -> Prop :=
| ao_return r : (forall a, r = Ok a -> P a) -> asks_only R P (Return r)
| ao_index k f : (in_axes k = true -> R k) -> (forall i, asks_only R P (f i)) -> asks_only R P (AskIndex k f)
| ao_value k f : R k -> (forall v, asks_only R P (f v)) -> asks_only R P (AskValue k f).
Lemma asks_only_result R {A} P (p : program IX SC A) d e : asks_only R P p -> (forall k, R k -> d k = e k) ->
  result_for d p = result_for e p.
Proof.
  intros H E. induction H as [r _|k f Hk Hf IH|k f Hk Hf IH]; cbn [ObservingSpec.result_for]; [reflexivity| |].
  - unfold ObservingSpec.index_for. destruct (in_axes k); cbn [negb bind]; [|apply IH].
    rewrite (E k (Hk eq_refl)). apply bind_ext. exact IH.
  - unfold ObservingSpec.value_for. rewrite (E k Hk). apply bind_ext. exact IH.
Qed.
Lemma asks_only_bind R {A B} (P : A -> Prop) (Q : B -> Prop) (p : program IX SC A) (f : A -> program IX SC B) :
  asks_only R P p -> (forall x, P x -> asks_only R Q (f x)) -> asks_only R Q (pbind p f).
Proof.
  intros H Hf. induction H as [r Hr|k g Hk Hg IH|k g Hk Hg IH]; cbn [pbind].
  - destruct r as [a|e]; [apply Hf, Hr; reflexivity|constructor; discriminate].
  - constructor; assumption.
  - constructor; assumption.
Qed.
Lemma asks_only_map R {A B} (P : B -> Prop) (f : A -> program IX SC B) l :
  (forall x, In x l -> asks_only R P (f x)) -> asks_only R (Forall P) (pmap f l).
Proof.
  induction l as [|x l IH]; intros H; cbn [pmap].
  - constructor. intros a [= <-]. constructor.
  - eapply asks_only_bind; [apply H; now left|]. intros y Py. eapply asks_only_bind; [apply IH; intros z Hz; apply H; now right|].
    intros ys Pys. constructor. intros a [= <-]. now constructor.
Qed.

Context (find : str -> list str)
        (lookup : str -> option (source SC D)) (truth : D -> bool)
        (power : D * list str -> Qc -> res (D * list str))
        (times : D * list str -> D * list str -> res (D * list str))
        (take : D * list str -> list (option IX) -> res (D * list str))
        (resample : D * list str -> list (str * (IX + SC)) -> res (D * list str))
        (expression : str -> res (list (str * Qc)))
        (coordinate : str -> bool) (needs : str -> IX -> bool) (nonzero : SC -> bool)
        (mkset : list str -> list str) (aliases : str -> list str).
Notation get_observable := (@get_observable V IX SC D constants lookup truth).
Notation build := (@build V IX SC D constants lookup truth power times expression mkset).
Notation build_rest := (@build_rest V IX SC D constants lookup truth power times mkset).
Notation subscript := (@subscript IX SC D take).
Notation interpolants := (@interpolants IX SC D find needs nonzero).
Notation interpolate := (@interpolate IX SC D take resample).
Notation observe_quantity := (@observe_quantity V IX SC D find constants lookup truth power times take resample expression coordinate needs nonzero mkset aliases).
Notation observe := (@observe V IX SC D find constants lookup truth power times take resample expression coordinate needs nonzero mkset aliases).

Section Frame.
(** Names of axes: the only ones that quantities have. *)
Context (axis_name : str -> Prop)
        (Hlook : forall k, match lookup k with
                           | Some (Given _ dims) | Some (Derived _ _ dims) => Forall axis_name dims
                           | None => True end)
        (Hpow : forall x e y, Forall axis_name (snd x) -> power x e = Ok y -> Forall axis_name (snd y))
        (Htimes : forall x z y, Forall axis_name (snd x) -> Forall axis_name (snd z) -> times x z = Ok y -> Forall axis_name (snd y))
        (Htake : forall x l y, Forall axis_name (snd x) -> take x l = Ok y -> Forall axis_name (snd y))
        (Hres : forall x l y, Forall axis_name (snd x) -> resample x l = Ok y -> Forall axis_name (snd y))
        (Hset : forall l x, In x (mkset l) <-> In x l).
Variable terms : list (str * Qc).
Notation relevant := (relevant lookup axis_name (find (lit "radius")) terms).
Definition qty_ok (R : str -> Prop) (q : qty D) : Prop := Forall axis_name (q_dims q) /\ Forall R (q_params q).
Definition opt_ok (R : str -> Prop) (o : option (qty D)) : Prop := match o with Some q => qty_ok R q | None => True end.

Lemma unique_names_in l x : In x (unique_names l) <-> In x l.
Proof.
  induction l as [|y l IH]; [reflexivity|]. cbn [unique_names]. cbn [In]. rewrite filter_In, IH.
  destruct (str_eqb_spec y x) as [->|N]; cbn; intuition congruence.
Qed.

Lemma get_observable_asks (R : str -> Prop) fuel : forall key, (forall k, takes_part lookup k key -> R k) ->
  asks_only R (opt_ok R) (get_observable fuel key).
Proof.
  induction fuel as [|fuel IH]; intros key HR; cbn [ObservingModel.get_observable].
  - constructor. discriminate.
  - pose proof (Hlook key) as HD. destruct (lookup key) as [[d dims|ps call dims]|] eqn:El.
    + constructor. intros a [= <-]. cbn. split; [exact HD|constructor].
    + assert (Hv : forall p, In p ps -> R p) by (intros p Hp; apply HR; now apply (directly lookup p key ps call dims)).
      eapply asks_only_bind.
      * apply (asks_only_map R (fun _ => True)). intros p Hp. eapply asks_only_bind.
        -- apply IH. intros k Hk. apply HR. now apply (through lookup k key ps call dims p).
        -- intros [q|] _.
           ++ destruct (truth (q_data q)); [constructor; auto|]. constructor; [now apply Hv|]. intros v. now constructor.
           ++ constructor; [now apply Hv|]. intros v. now constructor.
      * intros deps _. destruct (call deps) as [x|x]; constructor; [|discriminate]. intros a [= <-].
        split; [exact HD|]. cbn. apply Forall_forall. intros p Hp. apply unique_names_in, filter_In in Hp as [Hp _]. now apply Hv.
    + constructor. intros a [= <-]. exact I.
Qed.

Lemma raise_ok (R : str -> Prop) o e q : opt_ok R o -> raise power o e = Ok q -> qty_ok R q.
Proof.
  destruct o as [r|]; cbn [raise opt_ok]; [|discriminate]. intros [H1 H2]. unfold with_data.
  destruct (power (q_data r, q_dims r) e) as [[d dims]|] eqn:E; [|discriminate]. intros [= <-]. split; [|exact H2].
  exact (Hpow (q_data r, q_dims r) _ (_, _) H1 E).
Qed.
Lemma multiply_ok (R : str -> Prop) q r x : qty_ok R q -> qty_ok R r -> multiply times mkset q r = Ok x -> qty_ok R x.
Proof.
  intros [H1 H2] [H3 H4]. unfold multiply. destruct (times _ _) as [[d dims]|] eqn:E; [|discriminate]. intros [= <-].
  split; [exact (Htimes (_, q_dims q) (_, q_dims r) (_, _) H1 H3 E)|]. cbn. apply Forall_forall. intros p Hp. unfold merge_parameters in Hp.
  apply unique_names_in, Hset, in_app_or in Hp. rewrite Forall_forall in H2, H4. destruct Hp; auto.
Qed.
Lemma build_rest_asks (R : str -> Prop) fuel l : forall q, qty_ok R q -> (forall b e k, In (b, e) l -> takes_part lookup k b -> R k) ->
  asks_only R (qty_ok R) (build_rest fuel q l).
Proof.
  induction l as [|[b e] l IH]; intros q Hq HR; cbn [ObservingModel.build_rest].
  - constructor. intros a [= <-]. exact Hq.
  - eapply asks_only_bind; [apply (get_observable_asks R); intros k Hk; apply (HR b e k); [now left|exact Hk]|].
    intros o Ho. destruct (raise power o e) as [r|x] eqn:Er; cbn [bind]; [|constructor; discriminate].
    destruct (multiply times mkset q r) as [y|x] eqn:Em; [|constructor; discriminate].
    apply IH; [|intros b' e' k Hb; apply (HR b' e'); now right].
    eapply multiply_ok; [exact Hq| |exact Em]. eapply raise_ok; eassumption.
Qed.
Lemma build_asks (R : str -> Prop) fuel key : expression key = Ok terms -> (forall b e k, In (b, e) terms -> takes_part lookup k b -> R k) ->
  asks_only R (opt_ok R) (build fuel key).
Proof.
  intros E HR. unfold ObservingModel.build. rewrite E. destruct terms as [|[b e] l]; [constructor; discriminate|].
  eapply asks_only_bind; [apply (get_observable_asks R); intros k Hk; apply (HR b e k); [now left|exact Hk]|].
  intros o Ho. destruct l as [|t l].
  - destruct (Qc_eqb e 1); [constructor; intros a [= <-]; exact Ho|].
    destruct (raise power o e) as [q|x] eqn:Er; constructor; [|discriminate]. intros a [= <-]. cbn. eapply raise_ok; eassumption.
  - destruct (raise power o e) as [q|x] eqn:Er; [|constructor; discriminate].
    eapply asks_only_bind; [apply build_rest_asks|].
    + eapply raise_ok; eassumption.
    + intros b' e' k Hb. apply (HR b' e'). now right.
    + intros q' Hq'. constructor. intros a [= <-]. exact Hq'.
Qed.
Lemma subscript_asks (R : str -> Prop) q ds : (forall k, axis_name k -> R k) -> qty_ok R q -> asks_only R (qty_ok R) (subscript q ds).
Proof.
  intros HR [H1 H2]. unfold ObservingModel.subscript. eapply asks_only_bind.
  - apply (asks_only_map R (fun _ => True)). intros k Hk. destruct (match ds with [] => true | _ => existsb (str_eqb k) ds end).
    + constructor; [|intros i; now constructor]. intros _. apply HR. rewrite Forall_forall in H1. now apply H1.
    + now constructor.
  - intros l _. constructor. unfold with_data. destruct (take (q_data q, q_dims q) l) as [[d dims]|] eqn:E; [|discriminate].
    intros a [= <-]. split; [exact (Htake (_, q_dims q) _ (_, _) H1 E)|exact H2].
Qed.
Lemma interpolants_asks q : qty_ok relevant q -> asks_only relevant (fun _ => True) (interpolants q).
Proof.
  intros [H1 H2]. unfold ObservingModel.interpolants. eapply asks_only_bind.
  - unfold dimension_interpolants. eapply asks_only_bind.
    + apply (asks_only_map _ (fun _ => True)). intros k Hk. constructor; [|intros i; now constructor].
      intros _. left. rewrite Forall_forall in H1. now apply H1.
    + intros l _. now apply (ao_return relevant (fun _ => True)).
  - intros l _. destruct (existsb (str_eqb (lit "shell")) (q_dims q)); [|now constructor].
    eapply (asks_only_bind relevant (fun _ => True)); [|intros r _; now constructor].
    assert (G : forall ks found, (forall k, In k ks -> In k (find (lit "radius"))) ->
              asks_only relevant (fun _ => True) (@radius_interpolants IX SC nonzero ks found)).
    { induction ks as [|k ks IH]; intros found Hks; cbn [radius_interpolants]; [now constructor|].
      constructor; [right; left; apply Hks; now left|]. intros [v|]; apply IH; intros k' Hk'; apply Hks; now right. }
    apply G. auto.
Qed.
Lemma interpolate_asks q l : qty_ok relevant q -> asks_only relevant (qty_ok relevant) (interpolate q l).
Proof.
  intros [H1 H2]. unfold ObservingModel.interpolate, with_data.
  destruct (resample (q_data q, q_dims q) l) as [[d dims]|] eqn:E; [|constructor; discriminate].
  apply subscript_asks; [intros k Hk; now left|]. split; [exact (Hres (_, q_dims q) _ (_, _) H1 E)|exact H2].
Qed.
Lemma observe_asks fuel key : expression key = Ok terms -> asks_only relevant (fun _ => True) (observe fuel key).
Proof.
  intros E. assert (HR : forall b e k, In (b, e) terms -> takes_part lookup k b -> relevant k).
  { intros b e k H1 H2. right. right. now exists b, e. }
  unfold ObservingModel.observe. eapply (asks_only_bind relevant (qty_ok relevant)).
  - unfold ObservingModel.observe_quantity. eapply asks_only_bind; [apply build_asks; eassumption|].
    intros [q|] Hq; [|constructor; discriminate]. cbn in Hq.
    assert (HA : forall k, axis_name k -> relevant k) by (intros k Hk; now left).
    destruct (existsb coordinate (aliases key)); [now apply subscript_asks|].
    eapply asks_only_bind; [now apply interpolants_asks|]. intros l _. destruct l; [now apply subscript_asks|now apply interpolate_asks].
  - intros q [H1 H2]. eapply asks_only_bind.
    + apply (asks_only_map _ (fun _ => True)). intros k Hk. constructor; [|intros i; now constructor].
      intros _. left. rewrite Forall_forall in H1. now apply H1.
    + intros is _. eapply asks_only_bind.
      * apply (asks_only_map _ (fun _ => True)). intros k Hk. constructor; [|intros v; now constructor].
        rewrite Forall_forall in H2. now apply H2.
      * intros vs _. now constructor.
Qed.
Theorem observe_frame fuel key d e : expression key = Ok terms -> (forall k, relevant k -> d k = e k) ->
  result_for d (observe fuel key) = result_for e (observe fuel key).
Proof. intros E H. eapply asks_only_result; [now apply observe_asks|exact H]. Qed.
End Frame.

(** * The reported parameters *)

Hypothesis Hset : forall l x, In x (mkset l) <-> In x l.
Notation parameter_of := (parameter_of lookup constants).

Lemma get_observable_params d fuel key q : result_for d (get_observable fuel key) = Ok (Some q) ->
  forall p, In p (q_params q) <-> parameter_of [(key, 1%Qc)] p.
Proof.
  destruct fuel as [|fuel]; cbn [ObservingModel.get_observable]; [discriminate|].
  destruct (lookup key) as [[x dims|ps call dims]|] eqn:El; cbn [ObservingSpec.result_for]; [| |discriminate].
  - intros [= <-] p. cbn. split; [tauto|]. intros (b & e & ps & call & ds & [[= <- <-]|[]] & Hl & _). congruence.
  - rewrite result_bind. destruct (result_for d (pmap _ ps)) as [deps|x]; cbn [bind]; [|discriminate].
    destruct (call deps) as [y|y]; cbn [ObservingSpec.result_for]; [|discriminate]. intros [= <-] p. cbn [q_params].
    rewrite unique_names_in, filter_In. unfold d_has. split.
    + intros [H1 H2]. exists key, 1%Qc, ps, call, dims. split; [now left|]. split; [exact El|]. split; [exact H1|].
      destruct (d_get str_eqb constants p); [discriminate|discriminate].
    + intros (b & e & ps' & call' & ds & [[= <- <-]|[]] & Hl & Hp & Hc). rewrite El in Hl. injection Hl as <- <- <-.
      split; [exact Hp|]. destruct (d_get str_eqb constants p); [reflexivity|congruence].
Qed.
Lemma parameter_of_cons b e l p : parameter_of ((b, e) :: l) p <-> parameter_of [(b, 1%Qc)] p \/ parameter_of l p.
Proof.
  split.
  - intros (b' & e' & ps & call & ds & [[= <- <-]|H] & R).
    + left. exists b, 1%Qc, ps, call, ds. split; [now left|exact R].
    + right. exists b', e', ps, call, ds. now split.
  - intros [(b' & e' & ps & call & ds & [[= <- <-]|[]] & R)|(b' & e' & ps & call & ds & H & R)].
    + exists b, e, ps, call, ds. split; [now left|exact R].
    + exists b', e', ps, call, ds. split; [now right|exact R].
Qed.
Lemma raise_params o e q : raise power o e = Ok q -> exists r, o = Some r /\ q_params q = q_params r.
Proof.
  destruct o as [r|]; cbn [raise]; [|discriminate]. unfold with_data.
  destruct (power _ e) as [[x dims]|]; [|discriminate]. intros [= <-]. now exists r.
Qed.
Lemma build_rest_params d fuel l : forall q r, result_for d (build_rest fuel q l) = Ok r ->
  forall p, In p (q_params r) <-> In p (q_params q) \/ parameter_of l p.
Proof.
  induction l as [|[b e] l IH]; intros q r; cbn [ObservingModel.build_rest].
  - cbn. intros [= <-] p. split; [auto|]. intros [H|(b & e & ps & call & ds & [] & _)]. exact H.
  - rewrite result_bind. destruct (result_for d (get_observable fuel b)) as [o|x] eqn:Eo; cbn [bind]; [|discriminate].
    destruct (raise power o e) as [y|x] eqn:Er; cbn [bind]; [|discriminate].
    destruct (multiply times mkset q y) as [z|x] eqn:Em; [|discriminate]. intros H p.
    apply raise_params in Er as (o' & -> & Ep). rewrite (IH _ _ H), parameter_of_cons, <- (get_observable_params _ _ _ _ Eo), <- Ep.
    unfold multiply in Em. destruct (times _ _) as [[x dims]|]; [|discriminate]. injection Em as <-. cbn [q_params].
    unfold merge_parameters. rewrite unique_names_in, Hset, in_app_iff. tauto.
Qed.
Lemma build_params d fuel key terms q : expression key = Ok terms -> result_for d (build fuel key) = Ok (Some q) ->
  forall p, In p (q_params q) <-> parameter_of terms p.
Proof.
  intros E. unfold ObservingModel.build. rewrite E. destruct terms as [|[b e] l]; [discriminate|].
  rewrite result_bind. destruct (result_for d (get_observable fuel b)) as [o|x] eqn:Eo; cbn [bind]; [|discriminate].
  destruct l as [|t l].
  - intros H p. assert (Ho : exists r, o = Some r /\ q_params q = q_params r).
    { destruct (Qc_eqb e 1); [cbn in H; injection H as ->; now exists q|].
      destruct (raise power o e) as [y|x] eqn:Er; cbn in H; [|discriminate]. injection H as <-. eapply raise_params; eassumption. }
    destruct Ho as (r & -> & ->). rewrite (get_observable_params _ _ _ _ Eo), (parameter_of_cons b e []).
    split; [auto|]. intros [H1|(b' & e' & ps & call & ds & [] & _)]. exact H1.
  - destruct (raise power o e) as [y|x] eqn:Er; [|discriminate]. rewrite result_bind.
    destruct (result_for d (build_rest fuel y (t :: l))) as [z|x] eqn:Ez; cbn [bind]; [|discriminate]. cbn. intros [= <-] p.
    apply raise_params in Er as (r & -> & Ep).
    now rewrite (build_rest_params _ _ _ _ _ Ez), parameter_of_cons, Ep, (get_observable_params _ _ _ _ Eo).
Qed.
Lemma subscript_params d q ds r : result_for d (subscript q ds) = Ok r -> q_params r = q_params q.
Proof.
  unfold ObservingModel.subscript. rewrite result_bind. destruct (result_for d (pmap _ _)) as [l|x]; cbn [bind]; [|discriminate].
  cbn. unfold with_data. destruct (take _ l) as [[y dims]|]; [|discriminate]. now intros [= <-].
Qed.
Lemma interpolate_params d q l r : result_for d (interpolate q l) = Ok r -> q_params r = q_params q.
Proof.
  unfold ObservingModel.interpolate, with_data. destruct (resample _ l) as [[y dims]|]; [|discriminate].
  intros H. now apply subscript_params in H.
Qed.
Lemma mapM_pairs {B} (g : str -> res B) l : forall r, mapM (fun x => do v <- g x; Ok (x, v))%py l = Ok r ->
  map fst r = l /\ (forall x v, In (x, v) r -> g x = Ok v).
Proof.
  induction l as [|x l IH]; intros r; cbn [mapM].
  - intros [= <-]. split; [reflexivity|]. intros x v [].
  - destruct (g x) as [v|e] eqn:E; cbn [bind]; [|discriminate].
    destruct (mapM _ l) as [r'|e] eqn:Er; cbn [bind]; [|discriminate]. intros [= <-].
    destruct (IH _ eq_refl) as [H1 H2]. cbn. rewrite H1. split; [reflexivity|].
    intros y w [[= <- <-]|H]; [exact E|now apply H2].
Qed.
Theorem observe_assumptions d fuel key terms o : expression key = Ok terms -> result_for d (observe fuel key) = Ok o ->
  (forall p, In p (map fst (ob_assumptions o)) <-> parameter_of terms p) /\
  (forall p v, In (p, v) (ob_assumptions o) -> value_for d p = Ok v) /\
  map fst (ob_indices o) = q_dims (ob_quantity o) /\
  (forall a i, In (a, i) (ob_indices o) -> index_for d a = Ok i).
Proof.
  intros E. unfold ObservingModel.observe. rewrite result_bind.
  destruct (result_for d (observe_quantity fuel key)) as [q|x] eqn:Eq; cbn [bind]; [|discriminate].
  rewrite result_bind, result_map. cbn [ObservingSpec.result_for].
  destruct (mapM _ (q_dims q)) as [is|x] eqn:Ei; cbn [bind]; [|discriminate].
  rewrite result_bind, result_map. cbn [ObservingSpec.result_for].
  destruct (mapM _ (q_params q)) as [vs|x] eqn:Ev; cbn [bind]; [|discriminate]. intros [= <-]. cbn [ob_assumptions ob_indices ob_quantity].
  apply mapM_pairs in Ei as [I1 I2]. apply mapM_pairs in Ev as [V1 V2]. rewrite I1, V1.
  split; [|split; [exact V2|split; [reflexivity|exact I2]]]. intros p.
  unfold ObservingModel.observe_quantity in Eq. rewrite result_bind in Eq.
  destruct (result_for d (build fuel key)) as [[b|]|x] eqn:Eb; cbn [bind] in Eq; try discriminate.
  rewrite <- (build_params _ _ _ _ _ E Eb p).
  enough (Ep : q_params q = q_params b) by now rewrite Ep.
  destruct (existsb coordinate (aliases key)); [now apply subscript_params in Eq|].
  rewrite result_bind in Eq. destruct (result_for d (interpolants b)) as [l|x]; cbn [bind] in Eq; [|discriminate].
  destruct l; [now apply subscript_params in Eq|now apply interpolate_params in Eq].
Qed.

(** * Interpolation *)

Lemma existsb_map {A B} (f : A -> B) (g : B -> bool) l : existsb g (map f l) = existsb (fun x => g (f x)) l.
Proof. induction l; cbn; congruence. Qed.
Lemma interpolated_done (l : list (str * (IX + SC))) a :
  existsb (str_eqb a) (map (fun d => if str_eqb d (lit "radius") then lit "shell" else d) (map fst l)) = interpolated l a.
Proof. unfold interpolated. now rewrite !existsb_map. Qed.
Lemma mapM_ok {A B} (f : A -> res B) g l : (forall x, In x l -> f x = Ok (g x)) -> mapM f l = Ok (map g l).
Proof.
  induction l as [|x l IH]; intros H; [reflexivity|]. cbn [mapM map]. rewrite (H x) by now left. cbn [bind].
  rewrite IH; [reflexivity|]. intros y Hy. apply H. now right.
Qed.
Theorem interpolate_rest d q l data (idx : str -> option IX) :
  resample (q_data q, q_dims q) l = Ok (data, q_dims q) ->
  (exists a, In a (q_dims q) /\ interpolated l a = false) ->
  (forall a, In a (q_dims q) -> interpolated l a = false -> index_for d a = Ok (idx a)) ->
  result_for d (interpolate q l) =
  with_data q (take (data, q_dims q) (map (fun a => if interpolated l a then None else idx a) (q_dims q))).
Proof.
  intros Er (a0 & I0 & N0) Hi. unfold ObservingModel.interpolate. unfold with_data at 1. rewrite Er. unfold ObservingModel.subscript.
  cbn [q_data q_dims]. rewrite result_bind, result_map.
  set (rest := filter _ (q_dims q)).
  assert (Hin : forall a, In a (q_dims q) -> existsb (str_eqb a) rest = negb (interpolated l a)).
  { intros a Ia. destruct (interpolated l a) eqn:Ea; cbn [negb].
    - apply not_true_is_false. intros H. apply existsb_exists in H as (b & Hb & Eb).
      destruct (str_eqb_spec a b) as [<-|]; [|discriminate]. unfold rest in Hb. apply filter_In in Hb as [_ Hb].
      rewrite interpolated_done, Ea in Hb. discriminate.
    - apply existsb_exists. exists a. split; [|apply str_eqb_refl]. unfold rest. apply filter_In. split; [exact Ia|].
      now rewrite interpolated_done, Ea. }
  assert (Hne : rest <> []).
  { specialize (Hin a0 I0). rewrite N0 in Hin. intros E. rewrite E in Hin. discriminate. }
  rewrite (mapM_ok _ (fun a => if interpolated l a then None else idx a)).
  - cbn. unfold with_data. cbn. destruct (take _ _) as [[x dims]|]; reflexivity.
  - intros a Ia. destruct rest as [|r0 rest'] eqn:Erest; [congruence|]. rewrite <- Erest in *.
    rewrite (Hin a Ia). destruct (interpolated l a) eqn:Ea; cbn [negb ObservingSpec.result_for]; [reflexivity|].
    rewrite (Hi a Ia Ea). reflexivity.
Qed.
Theorem interpolate_every d q l data (idx : str -> option IX) :
  resample (q_data q, q_dims q) l = Ok (data, q_dims q) ->
  (forall a, In a (q_dims q) -> interpolated l a = true) ->
  (forall a, In a (q_dims q) -> index_for d a = Ok (idx a)) ->
  result_for d (interpolate q l) = with_data q (take (data, q_dims q) (map idx (q_dims q))).
Proof.
  intros Er Hall Hi. unfold ObservingModel.interpolate. unfold with_data at 1. rewrite Er. unfold ObservingModel.subscript.
  cbn [q_data q_dims]. rewrite result_bind, result_map.
  replace (filter _ (q_dims q)) with (@nil str).
  - rewrite (mapM_ok _ idx).
    + cbn. unfold with_data. cbn. destruct (take _ _) as [[x dims]|]; reflexivity.
    + intros a Ia. cbn [ObservingSpec.result_for]. now rewrite (Hi a Ia).
  - symmetry. assert (G : forall m, (forall a, In a m -> interpolated l a = true) ->
      filter (fun d0 => negb (existsb (str_eqb d0) (map (fun d => if str_eqb d (lit "radius") then lit "shell" else d) (map fst l)))) m = []).
    { induction m as [|a m IH]; intros H; [reflexivity|]. cbn [filter]. rewrite interpolated_done, (H a) by now left. cbn.
      apply IH. intros b Hb. apply H. now right. }
    now apply G.
Qed.
(** Radial interpolation is asked for under any one of the names of the
    radius. *)
Theorem radius_any d k v : In k (find (lit "radius")) -> NoDup (find (lit "radius")) ->
  value_for d k = Ok (Some v) -> nonzero v = true ->
  (forall j, In j (find (lit "radius")) -> j <> k -> value_for d j = Ok None) ->
  result_for d (@radius_interpolants IX SC nonzero (find (lit "radius")) []) = Ok [(lit "radius", inr v)].
Proof.
  intros Hk N Hv Hz Ho. revert Hk N Ho. generalize (find (lit "radius")) as ks.
  assert (G : forall ks found, ~ In k ks -> (forall j, In j ks -> j <> k -> value_for d j = Ok None) ->
            result_for d (@radius_interpolants IX SC nonzero ks found) = Ok found).
  { induction ks as [|j ks IH]; intros found Nk Ho; [reflexivity|]. cbn [radius_interpolants ObservingSpec.result_for].
    rewrite (Ho j); [|now left|intros ->; apply Nk; now left]. cbn [bind]. apply IH; [intros H; apply Nk; now right|].
    intros i Hi. apply Ho. now right. }
  induction ks as [|j ks IH]; [intros []|]. intros Hk N Ho. inversion N as [|? ? N1 N2]; subst.
  cbn [radius_interpolants ObservingSpec.result_for]. destruct Hk as [->|Hk].
  - rewrite Hv. cbn [bind]. rewrite Hz. apply G; [exact N1|]. intros i Hi. apply Ho. now right.
  - rewrite (Ho j); [|now left|intros ->; contradiction]. cbn [bind]. apply IH; auto. intros i Hi. apply Ho. now right.
Qed.
End Programs.

(** Calls of [constrain] with constraints that give the same answers for the
    names that matter. *)
Lemma d_get_snoc {V} (l : list (str * V)) k v j :
  d_get str_eqb (l ++ [(k, v)]) j = match d_get str_eqb l j with Some x => Some x | None => if str_eqb j k then Some v else None end.
Proof. induction l as [|[a x] l IH]; cbn; [reflexivity|]. destruct (str_eqb j a); [reflexivity|exact IH]. Qed.
Lemma run_same {V IX SC A B} defaults find names in_axes axis_all axis_at as_index constants scalar
  (h : list (command V IX SC A)) new new' (p : program IX SC B) :
  (forall d e, d = effective defaults [(new, false)] -> e = effective defaults [(new', false)] ->
     result_for in_axes axis_all axis_at as_index constants scalar d p =
     result_for in_axes axis_all axis_at as_index constants scalar e p) ->
  let after := after defaults find names in_axes axis_all axis_at as_index constants scalar h in
  fst (run_program defaults in_axes axis_all axis_at as_index constants scalar p (constrain after new false)) =
  fst (run_program defaults in_axes axis_all axis_at as_index constants scalar p (constrain after new' false)).
Proof.
  intros H after.
  pose proof (run_history (A := A) defaults find names in_axes axis_all axis_at as_index constants scalar [Constrain new false] p) as H1.
  pose proof (run_history (A := A) defaults find names in_axes axis_all axis_at as_index constants scalar [Constrain new' false] p) as H2.
  unfold after. rewrite !(run_forgets defaults find names in_axes axis_all axis_at as_index constants scalar h).
  etransitivity; [exact H1|]. etransitivity; [|symmetry; exact H2]. now apply H.
Qed.
