(** Lemmas about metadata. *)

From Coq Require Import String Ascii List Bool ZArith QArith Qcanon Lia Permutation.
From Verif Require Import Py PyFacts SymbolicModel IterablesModel IterablesSpec IterablesProofs AliasedModel AliasedSpec.
From Verif Require Import MetadataModel MetadataSpec.
Import ListNotations.
Open Scope list_scope.
Open Scope nat_scope.

(** * Operations *)

Lemma str_eqb_eq a b : str_eqb a b = true <-> a = b.
Proof. symmetry. apply reflect_iff, str_eqb_spec. Qed.

Section Operations.
Variable cls : Type.
Variable ceqb : cls -> cls -> bool.
Variable issub : cls -> cls -> bool.
Hypothesis Hc : decides ceqb.
Hypothesis Hr : forall c, issub c c = true.
Notation operation := (operation cls).
Notation rule := (rule cls).
Notation matches := (matches issub).

Lemma combine_all {A} (eqb : A -> A -> bool) (D : forall a b, eqb a b = true -> a = b) l : forall m,
  length l = length m -> forallb (fun p => eqb (fst p) (snd p)) (combine l m) = true -> l = m.
Proof.
  induction l as [|a l IH]; intros [|b m] L H; simpl in *; try discriminate; auto.
  apply andb_true_iff in H as [H K]. f_equal; auto.
Qed.
Lemma tyspec_eqb_eq a b : tyspec_eqb cls ceqb a b = true -> a = b.
Proof.
  destruct a as [c|l], b as [d|m]; simpl; try discriminate.
  - destruct (Hc c d); congruence.
  - intro H. apply andb_true_iff in H as [H K]. apply Nat.eqb_eq in H. f_equal.
    apply (combine_all ceqb); auto. intros x y. destruct (Hc x y); congruence.
Qed.
Lemma rule_eqb_eq r s : rule_eqb cls ceqb r s = true -> r = s.
Proof.
  intro H. unfold rule_eqb in H. apply andb_true_iff in H as [H K]. apply Nat.eqb_eq in H.
  apply (combine_all (tyspec_eqb cls ceqb)); auto. apply tyspec_eqb_eq.
Qed.

Lemma issubclass_fits c t : issubclass cls issub c t = true <-> fits issub c t.
Proof. destruct t as [d|l]; simpl; [tauto|]. apply existsb_exists. Qed.

Lemma all_sub_matches types : forall r, length r = length types ->
  all_sub cls issub types r = true <-> matches types r.
Proof.
  unfold all_sub. induction types as [|c types IH]; intros [|t r] L; simpl in *; try discriminate.
  - split; auto. intros _. constructor.
  - rewrite andb_true_iff, IH by lia. rewrite issubclass_fits. split.
    + intros [A B]. now constructor.
    + intro M. inversion M; subst. auto.
Qed.
Lemma matches_length types r : matches types r -> length types = length r.
Proof. induction 1; simpl; congruence. Qed.
Lemma matches_self types : matches types (map Ty types).
Proof. induction types as [|c types IH]; simpl; constructor; auto. simpl. apply Hr. Qed.

(** The rules after a history of calls. *)
Definition tidy (o : operation) : Prop :=
  match op_nargs _ o with
  | None => op_supported _ o = []
  | Some n => op_supported _ o <> [] /\ forall r, In r (op_supported _ o) -> length r = n
  end.

Lemma support_loop_ok : forall these o s o', tidy o -> support_loop cls o these s = (o', None) -> these <> [] ->
  tidy o' /\ op_type _ o' = op_type _ o /\ op_suppressed _ o' = op_suppressed _ o
  /\ op_supported _ o' = op_supported _ o
       ++ flat_map (both_ways s) (flat_map (fun t => match t with Tup l => [map Ty l] | Ty _ => [] end) these)
  /\ forallb (fun t => negb (is_type cls t)) these = true.
Proof.
  induction these as [|[c|this] these IH]; intros o s o' T H N; [congruence|discriminate|].
  simpl in H. destruct (Nat.eqb (length this) _) eqn:L; [|discriminate]. simpl in H. apply Nat.eqb_eq in L.
  set (o1 := mkOperation _ _ _ _ _ _) in H.
  assert (tidy o1) as T1.
  { unfold tidy in *. simpl. split.
    - destruct (op_supported cls o); discriminate.
    - intros r I. apply in_app_or in I as [I|I].
      + destruct (op_nargs cls o) as [n|]; [now apply T|]. now rewrite T in I.
      + assert (length r = length this) as E.
        { simpl in I. destruct I as [<-|I]; [now rewrite map_length|].
          destruct s; [|destruct I]. destruct I as [<-|[]]. now rewrite rev_length, map_length. }
        rewrite E. exact L. }
  destruct these as [|t these].
  - simpl in H. injection H as <-. split; auto. split; auto. split; auto. split; auto.
    simpl. unfold both_ways. now destruct s; rewrite ?app_nil_r.
  - apply IH in H as [A [B [C [D E]]]]; auto; [|discriminate].
    split; auto. split; auto. split; auto. split; [|exact E]. rewrite D. simpl op_supported.
    rewrite <- app_assoc. f_equal. cbn [flat_map]. rewrite <- app_comm_cons. unfold both_ways at 2. now destruct s.
Qed.

Lemma types_of_map types : forallb (is_type cls) types = true -> map Ty (types_of cls types) = types.
Proof.
  induction types as [|[c|l] types IH]; simpl; intro H; auto; [|discriminate]. f_equal. auto.
Qed.
Lemma documented_types types : forallb (is_type cls) types = true -> documented types = [types].
Proof. intro H. unfold documented. unfold is_type in H. now rewrite H. Qed.

Lemma support_ok o types s o' : tidy o -> support cls o types s = (o', None) ->
  tidy o' /\ op_type _ o' = op_type _ o /\ op_suppressed _ o' = op_suppressed _ o
  /\ op_supported _ o' = op_supported _ o ++ flat_map (both_ways s) (documented types).
Proof.
  intros T H. unfold support in H. destruct types as [|t types]; [discriminate|].
  destruct (forallb (is_type cls) (t :: types)) eqn:A.
  - apply support_loop_ok in H as [B [C [D [E _]]]]; auto; [|discriminate].
    rewrite documented_types by auto. split; auto. split; auto. split; auto. rewrite E. cbn [flat_map].
    rewrite app_nil_r. now rewrite types_of_map.
  - apply support_loop_ok in H as [B [C [D [E F]]]]; auto; [|discriminate].
    split; auto. split; auto. split; auto. rewrite E. unfold documented. unfold is_type in A. now rewrite A.
Qed.

Lemma history_ok : forall calls o, tidy o -> all_return cls o calls = true ->
  (forall ts s, In (Suppress ts s) calls -> forallb (is_type cls) ts = true) ->
  tidy (run_calls cls o calls) /\ op_type _ (run_calls cls o calls) = op_type _ o
  /\ op_suppressed _ (run_calls cls o calls) = op_suppressed _ o ++ suppressed_by calls
  /\ op_supported _ (run_calls cls o calls) = op_supported _ o ++ supported_by calls.
Proof.
  induction calls as [|c calls IH]; intros o T R U.
  - simpl. rewrite !app_nil_r. auto.
  - simpl in R. destruct c as [ts s|ts s]; simpl in R.
    + destruct (IH (suppress cls o ts s)) as [A [B [C D]]]; auto.
      { intros ts' s' I. apply (U ts' s'). now right. }
      simpl. split; auto. split; [exact B|]. split; [|exact D]. rewrite C. unfold suppress at 1. cbn [op_suppressed].
      rewrite <- app_assoc. f_equal. cbn [suppressed_by flat_map].
      rewrite documented_types by (apply (U ts s); now left). cbn [flat_map]. rewrite app_nil_r.
      unfold both_ways. now destruct s.
    + destruct (support cls o ts s) as [o' e] eqn:S. cbn [fst snd] in R. destruct e; [discriminate|].
      destruct (support_ok o ts s o' T S) as [A [B [C D]]].
      destruct (IH o') as [A' [B' [C' D']]]; auto.
      { intros ts' s' I. apply (U ts' s'). now right. }
      simpl. rewrite S. cbn [fst]. split; auto. split; [congruence|]. split; [congruence|].
      rewrite D', D, <- app_assoc. reflexivity.
Qed.

Lemma supports_spec owner params calls types :
  all_return cls (new_operation cls owner params) calls = true ->
  (forall ts s, In (Suppress ts s) calls -> forallb (is_type cls) ts = true) ->
  (forall r, In r (suppressed_by calls) -> length r = length types) ->
  (forall r, In r (supported_by calls) -> r <> []) ->
  supports cls ceqb issub (run_calls cls (new_operation cls owner params) calls) types = true
  <-> (forall r, In r (supported_by calls) -> length r = length types)
      /\ (forall r, In r (suppressed_by calls) -> ~ matches types r)
      /\ ((exists r, In r (supported_by calls) /\ matches types r) \/ In owner types).
Proof.
  intros R U L N. destruct (history_ok calls (new_operation cls owner params)) as [T [O [S P]]]; auto.
  { reflexivity. }
  simpl in O, S, P. unfold supports. rewrite S, P, O. clear S P O.
  set (o := run_calls cls (new_operation cls owner params) calls) in *. unfold tidy in T.
  assert (op_supported cls o = supported_by calls) as P.
  { destruct (history_ok calls (new_operation cls owner params)) as [_ [_ [_ P]]]; auto. reflexivity. }
  rewrite P in T.
  assert (existsb (rule_eqb cls ceqb (map Ty types)) (suppressed_by calls) = true ->
          exists r, In r (suppressed_by calls) /\ matches types r) as X1.
  { intro X. apply existsb_exists in X as [r [I E]]. apply rule_eqb_eq in E. subst r. exists (map Ty types).
    split; auto. apply matches_self. }
  assert (existsb (all_sub cls issub types) (suppressed_by calls) = true <->
          exists r, In r (suppressed_by calls) /\ matches types r) as X2.
  { rewrite existsb_exists. split; intros [r [I E]]; exists r; split; auto; apply (all_sub_matches types r); auto. }
  destruct (match op_nargs cls o with
            | Some n => negb (Nat.eqb n 0) && negb (Nat.eqb (length types) n)
            | None => false end) eqn:A.
  { split; [discriminate|]. intros [B _]. exfalso. destruct (op_nargs cls o) as [n|]; [|discriminate].
    apply andb_true_iff in A as [_ A]. apply negb_true_iff, Nat.eqb_neq in A. destruct T as [T1 T2].
    destruct (supported_by calls) as [|r rs] eqn:E; [now apply T1|].
    apply A. rewrite <- (B r (or_introl eq_refl)). apply T2. now left. }
  assert (forall r, In r (supported_by calls) -> length r = length types) as B.
  { intros r I. destruct (op_nargs cls o) as [n|].
    - destruct T as [T1 T2]. apply andb_false_iff in A as [A|A].
      + apply negb_false_iff, Nat.eqb_eq in A. apply N in I as I'. apply T2 in I. destruct r; [congruence|]. simpl in I. lia.
      + apply negb_false_iff, Nat.eqb_eq in A. apply T2 in I. lia.
    - rewrite T in I. destruct I. }
  assert (existsb (rule_eqb cls ceqb (map Ty types)) (supported_by calls) = true ->
          exists r, In r (supported_by calls) /\ matches types r) as Y1.
  { intro X. apply existsb_exists in X as [r [I E]]. apply rule_eqb_eq in E. subst r. exists (map Ty types).
    split; auto. apply matches_self. }
  assert (existsb (all_sub cls issub types) (supported_by calls) = true <->
          exists r, In r (supported_by calls) /\ matches types r) as Y2.
  { rewrite existsb_exists. split; intros [r [I E]]; exists r; split; auto; apply (all_sub_matches types r); auto. }
  destruct (existsb (rule_eqb cls ceqb (map Ty types)) (suppressed_by calls)) eqn:E1.
  { split; [discriminate|]. intros [_ [C _]]. destruct (X1 eq_refl) as [r [I M]]. destruct (C r I M). }
  destruct (existsb (all_sub cls issub types) (suppressed_by calls)) eqn:E2.
  { split; [discriminate|]. intros [_ [C _]]. apply proj1 in X2. destruct (X2 eq_refl) as [r [I M]]. destruct (C r I M). }
  assert (forall r, In r (suppressed_by calls) -> ~ matches types r) as C.
  { intros r I M. apply proj2 in X2. assert (false = true) by (apply X2; eauto). discriminate. }
  destruct (existsb (rule_eqb cls ceqb (map Ty types)) (supported_by calls)) eqn:E3.
  { split; auto. }
  destruct (existsb (all_sub cls issub types) (supported_by calls)) eqn:E4.
  { split; auto. intros _. split; auto. split; auto. left. now apply Y2. }
  rewrite existsb_exists. split.
  - intros [c [I E]]. split; auto. split; auto. right. destruct (Hc owner c); congruence.
  - intros [_ [_ [M|I]]].
    + apply Y2 in M. discriminate.
    + exists owner. split; auto. now destruct (Hc owner owner).
Qed.
End Operations.

(** * Operands *)

Section Consistent.
Variable V : Type.
Variable veq : V -> V -> bool.
Hypothesis Hv : decides veq.

Lemma consistent_spec name args : consistent V veq name args = true <->
  forall a b x y, In a args -> In b args -> a name = Some x -> b name = Some y -> x = y.
Proof.
  unfold consistent. set (values := flat_map (fun a : str -> option V => match a name with Some v => [v] | None => [] end) args).
  assert (forall v, In v values <-> exists a, In a args /\ a name = Some v) as W.
  { intro v. unfold values. rewrite in_flat_map. split.
    - intros [a [I J]]. exists a. destruct (a name); [|destruct J]. destruct J as [->|[]]. auto.
    - intros [a [I E]]. exists a. split; auto. rewrite E. now left. }
  destruct values as [|v0 vs] eqn:E.
  - split; [|reflexivity]. intros _ a b x y A _ X _. exfalso. assert (In x []) as I by (apply W; eauto). exact I.
  - rewrite forallb_forall. split.
    + intros H a b x y A B X Y. assert (In x (v0 :: vs)) as I by (apply W; eauto).
      assert (In y (v0 :: vs)) as J by (apply W; eauto). apply H in I, J.
      destruct (Hv x v0), (Hv y v0); congruence.
    + intros H x I. apply W in I as [a [A X]]. assert (In v0 (v0 :: vs)) as J by now left.
      apply W in J as [b [B Y]]. rewrite (H a b x v0 A B X Y). now destruct (Hv v0 v0).
Qed.

Lemma check_spec params args : check V veq params args = Ok tt <->
  forall p, In p params -> forall a b x y, In a args -> In b args -> a p = Some x -> b p = Some y -> x = y.
Proof.
  induction params as [|p params IH]; simpl.
  - split; auto. intros _ q [].
  - destruct (consistent V veq p args) eqn:C.
    + rewrite IH. rewrite consistent_spec in C. split.
      * intros H q [<-|I]; [exact C|now apply H].
      * intros H q I. apply H. now right.
    + split; [discriminate|]. intro H. assert (consistent V veq p args = true) by (apply consistent_spec, H; now left). congruence.
Qed.
Lemma check_error params args : check V veq params args <> Ok tt -> check V veq params args = Err ValueError.
Proof.
  induction params as [|p params IH]; simpl; [congruence|]. destruct (consistent V veq p args); auto.
Qed.

Lemma agree_none name (args : list (operand_ V)) :
  length args <> 1 -> (forall a, In a args -> a name = None) -> agree V veq [name] false args = Err IndexError.
Proof.
  intros L H. unfold agree. apply Nat.eqb_neq in L. rewrite L. cbn [agree_loop].
  replace (filter (has_all V [name]) args) with (@nil (operand_ V)); [reflexivity|].
  induction args as [|a args IH]; auto. simpl. rewrite (H a) by now left. simpl.
  clear IH L. induction args as [|b args IH]; auto. simpl. rewrite (H b) by (right; now left). simpl. apply IH.
  intros c [<-|I]; apply H; [now left|right; now right].
Qed.

Lemma agree_one name (args : list (operand_ V)) : (exists a x, In a args /\ a name = Some x) ->
  exists r, agree V veq [name] false args = Ok r /\
  (r = true <-> forall a b x y, In a args -> In b args -> a name = Some x -> b name = Some y -> x = y).
Proof.
  intros [a0 [x0 [I0 E0]]]. unfold agree. destruct (Nat.eqb_spec (length args) 1) as [L|L].
  - exists true. split; auto. split; auto. intros _ a b x y A B X Y.
    destruct args as [|c [|d args]]; try discriminate. destruct A as [<-|[]], B as [<-|[]]. congruence.
  - assert (exists vs, getall_strict V name (filter (has_all V [name]) args) = Ok vs
      /\ forall v, In v vs <-> exists a, In a args /\ a name = Some v) as [vs [G W]].
    { clear. induction args as [|a args [vs [G W]]].
      - exists []. split; auto. intro v. split; [intros []|intros [a [[] _]]].
      - simpl. destruct (a name) as [x|] eqn:X; simpl.
        + unfold getall_strict in *. cbn [mapM bind]. rewrite X. cbn [bind]. rewrite G. cbn [bind]. exists (x :: vs). split; auto. intro v. split.
          * intros [<-|I]; [exists a; auto|]. apply W in I as [b [I E]]. exists b. auto.
          * intros [b [[<-|I] E]]; [left; congruence|]. right. apply W. eauto.
        + exists vs. split; [exact G|]. intro v. rewrite W. split; intros [b [I E]]; exists b; split; auto.
          destruct I as [<-|I]; auto. congruence. }
    cbn [agree_loop]. rewrite G. cbn [bind]. destruct vs as [|v0 vs].
    { assert (In x0 []) by (apply W; eauto). contradiction. }
    unfold head_equal. cbn [bind].
    exists (forallb (fun v => veq v v0) (v0 :: vs)). split; [destruct (forallb _ _); reflexivity|].
    rewrite forallb_forall. split.
    + intros H a b x y A B X Y. assert (In x (v0 :: vs)) as I by (apply W; eauto).
      assert (In y (v0 :: vs)) as J by (apply W; eauto). apply H in I, J.
      destruct (Hv x v0), (Hv y v0); congruence.
    + intros H x I. apply W in I as [a [A X]]. assert (In v0 (v0 :: vs)) as J by now left.
      apply W in J as [b [B Y]]. rewrite (H a b x v0 A B X Y). now destruct (Hv v0 v0).
Qed.

(** Several names. *)
Lemma getall_all name (l : list (operand_ V)) : (forall a, In a l -> a name <> None) ->
  exists vs, getall_strict V name l = Ok vs /\ map Some vs = map (fun a => a name) l.
Proof.
  unfold getall_strict. induction l as [|a l IH]; intro H.
  - exists []. auto.
  - cbn [mapM]. destruct (a name) as [v|] eqn:E; [|exfalso; apply (H a); [now left|exact E]].
    destruct IH as (vs & E' & M); [intros b I; apply H; now right|]. cbn [bind]. rewrite E'. cbn [bind map]. exists (v :: vs). cbn [map]. now rewrite E, M.
Qed.
Lemma loop_all names (l : list (operand_ V)) : l <> [] -> (forall n a, In n names -> In a l -> a n <> None) ->
  exists r, agree_loop V veq (fun n => getall_strict V n l) names = Ok r /\
  (r = true <-> forall n a b, In n names -> In a l -> In b l -> a n = b n).
Proof.
  intros N. induction names as [|n names IH]; intro H.
  - exists true. split; [reflexivity|]. split; [intros _ ? ? ? []|reflexivity].
  - cbn [agree_loop]. destruct (getall_all n l) as (vs & -> & M); [intros a I; apply H; [now left|exact I]|]. cbn [bind].
    destruct vs as [|v0 vs]; [destruct l; [congruence|discriminate]|]. cbn [head_equal bind].
    assert (forall o, In o (map Some (v0 :: vs)) <-> exists a, In a l /\ a n = o) as W.
    { intro o. rewrite M, in_map_iff. split; intros (a & X & Y); exists a; auto. }
    assert (forallb (fun v => veq v v0) (v0 :: vs) = true <-> forall a b, In a l -> In b l -> a n = b n) as B.
    { rewrite forallb_forall. split.
      - intros E a b A A'.
        assert (forall c, In c l -> c n = Some v0) as K.
        { intros c I. assert (In (c n) (map Some (v0 :: vs))) as J by (apply W; eauto). apply in_map_iff in J as (v & Ev & J).
          apply E in J. destruct (Hv v v0); congruence. }
        now rewrite (K a A), (K b A').
      - intros E v I. assert (In (Some v) (map Some (v0 :: vs))) as J by now apply in_map. apply W in J as (a & A & Ea).
        assert (In (Some v0) (map Some (v0 :: vs))) as J0 by now left. apply W in J0 as (b & A' & Eb).
        specialize (E a b A A'). destruct (Hv v v0); congruence. }
    destruct (forallb _ _).
    + destruct IH as (r & Er & R); [intros; apply H; auto; now right|]. exists r. split; [exact Er|]. rewrite R. split.
      * intros K m a b [<-|I] A A'; [now apply B|now apply K].
      * intros K m a b I. apply K. now right.
    + exists false. split; [reflexivity|]. split; [discriminate|]. intro K. apply B. intros a b. apply K. now left.
Qed.
Lemma single_all names (l : list (operand_ V)) : length l = 1 -> forall n a b, In n names -> In a l -> In b l -> a n = b n.
Proof. destruct l as [|c [|d l]]; try discriminate. intros _ n a b _ [<-|[]] [<-|[]]. reflexivity. Qed.
Lemma has_all_iff names a : has_all V names a = true <-> forall n, In n names -> a n <> None.
Proof.
  unfold has_all. rewrite forallb_forall. split; intros H n I; specialize (H n I); destruct (a n); congruence.
Qed.
Lemma agree_many names (args : list (operand_ V)) : (exists a, In a args /\ forall n, In n names -> a n <> None) ->
  exists r, agree V veq names false args = Ok r /\
  (r = true <-> forall a b, In a args -> In b args -> (forall n, In n names -> a n <> None) -> (forall n, In n names -> b n <> None) ->
     forall n, In n names -> a n = b n).
Proof.
  intros (a0 & I0 & A0). unfold agree. destruct (Nat.eqb_spec (length args) 1) as [L|L].
  - exists true. split; [reflexivity|]. split; [|reflexivity]. intros _ a b A B _ _ n I. now apply (single_all names args L).
  - destruct (loop_all names (filter (has_all V names) args)) as (r & -> & R).
    + intro E. assert (In a0 []) as X by (rewrite <- E; apply filter_In; split; [exact I0|now apply has_all_iff]). destruct X.
    + intros n a I J. apply filter_In in J as [_ J]. now apply (proj1 (has_all_iff names a) J).
    + exists r. split; [reflexivity|]. rewrite R. split.
      * intros K a b A B HA HB n I. apply K; auto; apply filter_In; split; auto; now apply has_all_iff.
      * intros K n a b I A B. apply filter_In in A as [A HA], B as [B HB]. rewrite has_all_iff in HA, HB. now apply K.
Qed.
Lemma agree_strict names (args : list (operand_ V)) : args <> [] -> (forall n a, In n names -> In a args -> a n <> None) ->
  exists r, agree V veq names true args = Ok r /\ (r = true <-> forall n a b, In n names -> In a args -> In b args -> a n = b n).
Proof.
  intros N H. unfold agree. destruct (Nat.eqb_spec (length args) 1) as [L|L].
  - exists true. split; [reflexivity|]. split; [|reflexivity]. intros _. now apply single_all.
  - now apply loop_all.
Qed.
Lemma agree_strict_error name (args : list (operand_ V)) a : length args <> 1 -> In a args -> a name = None ->
  agree V veq [name] true args = Err AttributeError.
Proof.
  intros L I E. unfold agree. apply Nat.eqb_neq in L as ->. cbn [agree_loop].
  assert (getall_strict V name args = Err AttributeError) as ->; [|reflexivity].
  unfold getall_strict. induction args as [|b args IH]; [destruct I|]. cbn [mapM]. destruct I as [->|I].
  - now rewrite E.
  - destruct (b name); [|reflexivity]. cbn [bind]. now rewrite IH.
Qed.
End Consistent.

Lemma operands_perm {A} (eqb : A -> A -> bool) (l m : list A) : decides eqb ->
  NoDup l -> NoDup m -> operands_eq eqb l m = true <-> Permutation l m.
Proof.
  intros D L M. unfold operands_eq. rewrite andb_true_iff, Nat.eqb_eq, forallb_forall. split.
  - intros [E H]. apply NoDup_Permutation_bis; auto; [lia|]. intros x I. apply H, existsb_exists in I as [y [J K]].
    destruct (D x y); congruence.
  - intro P. split; [now apply Permutation_length|]. intros x I. apply existsb_exists. exists x.
    split; [now apply (Permutation_in x P)|]. now destruct (D x x).
Qed.

(** * Names *)

Section Names.
Variable mkset : list str -> list str.
Variable fixed : str -> str.
Hypothesis Hm : set_order mkset.

Lemma name_of_In l s : In s (name_of mkset l) <-> In s l.
Proof. apply Hm. Qed.

Lemma gin_In a g : gin a g = true <-> In a g.
Proof.
  unfold gin. rewrite existsb_exists. split.
  - intros [x [I E]]. apply str_eqb_eq in E. now subst.
  - intro I. exists a. split; auto. apply str_eqb_refl.
Qed.
Lemma geq_names a b : NoDup a -> NoDup b -> geq a b = true <-> same_names a b.
Proof.
  intros Na Nb. unfold geq. rewrite andb_true_iff, Nat.eqb_eq, forallb_forall. split.
  - intros [L H] s. split.
    + intro I. apply gin_In. auto.
    + intro I. assert (incl a b) as J by (intros x X; apply gin_In; auto).
      apply (NoDup_length_incl Na) in J; [|lia]. auto.
  - intro S. split.
    + apply Nat.le_antisymm; apply NoDup_incl_length; auto; intros x X; now apply S.
    + intros x X. apply gin_In. now apply S.
Qed.

(** Two different names, neither of them empty. *)
Lemma op_names symbol reverse strict a b : NoDup a -> NoDup b ->
  name_truth a = true -> name_truth b = true -> ~ same_names a b ->
  exists l, name_op mkset fixed symbol reverse strict a (OName b) = Ok l /\ spelled symbol a b l.
Proof.
  intros Na Nb Ta Tb N. unfold name_op. simpl. rewrite Ta, Tb. simpl.
  assert (geq a b = false) as G.
  { destruct (geq a b) eqn:G; auto. apply geq_names in G; auto. contradiction. }
  rewrite G, !andb_false_r. exists (compute mkset fixed symbol reverse a (OName b)). split; auto.
  intro s. unfold compute. rewrite name_of_In, in_flat_map. split.
  - intros [x [I J]]. apply in_map_iff in J as [y [<- J]]. eauto.
  - intros [x [y [I [J ->]]]]. exists x. split; auto. apply in_map_iff. eauto.
Qed.

Lemma op_number symbol reverse a v f : NoDup a -> name_truth a = true -> v <> 0%Qc -> (v = 1%Qc -> f = true) ->
  exists l, name_op mkset fixed symbol reverse false a (ONumber v f) = Ok l
            /\ if reverse then spelled symbol [dec_of_Qc v] a l else spelled symbol a [dec_of_Qc v] l.
Proof.
  intros Na Ta V F. unfold name_op. simpl. rewrite Ta. rewrite (Qc_eqb_neq v 0) by auto. simpl.
  replace (Qc_eqb v 1 && negb f) with false.
  2:{ destruct (Qc_eqb_spec v 1) as [E|E]; auto. rewrite (F E). reflexivity. }
  eexists. split; [reflexivity|]. unfold compute.
  destruct reverse; intro s; rewrite name_of_In, in_map_iff; split.
  - intros [x [<- I]]. exists (dec_of_Qc v), x. simpl. auto.
  - intros [x [y [[<-|[]] [J ->]]]]. eauto.
  - intros [x [<- I]]. exists x, (dec_of_Qc v). simpl. auto.
  - intros [x [y [J [[<-|[]] ->]]]]. eauto.
Qed.

Lemma op_text symbol reverse a t : NoDup a -> name_truth a = true -> t <> [] -> t <> lit "1" -> ~ same_names a [t] ->
  exists l, name_op mkset fixed symbol reverse false a (OText t) = Ok l
            /\ if reverse then spelled symbol [fixed t] a l else spelled symbol a [fixed t] l.
Proof.
  intros Na Ta V F S. unfold name_op. simpl. rewrite Ta.
  destruct (str_eqb_spec t []); [contradiction|]. simpl.
  destruct (geq a (mkset [t])) eqn:G.
  { apply geq_names in G; auto; [|apply Hm]. destruct S. intro s. rewrite (G s). apply Hm. }
  rewrite (str_eqb_neq t ["1"%char]) by exact F.
  eexists. split; [reflexivity|]. unfold compute.
  destruct reverse; intro s; rewrite name_of_In, in_map_iff; split.
  - intros [x [<- I]]. exists (fixed t), x. simpl. auto.
  - intros [x [y [[<-|[]] [J ->]]]]. eauto.
  - intros [x [<- I]]. exists x, (fixed t). simpl. auto.
  - intros [x [y [J [[<-|[]] ->]]]]. eauto.
Qed.

(** Equal names: sums and differences keep the name, other operations pair
    each member with itself. *)
Lemma op_same symbol reverse strict a b : NoDup a -> NoDup b -> name_truth a = true -> name_truth b = true -> same_names a b ->
  exists l, name_op mkset fixed symbol reverse strict a (OName b) = Ok l
  /\ if strict then l = a else forall s, In s l <-> exists x, In x a /\ s = x ++ symbol ++ x.
Proof.
  intros Na Nb Ta Tb S. unfold name_op. simpl. rewrite Ta, Tb. simpl.
  assert (geq a b = true) as G by (apply geq_names; auto). rewrite G. destruct strict; simpl.
  - eauto.
  - eexists. split; [reflexivity|]. intro s. rewrite name_of_In, in_map_iff. split; intros [x [A B]]; exists x; auto.
Qed.

Lemma op_strict symbol reverse a o : name_truth a = true -> truth o = true -> (forall l, o <> OName l) ->
  name_op mkset fixed symbol reverse true a o = Err TypeError.
Proof. intros Ta To N. unfold name_op. rewrite Ta, To. cbn [negb orb]. destruct o; try reflexivity. now contradiction (N l). Qed.

Lemma name_one a : name_truth a = true ->
  name_rtruediv mkset fixed a (ONumber 1 false) = Ok (name_of mkset a)
  /\ name_truediv mkset fixed a (ONumber 1 false) = Ok (name_of mkset a).
Proof. intro T. unfold name_rtruediv, name_truediv, name_op. rewrite T. split; reflexivity. Qed.

Lemma single_truth (l : list str) (s : str) : s <> [] -> (forall x, In x l <-> x = s) -> NoDup l -> l = [s].
Proof.
  intros N H D. destruct l as [|x l]; [destruct (proj2 (H s) eq_refl)|].
  assert (x = s) as -> by (apply H; now left). destruct l as [|y l]; auto.
  assert (y = s) as -> by (apply H; right; now left). inversion D as [|? ? X Y]; subst. destruct X. now left.
Qed.
Lemma set_single (s : str) : s <> [] -> mkset [s] = [s].
Proof.
  intro N. apply single_truth; auto; [|apply Hm]. intro x.
  split; [intro I; apply Hm in I as [<-|[]]; auto|intros ->; apply Hm; now left].
Qed.
Lemma name_parentheses : (forall s, fixed s = s) ->
  exists ab bc r r', name_add mkset fixed [lit "a"] (OName [lit "b"]) = Ok ab
    /\ name_mul mkset fixed ab (OName [lit "c"]) = Ok r
    /\ name_mul mkset fixed [lit "b"] (OName [lit "c"]) = Ok bc
    /\ name_add mkset fixed [lit "a"] (OName bc) = Ok r'
    /\ same_names r r'.
Proof.
  intros _. exists [lit "a + b"], [lit "b * c"], [lit "a + b * c"], [lit "a + b * c"].
  split; [|split; [|split; [|split]]].
  - change (Ok (mkset [lit "a + b"]) = Ok [lit "a + b"]). f_equal. now apply set_single.
  - change (Ok (mkset [lit "a + b * c"]) = Ok [lit "a + b * c"]). f_equal. now apply set_single.
  - change (Ok (mkset [lit "b * c"]) = Ok [lit "b * c"]). f_equal. now apply set_single.
  - change (Ok (mkset [lit "a + b * c"]) = Ok [lit "a + b * c"]). f_equal. now apply set_single.
  - intro s. tauto.
Qed.
End Names.

Lemma app_cut : forall (x y x' y' : str), x ++ y = x' ++ y' -> length x <= length x' -> exists z, x' = x ++ z /\ y = z ++ y'.
Proof.
  induction x as [|c x IH]; intros y x' y' H L; simpl in *; [exists x'; auto|].
  destruct x' as [|c' x']; simpl in *; [lia|]. injection H as -> H. destruct (IH y x' y' H) as [z [-> ->]]; [lia|].
  exists z. auto.
Qed.
Lemma spelled_half (op : str) x y x' y' : op <> [] -> ~ infix op (x' ++ removelast op) ->
  x ++ op ++ y = x' ++ op ++ y' -> length x <= length x' -> x = x' /\ y = y'.
Proof.
  intros N I E L. destruct (app_cut _ _ _ _ E L) as [z [-> H]].
  destruct z as [|c z].
  - rewrite app_nil_r. split; auto. simpl in H. now apply app_inv_head in H.
  - exfalso. apply I. rewrite (app_removelast_last c N) in H at 2.
    assert (length op <= length ((c :: z) ++ removelast op)) as K.
    { apply (f_equal (@length _)) in H. rewrite (app_removelast_last c N) at 1. rewrite !app_length. simpl. lia. }
    rewrite <- app_assoc, app_assoc in H. apply app_cut in H as [w [H _]]; auto.
    exists x, w. rewrite <- app_assoc. f_equal. exact H.
Qed.
Lemma spelled_injective (op : str) x y x' y' : op <> [] ->
  ~ infix op (x ++ removelast op) -> ~ infix op (x' ++ removelast op) ->
  x ++ op ++ y = x' ++ op ++ y' -> x = x' /\ y = y'.
Proof.
  intros N I I' E. destruct (Nat.le_ge_cases (length x) (length x')) as [L|L].
  - now apply (spelled_half op).
  - symmetry in E. destruct (spelled_half op x' y' x y N I E L). auto.
Qed.

(** * Dimensions *)

Lemma str_decides : decides str_eqb.
Proof. exact str_eqb_spec. Qed.
Lemma str_equivalence : equivalence str_eqb.
Proof. apply decides_equiv. exact str_decides. Qed.

Notation uniq := (unique str_eqb).
Definition isin (x : str) (l : list str) : bool := if in_dec str_eq_dec x l then true else false.
Lemma isin_existsb x l : existsb (str_eqb x) l = isin x l.
Proof.
  unfold isin. destruct (in_dec str_eq_dec x l) as [I|I].
  - apply existsb_exists. exists x. split; auto. apply str_eqb_refl.
  - destruct (existsb _ l) eqn:E; auto. apply existsb_exists in E as [y [J E]]. apply str_eqb_eq in E. subst. contradiction.
Qed.
Lemma uniq_snoc l x : uniq (l ++ [x]) = if isin x l then uniq l else uniq l ++ [x].
Proof. rewrite (unique_snoc str_eqb str_equivalence). now rewrite isin_existsb. Qed.
Lemma isin_In x l : isin x l = true <-> In x l.
Proof. unfold isin. destruct (in_dec str_eq_dec x l); split; auto; discriminate. Qed.
Lemma isin_ext x l m : (In x l <-> In x m) -> isin x l = isin x m.
Proof. intro H. apply eq_true_iff_eq. now rewrite !isin_In. Qed.

Lemma uniq_app a b : uniq (a ++ b) = uniq a ++ filter (fun x => negb (isin x a)) (uniq b).
Proof.
  induction b as [|x b IH] using rev_ind.
  - simpl. now rewrite !app_nil_r.
  - rewrite app_assoc, !uniq_snoc, IH. destruct (isin x b) eqn:B.
    + replace (isin x (a ++ b)) with true; auto. symmetry. apply isin_In, in_or_app. right. now apply isin_In.
    + rewrite filter_app. simpl. destruct (isin x a) eqn:A.
      * replace (isin x (a ++ b)) with true by (symmetry; apply isin_In, in_or_app; left; now apply isin_In).
        simpl. now rewrite app_nil_r.
      * replace (isin x (a ++ b)) with false; [now rewrite <- app_assoc|]. symmetry. apply not_true_iff_false. intro C.
        apply isin_In, in_app_or in C as [C|C]; apply isin_In in C; congruence.
Qed.
Lemma uniq_uniq_app a b : uniq (uniq a ++ b) = uniq (a ++ b).
Proof.
  rewrite !uniq_app, unique_idem by exact str_equivalence. f_equal. apply filter_ext. intro x. f_equal.
  apply isin_ext. apply unique_In. exact str_decides.
Qed.
Lemma uniq_app_uniq a b : uniq (a ++ uniq b) = uniq (a ++ b).
Proof. rewrite !uniq_app. now rewrite unique_idem by exact str_equivalence. Qed.
Lemma uniq_NoDup l : NoDup l -> uniq l = l.
Proof.
  induction l as [|x l IH] using rev_ind; intro N; auto. rewrite uniq_snoc. apply NoDup_remove in N as [N I].
  rewrite app_nil_r in N, I. rewrite IH by auto. destruct (isin x l) eqn:E; auto. apply isin_In in E. contradiction.
Qed.

Lemma merge_two a b : merge a [Some b] = uniq (a ++ b).
Proof. unfold merge. simpl. now rewrite app_nil_r. Qed.
Lemma merge_ordered a b : NoDup a -> NoDup b -> followed_by_new a b (merge a [Some b]).
Proof.
  intros A B. unfold followed_by_new. rewrite merge_two, uniq_app, !uniq_NoDup; auto.
Qed.
Lemma merge_NoDup a os : NoDup (merge a os).
Proof. apply unique_NoDup. exact str_decides. Qed.
Lemma merge_assoc a b c : merge (merge a [Some b]) [Some c] = merge a [Some (merge b [Some c])].
Proof. now rewrite !merge_two, uniq_uniq_app, uniq_app_uniq, app_assoc. Qed.
Lemma merge_many a os b : merge (merge a os) [b] = merge a (os ++ [b]).
Proof.
  unfold merge. simpl. rewrite app_nil_r, uniq_uniq_app, map_app, concat_app. simpl. now rewrite app_nil_r, app_assoc.
Qed.
Lemma merge_idem a : NoDup a -> merge a [Some a] = a.
Proof.
  intro N. rewrite merge_two, uniq_app, uniq_NoDup by auto.
  assert (filter (fun x => negb (isin x a)) a = []) as ->; [|apply app_nil_r].
  assert (forall l, incl l a -> filter (fun x => negb (isin x a)) l = []) as H.
  { induction l as [|x l IH]; simpl; intro I; auto. replace (isin x a) with true by (symmetry; apply isin_In, I; now left).
    simpl. apply IH. intros y Y. apply I. now right. }
  apply H. intros x X. exact X.
Qed.

Lemma seq_eq_spec self other : seq_eq self other = true <-> length other = length self /\ incl other self.
Proof.
  unfold seq_eq. rewrite andb_true_iff, Nat.eqb_eq, forallb_forall. split; intros [L H]; split; auto.
  - intros x I. apply H in I. rewrite isin_existsb in I. now apply isin_In.
  - intros x I. rewrite isin_existsb. apply isin_In. auto.
Qed.
Lemma dims_eq_spec self other : dims_eq self (DDims other) = true <-> length other = length self /\ incl other self.
Proof.
  simpl. destruct (list_eq_dec str_eq_dec other self) as [->|]; simpl; [|apply seq_eq_spec].
  split; auto. intros _. split; auto. intros x X. exact X.
Qed.
Lemma dims_eq_perm self other : NoDup self -> NoDup other ->
  dims_eq self (DDims other) = true <-> Permutation self other.
Proof.
  intros A B. rewrite dims_eq_spec. split.
  - intros [L I]. symmetry. apply NoDup_Permutation_bis; auto. lia.
  - intro P. split; [symmetry; now apply Permutation_length|]. intros x X. now apply (Permutation_in x (Permutation_sym P)).
Qed.

Lemma dims_eq_sym a b : NoDup a -> NoDup b -> dims_eq a (DDims b) = dims_eq b (DDims a).
Proof.
  intros A B. apply eq_true_iff_eq. rewrite !dims_eq_perm by auto. split; apply Permutation_sym.
Qed.
Lemma dims_order a b : a <> b ->
  dims_eq [a; b] (DDims [b; a]) = true /\ dims_add [a; b] [b; a] = Some [a; b] /\ [a; b] <> [b; a].
Proof.
  intro N. assert (dims_eq [a; b] (DDims [b; a]) = true) as H.
  { apply dims_eq_spec. split; auto. intros x [<-|[<-|[]]]; simpl; auto. }
  split; auto. split; [|congruence]. unfold dims_add.
  assert (dims_eq [b; a] (DDims [a; b]) = true) as ->; [|reflexivity].
  apply dims_eq_spec. split; auto. intros x [<-|[<-|[]]]; simpl; auto.
Qed.
Lemma dims_asym a b : a <> b -> dims_eq [a; b] (DDims [a; a]) = true /\ dims_eq [a; a] (DDims [a; b]) = false.
Proof.
  intro N. split.
  - apply dims_eq_spec. split; auto. intros x [<-|[<-|[]]]; simpl; auto.
  - apply not_true_iff_false. rewrite dims_eq_spec. intros [_ H]. assert (In b [a; a]) as I by (apply H; simpl; auto).
    destruct I as [|[|[]]]; congruence.
Qed.
Lemma dims_string c d : dims_eq [[c]; [d]] (DStr [c; d]) = true.
Proof. unfold dims_eq, seq_eq. simpl. rewrite !str_eqb_refl. now rewrite orb_true_r. Qed.
Lemma dims_add_spec a b : NoDup a -> NoDup b ->
  (Permutation a b -> dims_add a b = Some a) /\ (~ Permutation a b -> dims_add a b = None).
Proof.
  intros A B. unfold dims_add. rewrite (dims_eq_sym b a) by auto. split; intro P.
  - apply dims_eq_perm in P; auto. now rewrite P.
  - destruct (dims_eq a (DDims b)) eqn:E; auto. apply dims_eq_perm in E; auto. contradiction.
Qed.
Lemma merge_members a b : NoDup (merge a [Some b]) /\ forall x, In x (merge a [Some b]) <-> In x a \/ In x b.
Proof.
  split; [apply merge_NoDup|]. intro x. rewrite merge_two, (unique_In _ _ _ str_decides). apply in_app_iff.
Qed.
Lemma merge_scalar a : NoDup a -> merge a [None] = a.
Proof. intro N. unfold merge. simpl. rewrite app_nil_r. now apply uniq_NoDup. Qed.

Lemma dims_args names : dimensions_of_args (map OStr names) = Ok names.
Proof.
  unfold dimensions_of_args.
  assert (whole_parse (unwrap (OSeq KTuple (map OStr names))) = map OStr names) as ->.
  { destruct names as [|a [|b names]]; reflexivity. }
  induction names as [|a names IH]; simpl; auto. now rewrite IH.
Qed.

(** Creating dimensions. *)
Lemma dims_wrapped k names : dimensions_of_args [OSeq k (map OStr names)] = Ok names.
Proof.
  transitivity (dimensions_of_args (map OStr names)); [|apply dims_args]. unfold dimensions_of_args. change (unwrap (OSeq KTuple [OSeq k (map OStr names)])) with (strip_seq (OSeq k (map OStr names))).
  change (unwrap (OSeq KTuple (map OStr names))) with (strip_seq (OSeq KTuple (map OStr names))).
  destruct names as [|a [|b names]]; reflexivity.
Qed.
Lemma dims_error args o : length args <> 1 -> In o args -> (forall s, o <> OStr s) -> dimensions_of_args args = Err TypeError.
Proof.
  intros L I N. unfold dimensions_of_args. change (unwrap (OSeq KTuple args)) with (strip_seq (OSeq KTuple args)).
  assert (strip_seq (OSeq KTuple args) = OSeq KTuple args) as -> by (destruct args as [|a [|b args]]; try reflexivity; now contradiction L).
  cbn [whole_parse]. clear L. induction args as [|a args IH]; [destruct I|]. cbn [mapM]. destruct a as [|t|z|k l]; try reflexivity. cbn [bind].
  destruct I as [E|I]; [now contradiction (N t)|]. now rewrite (IH I).
Qed.
