(** Proofs about conversions, quotients of units and collections of
    dimensions. *)

From Coq Require Import String Ascii List Bool ZArith QArith Qcanon Lia.
From Verif Require SymbolicExprProofs.
From Verif Require Import MeasurableModel.
From Verif Require Import Py PyFacts PyDict SymbolicModel SymbolicSpec ParametersModel ParametersSpec IterablesModel MetricTables MetricModel MetricSpec
  MetricProofs MetricTableProofs MetricProps SystemModel SystemSpec SystemProofs ConverterModel ConverterSpec.
Import ListNotations.
Open Scope list_scope.
Open Scope nat_scope.

Lemma pair_eqb_spec a b : reflect (a = b) (pair_eqb a b).
Proof.
  destruct a as [a a'], b as [b b']. unfold pair_eqb. cbn [fst snd].
  destruct (str_eqb_spec a b), (str_eqb_spec a' b'); constructor; congruence.
Qed.
Lemma nth_app_l {A} (l m : list A) i x : nth_error l i = Some x -> nth_error (l ++ m) i = Some x.
Proof. intro H. rewrite nth_error_app1; auto. apply nth_error_Some. congruence. Qed.
Lemma nth_last {A} (l : list A) x : nth_error (l ++ [x]) (length l) = Some x.
Proof. rewrite nth_error_app2, Nat.sub_diag; auto. Qed.
Lemma nth_snoc {A} (l : list A) x i y : nth_error (l ++ [x]) i = Some y -> nth_error l i = Some y \/ (i = length l /\ x = y).
Proof.
  intro H. destruct (Nat.lt_ge_cases i (length l)) as [L|L].
  - left. now rewrite nth_error_app1 in H.
  - right. rewrite nth_error_app2 in H by exact L. destruct (i - length l) as [|k] eqn:E; [|destruct k; discriminate].
    injection H as <-. split; [lia|reflexivity].
Qed.

Section Worlds.

Variable compute : str -> str -> res Qc.
Variable units_of : str -> res (str * str).
Hypothesis factors : forall u v f, compute u v = Ok f -> f <> 0%Qc.

Record sound (w : world) : Prop := {
  s_factor : forall i c, nth_error (w_objects w) i = Some c -> compute (c_from c) (c_to c) = Ok (c_factor c);
  s_listed : forall k i, d_get pair_eqb (w_conversions w) k = Some i ->
    exists f, nth_error (w_objects w) i = Some (mkConversion (fst k) (snd k) f);
  s_found : forall i c, nth_error (w_objects w) i = Some c -> d_get pair_eqb (w_conversions w) (c_from c, c_to c) = Some i;
  s_made : forall u q i, d_get pair_eqb (w_converters w) (u, q) = Some i ->
    exists subs, units_of q = Ok subs /\ nth_error (w_made w) i = Some (mkConverter (substituted subs u) q subs) }.

Record extends (w w' : world) : Prop := {
  e_objects : forall i c, nth_error (w_objects w) i = Some c -> nth_error (w_objects w') i = Some c;
  e_conversions : forall k i, d_get pair_eqb (w_conversions w) k = Some i -> d_get pair_eqb (w_conversions w') k = Some i;
  e_made : forall i v, nth_error (w_made w) i = Some v -> nth_error (w_made w') i = Some v;
  e_converters : forall k i, d_get pair_eqb (w_converters w) k = Some i -> d_get pair_eqb (w_converters w') k = Some i }.

Lemma extends_refl w : extends w w.
Proof. now constructor. Qed.
Lemma extends_trans a b c : extends a b -> extends b c -> extends a c.
Proof. intros [] []. constructor; auto. Qed.

Lemma start_sound : sound start.
Proof. constructor; cbn; intros; try discriminate; destruct i; discriminate. Qed.

Notation call := (conversion_call compute).
Notation made_by := (converter_call units_of).

Lemma call_ok w u0 u1 : sound w -> sound (snd (call w u0 u1)) /\ extends w (snd (call w u0 u1))
  /\ match compute u0 u1 with
     | Ok f => exists i, fst (call w u0 u1) = Ok i /\ nth_error (w_objects (snd (call w u0 u1))) i = Some (mkConversion u0 u1 f)
     | Err e => fst (call w u0 u1) = Err e /\ snd (call w u0 u1) = w
     end.
Proof.
  intro S. unfold conversion_call. destruct (d_get pair_eqb (w_conversions w) (u0, u1)) as [i|] eqn:E.
  - destruct (s_listed w S _ _ E) as [f O]. cbn [fst snd] in O. pose proof (s_factor w S _ _ O) as C. cbn in C.
    rewrite O. unfold truth. cbn [c_factor]. rewrite (Qc_eqb_neq _ _ (factors _ _ _ C)). cbn [negb fst snd].
    split; [exact S|]. split; [apply extends_refl|]. rewrite C. eauto.
  - destruct (compute u0 u1) as [f|e] eqn:C; cbn [fst snd].
    2:{ split; [exact S|]. split; [apply extends_refl|]. auto. }
    assert (forall k i, d_get pair_eqb (w_conversions w) k = Some i ->
              d_get pair_eqb (d_set pair_eqb (w_conversions w) (u0, u1) (length (w_objects w))) k = Some i) as X.
    { intros k i H. rewrite (d_get_set pair_eqb pair_eqb_spec). destruct (pair_eqb_spec k (u0, u1)) as [->|]; [congruence|exact H]. }
    split; [|split].
    + constructor; cbn [w_objects w_conversions w_made w_converters].
      * intros i c H. apply nth_snoc in H as [H|[-> <-]]; [now apply (s_factor w S i)|exact C].
      * intros k i H. rewrite (d_get_set pair_eqb pair_eqb_spec) in H. destruct (pair_eqb_spec k (u0, u1)) as [->|N].
        -- injection H as <-. exists f. apply nth_last.
        -- destruct (s_listed w S k i H) as [g G]. exists g. now apply nth_app_l.
      * intros i c H. apply nth_snoc in H as [H|[-> <-]].
        -- apply X. now apply (s_found w S).
        -- apply (d_get_set_same pair_eqb pair_eqb_spec).
      * apply (s_made w S).
    + constructor; cbn [w_objects w_conversions w_made w_converters]; auto. intros i c H. now apply nth_app_l.
    + exists (length (w_objects w)). split; [reflexivity|]. apply nth_last.
Qed.

Lemma made_ok w u q : sound w -> sound (snd (made_by w u q)) /\ extends w (snd (made_by w u q))
  /\ match units_of q with
     | Ok subs => exists i, fst (made_by w u q) = Ok i
         /\ nth_error (w_made (snd (made_by w u q))) i = Some (mkConverter (substituted subs u) q subs)
         /\ d_get pair_eqb (w_converters (snd (made_by w u q))) (u, q) = Some i
     | Err e => fst (made_by w u q) = Err e
     end.
Proof.
  intro S. unfold converter_call. destruct (d_get pair_eqb (w_converters w) (u, q)) as [i|] eqn:E; cbn [fst snd].
  - destruct (s_made w S _ _ _ E) as (subs & U & M). split; [exact S|]. split; [apply extends_refl|]. rewrite U. eauto.
  - destruct (units_of q) as [subs|e] eqn:U; cbn [fst snd].
    2:{ split; [exact S|]. split; [apply extends_refl|reflexivity]. }
    split; [|split].
    + constructor; cbn [w_objects w_conversions w_made w_converters]; try apply S. intros u' q' i H.
      rewrite (d_get_set pair_eqb pair_eqb_spec) in H. destruct (pair_eqb_spec (u', q') (u, q)) as [K|N].
      * injection K as -> ->. injection H as <-. exists subs. split; [exact U|]. apply nth_last.
      * destruct (s_made w S u' q' i H) as (s' & A & B). exists s'. split; [exact A|]. now apply nth_app_l.
    + constructor; cbn [w_objects w_conversions w_made w_converters]; auto.
      * intros i c H. now apply nth_app_l.
      * intros k i H. rewrite (d_get_set pair_eqb pair_eqb_spec). destruct (pair_eqb_spec k (u, q)) as [->|]; [congruence|exact H].
    + exists (length (w_made w)). split; [reflexivity|]. split; [apply nth_last|]. apply (d_get_set_same pair_eqb pair_eqb_spec).
Qed.

Lemma float_ok w u0 u1 : sound w -> sound (snd (conversion_float compute w u0 u1)) /\ extends w (snd (conversion_float compute w u0 u1))
  /\ fst (conversion_float compute w u0 u1) = compute u0 u1.
Proof.
  intro S. pose proof (call_ok w u0 u1 S) as (A & B & C). unfold conversion_float.
  destruct (call w u0 u1) as [r w'] eqn:E. cbn [fst snd] in *. destruct (compute u0 u1) as [f|e] eqn:K.
  - destruct C as (i & -> & O). cbn [fst snd]. rewrite O. unfold to_float, truth. cbn [c_factor].
    rewrite (Qc_eqb_neq _ _ (factors _ _ _ K)). auto.
  - destruct C as [-> ->]. auto.
Qed.
Lemma function_ok w strict u0 u1 : sound w -> sound (snd (conversion_function compute w strict u0 u1))
  /\ extends w (snd (conversion_function compute w strict u0 u1))
  /\ fst (conversion_function compute w strict u0 u1)
     = match compute u0 u1 with
       | Ok f => Ok (Some f)
       | Err UnitConversionError => if strict then Err UnitConversionError else Ok None
       | Err e => Err e
       end.
Proof.
  intro S. pose proof (float_ok w u0 u1 S) as (A & B & C). unfold conversion_function.
  destruct (conversion_float compute w u0 u1) as [[f|e] w']; cbn [fst snd] in *; rewrite <- C; [auto|]. now destruct e.
Qed.

Lemma to_ok w i v target : sound w -> nth_error (w_made w) i = Some v ->
  (forall u, compute u u = Ok 1%Qc) ->
  fst (converter_to compute w i target) = compute (v_unit v) (substituted (v_subs v) target).
Proof.
  intros S M I. unfold converter_to. rewrite M. destruct (str_eqb_spec (v_unit v) (substituted (v_subs v) target)) as [K|N].
  - cbn [fst]. rewrite <- K. symmetry. apply I.
  - pose proof (call_ok w (v_unit v) (substituted (v_subs v) target) S) as (_ & _ & C).
    destruct (call w (v_unit v) (substituted (v_subs v) target)) as [r w']. cbn [fst snd] in C.
    destruct (compute (v_unit v) (substituted (v_subs v) target)) as [f|e] eqn:K.
    + destruct C as (k & -> & O). rewrite O. unfold to_float, truth. cbn [c_factor fst].
      now rewrite (Qc_eqb_neq _ _ (factors _ _ _ K)).
    + destruct C as [-> ->]. reflexivity.
Qed.
Lemma to_world w i target : sound w -> sound (snd (converter_to compute w i target)) /\ extends w (snd (converter_to compute w i target)).
Proof.
  intro S. unfold converter_to. destruct (nth_error (w_made w) i) as [v|]; [|split; [exact S|apply extends_refl]].
  destruct (str_eqb (v_unit v) (substituted (v_subs v) target)); [split; [exact S|apply extends_refl]|].
  pose proof (call_ok w (v_unit v) (substituted (v_subs v) target) S) as (A & B & _).
  destruct (call w (v_unit v) (substituted (v_subs v) target)) as [[k|e] w']; auto.
Qed.

Lemma step_ok w a : sound w -> sound (step compute units_of w a) /\ extends w (step compute units_of w a).
Proof.
  intro S. destruct a as [u0 u1|i|st u0 u1|u q|name u|i t]; cbn [step].
  - destruct (call_ok w u0 u1 S) as (A & B & _). auto.
  - unfold inverse. destruct (nth_error (w_objects w) i) as [c|]; [|split; [exact S|apply extends_refl]].
    destruct (call_ok w (c_to c) (c_from c) S) as (A & B & _). auto.
  - destruct (function_ok w st u0 u1 S) as (A & B & _). auto.
  - destruct (made_ok w u q S) as (A & B & _). auto.
  - unfold quantity_convert. destruct (units_of (lower name)); [|split; [exact S|apply extends_refl]].
    destruct (made_ok w u (lower name) S) as (A & B & _). auto.
  - apply to_world. exact S.
Qed.
Lemma steps_ok l : forall w, sound w -> sound (fold_left (step compute units_of) l w) /\ extends w (fold_left (step compute units_of) l w).
Proof.
  induction l as [|a l IH]; intros w S; cbn [fold_left]; [split; [exact S|apply extends_refl]|].
  destruct (step_ok w a S) as [A B]. destruct (IH _ A) as [C D]. split; [exact C|]. now apply (extends_trans _ _ _ B).
Qed.
Lemma after_sound h : sound (after compute units_of h).
Proof. apply (steps_ok h start start_sound). Qed.
Lemma after_app h h' : after compute units_of (h ++ h') = fold_left (step compute units_of) h' (after compute units_of h).
Proof. unfold after. apply fold_left_app. Qed.

Lemma call_known w u0 u1 i f : sound w -> nth_error (w_objects w) i = Some (mkConversion u0 u1 f) -> call w u0 u1 = (Ok i, w).
Proof.
  intros S O. unfold conversion_call. pose proof (s_found w S _ _ O) as K. cbn [c_from c_to] in K. rewrite K, O.
  pose proof (s_factor w S _ _ O) as C. cbn in C. unfold truth. cbn [c_factor]. now rewrite (Qc_eqb_neq _ _ (factors _ _ _ C)).
Qed.

End Worlds.

(** ** The search *)

Lemma truthy_nonzero x f : truthy_q x = Some f -> f <> 0%Qc.
Proof.
  destruct x as [q|]; cbn; [|discriminate]. destruct (Qc_eqb_spec q 0); [discriminate|]. intro H. now injection H as <-.
Qed.
Lemma expressions_nonzero F named canonical bases qs conns nodes u v f :
  convert_expressions F named canonical bases qs conns nodes u v = Ok f -> f <> 0%Qc.
Proof.
  unfold convert_expressions.
  destruct (expression_of_str F false u) as [e0|]; cbn [bind]; [|discriminate].
  destruct (expression_of_str F false v) as [e1|]; cbn [bind]; [|discriminate].
  destruct (expr_eqb F e0 e1).
  { intro H. injection H as <-. discriminate. }
  destruct (expr_div F e0 e1) as [q|]; cbn [bind]; [|discriminate].
  destruct (resolve_terms _ _ _ _ _ _ _) as [a ch]. destruct a as [x|]; cbn [bind]; [|discriminate].
  destruct (truthy_q x) as [g|] eqn:T.
  { intro H. injection H as <-. now apply truthy_nonzero in T. }
  destruct (fst _) as [y|]; cbn [bind]; [|discriminate]. destruct (truthy_q y) as [g|] eqn:T'; [|discriminate].
  intro H. injection H as <-. now apply truthy_nonzero in T'.
Qed.
Lemma convert_nonzero F named canonical bases qs l nodes u v f :
  convert F named canonical bases qs (connect l) nodes u v = Ok f -> f <> 0%Qc.
Proof.
  unfold convert. destruct (convert_strings named (connect l) nodes (search_fuel nodes) [] u v) as [r ch] eqn:E. cbn [fst].
  destruct r as [[g|]|e]; cbn [bind]; [| |discriminate].
  - intro H. injection H as <-. now apply conv_derives in E.
  - apply expressions_nonzero.
Qed.
Lemma convert_self F named canonical bases qs conns nodes u : convert F named canonical bases qs conns nodes u u = Ok 1%Qc.
Proof.
  unfold convert, search_fuel. cbn [convert_strings]. unfold simple_conversion. now rewrite str_eqb_refl.
Qed.
Lemma m_nonzero u v f : m_convert u v = Ok f -> f <> 0%Qc.
Proof. apply convert_nonzero. Qed.

(** ** Units that can be compared *)

Lemma same_base_converts F named canonical bases qs l nodes u v m n : named u = Some m -> named v = Some n -> n_base m = n_base n ->
  n_scale m <> 0%Qc -> n_scale n <> 0%Qc ->
  exists f, convert F named canonical bases qs (connect l) nodes u v = Ok f /\ derives named (connect l) u v f.
Proof.
  intros U V B P Q. assert (exists f, simple_conversion named (connect l) u v = Ok (Some f)) as [f E].
  { unfold simple_conversion. destruct (str_eqb u v); [eauto|]. destruct (truthy_q _); [eauto|]. rewrite V, U. unfold floordiv.
    rewrite (ratio_ok m n B Q). cbn [truthy_q]. rewrite Qc_eqb_neq; [eauto|]. intro K.
    apply P. transitivity (n_scale m / n_scale n * n_scale n)%Qc; [field; exact Q|]. rewrite K. ring. }
  exists f. split.
  - unfold convert, search_fuel. cbn [convert_strings]. rewrite E. reflexivity.
  - apply (simple_derives named l u v f E).
Qed.
Lemma linked_converts F named canonical bases qs l nodes u v : enumerates (connect l) nodes -> weighted (connect l) ->
  (forall u, In u nodes -> scaled_unit named u) -> In v nodes -> connected (connect l) u v ->
  exists f, convert F named canonical bases qs (connect l) nodes u v = Ok f /\ derives named (connect l) u v f.
Proof.
  intros E W S I C. destruct (C82_linked_units_convert named l nodes u v E W S (S v I) C) as [f [H D]].
  exists f. split; [|exact D]. unfold convert. now rewrite H.
Qed.
Lemma comparable_ok u v : comparable u v -> exists f, m_convert u v = Ok f /\ derives identified the_connections u v f.
Proof.
  intros [(m & n & U & V & B & P & Q)|[I C]].
  - exact (same_base_converts F64 identified the_canonical base_quantities quantities MetricTables.declared the_nodes u v m n U V B P Q).
  - exact (linked_converts F64 identified the_canonical base_quantities quantities MetricTables.declared the_nodes u v
      the_nodes_enumerate the_weights the_nodes_scaled I C).
Qed.
Lemma comparable_size size u v : sizes identified the_connections size -> comparable u v ->
  exists f, m_convert u v = Ok f /\ size u = (f * size v)%Qc.
Proof.
  intros Z C. destruct (comparable_ok u v C) as (f & E & D). exists f. split; [exact E|]. now apply (derives_size identified the_connections).
Qed.

(** ** Conversions of a quantity *)

Lemma unit_texts_ok : forallb (fun r : canonical_row => match fst (fst (snd r)), snd (fst (snd r)) with _ :: _, _ :: _ => true | _, _ => false end)
  the_canonical = true.
Proof. vm_compute. reflexivity. Qed.
Lemma unit_text_nonempty q us ds s : sd_get the_canonical q = Some (us, ds) -> pick s us <> [].
Proof.
  intro H. apply (d_get_in str_eqb str_eqb_spec) in H. pose proof unit_texts_ok as C. rewrite forallb_forall in C.
  specialize (C _ H). cbn [fst snd] in C. destruct us as [[|a u] [|b v]]; cbn [fst snd] in C; try discriminate.
  destruct s; discriminate.
Qed.
Lemma exact_named s : exact_name (named_as s) = Some s.
Proof. destruct s; reflexivity. Qed.
Lemma exact_unnamed x : (forall s, x <> named_as s) -> exact_name x = None.
Proof.
  intro H. unfold exact_name. destruct (str_eqb_spec x (lit "mks")) as [E|]; [exfalso; now apply (H Mks)|].
  destruct (str_eqb_spec x (lit "cgs")) as [E|]; [exfalso; now apply (H Cgs)|reflexivity].
Qed.
Lemma substituted_ok q us ds x u : sd_get the_canonical q = Some (us, ds) -> stands_for q x u -> substituted us x = u.
Proof.
  intros R [(s & -> & us' & ds' & R' & <-)|[N ->]]; unfold substituted.
  - rewrite R in R'. injection R' as <- <-. rewrite exact_named. pose proof (unit_text_nonempty q us ds s R) as K.
    destruct (pick s us); [congruence|reflexivity].
  - now rewrite (exact_unnamed x N).
Qed.

(** ** Dimensions *)

Lemma reduce_nonempty ts x : reduce ts = Ok x -> x <> [].
Proof.
  unfold reduce. destruct (map _ _) as [|a l]; [discriminate|]. destruct (sort_by _ _) as [|v vs].
  - intro H. injection H as <-. discriminate.
  - destruct (Qc_eqb _ _); intro H; injection H as <-; discriminate.
Qed.
Lemma writes_nonempty F s x : expression_of_str F false s = Ok x -> x <> [].
Proof. unfold expression_of_str. destruct (parse F false (standard_str s)) as [us|]; cbn [bind]; [|discriminate]. apply reduce_nonempty. Qed.

Lemma mapM_inv {A B} (f : A -> res B) l m : mapM f l = Ok m -> Forall2 (fun a b => f a = Ok b) l m.
Proof.
  revert m. induction l as [|a l IH]; intros m H; cbn [mapM] in H; [injection H as <-; constructor|].
  destruct (f a) as [b|] eqn:E; cbn [bind] in H; [|discriminate]. destruct (mapM f l) as [r|]; cbn [bind] in H; [|discriminate].
  injection H as <-. constructor; auto.
Qed.
Lemma mapM_all {A B} (f : A -> res B) l : (forall a, In a l -> exists b, f a = Ok b) -> exists m, mapM f l = Ok m.
Proof.
  induction l as [|a l IH]; intro H; cbn [mapM]; [eauto|]. destruct (H a) as [b ->]; [now left|]. cbn [bind].
  destruct IH as [m ->]; [intros x I; apply H; now right|]. cbn [bind]. eauto.
Qed.

Lemma updates_keys F default systems updates :
  mapM (fun kv : str * dimension_arg => do d <- dimension_or F (snd kv) default; Ok (fst kv, d))%py systems = Ok updates ->
  map fst updates = map fst systems.
Proof.
  intro H. apply mapM_inv in H. induction H as [|[k a] [k' d] l m E F2 IH]; [reflexivity|]. cbn [map fst snd] in *.
  destruct (dimension_or F a default); cbn [bind] in E; [|discriminate]. injection E as <- <-. now rewrite IH.
Qed.
Lemma updates_in F default systems updates k a :
  mapM (fun kv : str * dimension_arg => do d <- dimension_or F (snd kv) default; Ok (fst kv, d))%py systems = Ok updates ->
  In (k, a) systems -> exists d, dimension_or F a default = Ok d /\ In (k, d) updates.
Proof.
  intros H I. apply mapM_inv in H. induction H as [|[j b] [j' d] l m E F2 IH]; [destruct I|]. cbn [fst snd] in E.
  destruct (dimension_or F b default) as [e|] eqn:D; cbn [bind] in E; [|discriminate]. injection E as <- <-. destruct I as [I|I].
  - injection I as -> ->. exists e. split; [exact D|now left].
  - destruct (IH I) as (x & X & Y). exists x. split; [exact X|now right].
Qed.

Lemma system_row (order : list system) s : In s order ->
  d_get str_eqb (map (fun s => (system_name s, None : option expression)) order) (system_name s) = Some None.
Proof.
  induction order as [|r order IH]; intros I; [destruct I|]. cbn [map d_get fst]. destruct (str_eqb_spec (system_name s) (system_name r)) as [E|N]; [reflexivity|].
  destruct I as [->|I]; [congruence|auto].
Qed.
Lemma system_rows (order : list system) k v : d_get str_eqb (map (fun s => (system_name s, None : option expression)) order) k = Some v ->
  exists s, k = system_name s.
Proof.
  intro H. apply (d_get_in str_eqb str_eqb_spec) in H. apply in_map_iff in H as (s & E & _). injection E as <- _. eauto.
Qed.
Lemma lower_system name s : spells name (system_name s) -> lower name = system_name s.
Proof.
  intro H. pose proof (exact_name_spells name s H) as E. unfold exact_name in E.
  destruct (str_eqb_spec (lower name) (lit "mks")) as [->|]; [injection E as <-; reflexivity|].
  destruct (str_eqb_spec (lower name) (lit "cgs")) as [->|]; [injection E as <-; reflexivity|discriminate].
Qed.
Lemma get_rev {V} (l : list (str * V)) k v : NoDup (map fst l) -> d_get str_eqb (rev l) k = Some v <-> In (k, v) l.
Proof.
  intro N. rewrite (d_get_iff str_eqb str_eqb_spec).
  - rewrite <- in_rev. reflexivity.
  - rewrite map_rev. now apply NoDup_rev.
Qed.
Lemma get_rev_none {V} (l : list (str * V)) k : d_get str_eqb (rev l) k = None <-> ~ In k (map fst l).
Proof. rewrite (d_get_none str_eqb str_eqb_spec). rewrite map_rev, <- in_rev. reflexivity. Qed.

(** The value under a key, given the parts of the construction. *)
Lemma dimensions_parts F order common systems d : dimensions_new F order common systems = Ok d ->
  exists default updates, dimension_or F common None = Ok default
    /\ mapM (fun kv : str * dimension_arg => do d <- dimension_or F (snd kv) default; Ok (fst kv, d))%py systems = Ok updates
    /\ d = d_update str_eqb (map (fun s => (system_name s, None)) order) updates.
Proof.
  unfold dimensions_new. destruct (dimension_or F common None) as [default|]; cbn [bind]; [|discriminate].
  destruct (mapM _ systems) as [updates|] eqn:M; cbn [bind]; [|discriminate]. destruct (existsb _ _); [|discriminate].
  intro H. injection H as <-. eauto.
Qed.
Lemma lookup_in F order common systems d k a : dimensions_new F order common systems = Ok d -> NoDup (map fst systems) -> In (k, a) systems ->
  exists default e, dimension_or F common None = Ok default /\ dimension_or F a default = Ok e
    /\ forall key, lower key = k -> dimensions_get d key = Ok e.
Proof.
  intros H N I. destruct (dimensions_parts F order common systems d H) as (default & updates & D & M & ->).
  destruct (updates_in F default systems updates k a M I) as (e & E & J). exists default, e. split; [exact D|]. split; [exact E|].
  intros key K. unfold dimensions_get. rewrite K, (d_update_get str_eqb str_eqb_spec).
  assert (NoDup (map fst updates)) as N' by (rewrite (updates_keys F default systems updates M); exact N).
  apply (get_rev updates k e N') in J. now rewrite J.
Qed.
Lemma lookup_absent F order common systems d s key : dimensions_new F order common systems = Ok d -> In s order -> 
  ~ In (system_name s) (map fst systems) -> spells key (system_name s) -> dimensions_get d key = Ok None.
Proof.
  intros H I N S. destruct (dimensions_parts F order common systems d H) as (default & updates & D & M & ->).
  unfold dimensions_get. rewrite (lower_system key s S), (d_update_get str_eqb str_eqb_spec).
  rewrite <- (updates_keys F default systems updates M) in N. apply get_rev_none in N. rewrite N.
  now rewrite (system_row order s I).
Qed.
Lemma lower_idem s : lower (lower s) = lower s.
Proof.
  unfold lower. rewrite map_map. apply map_ext. intro c. unfold lower_char.
  destruct (Nat.leb 65 (nat_of_ascii c) && Nat.leb (nat_of_ascii c) 90) eqn:E.
  - apply andb_true_iff in E as [A B]. apply Nat.leb_le in A, B.
    rewrite (nat_ascii_embedding (nat_of_ascii c + 32)) by lia.
    destruct (Nat.leb_spec (nat_of_ascii c + 32) 90); [lia|]. now rewrite andb_false_r.
  - now rewrite E.
Qed.
Lemma lookup_unknown F order common systems d key : dimensions_new F order common systems = Ok d ->
  (forall s, ~ spells key (system_name s)) -> (forall k, In k (map fst systems) -> ~ same_but_case key k) -> dimensions_get d key = Err KeyError.
Proof.
  intros H S K. destruct (dimensions_parts F order common systems d H) as (default & updates & D & M & ->).
  unfold dimensions_get. rewrite (d_update_get str_eqb str_eqb_spec).
  assert (~ In (lower key) (map fst updates)) as N.
  { rewrite (updates_keys F default systems updates M). intro I. apply (K _ I). apply lower_same. now rewrite lower_idem. }
  apply get_rev_none in N. rewrite N.
  destruct (d_get str_eqb (map (fun s => (system_name s, None : option expression)) order) (lower key)) as [v|] eqn:E; [|reflexivity]. apply system_rows in E as [s E].
  pose proof (exact_name_other key S) as O. rewrite E in O. destruct s; discriminate.
Qed.
Lemma existsb_false {A} (f : A -> bool) l : (forall x, In x l -> f x = false) -> existsb f l = false.
Proof. induction l as [|a l IH]; intro H; [reflexivity|]. cbn. rewrite H by now left. apply IH. intros x I. apply H. now right. Qed.
Lemma d_set_in {V} (d : list (str * V)) h w k v : In (k, v) (d_set str_eqb d h w) -> In (k, v) d \/ v = w.
Proof.
  induction d as [|[j u] d IH]; cbn; intro I.
  - destruct I as [I|[]]. right. congruence.
  - destruct (str_eqb h j); destruct I as [I|I]; auto; [right; congruence|]. destruct (IH I); auto.
Qed.
Lemma d_update_in {V} (l : list (str * V)) : forall d k v, In (k, v) (d_update str_eqb d l) -> In v (map snd d) \/ In v (map snd l).
Proof.
  induction l as [|[h w] l IH]; intros d k v I.
  - left. now apply (in_map snd) in I.
  - cbn in I. apply IH in I as [I|I]; [|right; now right]. apply in_map_iff in I as ((k' & v') & E & I). cbn in E. subst v'.
    apply d_set_in in I as [I| ->]; [left; now apply (in_map snd) in I|right; now left].
Qed.
Lemma dimension_nothing F a default : nothing a -> dimension_or F a default = Ok default.
Proof. intros [-> | ->]; reflexivity. Qed.
Lemma dimension_given F a t default : given a t -> dimension_or F a default = (do e <- expression_of_str F false t; Ok (Some e))%py.
Proof. intros [-> N]. destruct t; [congruence|reflexivity]. Qed.
Lemma dimensions_refuse F order common systems default : dimension_or F common None = Ok default -> (forall k a, In (k, a) systems -> nothing a) ->
  nothing common \/ systems = [] -> dimensions_new F order common systems = Err TypeError.
Proof.
  intros D A C. unfold dimensions_new. rewrite D. cbn [bind].
  destruct (mapM_all (fun kv : str * dimension_arg => do d <- dimension_or F (snd kv) default; Ok (fst kv, d))%py systems) as [updates M].
  { intros [k a] I. cbn [fst snd]. rewrite (dimension_nothing F a default (A k a I)). cbn [bind]. eauto. }
  rewrite M. cbn [bind].
  rewrite existsb_false; [reflexivity|]. intros [k v] I. apply d_update_in in I as [I|I].
  - rewrite map_map in I. apply in_map_iff in I as (s & <- & _). reflexivity.
  - assert (v = default /\ systems <> []) as [-> N].
    { apply mapM_inv in M. clear C. induction M as [|[j b] [j' d] l m E F2 IH]; [destruct I|]. split; [|discriminate]. cbn [map snd] in I.
      cbn [fst snd] in E. rewrite (dimension_nothing F b default (A j b (or_introl eq_refl))) in E. cbn [bind] in E. injection E as <- <-.
      destruct I as [<-|I]; [reflexivity|]. apply IH; auto. intros k' a' I'. apply (A k' a'). now right. }
    cbn [snd]. destruct C as [C|C]; [|contradiction]. rewrite (dimension_nothing F common None C) in D. now injection D as <-.
Qed.
Lemma d_update_has {V} (l : list (str * V)) k v : forall d, NoDup (map fst l) -> In (k, v) l -> In (k, v) (d_update str_eqb d l).
Proof.
  intros d N I. apply (d_get_in str_eqb str_eqb_spec). rewrite (d_update_get str_eqb str_eqb_spec).
  apply (get_rev l k v N) in I. now rewrite I.
Qed.
Lemma dimensions_accept F order common systems k a : NoDup (map fst systems) ->
  (forall t, given common t -> exists e, expression_of_str F false t = Ok e) ->
  (forall j b t, In (j, b) systems -> given b t -> exists e, expression_of_str F false t = Ok e) ->
  In (k, a) systems -> (exists t, given a t) \/ (exists t, given common t) ->
  exists d, dimensions_new F order common systems = Ok d.
Proof.
  intros N C S I G.
  assert (forall b default, (forall t, given b t -> exists e, expression_of_str F false t = Ok e) -> exists d, dimension_or F b default = Ok d) as T.
  { intros b default H. destruct b as [[|c t]|]; cbn; eauto. destruct (H (c :: t)) as [e E]; [split; [reflexivity|discriminate]|]. rewrite E. cbn. eauto. }
  unfold dimensions_new. destruct (T common None C) as [default D]. rewrite D. cbn [bind].
  destruct (mapM_all (fun kv : str * dimension_arg => do d <- dimension_or F (snd kv) default; Ok (fst kv, d))%py systems) as [updates M].
  { intros [j b] J. cbn [fst snd]. destruct (T b default) as [d ->]; [intros t; apply (S j b t J)|]. cbn [bind]. eauto. }
  rewrite M. cbn [bind]. destruct (updates_in F default systems updates k a M I) as (e & E & J).
  assert (exists x y, e = Some (x :: y)) as (x & y & ->).
  { assert (forall b t default', given b t -> (exists e, expression_of_str F false t = Ok e) -> dimension_or F b default' = Ok e -> exists x y, e = Some (x :: y)) as Y.
    { intros b t df Gb [z Z] K. rewrite (dimension_given F b t df Gb), Z in K. cbn [bind] in K. injection K as <-.
      apply writes_nonempty in Z. destruct z as [|x y]; [congruence|eauto]. }
    destruct a as [[|c t]|].
    - destruct G as [(t & [G0 G1])|(t & G)]; [congruence|]. cbn in E. injection E as <-. rewrite (dimension_given F common t None G) in D.
      destruct (C t G) as [z Z]. rewrite Z in D. cbn [bind] in D. injection D as <-. apply writes_nonempty in Z. destruct z as [|x y]; [congruence|eauto].
    - apply (Y (Some (c :: t)) (c :: t) default); [split; [reflexivity|discriminate]| |exact E]. apply (S k (Some (c :: t)) (c :: t) I). split; [reflexivity|discriminate].
    - destruct G as [(t & [G0 G1])|(t & G)]; [congruence|]. cbn in E. injection E as <-. rewrite (dimension_given F common t None G) in D.
      destruct (C t G) as [z Z]. rewrite Z in D. cbn [bind] in D. injection D as <-. apply writes_nonempty in Z. destruct z as [|x y]; [congruence|eauto]. }
  assert (NoDup (map fst updates)) as N' by (rewrite (updates_keys F default systems updates M); exact N).
  rewrite (proj2 (existsb_exists _ _)); [eauto|]. exists (k, Some (x :: y)). split; [|reflexivity]. now apply d_update_has.
Qed.

(** ** Systems of a named unit *)

Lemma row_unit s q us ds : sd_get the_canonical q = Some (us, ds) -> unit_text s q (pick s us).
Proof. intro H. now exists us, ds. Qed.
Lemma fundamental_ok n us ds s : sd_get the_canonical (n_quantity n) = Some (us, ds) ->
  exists b, is_fundamental_in the_canonical n s = Ok b /\ (b = true <-> used_in n s).
Proof.
  intro R. unfold is_fundamental_in, canonical_unit. rewrite R. cbn [bind]. eexists. split; [reflexivity|].
  rewrite orb_true_iff. split.
  - intros [H|H]; exists (pick s us); split; try (now apply (row_unit s (n_quantity n) us ds)); [left|right];
      (destruct (str_eqb_spec (n_symbol n) (pick s us)); [congruence|]) || (destruct (str_eqb_spec (n_name n) (pick s us)); [congruence|]); discriminate.
  - intros (u & (us' & ds' & R' & <-) & H). rewrite R in R'. injection R' as <- <-. destruct H as [-> | ->]; rewrite str_eqb_refl; auto.
Qed.
Lemma defined_ok n us ds s : sd_get the_canonical (n_quantity n) = Some (us, ds) ->
  exists b, is_defined_in identified the_canonical n s = Ok b /\ (b = true <-> scaled_in n s).
Proof.
  intro R. unfold is_defined_in. destruct (fundamental_ok n us ds s R) as (f & -> & F1). cbn [bind]. destruct f.
  - exists true. split; [reflexivity|]. split; [|reflexivity]. intros _. left. now apply F1.
  - unfold canonical_unit. rewrite R. cbn [bind]. eexists. split; [reflexivity|]. destruct (identified (pick s us)) as [m|] eqn:M.
    + destruct (base_eqb_spec (n_base n) (n_base m)) as [E|E]; split; try discriminate; intro H.
      * right. exists (pick s us), m. split; [now apply (row_unit s (n_quantity n) us ds)|auto].
      * reflexivity.
      * destruct H as [H|(u & m' & (us' & ds' & R' & <-) & M' & B)]; [apply F1 in H; discriminate|].
        rewrite R in R'. injection R' as <- <-. congruence.
    + split; [discriminate|]. intros [H|(u & m' & (us' & ds' & R' & <-) & M' & B)]; [apply F1 in H; discriminate|].
      rewrite R in R'. injection R' as <- <-. congruence.
Qed.
Lemma allowed_ok n us ds s : sd_get the_canonical (n_quantity n) = Some (us, ds) ->
  exists b, is_allowed_in identified the_canonical n s = Ok b /\ (b = true <-> scaled_in n s \/ forall s', ~ scaled_in n s').
Proof.
  intro R. unfold is_allowed_in. destruct (defined_ok n us ds Mks R) as (m & -> & M). destruct (defined_ok n us ds Cgs R) as (c & -> & C).
  cbn [bind]. eexists. split; [reflexivity|].
  destruct m, c; cbn [orb]; destruct s; cbn [pick fst snd]; split; intro H; try reflexivity; try discriminate;
    try (left; now apply M); try (left; now apply C).
  - exfalso. destruct H as [H|H]; [apply C in H; discriminate|]. apply (H Mks). now apply M.
  - exfalso. destruct H as [H|H]; [apply M in H; discriminate|]. apply (H Cgs). now apply C.
  - right. intros [] K; [apply M in K|apply C in K]; discriminate.
  - right. intros [] K; [apply M in K|apply C in K]; discriminate.
Qed.
Lemma systems_ok order n us ds : sd_get the_canonical (n_quantity n) = Some (us, ds) ->
  exists fs dfs als, m_systems_of order n = Ok (fs, dfs, als) /\ forall s, 
    (In s fs <-> In s order /\ used_in n s) /\ (In s dfs <-> In s order /\ scaled_in n s)
    /\ (In s als <-> In s order /\ (scaled_in n s \/ forall s', ~ scaled_in n s')).
Proof.
  intro R. unfold m_systems_of. induction order as [|r order IH].
  - exists [], [], []. split; [reflexivity|]. intro s. cbn. tauto.
  - destruct IH as (fs & dfs & als & E & H). cbn [systems_of].
    destruct (fundamental_ok n us ds r R) as (f & -> & F1). destruct (defined_ok n us ds r R) as (d & -> & D1).
    destruct (allowed_ok n us ds r R) as (a & -> & A1). rewrite E. cbn [bind]. eexists _, _, _. split; [reflexivity|].
    intro s. destruct (H s) as (P & Q & T). 
    assert (forall (b : bool) l (K : Prop), (b = true <-> K) -> In s (if b then r :: l else l) <-> (r = s /\ K) \/ In s l) as X.
    { intros b l K B. destruct b; cbn; [|intuition discriminate]. destruct B as [B _]. specialize (B eq_refl). tauto. }
    rewrite (X f fs _ F1), (X d dfs _ D1), (X a als _ A1), P, Q, T. cbn [In].
    split; [|split]; (split; [intros [[-> K]|K]; tauto|intros [[->|K] L]; tauto]).
Qed.

(** ** Reductions *)

Lemma fold_units l : forall r, red_units (fold_left (fun acc o => reduction_mul acc (red_scale o)) l r) = red_units r
  /\ red_system (fold_left (fun acc o => reduction_mul acc (red_scale o)) l r) = red_system r.
Proof. induction l as [|o l IH]; intro r; cbn [fold_left]; [auto|]. destruct (IH (reduction_mul r (red_scale o))) as [-> ->]. auto. Qed.
Lemma reduction_first F named reduce_unit given t x r r0 : reduction_of F named reduce_unit [t] given = Ok (Some r0) ->
  reduction_of F named reduce_unit (t :: x) given = Ok (Some r) -> red_units r = red_units r0.
Proof.
  unfold reduction_of. cbn [mapM]. destruct (reduced_term F named reduce_unit given t) as [o|]; cbn [bind]; [|discriminate].
  destruct (mapM _ x) as [l|]; cbn [bind]; [|discriminate]. unfold somes. cbn [map concat]. destruct o as [p|]; cbn [app]; [|discriminate].
  intro H. injection H as <-. intro H. injection H as <-. apply fold_units.
Qed.
(** What each term contributes to the scale. *)
Definition contributes (F : flops) (named : str -> option named_unit) (reduce_unit : named_unit -> option system -> res (option reduction))
  (given : option system) (t : term) (k : Qc) : Prop :=
  exists n r z, named (base t) = Some n /\ reduce_unit n given = Ok (Some r) /\ expo t = Qc_of_Z z /\ red_scale r <> 0%Qc
    /\ k = Qc_zpow (red_scale r) z.
Lemma reduction_scale F named reduce_unit given x ks r : Forall2 (contributes F named reduce_unit given) x ks ->
  reduction_of F named reduce_unit x given = Ok (Some r) -> red_scale r = prodQc ks.
Proof.
  intros C H. unfold reduction_of in H. destruct (mapM (reduced_term F named reduce_unit given) x) as [l|] eqn:M; cbn [bind] in H; [|discriminate].
  assert (map red_scale (somes l) = ks) as E.
  { apply mapM_inv in M. clear H. revert l M. induction C as [|t k x ks (n & r0 & z & N & R & Z & P & ->) C IH]; intros l M; inversion M as [|? o ? l' E M']; subst; [reflexivity|].
    unfold reduced_term in E. rewrite N, R in E. unfold reduction_pow, frac_pow in E. rewrite Z, Qc_is_int_of_Z, (Qc_eqb_neq _ _ P), Qc_num_of_Z in E. cbn [andb bind] in E.
    destruct (mapM (fun t0 => term_pow F t0 (Qc_of_Z z)) (red_units r0)) as [ts|]; cbn [bind] in E; [|discriminate].
    destruct (expression_of_terms F ts) as [e|]; cbn [bind] in E; [|discriminate]. injection E as <-.
    unfold somes. cbn [map concat app red_scale]. f_equal. now apply IH. }
  destruct (somes l) as [|r0 rest]; [discriminate|]. injection H as <-. rewrite <- E. cbn [map prodQc fold_right].
  assert (forall rest r0, red_scale (fold_left (fun acc o => reduction_mul acc (red_scale o)) rest r0) = (red_scale r0 * prodQc (map red_scale rest))%Qc) as G.
  { clear. induction rest as [|o rest IH]; intro r0; cbn [fold_left map prodQc fold_right]; [ring|]. rewrite IH. cbn [reduction_mul red_scale]. unfold prodQc. ring. }
  apply G.
Qed.

(** ** Consistency of units *)

Lemma expr_eqb_sym F x y : expr_eqb F x y = expr_eqb F y x.
Proof.
  unfold expr_eqb. rewrite Nat.eqb_sym. f_equal. generalize (sort_by by_key x) (sort_by by_key y). clear.
  induction l as [|s l IH]; intros [|t m]; cbn [all2]; auto. rewrite IH. f_equal. unfold term_eqb.
  rewrite (str_eqb_sym (base s)), (Qc_eqb_sym (fl F (coef s))), (Qc_eqb_sym (fl F (expo s))). reflexivity.
Qed.
Section Consistent.
Context (F : flops) (named : str -> option named_unit) (canonical : list canonical_row) (bases : list (str * str)) (qs : list (str * qdef))
        (systems : list system) (conns : connections) (nodes : list str).
Notation unit_or := (unit_or F named canonical bases qs systems conns nodes).
Notation dims := (dimensions_of F named canonical).
Notation search := (convert F named canonical bases qs conns nodes).
Notation quantity_of := (MeasurableModel.unit_quantity F named).

Definition agree (a b : option expression * option expression) : bool :=
  existsb (fun s => match pick s a with
                    | Some e => existsb (fun g => match g with Some f => expr_eqb F f e | None => false end) [fst b; snd b]
                    | None => false end) systems.
Lemma agree_iff a b : both systems ->
  agree a b = true <-> exists s s' e f, pick s a = Some e /\ pick s' b = Some f /\ expr_eqb F e f = true.
Proof.
  intros [B1 B2]. unfold agree. rewrite existsb_exists. split.
  - intros (s & _ & H). destruct (pick s a) as [e|] eqn:E; [|discriminate]. apply existsb_exists in H as (g & I & H).
    destruct g as [f|]; [|discriminate]. rewrite expr_eqb_sym in H. destruct I as [I|[I|[]]]; [exists s, Mks, e, f|exists s, Cgs, e, f]; auto.
  - intros (s & s' & e & f & E & G & H). exists s. split; [destruct s; assumption|]. rewrite E. apply existsb_exists. exists (Some f).
    split; [destruct s'; cbn in G; rewrite <- G; cbn; auto|]. now rewrite expr_eqb_sym.
Qed.
Lemma agree_sym a b : both systems -> agree a b = agree b a.
Proof.
  intro B. assert (forall a b, agree a b = true -> agree b a = true) as H.
  { intros a0 b0 H. apply (agree_iff a0 b0 B) in H as (s & s' & e & f & E & G & X). apply (agree_iff b0 a0 B). rewrite expr_eqb_sym in X. eauto 10. }
  destruct (agree a b) eqn:X, (agree b a) eqn:Y; auto; apply H in X || apply H in Y; congruence.
Qed.
Lemma unit_or_eq x y : unit_or x y =
  (do a <- dims x; do b <- dims y; if agree a b then Ok true else
   do p <- quantity_of x; do r <- quantity_of y; if expr_eqb F p r then Ok true else
   match search (expr_format F y) (expr_format F x) with Ok _ => Ok true | Err UnitConversionError => Ok false | Err e => Err e end)%py.
Proof. reflexivity. Qed.
Lemma unit_or_refl x a q : dims x = Ok a -> quantity_of x = Ok q -> unit_or x x = Ok true.
Proof.
  intros A Q. rewrite unit_or_eq, A. cbn [bind]. destruct (agree a a); [reflexivity|]. rewrite Q. cbn [bind]. now rewrite SymbolicExprProofs.eqb_refl.
Qed.
Lemma unit_or_sym x y : both systems -> unit_or x y = Ok true ->
  unit_or y x = Ok true \/ (exists f, search (expr_format F y) (expr_format F x) = Ok f) /\ forall f, search (expr_format F x) (expr_format F y) <> Ok f.
Proof.
  intros B. rewrite !unit_or_eq. destruct (dims x) as [a|]; cbn [bind]; [|discriminate]. destruct (dims y) as [b|]; cbn [bind]; [|discriminate].
  rewrite (agree_sym b a B). destruct (agree a b); [auto|]. destruct (quantity_of x) as [p|]; cbn [bind]; [|discriminate].
  destruct (quantity_of y) as [r|]; cbn [bind]; [|discriminate]. rewrite (expr_eqb_sym F r p). destruct (expr_eqb F p r); [auto|].
  destruct (search (expr_format F y) (expr_format F x)) as [f|[]]; try discriminate. intros _.
  destruct (search (expr_format F x) (expr_format F y)) as [g|e]; [now left|]. right. split; [eauto|]. discriminate.
Qed.
Lemma dims_pick x a s e : dims x = Ok a -> dimension_of F named canonical s x = Ok e -> pick s a = Some e.
Proof.
  unfold dimensions_of. intros H E. destruct s; rewrite E in H; cbn [bind] in H.
  - destruct (dimension_of F named canonical Cgs x) as [c|[]]; cbn [bind] in H; try discriminate; now injection H as <-.
  - destruct (dimension_of F named canonical Mks x) as [c|[]]; cbn [bind] in H; try discriminate; now injection H as <-.
Qed.
Lemma unit_or_dimension x y a b s s' e f : both systems -> dims x = Ok a -> dims y = Ok b ->
  dimension_of F named canonical s x = Ok e -> dimension_of F named canonical s' y = Ok f -> expr_eqb F e f = true -> unit_or x y = Ok true.
Proof.
  intros B A A' E G H. rewrite unit_or_eq, A, A'. cbn [bind]. rewrite (proj2 (agree_iff a b B)); [reflexivity|].
  exists s, s', e, f. eauto using dims_pick.
Qed.
Lemma unit_or_apart x y a b : both systems -> dims x = Ok a -> dims y = Ok b -> unit_or x y = Ok false ->
  (forall s s' e f, dimension_of F named canonical s x = Ok e -> dimension_of F named canonical s' y = Ok f -> expr_eqb F e f = false)
  /\ search (expr_format F y) (expr_format F x) = Err UnitConversionError.
Proof.
  intros B A A' H. rewrite unit_or_eq, A, A' in H. cbn [bind] in H. destruct (agree a b) eqn:G; [discriminate|]. split.
  - intros s s' e f E E'. destruct (expr_eqb F e f) eqn:X; [|reflexivity]. rewrite (proj2 (agree_iff a b B)) in G; [discriminate|].
    exists s, s', e, f. eauto using dims_pick.
  - destruct (quantity_of x) as [p|]; cbn [bind] in H; [|discriminate]. destruct (quantity_of y) as [r|]; cbn [bind] in H; [|discriminate].
    destruct (expr_eqb F p r); [discriminate|]. destruct (search _ _) as [g|[]]; congruence.
Qed.
End Consistent.
