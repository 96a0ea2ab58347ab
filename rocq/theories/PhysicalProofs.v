(** Proofs about named quantities. *)

From Coq Require Import String Ascii List Bool ZArith QArith Qcanon Lia.
From Verif Require Import Py PyFacts PyDict MetadataModel ArrayModel ArraySpec ArrayProofs ArrayOpsProofs MeshProofs ArrayMoreProofs PhysicalModel PhysicalSpec.
Import ListNotations.
Open Scope list_scope.
Open Scope nat_scope.
Open Scope py_scope.

(** * Elements *)

Lemma Qc_eqb_eq a b : Qc_eqb a b = true <-> a = b.
Proof. destruct (Qc_eqb_spec a b); split; congruence. Qed.

Section Elements.
Context {U : Type}.

Lemma np_item_in {A} (l : list A) (i : Z) (d : A) : (0 <= i < Z.of_nat (length l))%Z ->
  np_item l i = Ok (nth (Z.to_nat i) l d).
Proof.
  intros H. unfold np_item. rewrite (proj2 (Z.ltb_ge i 0)) by lia.
  rewrite (proj2 (Z.leb_le 0 i)), (proj2 (Z.ltb_lt i _)) by lia. cbn.
  rewrite (nth_error_nth' l d) by lia. reflexivity.
Qed.
Lemma np_item_neg {A} (l : list A) (i : Z) (d : A) : (- Z.of_nat (length l) <= i < 0)%Z ->
  np_item l i = Ok (nth (Z.to_nat (i + Z.of_nat (length l))) l d).
Proof.
  intros H. unfold np_item. rewrite (proj2 (Z.ltb_lt i 0)) by lia.
  rewrite (proj2 (Z.leb_le 0 _)), (proj2 (Z.ltb_lt (i + _) _)) by lia. cbn.
  rewrite (nth_error_nth' l d) by lia. reflexivity.
Qed.
Lemma np_item_out {A} (l : list A) (i : Z) :
  (i < - Z.of_nat (length l) \/ Z.of_nat (length l) <= i)%Z -> np_item l i = Err IndexError.
Proof.
  intros H. unfold np_item. destruct (Z.ltb_spec i 0).
  - rewrite (proj2 (Z.leb_gt 0 (i + _))) by lia. reflexivity.
  - rewrite (proj2 (Z.ltb_ge i _)) by lia. now rewrite andb_false_r.
Qed.

Lemma element_exact (l : list Qc) (u : U) (i : Z) :
  let n := Z.of_nat (length l) in
  element l u i =
  if ((- 2 * n <=? i) && (i <? n))%Z
  then Ok (Scalar (nth (Z.to_nat (i mod n)) l 0%Qc) u no_name) else Err IndexError.
Proof.
  intros n. unfold element. fold n.
  destruct (Z.leb_spec (- 2 * n) i), (Z.ltb_spec i n); cbn [andb].
  - destruct (Z.ltb_spec i 0).
    + destruct (Z.ltb_spec (i + n) 0).
      * rewrite (np_item_neg l (i + n) 0%Qc) by lia. cbn. fold n.
        rewrite <- (Z.mod_unique i n (- 2) (i + n + n)); [reflexivity|lia|lia].
      * rewrite (np_item_in l (i + n) 0%Qc) by lia. cbn.
        rewrite <- (Z.mod_unique i n (- 1) (i + n)); [reflexivity|lia|lia].
    + rewrite (np_item_in l i 0%Qc) by lia. cbn. now rewrite Z.mod_small by lia.
  - destruct (Z.ltb_spec i 0); [lia|]. rewrite np_item_out by lia. reflexivity.
  - destruct (Z.ltb_spec i 0); [|lia]. rewrite np_item_out by lia. reflexivity.
  - lia.
Qed.

Lemma same_values_iff l : forall m, same_values l m = true <-> l = m.
Proof.
  induction l as [|x l IH]; intros [|y m]; cbn; split; intros H; try discriminate; auto.
  - apply andb_true_iff in H as [H1 H2]. apply Qc_eqb_eq in H1. apply IH in H2. congruence.
  - injection H as -> ->. rewrite (proj2 (IH m) eq_refl), andb_true_r. now apply Qc_eqb_eq.
Qed.

Lemma vector_eq_iff (ueq : U -> U -> res bool) l u m w :
  vector_eq ueq l u m w = Ok true <-> ueq u w = Ok true /\ l = m.
Proof.
  unfold vector_eq. destruct (ueq u w) as [[|]|e]; cbn.
  - split; [intros H|intros [_ ->]].
    + injection H as H. apply same_values_iff in H. auto.
    + f_equal. now apply same_values_iff.
  - split; [discriminate|]. intros [H _]. discriminate.
  - split; [discriminate|]. intros [H _]. discriminate.
Qed.
End Elements.

(** * Arithmetic *)

Section Arithmetic.
Context {U : Type} (ubin : binary -> uvalue U -> uvalue U -> res U) (data_pow : Qc -> Qc -> res Qc).

Lemma number_exact op x y z : number_binary data_pow op x y = Ok z <-> exact data_pow op x y z.
Proof.
  destruct op; cbn.
  - split; [intros H; now injection H as <-|intros ->; reflexivity].
  - split; [intros H; injection H as <-; ring|intros <-; f_equal; ring].
  - split; [intros H; now injection H as <-|intros ->; reflexivity].
  - destruct (Qc_eqb y 0) eqn:E.
    + apply Qc_eqb_eq in E. split; [discriminate|]. now intros [H _].
    + assert (N : y <> 0%Qc) by (intro K; apply Qc_eqb_eq in K; congruence). split.
      * intros H. injection H as <-. split; [exact N|]. now field.
      * intros [_ <-]. f_equal. now field.
  - reflexivity.
Qed.

Definition owns (owner : class) (a b : operand U) : Prop :=
  owner <> CNumber /\ (owner = class_of a \/ owner = class_of b).
Lemma supports_allowed op (a b : operand U) owner : owns owner a b ->
  supports class class_eqb subclass (operation_of owner op) [class_of a; class_of b] = true <-> allowed op a b.
Proof.
  intros [H1 H2].
  destruct a as [[v u n|l u n]|x], b as [[v' u' n'|l' u' n']|x']; cbn in H2; destruct H2 as [-> | ->];
  try (exfalso; now apply H1); clear H1;
  destruct op; vm_compute; split; intros K; try exact I; try discriminate K; try reflexivity; try contradiction.
Qed.

Lemma unit_ok op (a b : operand U) owner u : owns owner a b ->
  evaluate_unit ubin owner op a b = Ok u <-> allowed op a b /\ ubin op (unit_or_number a) (unit_or_number b) = Ok u.
Proof.
  intros H. unfold evaluate_unit. pose proof (supports_allowed op a b owner H) as S.
  assert (E : forall o : operand U, uvalue_of o = unit_or_number o) by (intros [[]|]; reflexivity). rewrite !E.
  destruct (supports _ _ _ _ _); cbn [negb].
  - split.
    + intros K. split; [now apply S|]. destruct (ubin op _ _) as [w|[]]; try exact K; try discriminate.
      destruct (_ && _); discriminate.
    + intros [_ ->]. reflexivity.
  - split; [discriminate|]. intros [K _]. apply S in K. discriminate.
Qed.

Lemma mapM_nth {A} (f : A -> res Qc) (l : list A) (d : A) : forall r,
  mapM f l = Ok r <-> length r = length l /\ forall k, k < length l -> f (nth k l d) = Ok (nth k r 0%Qc).
Proof.
  induction l as [|x l IH]; intros r; cbn [mapM].
  - split; [intros H; injection H as <-; split; [reflexivity|cbn; lia]|].
    intros [L _]. destruct r; [reflexivity|discriminate].
  - split.
    + destruct (f x) as [y|e] eqn:E; cbn [bind]; [|discriminate].
      destruct (mapM f l) as [r'|e] eqn:F; cbn [bind]; [|discriminate].
      intros H. injection H as <-. destruct (proj1 (IH r') eq_refl) as [L K].
      split; [cbn; now rewrite L|]. intros [|k] Hk; cbn in *; [exact E|]. apply K. lia.
    + intros [L K]. destruct r as [|y r]; [discriminate|]. cbn in L.
      pose proof (K 0 ltac:(cbn; lia)) as K0. cbn in K0. rewrite K0. cbn [bind].
      rewrite (proj2 (IH r)); [reflexivity|]. split; [lia|]. intros k Hk. apply (K (S k)). cbn. lia.
Qed.
Lemma nth_combine {A B} (l : list A) (m : list B) a b : forall k, length l = length m ->
  nth k (combine l m) (a, b) = (nth k l a, nth k m b).
Proof. intros k H. now apply combine_nth. Qed.

(** The values of the result of an operation with a vector. *)
Lemma data_many op (a b : operand U) r : is_vector a \/ is_vector b ->
  data_binary data_pow op (data_of a) (data_of b) = Ok r <->
  exists l, r = NMany l /\ fits a b (length l) /\
            forall k, k < length l -> exact data_pow op (value_at a k) (value_at b k) (nth k l 0%Qc).
Proof.
  intros H.
  assert (V : forall (A : Type) (f : A -> res Qc) (g : A -> Qc * Qc) (l : list A) (d : A) r,
     (forall x, f x = number_binary data_pow op (fst (g x)) (snd (g x))) ->
     (do y <- mapM f l; Ok (NMany y)) = Ok r <->
     exists m, r = NMany m /\ length m = length l /\
       forall k, k < length m -> exact data_pow op (fst (g (nth k l d))) (snd (g (nth k l d))) (nth k m 0%Qc)).
  { intros A f g l d r0 F. split.
    - destruct (mapM f l) as [y|e] eqn:E; cbn [bind]; [|discriminate]. intros K. injection K as <-.
      apply (mapM_nth f l d) in E as [L K]. exists y. split; [reflexivity|]. split; [exact L|].
      intros k Hk. apply number_exact. rewrite <- F. apply K. lia.
    - intros (m & -> & L & K). rewrite (proj2 (mapM_nth f l d m)); [reflexivity|].
      split; [exact L|]. intros k Hk. rewrite F. apply number_exact. apply K. lia. }
  assert (VA : forall (l : list Qc) (u : U) n k, k < length l -> value_at (OpQ (Vector l u n)) k = nth k l 0%Qc).
  { intros [|x [|y l]] u n k Hk; cbn in *; try lia; [|reflexivity]. destruct k; [reflexivity|lia]. }
  destruct a as [[v u n|l u n]|x], b as [[v' u' n'|l' u' n']|x']; cbn in H; try tauto; cbn [data_of data_binary].
  - (* scalar, vector *)
    rewrite (V Qc _ (fun y => (v, y)) l' 0%Qc) by reflexivity. unfold fits. cbn [extent fst snd].
    split; intros (m & -> & L & K); exists m; (split; [reflexivity|]; split; [lia|]); intros k Hk; specialize (K k Hk);
      rewrite VA in * by lia; exact K.
  - rewrite (V Qc _ (fun y => (y, v')) l 0%Qc) by reflexivity. unfold fits. cbn [extent fst snd].
    split; intros (m & -> & L & K); exists m; (split; [reflexivity|]; split; [lia|]); intros k Hk; specialize (K k Hk);
      rewrite VA in * by lia; exact K.
  - destruct (Nat.eqb_spec (length l) (length l')) as [E|E].
    + rewrite (V (Qc * Qc)%type _ (fun p => p) (combine l l') (0%Qc, 0%Qc)) by reflexivity.
      rewrite combine_length. unfold fits. cbn [extent].
      split; intros (m & -> & L & K); exists m; (split; [reflexivity|]; split; [lia|]); intros k Hk; specialize (K k Hk).
      * rewrite nth_combine in K by exact E. rewrite !VA by lia. exact K.
      * rewrite nth_combine by exact E. rewrite !VA in K by lia. exact K.
    + destruct (Nat.eq_dec (length l) 1) as [E1|E1].
      * destruct l as [|x [|? ?]]; try discriminate E1.
        rewrite (V Qc _ (fun y => (x, y)) l' 0%Qc) by reflexivity. unfold fits. cbn [extent fst snd length].
        split; intros (m & -> & L & K); exists m; (split; [reflexivity|]; split; [cbn in *; lia|]);
          intros k Hk; specialize (K k Hk); rewrite (VA l') in * by (cbn in *; lia); exact K.
      * destruct (Nat.eq_dec (length l') 1) as [E2|E2].
        -- destruct l' as [|y [|? ?]]; try discriminate E2.
           transitivity ((do r0 <- mapM (fun x => number_binary data_pow op x y) l; Ok (NMany r0)) = Ok r).
           { destruct l as [|? [|? ?]]; [|cbn in E1; lia|]; reflexivity. }
           rewrite (V Qc _ (fun x => (x, y)) l 0%Qc) by reflexivity. unfold fits. cbn [extent fst snd length].
           split; intros (m & -> & L & K); exists m; (split; [reflexivity|]; split; [cbn in *; lia|]);
             intros k Hk; specialize (K k Hk); rewrite (VA l) in * by (cbn in *; lia); exact K.
        -- transitivity (False); [|split; [tauto|]].
           { destruct l as [|? [|? ?]], l' as [|? [|? ?]]; cbn in *; try lia; split; try discriminate; tauto. }
           intros (m & -> & F & _). unfold fits in F. cbn [extent] in F. lia.
  - rewrite (V Qc _ (fun y => (y, x')) l 0%Qc) by reflexivity. unfold fits. cbn [extent fst snd].
    split; intros (m & -> & L & K); exists m; (split; [reflexivity|]; split; [lia|]); intros k Hk; specialize (K k Hk);
      rewrite VA in * by lia; exact K.
  - rewrite (V Qc _ (fun y => (x, y)) l' 0%Qc) by reflexivity. unfold fits. cbn [extent fst snd].
    split; intros (m & -> & L & K); exists m; (split; [reflexivity|]; split; [lia|]); intros k Hk; specialize (K k Hk);
      rewrite VA in * by lia; exact K.
Qed.

Theorem vector_arithmetic op (a b : operand U) r : is_vector a \/ ~ is_scalar a /\ is_vector b ->
  arithmetic ubin data_pow op a b = Ok r <->
  allowed op a b /\
  exists l u, r = Vector l u no_name /\ fits a b (length l) /\
    (forall k, k < length l -> exact data_pow op (value_at a k) (value_at b k) (nth k l 0%Qc)) /\
    ubin op (unit_or_number a) (unit_or_number b) = Ok u.
Proof.
  intros H. unfold arithmetic.
  assert (O : match a with OpQ _ => class_of a | OpN _ => class_of b end = CVector).
  { destruct a as [[]|], b as [[]|]; cbn in *; tauto. }
  rewrite O. clear O.
  assert (Hv : is_vector a \/ is_vector b) by tauto.
  assert (Hu : owns CVector a b).
  { split; [discriminate|]. destruct Hv; [left; destruct a as [[]|]|right; destruct b as [[]|]]; cbn in *; tauto || reflexivity. } split.
  - destruct (data_binary _ _ _ _) as [d|e] eqn:E; cbn [bind]; [|discriminate].
    apply data_many in E as (l & -> & F & K); [|exact Hv].
    destruct (evaluate_unit _ _ _ _ _) as [u|e] eqn:Eu; cbn [bind]; [|discriminate].
    apply unit_ok in Eu as [A Eu]; [|exact Hu]. cbn. intros X. injection X as <-.
    split; [exact A|]. exists l, u. auto.
  - intros [A (l & u & -> & F & K & Eu)].
    rewrite (proj2 (data_many op a b (NMany l) Hv)) by eauto. cbn [bind].
    rewrite (proj2 (unit_ok op a b CVector u Hu)) by auto. reflexivity.
Qed.

Theorem scalar_arithmetic op (a b : operand U) r : is_scalar a \/ ~ is_vector a /\ is_scalar b ->
  arithmetic ubin data_pow op a b = Ok r <->
  allowed op a b /\ fits a b 1 /\
  exists z u, r = Scalar z u no_name /\ exact data_pow op (value_at a 0) (value_at b 0) z /\
    ubin op (unit_or_number a) (unit_or_number b) = Ok u.
Proof.
  intros H. unfold arithmetic.
  assert (O : match a with OpQ _ => class_of a | OpN _ => class_of b end = CScalar).
  { destruct a as [[]|], b as [[]|]; cbn in *; tauto. }
  rewrite O. clear O.
  assert (Hu : owns CScalar a b).
  { split; [discriminate|]. destruct H as [H|[_ H]]; [left; destruct a as [[]|]|right; destruct b as [[]|]]; cbn in *; tauto || reflexivity. }
  assert (Hv : is_vector b \/ extent a = None /\ extent b = None).
  { destruct a as [[]|], b as [[]|]; cbn in *; tauto. }
  destruct Hv as [Hv|[Ea Eb]].
  - split.
    + destruct (data_binary _ _ _ _) as [d|e] eqn:E; cbn [bind]; [|discriminate].
      apply data_many in E as (l & -> & F & K); [|now right].
      destruct (evaluate_unit _ _ _ _ _) as [u|e] eqn:Eu; cbn [bind]; [|discriminate].
      apply unit_ok in Eu as [A Eu]; [|exact Hu]. cbn. destruct l as [|z [|? ?]]; try discriminate. intros X. injection X as <-.
      split; [exact A|]. split; [exact F|]. exists z, u. split; [reflexivity|]. split; [|exact Eu]. apply (K 0). cbn. lia.
    + intros (A & F & z & u & -> & X & Eu).
      rewrite (proj2 (data_many op a b (NMany [z]) (or_intror Hv))).
      * cbn [bind]. rewrite (proj2 (unit_ok op a b CScalar u Hu) (conj A Eu)). reflexivity.
      * exists [z]. split; [reflexivity|]. split; [exact F|]. intros [|k] Hk; [exact X|cbn in Hk; lia].
  - assert (data_binary data_pow op (data_of a) (data_of b) = do z <- number_binary data_pow op (value_at a 0) (value_at b 0); Ok (NOne z)) as D.
    { destruct a as [[]|], b as [[]|]; try discriminate; reflexivity. }
    assert (fits a b 1) as F by (unfold fits; now rewrite Ea, Eb). rewrite D. split.
    + destruct (number_binary _ _ _ _) as [z|e] eqn:E; cbn [bind]; [|discriminate]. apply number_exact in E.
      destruct (evaluate_unit _ _ _ _ _) as [u|e] eqn:Eu; cbn [bind]; [|discriminate].
      apply unit_ok in Eu as [A Eu]; [|exact Hu]. cbn. intros X. injection X as <-. eauto 10.
    + intros (A & _ & z & u & -> & X & Eu). apply number_exact in X. rewrite X. cbn [bind].
      rewrite (proj2 (unit_ok op a b CScalar u Hu) (conj A Eu)). reflexivity.
Qed.

(** A scalar on the left of a vector. *)
(** Why an operation on operands with results is refused. *)
Lemma data_given op (a b : operand U) (l : list Qc) : fits a b (length l) ->
  (forall k, k < length l -> exact data_pow op (value_at a k) (value_at b k) (nth k l 0%Qc)) ->
  exists d, data_binary data_pow op (data_of a) (data_of b) = Ok d.
Proof.
  intros F K.
  assert (is_vector a \/ is_vector b \/ extent a = None /\ extent b = None) as [V|[V|[Ea Eb]]].
  { destruct a as [[]|], b as [[]|]; cbn; tauto. }
  - exists (NMany l). apply data_many; eauto.
  - exists (NMany l). apply data_many; eauto.
  - unfold fits in F. rewrite Ea, Eb in F. specialize (K 0 ltac:(lia)). apply number_exact in K.
    exists (NOne (nth 0 l 0%Qc)).
    destruct a as [[]|], b as [[]|]; try discriminate; cbn [data_of data_binary]; cbn [value_at] in K; rewrite K; reflexivity.
Qed.
Theorem refused op (a b : operand U) (l : list Qc) : is_vector a \/ is_scalar a \/ is_vector b \/ is_scalar b ->
  fits a b (length l) ->
  (forall k, k < length l -> exact data_pow op (value_at a k) (value_at b k) (nth k l 0%Qc)) ->
  (~ allowed op a b -> arithmetic ubin data_pow op a b = Err OperandTypeError)
  /\ (forall e, allowed op a b -> ubin op (unit_or_number a) (unit_or_number b) = Err e ->
      arithmetic ubin data_pow op a b =
      Err (match e, a, b with TypeError, OpQ _, OpQ _ => MetadataError | _, _, _ => e end)).
Proof.
  intros H F K. destruct (data_given op a b l F K) as [d D]. unfold arithmetic. rewrite D. cbn [bind].
  set (owner := match a with OpQ _ => class_of a | OpN _ => class_of b end).
  assert (owns owner a b) as Hu.
  { unfold owner. destruct a as [[]|], b as [[]|]; cbn in *; (split; [discriminate|tauto]) || tauto. }
  unfold evaluate_unit. pose proof (supports_allowed op a b owner Hu) as S.
  assert (E : forall o : operand U, uvalue_of o = unit_or_number o) by (intros [[]|]; reflexivity). rewrite !E. split.
  - intros N. destruct (supports _ _ _ _ _); [exfalso; apply N, S; reflexivity|]. reflexivity.
  - intros e A Eu. apply S in A. rewrite A. cbn [negb]. rewrite Eu. destruct e; try reflexivity.
    destruct a as [[]|], b as [[]|]; reflexivity.
Qed.

Theorem scalar_vector op v u n (l : list Qc) w m : length l <> 1 ->
  forall r, arithmetic ubin data_pow op (OpQ (Scalar v u n)) (OpQ (Vector l w m)) <> Ok r.
Proof.
  intros L r. unfold arithmetic. cbn [class_of].
  destruct (data_binary _ _ _ _) as [d|e] eqn:E; cbn [bind]; [|discriminate].
  apply data_many in E as (k & -> & F & _); [|right; exact I]. unfold fits in F. cbn [extent] in F.
  destruct (evaluate_unit _ _ _ _ _) as [x|e]; cbn [bind]; [|discriminate].
  cbn [construct]. destruct k as [|y [|z k]]; cbn in *; try discriminate. lia.
Qed.
Theorem scalar_vector_product v u n (l : list Qc) w m x : length l <> 1 -> ubin Mul (VUnit u) (VUnit w) = Ok x ->
  arithmetic ubin data_pow Mul (OpQ (Scalar v u n)) (OpQ (Vector l w m)) = Err TypeError.
Proof.
  intros L E. unfold arithmetic. cbn [class_of data_of data_binary].
  assert (M : mapM (fun y => number_binary data_pow Mul v y) l = Ok (map (fun y => v * y)%Qc l)).
  { clear. induction l as [|y l IH]; cbn in *; [reflexivity|]. now rewrite IH. }
  rewrite M. cbn [bind].
  rewrite (proj2 (unit_ok Mul (OpQ (Scalar v u n)) (OpQ (Vector l w m)) CScalar x ltac:(split; [discriminate|now left]))).
  2:{ split; [exact I|exact E]. }
  cbn [bind construct]. destruct l as [|a [|b l]]; cbn in *; try reflexivity. lia.
Qed.

Lemma scalar_unit op (a b : operand U) owner owner' : owns owner a b -> owns owner' a b ->
  evaluate_unit ubin owner op a b = evaluate_unit ubin owner' op a b.
Proof.
  intros H H'. unfold evaluate_unit. pose proof (supports_allowed op a b owner H) as S.
  pose proof (supports_allowed op a b owner' H') as S'.
  destruct (supports _ _ _ (operation_of owner op) _), (supports _ _ _ (operation_of owner' op) _); try reflexivity; cbn [negb].
  - assert (false = true) by (apply S', S; reflexivity). discriminate.
  - assert (false = true) by (apply S, S'; reflexivity). discriminate.
Qed.

Lemma mapM_ext {A B} (f g : A -> res B) l : (forall x, f x = g x) -> mapM f l = mapM g l.
Proof. intros H. induction l as [|x l IH]; cbn; [reflexivity|]. now rewrite H, IH. Qed.
Lemma mapM_combine_swap (f : Qc -> Qc -> res Qc) : (forall x y, f x y = f y x) -> forall l m,
  mapM (fun p => f (fst p) (snd p)) (combine l m) = mapM (fun p => f (fst p) (snd p)) (combine m l).
Proof.
  intros H l. induction l as [|x l IH]; intros [|y m]; cbn; try reflexivity. now rewrite H, IH.
Qed.
Lemma number_swap op x y : op = Add \/ op = Mul -> number_binary data_pow op x y = number_binary data_pow op y x.
Proof. intros [->| ->]; cbn; f_equal; ring. Qed.
Lemma data_swap op d e : op = Add \/ op = Mul -> data_binary data_pow op d e = data_binary data_pow op e d.
Proof.
  intros H. destruct d as [x|l], e as [y|m]; cbn [data_binary].
  - now rewrite number_swap.
  - f_equal. apply mapM_ext. intros. now apply number_swap.
  - f_equal. apply mapM_ext. intros. now apply number_swap.
  - rewrite (Nat.eqb_sym (length m)). destruct (Nat.eqb_spec (length l) (length m)) as [E|E].
    + f_equal. apply mapM_combine_swap. intros. now apply number_swap.
    + destruct l as [|x [|? ?]], m as [|y [|? ?]]; cbn in E; try lia; try reflexivity;
      f_equal; apply mapM_ext; intros; now apply number_swap.
Qed.

Theorem swap_operands op (a b : operand U) :
  op = Add \/ op = Mul -> (forall x y, ubin op x y = ubin op y x) ->
  is_vector a \/ is_vector b \/ is_scalar a \/ is_scalar b ->
  (is_scalar a -> is_vector b -> extent b = Some 1) -> (is_vector a -> is_scalar b -> extent a = Some 1) ->
  rmap seen (arithmetic ubin data_pow op a b) = rmap seen (arithmetic ubin data_pow op b a).
Proof.
  intros Hop Hu H H1 H2. unfold arithmetic. rewrite (data_swap op (data_of b)) by exact Hop.
  destruct (data_binary data_pow op (data_of a) (data_of b)) as [d|e] eqn:E; cbn [bind]; [|reflexivity].
  set (o1 := match a with OpQ _ => class_of a | OpN _ => class_of b end).
  set (o2 := match b with OpQ _ => class_of b | OpN _ => class_of a end).
  assert (W1 : owns o1 a b).
  { unfold o1, owns. destruct a as [[]|], b as [[]|]; cbn in *; try tauto; split; try discriminate; tauto. }
  assert (W2 : owns o2 a b).
  { unfold o2, owns. destruct a as [[]|], b as [[]|]; cbn in *; try tauto; split; try discriminate; tauto. }
  assert (W : forall o, owns o a b -> owns o b a) by (intros o [? ?]; split; tauto).
  assert (E2 : evaluate_unit ubin o2 op b a = evaluate_unit ubin o1 op a b).
  { rewrite (scalar_unit op b a o2 o1) by auto. unfold evaluate_unit.
    pose proof (supports_allowed op a b o1 W1) as S1. pose proof (supports_allowed op b a o1 (W _ W1)) as S2.
    assert (A1 : allowed op a b) by (destruct Hop as [->| ->]; exact I).
    assert (A2 : allowed op b a) by (destruct Hop as [->| ->]; exact I).
    apply S1 in A1. apply S2 in A2. rewrite A1, A2. cbn [negb]. rewrite (Hu (uvalue_of b)).
    rewrite (andb_comm (is_quantity b)). reflexivity. }
  rewrite E2. destruct (evaluate_unit ubin o1 op a b) as [u|e]; cbn [bind]; [|reflexivity].
  assert (C : forall d (u : U) o, o = CScalar \/ o = CVector -> (exists x, d = NOne x \/ d = NMany [x]) \/ o = CVector ->
     rmap seen (construct o d u) = Ok (match d with NOne x => [x] | NMany l => l end, u)).
  { clear. intros d u o [->| ->] [(x & [->| ->])|K]; try discriminate K; try reflexivity. now destruct d. }
  assert (D : (exists x, d = NOne x \/ d = NMany [x]) \/ (o1 = CVector /\ o2 = CVector)).
  { destruct a as [[v w n|l w n]|x], b as [[v' w' n'|l' w' n']|x']; cbn in H, H1, H2; unfold o1, o2; cbn [class_of]; try tauto;
    cbn [data_of data_binary] in E.
    1: { left. destruct (number_binary _ _ _ _); [|discriminate]. injection E as <-. eauto. }
    1: { left. destruct l' as [|? [|? ?]]; try (specialize (H1 I I); discriminate H1). cbn in E.
         destruct (number_binary _ _ _ _); [|discriminate]. injection E as <-. eauto. }
    1: { left. destruct (number_binary _ _ _ _); [|discriminate]. injection E as <-. eauto. }
    1: { left. destruct l as [|? [|? ?]]; try (specialize (H2 I I); discriminate H2). cbn in E.
         destruct (number_binary _ _ _ _); [|discriminate]. injection E as <-. eauto. }
    1: { left. destruct (number_binary _ _ _ _); [|discriminate]. injection E as <-. eauto. } }
  assert (O1 : o1 = CScalar \/ o1 = CVector).
  { unfold o1. destruct a as [[]|], b as [[]|]; cbn in *; tauto. }
  assert (O2 : o2 = CScalar \/ o2 = CVector).
  { unfold o2. destruct a as [[]|], b as [[]|]; cbn in *; tauto. }
  rewrite (C d u o1 O1), (C d u o2 O2); [reflexivity| |]; tauto.
Qed.
End Arithmetic.

(** * The function [scalar] *)

Section ScalarFunction.
Context {U : Type} (one : U).
Lemma scalar_many fuel (t : thing U) l u : measure_thing one t = Ok (l, u) -> 1 < length l ->
  match t with AQuantity (Scalar _ _ _) => False | _ => True end ->
  scalar one (S fuel) t = Err ValueError.
Proof.
  intros E L N. destruct t as [[v w n|m w n]|m w| |v m w]; cbn in E.
  - contradiction.
  - injection E as -> ->. destruct l as [|x [|y l]]; cbn in L; try lia. reflexivity.
  - destruct m as [|x m]; [discriminate|]. injection E as <- <-. destruct m as [|y m]; cbn in L; try lia. reflexivity.
  - discriminate.
  - injection E as <- <-. destruct m as [|y m]; cbn in L; try lia. reflexivity.
Qed.
End ScalarFunction.

(** * Conversion *)

Section Conversion.
Context {U : Type} (ueq uor : U -> U -> res bool) (ufactor : U -> U -> res Qc) (size : U -> Qc).
Hypothesis Hs : forall u, size u <> 0%Qc.
Hypothesis He : forall u w, ueq u w = Ok true -> size u = size w.
Hypothesis Hf : forall u w f, ufactor u w = Ok f -> f = (size u / size w)%Qc.
Lemma convert_amounts (q r : quantity U) w : convert ueq uor ufactor q w = Ok r ->
  amounts size r = amounts size q /\ (unit_of r = w \/ ueq w (unit_of q) = Ok true /\ r = q).
Proof.
  unfold convert. destruct (ueq w (unit_of q)) as [[|]|e] eqn:E; cbn [bind]; [|..|discriminate].
  - intros H. injection H as <-. auto.
  - destruct (uor _ _) as [[|]|e]; cbn [bind negb]; try discriminate.
    destruct (ufactor (unit_of q) w) as [f|e] eqn:F; cbn [bind]; [|discriminate]. apply Hf in F. subst f.
    intros H. injection H as <-. split; [|left; now destruct q].
    destruct q as [v u n|l u n]; cbn [amounts unit_of].
    + f_equal. pose proof (Hs w). now field.
    + rewrite map_map. apply map_ext. intros v. pose proof (Hs w). now field.
Qed.
End Conversion.

(** * Arrays *)

Section Arrays.
Context {D U : Type} (asarray : D -> arr) (get : D -> nindex -> res arr) (has_shape : D -> bool)
        (ueq uor : U -> U -> res bool) (ufactor : U -> U -> res Qc).
Hypothesis R : reads_like asarray get.
Notation meaning := (@ArraySpec.meaning D U asarray).
Notation unscaled := (@ArraySpec.unscaled D U asarray).
Definition base (o : object D U) : arr := data_array asarray (o_data o).

Notation coherent := (@PhysicalSpec.coherent D U asarray).
(** The cached array, if any, is the data itself, unless the array is a
    copy. *)
Definition direct (o : object D U) : Prop := o_full o = None \/ o_full o = Some (base o).

Lemma direct_unscaled o : direct o -> unscaled o = base o.
Proof. unfold unscaled, base. intros [->| ->]; reflexivity. Qed.
Lemma direct_coherent o : direct o -> coherent o.
Proof. intros H. unfold PhysicalSpec.coherent. fold (base o). now rewrite direct_unscaled. Qed.

Definition same_state (o' o : object D U) : Prop :=
  o_data o' = o_data o /\ o_scale o' = o_scale o /\ o_unit o' = o_unit o /\ o_dims o' = o_dims o /\
  unscaled o' = unscaled o /\ (direct o -> direct o').
Lemma same_refl o : same_state o o.
Proof. repeat split; auto. Qed.
Lemma same_trans a b c : same_state a b -> same_state b c -> same_state a c.
Proof. intros (A1 & A2 & A3 & A4 & A5 & A6) (B1 & B2 & B3 & B4 & B5 & B6). repeat split; try congruence; auto. Qed.
Lemma same_meaning a b : same_state a b -> meaning a = meaning b.
Proof. intros (A1 & A2 & A3 & A4 & A5 & A6). unfold ArraySpec.meaning. now rewrite A2, A5. Qed.
Lemma same_coherent a b : same_state a b -> coherent b -> coherent a.
Proof. intros (A1 & A2 & A3 & A4 & A5 & A6). unfold PhysicalSpec.coherent, base. now rewrite A5, A1. Qed.

Lemma pget_ok o x : exists o', get_array asarray get o x =
  (if missing x then Ok (meaning o) else np_get (meaning o) x, o') /\ same_state o' o.
Proof.
  destruct (get_array_ok asarray get R o x) as (o' & E & P1 & P2 & P3 & P4 & P5 & P6).
  exists o'. split; [exact E|]. repeat (split; [assumption|]).
  unfold direct, base. rewrite P1. destruct P6 as [->|[-> Hn]]; [auto|]. intros _. right. reflexivity.
Qed.
Lemma pshape_ok o : coherent o -> exists o', get_shape asarray get has_shape o = (shape (meaning o), o') /\ same_state o' o.
Proof.
  intros H. unfold get_shape. destruct (data_has_shape has_shape (o_data o)).
  - exists o. split; [|apply same_refl]. f_equal. unfold ArraySpec.meaning. rewrite shape_scale. symmetry. exact H.
  - destruct (pget_ok o NAll) as (o' & E & S). rewrite E. cbn [missing]. eauto.
Qed.

Lemma read_value o (u : U) n x : pvalue_read (mkValue (meaning o) u n) x = if missing x then Ok (meaning o) else np_get (meaning o) x.
Proof. destruct x as [|[[]|[]]|[]]; reflexivity. Qed.

Lemma subscripted_ok o s : coherent o ->
  exists r o', subscripted asarray get has_shape o s = (r, o') /\ same_state o' o /\
  match (do x <- normalize (shape (meaning o)) (unwrap_subscript s);
         pvalue_read (mkValue (meaning o) (o_unit o) (o_dims o)) x) with
  | Ok (mkArr [] (y :: _)) => r = Ok (PNumber y (o_unit o) (o_dims o))
  | Ok a => r = Ok (PArray (new_array (Memory a) (o_unit o) (o_dims o)))
  | Err e => r = Err e
  end.
Proof.
  intros H. unfold subscripted. destruct (pshape_ok o H) as (o1 & E & S1). rewrite E.
  destruct (normalize _ _) as [x|e]; cbn [bind].
  - destruct (pget_ok o1 x) as (o2 & E2 & S2). rewrite E2. rewrite read_value.
    rewrite (same_meaning _ _ S1). eexists; exists o2. split; [reflexivity|]. split; [eapply same_trans; eauto|].
    destruct (if missing x then Ok (meaning o) else np_get (meaning o) x) as [[[|n sh] [|y cs]]|e]; reflexivity.
  - eexists; exists o1. split; [reflexivity|]. auto.
Qed.

Definition related (o : object D U) (v : value U) : Prop :=
  meaning o = v_array v /\ o_unit o = v_unit v /\ o_dims o = v_dims v /\ coherent o.
Lemma related_value o v : related o v -> v = mkValue (meaning o) (o_unit o) (o_dims o).
Proof. intros (-> & -> & -> & _). now destruct v. Qed.
Lemma related_self o : coherent o -> related o (mkValue (meaning o) (o_unit o) (o_dims o)).
Proof. intros H. repeat split; auto. Qed.
Lemma related_same o o' v : same_state o' o -> related o v -> related o' v.
Proof.
  intros S (H1 & H2 & H3 & H4). pose proof (same_meaning _ _ S). pose proof (same_coherent _ _ S H4).
  destruct S as (S1 & S2 & S3 & S4 & _). repeat split; congruence.
Qed.
Lemma related_new d u n : related (new_array d u n) (mkValue (data_array asarray d) u n) /\ direct (new_array d u n).
Proof.
  split; [|now left]. repeat split; cbn.
  unfold ArraySpec.meaning, ArraySpec.unscaled. cbn. apply scale_one.
Qed.
Lemma with_unit_ok o u : direct o ->
  match (do e <- ueq u (o_unit o);
         if e then Ok None
         else do c <- uor (o_unit o) u;
              if c then rmap Some (ufactor (o_unit o) u) else Err ValueError) with
  | Ok None => with_unit ueq uor ufactor o u = Ok (true, o)
  | Ok (Some f) => exists n, with_unit ueq uor ufactor o u = Ok (false, n) /\ direct n /\
                     related n (mkValue (scale_arr f (meaning o)) u (o_dims o))
  | Err e => with_unit ueq uor ufactor o u = Err e
  end.
Proof.
  intros Hd. unfold with_unit. destruct (ueq u (o_unit o)) as [[|]|e]; cbn [bind]; try reflexivity.
  destruct (uor (o_unit o) u) as [[|]|e]; cbn [bind negb]; try reflexivity.
  destruct (ufactor (o_unit o) u) as [f|e]; cbn [bind rmap]; try reflexivity.
  eexists. split; [reflexivity|]. split; [now left|]. repeat split; cbn [v_array v_unit v_dims o_unit o_dims].
  unfold ArraySpec.meaning. rewrite scale_scale. unfold ArraySpec.unscaled at 1. cbn [o_full o_scale o_data].
  rewrite (direct_unscaled o Hd). f_equal. ring.
Qed.
Lemma copy_array_ok o : coherent o ->
  exists n o', copy_array asarray get o = (Ok n, o') /\ same_state o' o /\
    related n (mkValue (meaning o) (o_unit o) (o_dims o)).
Proof.
  intros H. unfold copy_array. destruct (pget_ok o NAll) as (o' & E & S). rewrite E. cbn [missing].
  eexists; exists o'. split; [reflexivity|]. split; [exact S|]. repeat split; cbn.
  - unfold ArraySpec.meaning at 1, ArraySpec.unscaled. cbn. apply scale_one.
  - unfold PhysicalSpec.coherent, base, ArraySpec.unscaled. exact H.
Qed.

(** Histories: the objects [h] stand for the values [hv]; while [strict], none
    of them is a copy. *)
Definition pheap (strict : bool) (h : list (object D U)) (hv : list (value U)) : Prop :=
  length h = length hv /\
  forall k o v, nth_error h k = Some o -> nth_error hv k = Some v -> related o v /\ (strict = true -> direct o).

Lemma pheap_add b h hv o v : pheap b h hv -> related o v -> (b = true -> direct o) -> pheap b (h ++ [o]) (hv ++ [v]).
Proof.
  intros [L H] Ro Do. split; [rewrite !app_length; cbn; lia|].
  intros k x y Hx Hy. destruct (Nat.lt_trichotomy k (length h)) as [C|[C|C]].
  - rewrite nth_error_app1 in Hx, Hy by lia. eauto.
  - rewrite nth_error_app2 in Hx, Hy by lia. replace (k - length h) with 0 in Hx by lia. replace (k - length hv) with 0 in Hy by lia.
    cbn in *. injection Hx as <-. injection Hy as <-. auto.
  - rewrite nth_error_app2 in Hx by lia. destruct (k - length h) as [|m] eqn:E; [lia|]. cbn in Hx. destruct m; discriminate.
Qed.
Lemma pheap_replace b h hv k o v : pheap b h hv -> nth_error hv k = Some v -> related o v -> (b = true -> direct o) ->
  pheap b (replace_nth h k o) hv.
Proof.
  intros [L H] Hk Ro Do. split; [rewrite replace_length; lia|].
  intros j x y Hx Hy. rewrite nth_error_replace in Hx. destruct (Nat.eqb_spec j k) as [->|E]; [|eauto].
  rewrite Hk in Hy. injection Hy as <-. destruct (nth_error h k); [|discriminate]. cbn in Hx. injection Hx as <-. auto.
Qed.
Lemma pheap_both b h hv k : pheap b h hv ->
  (nth_error h k = None /\ nth_error hv k = None) \/
  (exists o v, nth_error h k = Some o /\ nth_error hv k = Some v /\ related o v /\ (b = true -> direct o)).
Proof.
  intros [L H]. destruct (nth_error h k) as [o|] eqn:E1, (nth_error hv k) as [v|] eqn:E2; auto.
  - right. exists o, v. destruct (H k o v E1 E2). auto.
  - exfalso. apply nth_error_None in E2. assert (k < length h) by (apply nth_error_Some; congruence). lia.
  - exfalso. apply nth_error_None in E1. assert (k < length hv) by (apply nth_error_Some; congruence). lia.
Qed.

Lemma pstep_ok b h hv (c : paction D U) : pheap b h hv ->
  (b = true -> forall k, c <> PCopy k) -> (b = false -> forall k u, c <> PConvert k u) ->
  snd (pstep asarray get has_shape ueq uor ufactor h c) = snd (pvalue_step asarray ueq uor ufactor hv c) /\
  pheap b (fst (pstep asarray get has_shape ueq uor ufactor h c)) (fst (pvalue_step asarray ueq uor ufactor hv c)).
Proof.
  intros Hh Hc Hv. pose proof (proj1 Hh) as L. destruct c as [d n u|k x|k u|k s|k]; cbn [pstep pvalue_step].
  - rewrite L. split; [reflexivity|]. cbn [fst]. destruct (related_new (Source d) u n) as [A B].
    apply pheap_add; auto.
  - destruct (pheap_both b h hv k Hh) as [[-> ->]|(o & v & -> & E & Ro & Do)]; [auto|]. rewrite E.
    destruct (pget_ok o x) as (o' & E' & S). rewrite E'. cbn [fst snd]. split.
    + f_equal. rewrite (related_value o v Ro). now rewrite read_value.
    + eapply pheap_replace; eauto; [eapply related_same; eauto|]. intros B. destruct S as (_ & _ & _ & _ & _ & S). auto.
  - destruct b; [|exfalso; now apply (Hv eq_refl k u)].
    destruct (pheap_both true h hv k Hh) as [[-> ->]|(o & v & -> & E & Ro & Do)]; [auto|]. rewrite E.
    pose proof (with_unit_ok o u (Do eq_refl)) as W. pose proof Ro as (R1 & R2 & R3 & R4). rewrite <- R1, <- R2, <- R3.
    destruct (do e <- ueq u (o_unit o); _) as [[f|]|e].
    + destruct W as (n & -> & Dn & Rn). cbn [fst snd]. rewrite L. split; [reflexivity|]. apply pheap_add; auto.
    + rewrite W. auto.
    + rewrite W. auto.
  - destruct (pheap_both b h hv k Hh) as [[-> ->]|(o & v & -> & E & Ro & Do)]; [auto|]. rewrite E.
    pose proof Ro as (R1 & R2 & R3 & R4).
    destruct (subscripted_ok o s R4) as (r & o' & E' & S & W). rewrite E'.
    assert (Hr : pheap b (replace_nth h k o') hv).
    { eapply pheap_replace; eauto; [eapply related_same; eauto|]. intros B. destruct S as (_ & _ & _ & _ & _ & S). auto. }
    rewrite <- R2, <- R3. rewrite (related_value o v Ro). cbn [v_array v_unit v_dims].
    destruct (do x <- normalize _ _; _) as [[[|m sh] [|y cs]]|e]; rewrite W; cbn [fst snd];
      rewrite ?replace_length, ?L; (split; [reflexivity|]); auto;
      (apply pheap_add; [exact Hr|apply (related_new (Memory _))|intros; apply (related_new (Memory _))]).
  - destruct b; [exfalso; now apply (Hc eq_refl k)|].
    destruct (pheap_both false h hv k Hh) as [[-> ->]|(o & v & -> & E & Ro & Do)]; [auto|]. rewrite E.
    pose proof Ro as (R1 & R2 & R3 & R4). destruct (copy_array_ok o R4) as (n & o' & E' & S & W). rewrite E'. cbn [fst snd].
    rewrite replace_length, L. split; [reflexivity|]. rewrite (related_value o v Ro). apply pheap_add; [|exact W|discriminate].
    eapply pheap_replace; eauto; [eapply related_same; eauto|discriminate].
Qed.

Theorem prun_ok b l : (b = true -> without_copies l) -> (b = false -> forall k u, ~ In (PConvert k u) l) ->
  forall h hv, pheap b h hv ->
  prun asarray get has_shape ueq uor ufactor h l = pvalue_run asarray ueq uor ufactor hv l.
Proof.
  induction l as [|c l IH]; intros A B h hv Hh; [reflexivity|]. cbn [prun pvalue_run].
  destruct (pstep_ok b h hv c Hh) as [E Hh'].
  - intros Hb k ->. apply (A Hb k). now left.
  - intros Hb k u ->. apply (B Hb k u). now left.
  - destruct (pstep _ _ _ _ _ _ h c) as [h' r], (pvalue_step _ _ _ _ hv c) as [hv' r']. cbn [fst snd] in *.
    subst r'. f_equal. apply IH; auto.
    + intros Hb k K. apply (A Hb k). now right.
    + intros Hb k u K. apply (B Hb k u). now right.
Qed.
Lemma prun_app l1 l2 : (forall k, ~ In (PCopy k) l1) -> (forall k u, ~ In (PConvert k u) l2) ->
  forall h hv, pheap true h hv ->
  prun asarray get has_shape ueq uor ufactor h (l1 ++ l2) = pvalue_run asarray ueq uor ufactor hv (l1 ++ l2).
Proof.
  induction l1 as [|c l1 IH]; intros A B h hv Hh.
  - cbn [app]. apply (prun_ok false); auto; [discriminate|]. destruct Hh as [L H]. split; [exact L|].
    intros k o v Ho Hv. split; [eapply H; eauto|discriminate].
  - cbn [app prun pvalue_run]. destruct (pstep_ok true h hv c Hh) as [E Hh'].
    + intros _ k ->. apply (A k). now left.
    + discriminate.
    + destruct (pstep _ _ _ _ _ _ h c) as [h' r], (pvalue_step _ _ _ _ hv c) as [hv' r']. cbn [fst snd] in *.
      subst r'. f_equal. apply IH; auto. intros k K. apply (A k). now right.
Qed.
Lemma pheap_nil b : pheap b [] [].
Proof. split; [reflexivity|]. intros [|k]; discriminate. Qed.

Theorem copies_last_ok l : copies_last l ->
  prun asarray get has_shape ueq uor ufactor [] l = pvalue_run asarray ueq uor ufactor [] l.
Proof. intros (l1 & l2 & -> & A & B). apply prun_app; auto using pheap_nil. Qed.

(** Subscripts. *)
Lemma standard_subscript o s : coherent o ->
  match s with Bare i => builtin i = true /\ i <> INone | Many l => forallb builtin l = true /\ 2 <= length l end ->
  exists r o', subscripted asarray get has_shape o s = (r, o') /\ same_state o' o /\
  match basic (meaning o) (match s with Bare i => [i] | Many l => l end) with
  | Ok (mkArr [] (y :: _)) => r = Ok (PNumber y (o_unit o) (o_dims o))
  | Ok a => r = Ok (PArray (new_array (Memory a) (o_unit o) (o_dims o)))
  | Err e => r = Err e
  end.
Proof.
  intros H Hs. destruct (subscripted_ok o s H) as (r & o' & E & S & W). exists r, o'. split; [exact E|]. split; [exact S|].
  destruct s as [i|l].
  - destruct Hs as [H1 H2]. assert (U0 : unwrap_item i = i) by (destruct i; try reflexivity; discriminate).
    unfold unwrap_subscript in W. rewrite U0 in W. unfold normalize, standard in W. rewrite H1 in W. cbn [bind] in W.
    unfold pvalue_read in W. cbn [v_array np_get] in W. destruct i; try exact W; try congruence.
  - destruct Hs as [H1 H2]. assert (U0 : unwrap_subscript (Many l) = Many l) by (destruct l as [|? [|? ?]]; cbn in H2; try lia; reflexivity).
    rewrite U0 in W. unfold normalize, standard in W. rewrite H1 in W. cbn [bind] in W.
    unfold pvalue_read in W. cbn [v_array np_get] in W. destruct l; [cbn in H2; lia|]. exact W.
Qed.

Lemma list_subscript o l : coherent o -> Forall2 cross_index (shape (meaning o)) l -> (exists q, In (ISeq q) l) -> 2 <= length l ->
  exists a o', subscripted asarray get has_shape o (Many l) = (Ok (PArray (new_array (Memory a) (o_unit o) (o_dims o))), o') /\
    same_state o' o /\ shape a = map2 cross_extent (shape (meaning o)) l /\
    forall j, inside (shape a) j -> at_ a j = at_ (meaning o) (cross_all (shape (meaning o)) l j).
Proof.
  intros H F (q & Hq) L2. destruct (subscripted_ok o (Many l) H) as (r & o' & E & S & W).
  assert (U0 : unwrap_subscript (Many l) = Many l) by (destruct l as [|? [|? ?]]; cbn in L2; try lia; reflexivity).
  rewrite U0 in W. unfold normalize, standard in W.
  replace (forallb builtin l) with false in W.
  2:{ symmetry. apply not_true_iff_false. intro K. rewrite forallb_forall in K. specialize (K _ Hq). discriminate. }
  rewrite (cross_no_ell _ _ F) in W. rewrite (cross_lists _ _ F) in W. cbn [bind] in W.
  rewrite (only_lists_ok _ _ F) in W. cbn [bind] in W. unfold pvalue_read in W. cbn [v_array np_get] in W.
  destruct (fancy_cross (meaning o) l F) as (a & Ea & Sa & Fa & Aa); [destruct l; [cbn in L2; lia|discriminate]|].
  rewrite Ea in W. exists a, o'.
  assert (Ls : 2 <= length (shape a)).
  { rewrite Sa. unfold map2. rewrite map_length, combine_length.
    pose proof (F2_length _ _ _ F) as Lf. rewrite <- Lf, Nat.min_id. now rewrite Lf. }
  assert (Nm : mesh (map2 list_of (shape (meaning o)) l) <> []).
  { intro K. apply (f_equal (@length iarr)) in K. unfold mesh in K. rewrite MeshProofs.mesh_from_length in K.
    unfold map2 in K. rewrite map_length, combine_length in K.
    pose proof (F2_length _ _ _ F) as Lf. rewrite <- Lf, Nat.min_id in K. change (length (@nil iarr)) with 0 in K. lia. }
  destruct (mesh (map2 list_of (shape (meaning o)) l)) as [|x xs]; [contradiction|].
  assert (Er : r = Ok (PArray (new_array (Memory a) (o_unit o) (o_dims o)))).
  { destruct a as [[|n sh] cs]; [cbn in Ls; lia|]. exact W. }
  rewrite Er in E. split; [exact E|]. split; [exact S|]. split; [exact Sa|exact Aa].
Qed.

Lemma array_equal_iff a b : filled a -> filled b -> array_equal a b = true <-> a = b.
Proof.
  intros Fa Fb. unfold array_equal. split.
  - intros H. apply andb_true_iff in H as [H Hc]. apply andb_true_iff in H as [Hl Hs].
    apply Nat.eqb_eq in Hl. apply same_values_iff in Hc. destruct a as [s c], b as [s' c']. cbn [shape cells] in *. subst c'.
    f_equal. clear - Hl Hs. revert s' Hl Hs. induction s as [|x s IH]; intros [|y s'] Hl Hs; cbn in *; try discriminate; auto.
    apply andb_true_iff in Hs as [H1 H2]. apply Nat.eqb_eq in H1. f_equal; auto.
  - intros ->. rewrite Nat.eqb_refl. rewrite (proj2 (same_values_iff _ _) eq_refl), andb_true_r. cbn.
    apply forallb_forall. intros [x y] K. cbn. apply Nat.eqb_eq.
    induction (shape b) as [|z s IH]; cbn in K; [contradiction|]. destruct K as [K|K]; [congruence|]. auto.
Qed.
Lemma arrays_eq_ok a b : arrays_eq asarray get ueq a b =
  (do e <- ueq (o_unit a) (o_unit b); if e then Ok (array_equal (meaning b) (meaning a)) else Ok false).
Proof.
  unfold arrays_eq. destruct (ueq _ _) as [[|]|e]; cbn [bind negb]; try reflexivity.
  destruct (pget_ok b NAll) as (b' & -> & _), (pget_ok a NAll) as (a' & -> & _). reflexivity.
Qed.

Lemma array_function_ok {X Y} (f : list (plain X) -> res Y) args :
  array_function asarray get f args =
  if existsb (fun a : argument (U := U) X => match a with AForeign _ => true | _ => false end) args then Err TypeError
  else rmap (Plain _) (f (map (fun a : argument (U := U) X => match a with
                                  | AnArray _ o => PlainArray X (meaning o)
                                  | ANumpy _ a => PlainArray X a
                                  | AnOther _ x => PlainOther X x
                                  | AForeign _ => PlainArray X (mkArr [] [])
                                  end) args)).
Proof.
  unfold array_function. destruct (existsb _ args) eqn:E; [reflexivity|].
  assert (M : mapM (plain_of asarray get) args = Ok (map (fun a : argument (U := U) X => match a with
                                  | AnArray _ o => PlainArray X (meaning o)
                                  | ANumpy _ a => PlainArray X a
                                  | AnOther _ x => PlainOther X x
                                  | AForeign _ => PlainArray X (mkArr [] [])
                                  end) args)).
  { clear f. induction args as [|a args IH]; [reflexivity|]. cbn [existsb] in E. apply orb_false_iff in E as [E1 E2].
    cbn [mapM map]. rewrite (IH E2). destruct a as [o|a|x|]; try discriminate; cbn; try reflexivity.
    destruct (pget_ok o NAll) as (o' & -> & _). reflexivity. }
  rewrite M. cbn [bind]. destruct (f _); reflexivity.
Qed.
End Arrays.
