(** Proofs about [reduce] and the comparison of expressions. *)

From Coq Require Import String Ascii List Bool ZArith NArith QArith Qcanon Lia.
From Coq Require Import Permutation Sorted.
From Verif Require Import Py PyFacts SymbolicModel SymbolicSpec.
Import ListNotations.
Open Scope list_scope.

Lemma wf_init c b e : wf (init c b e).
Proof.
  unfold wf, init; simpl. repeat split.
  - destruct (Qc_eqb_spec c 0); auto.
  - destruct (Qc_eqb_spec e 0); auto.
  - destruct b; discriminate.
Qed.

Lemma init_id c b e : c <> 0%Qc -> b <> [] -> e <> 0%Qc -> init c b e = mkTerm c b e.
Proof.
  intros Hc Hb He. unfold init. rewrite (Qc_eqb_neq c 0), (Qc_eqb_neq e 0) by auto.
  destruct b; congruence.
Qed.

(** * The dictionary as a list of terms *)

Definition dterm (kv : str * (Qc * Qc)) : term := mkTerm (fst (snd kv)) (fst kv) (snd (snd kv)).
Definition dterms (d : rdict) : list term := map dterm d.

Lemma total_expo_cons b t ts :
  total_expo b (t :: ts)
  = ((if str_eqb b (base t) then expo t else 0) + total_expo b ts)%Qc.
Proof. unfold total_expo. simpl. destruct (str_eqb b (base t)); simpl; ring. Qed.

Lemma total_expo_nil b : total_expo b [] = 0%Qc.
Proof. reflexivity. Qed.

Lemma total_expo_app b ts us : total_expo b (ts ++ us) = (total_expo b ts + total_expo b us)%Qc.
Proof. unfold total_expo. now rewrite filter_app, map_app, sumQc_app. Qed.

Lemma total_coef_app ts us : total_coef (ts ++ us) = (total_coef ts * total_coef us)%Qc.
Proof. unfold total_coef. now rewrite map_app, prodQc_app. Qed.

Lemma total_coef_cons t ts : total_coef (t :: ts) = (coef t * total_coef ts)%Qc.
Proof. reflexivity. Qed.

Lemma total_coef_perm ts us : Permutation ts us -> total_coef ts = total_coef us.
Proof. intro P. apply prodQc_perm, Permutation_map, P. Qed.

Lemma total_expo_perm b ts us : Permutation ts us -> total_expo b ts = total_expo b us.
Proof.
  induction 1; auto; try congruence; rewrite !total_expo_cons; [congruence|ring].
Qed.

Lemma total_expo_zero b ts : (forall t, In t ts -> base t <> b) -> total_expo b ts = 0%Qc.
Proof.
  induction ts as [|t ts IH]; intro H; auto.
  rewrite total_expo_cons, IH by (intros; apply H; simpl; auto).
  rewrite str_eqb_neq; [ring|]. intro E. apply (H t); simpl; auto.
Qed.

Lemma rdict_add_coef t d : total_coef (dterms (rdict_add t d)) = (total_coef (dterms d) * coef t)%Qc.
Proof.
  induction d as [|[k [c e]] d IH]; simpl.
  - unfold total_coef; simpl; ring.
  - destruct (str_eqb (base t) k); simpl; rewrite !total_coef_cons; simpl;
      [ring|]. fold (dterms (rdict_add t d)). rewrite IH. fold (dterms d). ring.
Qed.

Lemma rdict_add_expo b t d :
  total_expo b (dterms (rdict_add t d))
  = (total_expo b (dterms d) + (if str_eqb b (base t) then expo t else 0))%Qc.
Proof.
  induction d as [|[k [c e]] d IH]; simpl.
  - rewrite total_expo_cons, total_expo_nil. simpl. ring.
  - destruct (str_eqb_spec (base t) k) as [->|]; simpl; rewrite !total_expo_cons; simpl.
    + destruct (str_eqb b k); ring.
    + fold (dterms (rdict_add t d)). rewrite IH. fold (dterms d). ring.
Qed.

Lemma rdict_add_keys t d k :
  In k (map fst (rdict_add t d)) <-> k = base t \/ In k (map fst d).
Proof.
  induction d as [|[k' [c e]] d IH]; simpl.
  - split; intros [|]; subst; auto; tauto.
  - destruct (str_eqb_spec (base t) k') as [->|]; simpl; [|rewrite IH]; intuition.
Qed.

Lemma rdict_add_NoDup t d : NoDup (map fst d) -> NoDup (map fst (rdict_add t d)).
Proof.
  induction d as [|[k' [c e]] d IH]; simpl; intro H.
  - constructor; auto.
  - inversion H; subst. destruct (str_eqb_spec (base t) k') as [E|]; simpl; auto.
    constructor; auto. rewrite rdict_add_keys. intros [|]; congruence.
Qed.

Section Fold.
  Let go ts d := fold_left (fun d t => rdict_add t d) ts d.

  Lemma go_coef ts d : total_coef (dterms (go ts d)) = (total_coef (dterms d) * total_coef ts)%Qc.
  Proof.
    unfold go. revert d; induction ts as [|t ts IH]; intro d; simpl.
    - unfold total_coef at 3. simpl. ring.
    - rewrite IH, rdict_add_coef, total_coef_cons. ring.
  Qed.

  Lemma go_expo b ts d : total_expo b (dterms (go ts d)) = (total_expo b (dterms d) + total_expo b ts)%Qc.
  Proof.
    unfold go. revert d; induction ts as [|t ts IH]; intro d; simpl.
    - rewrite total_expo_nil. ring.
    - rewrite IH, rdict_add_expo, total_expo_cons. ring.
  Qed.

  Lemma go_NoDup ts d : NoDup (map fst d) -> NoDup (map fst (go ts d)).
  Proof.
    unfold go. revert d; induction ts as [|t ts IH]; intros d H; simpl; auto.
    apply IH, rdict_add_NoDup, H.
  Qed.

  Lemma go_keys ts d k : In k (map fst (go ts d)) <-> In k (map fst d) \/ In k (map base ts).
  Proof.
    unfold go. revert d; induction ts as [|t ts IH]; intro d; simpl.
    - tauto.
    - rewrite IH, rdict_add_keys. intuition.
  Qed.
End Fold.

(** * What [reduce] returns *)

Definition the_dict (ts : list term) : rdict := fold_left (fun d t => rdict_add t d) ts [].
Definition keep (kv : str * (Qc * Qc)) : bool :=
  negb (str_eqb (fst kv) (lit "1")) && negb (Qc_eqb (snd (snd kv)) 0).
Definition the_tmp (ts : list term) : list term :=
  map (fun kv => init 1 (fst kv) (snd (snd kv))) (filter keep (the_dict ts)).
Definition the_vars (ts : list term) : list term :=
  sort_by by_expo_reverse (sort_by by_base (the_tmp ts)).

Lemma reduce_eq ts :
  ts <> [] ->
  reduce ts = Ok (match the_vars ts with
                  | [] => [init (total_coef ts) [] 1]
                  | vs => if Qc_eqb (total_coef ts) 1 then vs
                          else init (total_coef ts) [] 1 :: vs
                  end).
Proof.
  intro H. unfold reduce. fold (the_dict ts). fold keep.
  fold (the_tmp ts). fold (the_vars ts).
  assert (total_coef (dterms (the_dict ts)) = total_coef ts) as E.
  { unfold the_dict. rewrite go_coef. unfold total_coef at 1. simpl. ring. }
  destruct (the_dict ts) as [|[k [c e]] d] eqn:D.
  - exfalso. destruct ts as [|t ts]; [congruence|].
    assert (In (base t) (map fst (the_dict (t :: ts)))) as I.
    { unfold the_dict. apply go_keys. right. simpl; auto. }
    rewrite D in I. exact I.
  - simpl. rewrite fold_left_Qcmult.
    assert ((c * prodQc (map (fun kv => fst (snd kv)) d))%Qc = total_coef ts) as ->.
    { rewrite <- E. unfold dterms. simpl. unfold total_coef. simpl.
      f_equal. f_equal. rewrite map_map. reflexivity. }
    destruct (the_vars ts); [reflexivity|].
    destruct (Qc_eqb (total_coef ts) 1); reflexivity.
Qed.

Lemma tmp_spec ts t :
  Forall wf ts -> In t (the_tmp ts) ->
  base t <> lit "1" /\ coef t = 1%Qc /\ expo t <> 0%Qc /\ base t <> [].
Proof.
  intros W H. unfold the_tmp in H. apply in_map_iff in H. destruct H as [[k [c e]] [<- H]].
  apply filter_In in H. destruct H as [I K]. unfold keep in K. cbn [fst snd] in *.
  apply andb_true_iff in K. destruct K as [K1 K2].
  destruct (str_eqb_spec k (lit "1")); [discriminate|].
  destruct (Qc_eqb_spec e 0); [discriminate|].
  assert (k <> []) as Nk.
  { intro Ek. assert (In k (map fst (the_dict ts))) as I'.
    { apply in_map_iff. exists (k, (c, e)). auto. }
    unfold the_dict in I'. apply go_keys in I'. destruct I' as [[]|I'].
    apply in_map_iff in I'. destruct I' as [t [Et It]].
    rewrite Forall_forall in W. destruct (W t It) as [_ [_ Wb]]. congruence. }
  rewrite init_id by auto. simpl. auto.
Qed.

Lemma tmp_bases ts :
  Forall wf ts -> map base (the_tmp ts) = map fst (filter keep (the_dict ts)).
Proof.
  intro W. unfold the_tmp. rewrite map_map. apply map_ext_in.
  intros kv I. assert (In (init 1 (fst kv) (snd (snd kv))) (the_tmp ts)) as I'.
  { unfold the_tmp. apply in_map_iff. eauto. }
  destruct kv as [k [c e]]; simpl in *.
  destruct k; [|reflexivity].
  apply tmp_spec in I'; auto. simpl in I'. tauto.
Qed.

Lemma NoDup_map_filter {A B} (f : A -> B) p l : NoDup (map f l) -> NoDup (map f (filter p l)).
Proof.
  induction l as [|x l IH]; simpl; intro H; auto.
  inversion H; subst. destruct (p x); simpl; auto. constructor; auto.
  intro I. apply in_map_iff in I. destruct I as [y [E I]]. apply filter_In in I.
  destruct I as [I _]. apply H2. rewrite <- E. now apply in_map.
Qed.

Lemma tmp_NoDup ts : Forall wf ts -> NoDup (map base (the_tmp ts)).
Proof.
  intro W. rewrite tmp_bases by auto. apply NoDup_map_filter.
  unfold the_dict. apply go_NoDup. constructor.
Qed.

Lemma filter_keep_expo b d :
  b <> lit "1" -> b <> [] ->
  total_expo b (map (fun kv => init 1 (fst kv) (snd (snd kv))) (filter keep d))
  = total_expo b (dterms d).
Proof.
  intros Hb Hn. induction d as [|[k [c e]] d IH]; simpl; auto.
  unfold keep at 1. cbn [fst snd]. rewrite total_expo_cons. fold (dterms d). cbn [base expo coef dterm fst snd].
  destruct (str_eqb_spec k (lit "1")) as [->|N1]; simpl.
  - rewrite IH. rewrite str_eqb_neq by auto. ring.
  - destruct (Qc_eqb_spec e 0) as [->|N2]; simpl.
    + rewrite IH. destruct (str_eqb b k); ring.
    + rewrite total_expo_cons, IH. unfold init. simpl.
      rewrite (Qc_eqb_neq e 0) by auto. destruct k; auto.
      rewrite !str_eqb_neq by auto. ring.
Qed.

Lemma vars_perm ts : Permutation (the_vars ts) (the_tmp ts).
Proof.
  unfold the_vars. eapply perm_trans; apply sort_by_perm || apply sort_by_perm.
Qed.

Lemma vars_expo b ts :
  Forall wf ts -> b <> lit "1" -> total_expo b (the_vars ts) = total_expo b ts.
Proof.
  intros W Hb. rewrite (total_expo_perm b _ _ (vars_perm ts)).
  destruct (str_eq_dec b []) as [->|Hn].
  - rewrite !total_expo_zero; auto.
    + intros t I. rewrite Forall_forall in W. now apply W in I as [_ [_ ?]].
    + intros t I. apply tmp_spec in I; tauto.
  - unfold the_tmp. rewrite filter_keep_expo by auto.
    unfold the_dict. rewrite go_expo. simpl. rewrite total_expo_nil. ring.
Qed.

Lemma vars_coef ts : Forall wf ts -> total_coef (the_vars ts) = 1%Qc.
Proof.
  intro W. rewrite (total_coef_perm _ _ (vars_perm ts)).
  assert (forall t, In t (the_tmp ts) -> coef t = 1%Qc) as H
    by (intros t I; apply tmp_spec in I; tauto).
  induction (the_tmp ts) as [|t l IH]; auto.
  rewrite total_coef_cons, H, IH by (simpl; auto; intros; apply H; simpl; auto). ring.
Qed.

Lemma by_expo_total s t : by_expo_reverse s t = true \/ by_expo_reverse t s = true.
Proof.
  unfold by_expo_reverse.
  destruct (Qc_leb_spec (expo t) (expo s)), (Qc_leb_spec (expo s) (expo t)); auto.
  exfalso. apply n. apply Qclt_le_weak. now apply Qcnot_le_lt.
Qed.

Lemma by_expo_trans r s t :
  by_expo_reverse r s = true -> by_expo_reverse s t = true -> by_expo_reverse r t = true.
Proof.
  unfold by_expo_reverse.
  destruct (Qc_leb_spec (expo s) (expo r)), (Qc_leb_spec (expo t) (expo s)),
    (Qc_leb_spec (expo t) (expo r)); auto; try discriminate.
  exfalso. eauto using Qcle_trans.
Qed.

Lemma base_sorted ts :
  Forall wf ts -> StronglySorted (fun s t => str_lt (base s) (base t)) (sort_by by_base (the_tmp ts)).
Proof.
  intro W.
  assert (StronglySorted (fun s t => by_base s t = true) (sort_by by_base (the_tmp ts))) as S.
  { apply sort_by_sorted; unfold by_base; eauto using str_leb_total, str_leb_trans. }
  assert (NoDup (map base (sort_by by_base (the_tmp ts)))) as N.
  { eapply Permutation_NoDup; [|apply (tmp_NoDup ts W)].
    apply Permutation_map, Permutation_sym, sort_by_perm. }
  clear W. induction S as [|x l Hl IH Hx]; constructor.
  - apply IH. now inversion N.
  - inversion N as [|? ? Nx N']; subst. rewrite Forall_forall in *. intros y I. split.
    + now apply Hx.
    + intro E. apply Nx. rewrite E. now apply in_map.
Qed.

Lemma vars_sorted ts : Forall wf ts -> StronglySorted before (the_vars ts).
Proof.
  intro W. unfold the_vars.
  eapply StronglySorted_impl_In; [|apply sort_by_stable;
    [apply by_expo_total|apply by_expo_trans|apply base_sorted, W]].
  intros s t _ _. unfold before, by_expo_reverse. simpl. intros [[H1 H2]|[H1 [H2 R]]].
  - left. destruct (Qc_leb_spec (expo s) (expo t)); [discriminate|]. now apply Qcnot_le_lt.
  - right. split; auto.
    destruct (Qc_leb_spec (expo t) (expo s)), (Qc_leb_spec (expo s) (expo t));
      try discriminate. now apply Qcle_antisym.
Qed.

Lemma vars_Forall ts :
  Forall wf ts ->
  Forall (fun t => base t <> lit "1" /\ coef t = 1%Qc /\ expo t <> 0%Qc) (the_vars ts).
Proof.
  intro W. apply Forall_forall. intros t I.
  apply (Permutation_in _ (vars_perm ts)) in I. apply tmp_spec in I; tauto.
Qed.

Lemma total_coef_neq_0 ts : Forall wf ts -> total_coef ts <> 0%Qc.
Proof.
  intro W. apply prodQc_neq_0. apply Forall_forall. intros q I.
  apply in_map_iff in I. destruct I as [t [<- I]]. rewrite Forall_forall in W.
  now apply W in I as [? _].
Qed.

Lemma reduce_total ts : ts <> [] -> exists x, reduce ts = Ok x.
Proof. intro H. rewrite reduce_eq by auto. eauto. Qed.

Lemma reduce_nonempty ts x : reduce ts = Ok x -> ts <> [].
Proof. intros H ->. discriminate H. Qed.

(** A reduced list is [its constant if shown] followed by the variables. *)
Lemma reduce_shape ts x :
  Forall wf ts -> reduce ts = Ok x ->
  (x = the_vars ts /\ total_coef ts = 1%Qc /\ x <> [])
  \/ (x = mkTerm (total_coef ts) (lit "1") 1 :: the_vars ts
      /\ (total_coef ts = 1%Qc -> the_vars ts = [])).
Proof.
  intros W H. assert (Nc := total_coef_neq_0 ts W).
  rewrite reduce_eq in H by (eapply reduce_nonempty; eauto). injection H as <-.
  assert (init (total_coef ts) [] 1 = mkTerm (total_coef ts) (lit "1") 1) as ->.
  { unfold init. rewrite (Qc_eqb_neq (total_coef ts) 0) by auto. reflexivity. }
  destruct (the_vars ts) as [|v vs] eqn:V.
  - right. auto.
  - destruct (Qc_eqb_spec (total_coef ts) 1).
    + left. repeat split; auto; discriminate.
    + right. split; auto. tauto.
Qed.

Lemma reduce_canonical ts x : Forall wf ts -> reduce ts = Ok x -> canonical x.
Proof.
  intros W H. assert (NoDup (map base (the_vars ts))) as N.
  { eapply Permutation_NoDup; [|apply (tmp_NoDup ts W)].
    apply Permutation_map, Permutation_sym, vars_perm. }
  destruct (reduce_shape ts x W H) as [[-> [E Nx]]|[-> Ht]].
  - exists [], (the_vars ts). repeat split; auto using vars_Forall, vars_sorted.
  - exists [mkTerm (total_coef ts) (lit "1") 1], (the_vars ts).
    repeat split; auto using vars_Forall, vars_sorted; try discriminate.
    right. eexists. repeat split. exact Ht.
Qed.

Lemma reduce_same ts x : Forall wf ts -> reduce ts = Ok x -> same_monomial x ts.
Proof.
  intros W H. destruct (reduce_shape ts x W H) as [[-> [E Nx]]|[-> Ht]]; split.
  - now rewrite vars_coef.
  - intros b Hb. now apply vars_expo.
  - rewrite total_coef_cons, vars_coef by auto. simpl. ring.
  - intros b Hb. rewrite total_expo_cons, vars_expo by auto. simpl.
    rewrite str_eqb_neq by auto. ring.
Qed.

Lemma reduce_wf ts x : Forall wf ts -> reduce ts = Ok x -> Forall wf x.
Proof.
  intros W H.
  assert (Forall wf (the_vars ts)) as V.
  { apply Forall_forall. intros t I. apply (Permutation_in _ (vars_perm ts)) in I.
    unfold the_tmp in I. apply in_map_iff in I. destruct I as [kv [<- _]]. apply wf_init. }
  destruct (reduce_shape ts x W H) as [[-> _]|[-> _]]; auto.
  constructor; auto. repeat split; simpl; auto using total_coef_neq_0. discriminate.
Qed.

(** * Canonical forms are unique *)

Lemma str_lt_trans a b c : str_lt a b -> str_lt b c -> str_lt a c.
Proof.
  intros [L1 N1] [L2 N2]. split; [eauto using str_leb_trans|].
  intros ->. apply N2. now apply str_leb_antisym.
Qed.

Lemma before_asym s t : before s t -> before t s -> False.
Proof.
  unfold before. intros [H|[E [L N]]] [H'|[E' [L' N']]].
  - apply (Qclt_not_le _ _ H). now apply Qclt_le_weak.
  - rewrite E' in H. now apply Qclt_not_eq in H.
  - rewrite E in H'. now apply Qclt_not_eq in H'.
  - apply N. now apply str_leb_antisym.
Qed.

Lemma total_expo_In vars t :
  NoDup (map base vars) -> In t vars -> total_expo (base t) vars = expo t.
Proof.
  induction vars as [|v vars IH]; simpl; intros N I; [tauto|].
  inversion N as [|? ? Nv N']; subst. rewrite total_expo_cons.
  destruct I as [->|I].
  - rewrite str_eqb_refl, total_expo_zero; [ring|].
    intros u Iu E. apply Nv. rewrite <- E. now apply in_map.
  - rewrite IH by auto. rewrite str_eqb_neq; [ring|].
    intro E. apply Nv. rewrite <- E. now apply in_map.
Qed.

Lemma total_expo_absent b vars :
  ~ In b (map base vars) -> total_expo b vars = 0%Qc.
Proof.
  intro H. apply total_expo_zero. intros t I E. apply H. rewrite <- E. now apply in_map.
Qed.

Lemma vars_incl vs ws :
  Forall (fun t => base t <> lit "1" /\ coef t = 1%Qc /\ expo t <> 0%Qc) vs ->
  Forall (fun t => base t <> lit "1" /\ coef t = 1%Qc /\ expo t <> 0%Qc) ws ->
  NoDup (map base vs) -> NoDup (map base ws) ->
  (forall b, b <> lit "1" -> total_expo b vs = total_expo b ws) ->
  incl vs ws.
Proof.
  intros Fv Fw Nv Nw E t I. rewrite Forall_forall in *.
  destruct (Fv t I) as [B [C X]].
  assert (total_expo (base t) ws = expo t) as Ew
    by (rewrite <- E by auto; now apply total_expo_In).
  destruct (in_dec str_eq_dec (base t) (map base ws)) as [J|J].
  - apply in_map_iff in J. destruct J as [u [Eu Iu]].
    rewrite <- Eu, total_expo_In in Ew by auto.
    destruct (Fw u Iu) as [_ [Cu _]].
    destruct t, u; simpl in *; subst. auto.
  - rewrite total_expo_absent in Ew by auto. congruence.
Qed.

Lemma NoDup_base vs : NoDup (map base vs) -> NoDup vs.
Proof. apply NoDup_map_inv. Qed.

Lemma canonical_parts x :
  canonical x ->
  exists vs, Forall (fun t => base t <> lit "1" /\ coef t = 1%Qc /\ expo t <> 0%Qc) vs
    /\ NoDup (map base vs) /\ StronglySorted before vs
    /\ x = (match vs with
            | [] => [mkTerm (total_coef x) (lit "1") 1]
            | _ => if Qc_eqb (total_coef x) 1 then vs
                   else mkTerm (total_coef x) (lit "1") 1 :: vs
            end)
    /\ (forall b, b <> lit "1" -> total_expo b vs = total_expo b x).
Proof.
  intros [consts [vs [Ex [Nx [C [F [N S]]]]]]].
  assert (total_coef vs = 1%Qc) as Ev.
  { clear - F. induction F as [|t l [_ [E _]] F IH]; auto.
    rewrite total_coef_cons, E, IH. ring. }
  exists vs. repeat (split; [assumption|]). destruct C as [->|[c [-> [Bc [Ec Hc]]]]].
  - simpl in Ex. subst x. rewrite Ev, Qc_eqb_refl. split; auto. destruct vs; congruence.
  - subst x. cbn [app]. rewrite total_coef_cons, Ev.
    replace (coef c * 1)%Qc with (coef c) by ring.
    assert (c = mkTerm (coef c) (lit "1") 1) as Ecc by (destruct c; simpl in *; subst; auto).
    split.
    + destruct vs as [|v vs]; [congruence|].
      destruct (Qc_eqb_spec (coef c) 1) as [E1|]; [|congruence].
      now apply Hc in E1.
    + intros b Hb. rewrite total_expo_cons, Bc, str_eqb_neq by auto. ring.
Qed.

Lemma canonical_unique x y : canonical x -> canonical y -> same_monomial x y -> x = y.
Proof.
  intros Cx Cy [Ec Ee].
  destruct (canonical_parts x Cx) as [vs [Fv [Nv [Sv [Ex Tx]]]]].
  destruct (canonical_parts y Cy) as [ws [Fw [Nw [Sw [Ey Ty]]]]].
  assert (forall b, b <> lit "1" -> total_expo b vs = total_expo b ws) as Evw.
  { intros b Hb. now rewrite Tx, Ty, Ee. }
  assert (vs = ws) as ->.
  { apply (sorted_perm_eq before); auto.
    - intros a b H1 H2. destruct (before_asym _ _ H1 H2).
    - apply NoDup_Permutation; auto using NoDup_base.
      intro t. split; apply vars_incl; auto. intros b Hb. symmetry. auto. }
  rewrite Ex, Ey, Ec. reflexivity.
Qed.

Lemma same_monomial_sym x y : same_monomial x y -> same_monomial y x.
Proof. intros [H1 H2]; split; auto. intros; symmetry; auto. Qed.

Lemma same_monomial_trans x y z :
  same_monomial x y -> same_monomial y z -> same_monomial x z.
Proof. intros [H1 H2] [H3 H4]; split; [congruence|]. intros; rewrite H2; auto. Qed.

Lemma same_monomial_refl x : same_monomial x x.
Proof. split; auto. Qed.

Lemma same_monomial_app a b c d :
  same_monomial a b -> same_monomial c d -> same_monomial (a ++ c) (b ++ d).
Proof.
  intros [H1 H2] [H3 H4]; split.
  - rewrite !total_coef_app. congruence.
  - intros. rewrite !total_expo_app, H2, H4; auto.
Qed.

Lemma same_monomial_perm x y : Permutation x y -> same_monomial x y.
Proof.
  intro P. split; [now apply total_coef_perm|]. intros; now apply total_expo_perm.
Qed.

Lemma reduce_unique xs ys x y :
  Forall wf xs -> Forall wf ys -> reduce xs = Ok x -> reduce ys = Ok y ->
  (x = y <-> same_monomial xs ys).
Proof.
  intros Wx Wy Rx Ry.
  assert (Sx := reduce_same _ _ Wx Rx). assert (Sy := reduce_same _ _ Wy Ry). split.
  - intros ->. eauto using same_monomial_trans, same_monomial_sym.
  - intro E. apply canonical_unique; eauto using reduce_canonical.
    eauto using same_monomial_trans, same_monomial_sym.
Qed.
