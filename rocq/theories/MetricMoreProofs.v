(** Lemmas about products of units, the names of units and the instance cache. *)

From Coq Require Import String Ascii List Bool ZArith QArith Qcanon Relations Permutation Lia.
From Verif Require Import Py PyFacts PyDict SymbolicModel SymbolicSpec SymbolicExprProofs.
From Verif Require Import AliasedModel AliasedSpec AliasedProofs.
From Verif Require Import IterablesModel IterablesMoreProofs MetricTables MetricModel MetricSpec MetricProofs.
Import ListNotations.
Open Scope list_scope.
Open Scope nat_scope.
Open Scope py_scope.

(** * Products of units *)

Section Resolve.
Variable F : flops.
Variable named : str -> option named_unit.
Variable canonical : list canonical_row.
Variable l : list (edge * weight).
Notation conns := (connect l).
Variable nodes : list str.
Variable size : str -> Qc.
Hypothesis Hz : sizes named conns size.
Variable T : list term.
Hypothesis Ex : exact_on F T.
Hypothesis Int : integral T.
Hypothesis Hd : forall t n d, In t T -> named (base t) = Some n -> dimensions F named canonical n = Ok d ->
  (forall one, expression_of_str F false (lit "1") = Ok one -> expr_eqb F (fst d) one = true /\ expr_eqb F (snd d) one = true) ->
  size (base t) = 1%Qc.

Lemma eqb_T s t : In s T -> In t T -> term_eqb F s t = true <-> s = t.
Proof.
  intros S U. split; [|intros ->; apply term_eqb_refl]. destruct (Ex s t S U). now apply term_eqb_eq.
Qed.

Lemma remove_perm t L : incl L T -> In t T -> In t L -> Permutation L (t :: remove_term F t L).
Proof.
  intros I Tt J. induction L as [|x L IH]; [contradiction|]. simpl.
  destruct (term_eqb F x t) eqn:E.
  - apply eqb_T in E; auto; [subst; reflexivity|]. apply I. now left.
  - destruct J as [->|J]; [rewrite term_eqb_refl in E; discriminate|].
    rewrite perm_swap. constructor. apply IH; auto. intros y Hy. apply I. now right.
Qed.

Lemma size_of_perm a b : Permutation a b -> size_of size a = size_of size b.
Proof.
  unfold size_of. induction 1; simpl; auto; try congruence. unfold prodQc in *. simpl. ring.
Qed.

Lemma size_of_cons t ts : size_of size (t :: ts) = (Qc_zpow (size (base t)) (Qc_num (expo t)) * size_of size ts)%Qc.
Proof. reflexivity. Qed.

Lemma integral_num t : In t T -> expo t = Qc_of_Z (Qc_num (expo t)).
Proof. intro I. unfold integral in Int. rewrite Forall_forall in Int. destruct (Int t I) as [z ->]. now rewrite Qc_num_of_Z. Qed.

Lemma frac_pow_nz c e p : c <> 0%Qc -> (exists z, e = Qc_of_Z z) -> frac_pow F c e = Ok p -> p = Qc_zpow c (Qc_num e).
Proof.
  intros Z [z ->]. unfold frac_pow. rewrite (Qc_eqb_neq c 0) by auto. simpl. rewrite Qc_is_int_of_Z. intro H. injection H as <-. auto.
Qed.

Lemma try_like_sound tgt L : forall ch p t ch', In tgt T -> incl L T ->
  Forall (fun t => expo t = (- expo tgt)%Qc) L ->
  try_like F named conns nodes ch (base tgt) (expo tgt) L = (Ok (Some (p, t)), ch') ->
  In t L /\ p = (Qc_zpow (size (base tgt)) (Qc_num (expo tgt)) * Qc_zpow (size (base t)) (Qc_num (expo t)))%Qc.
Proof.
  induction L as [|u L IH]; intros ch p t ch' Tt I O; [discriminate|]. cbn [try_like].
  inversion O as [|? ? O1 O2]; subst.
  destruct (convert_strings named conns nodes (search_fuel nodes) ch (base tgt) (base u)) as [[[c|]|e] c2] eqn:C; [| |discriminate].
  - apply conv_derives in C as [C Z]. destruct (frac_pow F c (expo tgt)) as [q|e] eqn:P; cbn [bind]; [|discriminate].
    intro H. injection H as <- <- _. split; [now left|].
    apply frac_pow_nz in P; auto. 2:{ exists (Qc_num (expo tgt)). now apply integral_num. }
    rewrite P, O1. rewrite (derives_size _ _ _ _ _ _ Hz C). rewrite (integral_num tgt Tt).
    rewrite <- Qc_of_Z_opp, !Qc_num_of_Z. rewrite Qc_zpow_mul.
    assert (size (base u) <> 0%Qc) as Nu by apply Hz.
    rewrite <- Qcmult_assoc, <- Qc_zpow_add by auto. replace (Qc_num (expo tgt) + - Qc_num (expo tgt))%Z with 0%Z by lia.
    rewrite Qc_zpow_0. ring.
  - intro H. destruct (IH c2 p t ch') as [J E]; auto. { intros x Hx. apply I. now right. } split; auto. now right.
Qed.

Lemma match_terms_sound ch tgt L p t ch' : In tgt T -> incl L T ->
  match_terms F named canonical conns nodes ch tgt L = (Ok (Some (p, t)), ch') ->
  (t = tgt /\ p = Qc_zpow (size (base tgt)) (Qc_num (expo tgt)))
  \/ (t <> tgt /\ In t L
      /\ p = (Qc_zpow (size (base tgt)) (Qc_num (expo tgt)) * Qc_zpow (size (base t)) (Qc_num (expo t)))%Qc).
Proof.
  intros Tt I. unfold match_terms.
  set (K := filter _ L).
  assert (incl K L /\ Forall (fun t => expo t = (- expo tgt)%Qc) K /\ forall x, In x K -> x <> tgt) as [K1 [K2 K3]].
  { unfold K. split; [|split].
    - intros x H. now apply filter_In in H.
    - apply Forall_forall. intros x H. apply filter_In in H as [_ H]. apply andb_true_iff in H as [_ H].
      now destruct (Qc_eqb_spec (expo x) (- expo tgt)).
    - intros x H ->. apply filter_In in H as [_ H]. rewrite term_eqb_refl in H. discriminate. }
  clearbody K.
  destruct (try_like F named conns nodes ch (base tgt) (expo tgt) K) as [[[[q u]|]|e] c2] eqn:E; [| |discriminate].
  - intro H. injection H as -> -> _. right. apply try_like_sound in E as [E1 E2]; auto.
    intros x Hx. apply I. now apply K1.
  - destruct (named (base tgt)) as [n|] eqn:N; [|discriminate].
    destruct (dimensions F named canonical n) as [d|e] eqn:D; [|discriminate].
    destruct (expression_of_str F false (lit "1")) as [one|e] eqn:O; cbn [bind]; [|discriminate].
    destruct (expr_eqb F (fst d) one && expr_eqb F (snd d) one) eqn:B; [|discriminate].
    intro H. injection H as <- <- _. left. split; auto.
    apply andb_true_iff in B. rewrite (Hd tgt n d); auto.
    + now rewrite Qc_zpow_1_l.
    + intros one' H. congruence.
Qed.

Lemma resolve_go_sound L : forall ch matched unmatched factor f rest ch',
  incl L T -> incl matched T -> incl unmatched T ->
  (forall x, In x L -> ~ In x matched -> In x unmatched) ->
  resolve_go F named canonical conns nodes ch L matched unmatched factor = (Ok (f, rest), ch') ->
  (factor * size_of size unmatched = f * size_of size rest)%Qc.
Proof.
  induction L as [|t L IH]; intros ch matched unmatched factor f rest ch' IL IM IU P.
  - simpl. intro H. injection H as <- <- _. auto.
  - cbn [resolve_go].
    assert (incl L T) as IL' by (intros x H; apply IL; now right).
    assert (In t T) as Tt by (apply IL; now left).
    assert (forall x, In x L -> ~ In x matched -> In x unmatched) as P' by (intros x H; apply P; now right).
    destruct (existsb (fun m => term_eqb F m t) matched) eqn:M.
    { now apply IH. }
    assert (~ In t matched) as Nm.
    { intro J. assert (existsb (fun m => term_eqb F m t) matched = true); [|congruence].
      apply existsb_exists. exists t. split; auto. apply term_eqb_refl. }
    assert (In t unmatched) as U by (apply P; auto; now left).
    destruct (match_terms F named canonical conns nodes ch t unmatched) as [[[[value u]|]|e] c2] eqn:E; [| |discriminate].
    2:{ now apply IH. }
    apply match_terms_sound in E; auto.
    assert (Permutation unmatched (t :: remove_term F t unmatched)) as Pm by (now apply remove_perm).
    assert (incl (remove_term F t unmatched) T) as Ir.
    { intros x H. apply IU. apply (Permutation_in x (Permutation_sym Pm)). now right. }
    destruct E as [[-> Ev]|[Nu [Iu Ev]]].
    + rewrite term_eqb_refl. intro H. apply IH in H; auto.
      * rewrite <- H. rewrite (size_of_perm _ _ Pm), size_of_cons, Ev. ring.
      * intros x J. apply in_app_iff in J as [J|[<-|[]]]; auto.
      * intros x J K. assert (x <> t) by (intros ->; apply K, in_app_iff; right; now left).
        assert (In x unmatched) as Ux by (apply P'; auto; intro Q; apply K, in_app_iff; auto).
        apply (Permutation_in x Pm) in Ux as [->|Ux]; [contradiction|auto].
    + assert (In u T) as Tu by auto.
      destruct (term_eqb F u t) eqn:B; [apply eqb_T in B; auto; contradiction|].
      assert (In u (remove_term F t unmatched)) as Ju.
      { apply (Permutation_in u Pm) in Iu as [->|Iu]; [contradiction|auto]. }
      assert (Permutation (remove_term F t unmatched) (u :: remove_term F u (remove_term F t unmatched))) as Pm2
        by (now apply remove_perm).
      intro H. apply IH in H; auto.
      * rewrite <- H. rewrite (size_of_perm _ _ Pm), size_of_cons, (size_of_perm _ _ Pm2), size_of_cons, Ev. ring.
      * intros x J. apply in_app_iff in J as [J|[<-|[<-|[]]]]; auto.
      * intros x J. apply Ir. apply (Permutation_in x (Permutation_sym Pm2)). now right.
      * intros x J K. assert (x <> t) by (intros ->; apply K, in_app_iff; right; now left).
        assert (x <> u) by (intros ->; apply K, in_app_iff; right; right; now left).
        assert (In x unmatched) as Ux by (apply P'; auto; intro Q; apply K, in_app_iff; auto).
        apply (Permutation_in x Pm) in Ux as [->|Ux]; [contradiction|].
        apply (Permutation_in x Pm2) in Ux as [->|Ux]; [contradiction|auto].
Qed.

Lemma resolve_terms_sound ch f : fst (resolve_terms F named canonical conns nodes ch T) = Ok (Some f) -> f = size_of size T.
Proof.
  unfold resolve_terms. destruct (Nat.leb (length T) 1); [discriminate|].
  destruct (resolve_go F named canonical conns nodes ch T [] T 1%Qc) as [[[g [|x r]]|e] c2] eqn:E; try discriminate.
  cbn [fst]. intro H. injection H as <-. apply resolve_go_sound in E; auto using incl_refl.
  - unfold size_of in E at 2. simpl in E. rewrite Qcmult_1_l, Qcmult_1_r in E. auto.
  - intros x [].
Qed.

End Resolve.

(** * Names of units *)

Lemma nodup_set_order : set_order (nodup str_eq_dec).
Proof. intro x. split; [apply NoDup_nodup|]. intro a. apply nodup_In. Qed.

Definition pairs (ps : list prefix) (us : list base_unit) : list (prefix * base_unit) :=
  flat_map (fun p => map (fun u => (p, u)) us) ps.

Lemma in_pairs ps us p u : In (p, u) (pairs ps us) <-> In p ps /\ In u us.
Proof.
  unfold pairs. rewrite in_flat_map. split.
  - intros [q [I J]]. apply in_map_iff in J as [v [E J]]. injection E as <- <-. auto.
  - intros [I J]. exists p. split; auto. apply in_map_iff. eauto.
Qed.

Lemma unit_table_pairs ps us : unit_table ps us =
  mapping (nodup str_eq_dec) (map (fun pu => (Many (build_unit_aliases (fst pu) (snd pu)), mkNamed (fst pu) (snd pu))) (pairs ps us)).
Proof.
  unfold unit_table, pairs. f_equal. induction ps as [|p ps IH]; simpl; auto.
  rewrite map_app, map_map. simpl. now rewrite IH.
Qed.

Lemma identify_table ps us s p u :
  disjoint (map (fun pu => build_unit_aliases (fst pu) (snd pu)) (pairs ps us)) ->
  In p ps -> In u us -> In s (build_unit_aliases p u) ->
  identify (unit_table ps us) s = Some (mkNamed p u).
Proof.
  intros D P U S. unfold identify. rewrite unit_table_pairs.
  destruct (@mapping_get (nodup str_eq_dec) nodup_set_order named_unit
    (map (fun pu => (Many (build_unit_aliases (fst pu) (snd pu)), mkNamed (fst pu) (snd pu))) (pairs ps us))) as [G _].
  - rewrite map_map. exact D.
  - apply Forall_forall. intros x I. apply in_map_iff in I as [pu [<- I]]. simpl. discriminate.
  - rewrite (G (Many (build_unit_aliases p u)) (mkNamed p u) s); auto.
    apply in_map_iff. exists (p, u). split; auto. now apply in_pairs.
Qed.

(** Without any hypothesis on the tables: a known name comes from the tables. *)
Lemma dset_In_or {V} (d : @gdict V) g v h w : In (h, w) (dset d g v) -> In (h, w) d \/ (h = g /\ w = v).
Proof.
  induction d as [|[k x] d IH]; simpl.
  - intros [E|[]]. injection E as <- <-. auto.
  - destruct (gmatch g k) eqn:E; simpl.
    + apply gmatch_eq in E. subst k. intros [H|H]; [injection H as <- <-|]; auto.
    + intros [H|H]; auto. apply IH in H as [H|H]; auto.
Qed.

Lemma build_sound {V} mk (L : list (key * V)) (P : group -> V -> Prop) :
  (forall k v, In (k, v) L -> exists l, k = Many l /\ P (mk l) v) ->
  forall g v, In (g, v) (build_from_aliases mk L) -> P g v.
Proof.
  unfold build_from_aliases. intro H.
  assert (forall d, (forall g v, In (g, v) d -> P g v) -> forall g v, In (g, v) (fold_left (build_step mk) L d) -> P g v) as G.
  { induction L as [|[k v] L IH]; intros d Hd; simpl; auto. apply IH.
    - intros k' v' I. apply H. now right.
    - intros g w I. destruct (H k v) as [m [-> Pm]]; [now left|]. simpl in I. unfold group_of in I. cbn [members] in I.
      apply dset_In_or in I as [I|[-> ->]]; auto. }
  apply G. intros g v [].
Qed.

Lemma getitem_in {V} (d : @gdict V) a v : getitem (of_dict d) a = Ok v -> exists g, In (g, v) d /\ In a g.
Proof.
  unfold getitem, resolve_key. simpl. destruct (flat_get (flat_of d) a) as [g|] eqn:E; [|discriminate].
  apply flat_get_In in E. apply flat_of_In in E as [w [I J]]. unfold truthy. destruct g as [|b g]; [contradiction|].
  assert (forall h, dget d h = Some v -> In (h, v) d) as D.
  { clear. intros h. induction d as [|[k x] d IH]; simpl; [discriminate|]. destruct (gmatch h k) eqn:E.
    - intro H. injection H as ->. apply gmatch_eq in E. subst. now left.
    - intro H. right. auto. }
  destruct (dget d (b :: g)) as [x|] eqn:G; [|discriminate]. intro H. injection H as ->. exists (b :: g). auto.
Qed.

Lemma identify_sound ps us s n : identify (unit_table ps us) s = Some n ->
  In (n_prefix n) ps /\ In (n_base n) us /\ In s (build_unit_aliases (n_prefix n) (n_base n)).
Proof.
  unfold identify. rewrite unit_table_pairs. destruct (getitem _ s) as [m|e] eqn:E; [|discriminate].
  intro H. injection H as ->. unfold mapping in E. apply getitem_in in E as [g [I J]].
  assert (In (n_prefix n) ps /\ In (n_base n) us /\ incl g (build_unit_aliases (n_prefix n) (n_base n))) as [A [B C]].
  { revert I. apply (build_sound (nodup str_eq_dec) _ (fun g n => In (n_prefix n) ps /\ In (n_base n) us /\ incl g (build_unit_aliases (n_prefix n) (n_base n)))).
    intros k v I. apply in_map_iff in I as [[p u] [E I]]. injection E as <- <-. exists (build_unit_aliases p u). split; auto.
    cbn [n_prefix n_base fst snd]. apply in_pairs in I as [I1 I2]. split; auto. split; auto. intros x Hx. now apply nodup_In in Hx. }
  auto.
Qed.

Lemma aliases_named p u s : In s (build_unit_aliases p u) <-> goes_by p u s.
Proof.
  unfold build_unit_aliases, p_name_text. rewrite in_app_iff. split.
  - intros [[<-|[<-|[]]]|H].
    + destruct (p_name p) eqn:E; [now apply by_name|now apply without_name].
    + constructor.
    + destruct (str_eqb_spec (p_symbol p) (lit "μ")); [|destruct H]. destruct H as [<-|[]]. now apply by_letter.
  - intros [n E|E| |E].
    + left. left. now rewrite E.
    + left. left. now rewrite E.
    + left. right. now left.
    + right. rewrite E, str_eqb_refl. now left.
Qed.
Lemma pairs_prod ps us : pairs ps us = list_prod ps us.
Proof. unfold pairs. induction ps as [|p ps IH]; [reflexivity|]. cbn [flat_map list_prod]. now rewrite IH. Qed.
Lemma separate_disjoint ps us : separate ps us -> disjoint (map (fun pu => build_unit_aliases (fst pu) (snd pu)) (pairs ps us)).
Proof.
  unfold separate, disjoint. rewrite pairs_prod. induction 1 as [|a l H _ IH]; [constructor|]. cbn [map]. constructor; [|exact IH].
  rewrite Forall_forall in *. intros g I. apply in_map_iff in I as (b & <- & I). intros s. rewrite !aliases_named. now apply H.
Qed.

(** * The instance cache *)

Definition own_names (t : @amap named_unit) : Prop :=
  forall s n, identify t s = Some n -> identify t (n_name n) = Some n /\ identify t (n_symbol n) = Some n.

Definition cache_ok (t : @amap named_unit) (d : @gdict named_unit) : Prop :=
  AliasedProofs.good d /\ forall g n, In (g, n) d -> g = nodup str_eq_dec [n_name n; n_symbol n] /\ identify t (n_name n) = Some n /\ identify t (n_symbol n) = Some n.

Lemma in_names n a : In a (nodup str_eq_dec [n_name n; n_symbol n]) <-> a = n_name n \/ a = n_symbol n.
Proof. rewrite nodup_In. simpl. intuition. Qed.

Lemma cache_answers t d a n : cache_ok t d -> getitem (of_dict d) a = Ok n -> identify t a = Some n.
Proof.
  intros [G H] E. apply getitem_spec in E as [g [I J]]; auto. apply H in I as [-> [E1 E2]].
  apply in_names in J as [->| ->]; auto.
Qed.

Lemma cache_step t d s : own_names t -> cache_ok t d ->
  fst (named_call t (of_dict d) s) = match identify t s with Some n => Ok n | None => Err UnitParsingError end
  /\ exists d', snd (named_call t (of_dict d) s) = of_dict d' /\ cache_ok t d'.
Proof.
  intros O C. unfold named_call. destruct (getitem (of_dict d) s) as [n|e] eqn:E.
  - simpl. rewrite (cache_answers t d s n) by auto. eauto.
  - destruct (identify t s) as [n|] eqn:I; simpl; [|eauto]. split; auto.
    unfold setitem_many. simpl. eexists. split; [reflexivity|]. unfold group_of. cbn [members].
    destruct (O s n I) as [O1 O2]. destruct C as [G H].
    set (g := nodup str_eq_dec [n_name n; n_symbol n]).
    assert (forall h w a, In (h, w) d -> In a g -> In a h -> w = n) as Same.
    { intros h w a J A B. destruct (H h w J) as [-> [H1 H2]]. apply in_names in A. apply in_names in B.
      assert (identify t a = Some n) by (destruct A as [->| ->]; auto).
      assert (identify t a = Some w) by (destruct B as [->| ->]; auto). congruence. }
    destruct (in_dec (list_eq_dec str_eq_dec) g (map fst d)) as [J|J].
    + split; [now apply good_dset_old|]. intros h w K. apply dset_In_old in K; auto.
      2:{ apply in_map_iff in J as [[k x] [E1 E2]]. simpl in E1. subst. eauto. }
      destruct K as [[-> ->]|[_ K]]; auto.
    + fold g. rewrite dset_new by auto. split.
      * apply good_app; auto; [apply NoDup_nodup| |].
        -- intro N. assert (In (n_name n) g) as K by (apply in_names; auto). rewrite N in K. contradiction.
        -- intros h w a K A B. assert (w = n) by (eapply Same; eauto). subst w. apply J.
           destruct (H h n K) as [-> _]. apply in_map_iff. eexists. split; [|exact K]. reflexivity.
      * intros h w K. apply in_app_iff in K as [K|[K|[]]]; auto. injection K as <- <-. auto.
Qed.

Lemma cache_history t h : own_names t -> forall d, cache_ok t d ->
  exists d', named_calls t (of_dict d) h = of_dict d' /\ cache_ok t d'.
Proof.
  intro O. induction h as [|s h IH]; intros d C; simpl; eauto.
  destruct (cache_step t d s O C) as [_ [d' [-> C']]]. auto.
Qed.

Lemma cache_stable t h s : own_names t ->
  fst (named_call t (named_calls t (of_dict []) h) s)
  = match identify t s with Some n => Ok n | None => Err UnitParsingError end.
Proof.
  intro O. destruct (cache_history t h O []) as [d [-> C]].
  { split; [apply good_nil|intros g n []]. }
  now apply cache_step.
Qed.
