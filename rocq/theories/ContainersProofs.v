(** Proofs about further containers. *)

From Coq Require Import String Ascii List Bool ZArith NArith Lia.
From Verif Require Import Py PyFacts PyDict IterablesModel IterablesSpec IterablesProofs IterablesMoreProofs ContainersModel ContainersSpec.
Import ListNotations.
Open Scope list_scope.
Open Scope nat_scope.

(** * Singletons *)

Section Singleton.
Context {C : Type}.
Variable ceq : C -> C -> bool.
Variable mro : C -> list C.
Hypothesis ceq_spec : forall a b, reflect (a = b) (ceq a b).

Lemma inherited_app own a b : inherited ceq own (a ++ b) = match inherited ceq own a with Some o => Some o | None => inherited ceq own b end.
Proof. induction a as [|c a IH]; [reflexivity|]. cbn. destruct (d_get ceq own c); auto. Qed.
Lemma inherited_other own d o l : ~ In d l -> inherited ceq (d_set ceq own d o) l = inherited ceq own l.
Proof.
  induction l as [|c l IH]; intro N; [reflexivity|]. cbn. rewrite (d_get_set_other ceq ceq_spec); [|intros ->; apply N; now left].
  rewrite IH; [reflexivity|]. intro K. apply N. now right.
Qed.

Section Single.
Hypothesis single : single_inheritance mro.
Lemma mro_head c : exists l, mro c = c :: l.
Proof. destruct (single c) as [H|[p H]]; eauto. Qed.
Lemma mro_suffix c d : In d (mro c) -> exists pre, mro c = pre ++ mro d /\ ~ In d pre.
Proof.
  remember (length (mro c)) as n eqn:L. revert c L. induction n as [n IH] using lt_wf_ind. intros c L I.
  destruct (ceq_spec c d) as [->|N]; [now exists []|].
  destruct (single c) as [H|[p H]].
  - rewrite H in I. destruct I as [I|[]]. contradiction.
  - rewrite H in I. destruct I as [I|I]; [contradiction|].
    destruct (IH (length (mro p))) with (c := p) as (pre & A & B); auto; [subst n; rewrite H; cbn; lia|].
    exists (c :: pre). split; [now rewrite H, A|]. intros [K|K]; contradiction.
Qed.
Lemma stable s c d o : inherited ceq (s_own s) (mro c) = Some o ->
  inherited ceq (s_own (snd (instantiate ceq mro s d))) (mro c) = Some o.
Proof.
  intro H. unfold instantiate. destruct (inherited ceq (s_own s) (mro d)) as [o'|] eqn:E; [exact H|]. cbn [snd s_own].
  assert (In d (mro c) \/ ~ In d (mro c)) as [I|I].
  { clear - ceq_spec. induction (mro c) as [|x l [IH|IH]]; [now right| |]; [left; now right|].
    destruct (ceq_spec x d) as [->|N]; [left; now left|]. right. intros [K|K]; contradiction. }
  - destruct (mro_suffix c d I) as (pre & A & B). rewrite A, inherited_app in *. rewrite E in H.
    destruct (inherited ceq (s_own s) pre) as [o1|] eqn:Q; [|discriminate]. rewrite (inherited_other _ _ _ _ B), Q. exact H.
  - now rewrite inherited_other.
Qed.
Lemma instantiate_sets s c : inherited ceq (s_own (snd (instantiate ceq mro s c))) (mro c) = Some (fst (instantiate ceq mro s c)).
Proof.
  unfold instantiate. destruct (inherited ceq (s_own s) (mro c)) as [o|] eqn:E; [exact E|]. cbn [snd fst s_own].
  destruct (mro_head c) as [l ->]. cbn. now rewrite (d_get_set_same ceq ceq_spec).
Qed.
Lemma later_same h : forall s c o j x, inherited ceq (s_own s) (mro c) = Some o -> nth_error h j = Some c ->
  nth_error (fst (instantiations ceq mro s h)) j = Some x -> x = o.
Proof.
  induction h as [|d h IH]; intros s c o j x H N E; [now destruct j|]. cbn [instantiations] in E.
  destruct (instantiate ceq mro s d) as [o1 s1] eqn:Q. destruct (instantiations ceq mro s1 h) as [l s2] eqn:Q2. destruct j as [|j]; cbn in N, E.
  - injection N as ->. injection E as ->. unfold instantiate in Q. rewrite H in Q. congruence.
  - apply (IH s1 c o j x); auto.
    + pose proof (stable s c d o H) as K. now rewrite Q in K.
    + now rewrite Q2.
Qed.
Lemma same_object h : forall s i j c x y, i <= j -> nth_error h i = Some c -> nth_error h j = Some c ->
  nth_error (fst (instantiations ceq mro s h)) i = Some x -> nth_error (fst (instantiations ceq mro s h)) j = Some y -> x = y.
Proof.
  induction h as [|d h IH]; intros s i j c x y L Ni Nj Ei Ej; [now destruct i|].
  destruct i as [|i].
  - cbn in Ni. injection Ni as ->. symmetry. destruct j as [|j]; [congruence|].
    cbn [instantiations] in Ei, Ej. pose proof (instantiate_sets s c) as K. destruct (instantiate ceq mro s c) as [o1 s1]. cbn [fst snd] in K.
    destruct (instantiations ceq mro s1 h) as [l s2] eqn:Q2. cbn in Ei, Ej. injection Ei as <-. cbn in Nj.
    apply (later_same h s1 c o1 j y K Nj). now rewrite Q2.
  - destruct j as [|j]; [lia|]. cbn in Ni, Nj. cbn [instantiations] in Ei, Ej. destruct (instantiate ceq mro s d) as [o1 s1].
    destruct (instantiations ceq mro s1 h) as [l s2] eqn:Q2. cbn in Ei, Ej. apply (IH s1 i j c x y); auto; [lia| |]; now rewrite Q2.
Qed.
End Single.

(** The classes with an instance of their own have been called, and their
    object is of that class. *)
Definition ok (s : singles C) (called : list C) : Prop :=
  forall c o, d_get ceq (s_own s) c = Some o -> nth_error (s_made s) o = Some c /\ In c called.
Lemma inherited_in own l o : inherited ceq own l = Some o -> exists d, In d l /\ d_get ceq own d = Some o.
Proof.
  induction l as [|c l IH]; [discriminate|]. cbn. destruct (d_get ceq own c) as [o'|] eqn:E.
  - intro H. injection H as ->. exists c. split; [now left|exact E].
  - intro H. destruct (IH H) as (d & A & B). exists d. split; [now right|exact B].
Qed.
Lemma ok_step s called c : ok s called -> ok (snd (instantiate ceq mro s c)) (c :: called).
Proof.
  intros K d o H. unfold instantiate in *. destruct (inherited ceq (s_own s) (mro c)) as [o'|]; cbn [snd s_own s_made] in *.
  - destruct (K d o H). split; [auto|now right].
  - rewrite (d_get_set ceq ceq_spec) in H. destruct (ceq_spec d c) as [->|N].
    + injection H as <-. split; [|now left]. rewrite nth_error_app2 by lia. now rewrite Nat.sub_diag.
    + destruct (K d o H) as [A B]. split; [|now right]. rewrite nth_error_app1; [exact A|]. apply nth_error_Some. congruence.
Qed.
Lemma made_grows s c n d : nth_error (s_made s) n = Some d -> nth_error (s_made (snd (instantiate ceq mro s c))) n = Some d.
Proof.
  intro H. unfold instantiate. destruct (inherited ceq (s_own s) (mro c)); [exact H|]. cbn. rewrite nth_error_app1; [exact H|]. apply nth_error_Some. congruence.
Qed.
Lemma made_grows_all h : forall s n d, nth_error (s_made s) n = Some d -> nth_error (s_made (snd (instantiations ceq mro s h))) n = Some d.
Proof.
  induction h as [|c h IH]; intros s n d H; [exact H|]. cbn [instantiations]. pose proof (made_grows s c n d H) as K.
  destruct (instantiate ceq mro s c) as [o s1]. cbn [snd] in K. pose proof (IH s1 n d K) as K2. destruct (instantiations ceq mro s1 h) as [l s2]. exact K2.
Qed.
Lemma instance_class h : (forall c, In c (mro c)) -> forall s called i c x, ok s called -> nth_error h i = Some c -> nth_error (fst (instantiations ceq mro s h)) i = Some x ->
  exists d, nth_error (s_made (snd (instantiations ceq mro s h))) x = Some d /\ In d (mro c)
    /\ (d = c \/ In d called \/ exists j, j < i /\ nth_error h j = Some d).
Proof.
  intro refl. induction h as [|c0 h IH]; intros s called i c x K N E; [now destruct i|]. cbn [instantiations] in *.
  pose proof (ok_step s called c0 K) as K1. pose proof (eq_refl (instantiate ceq mro s c0)) as Q. unfold instantiate in Q at 2.
  destruct (instantiate ceq mro s c0) as [o1 s1]. cbn [snd] in K1. pose proof (made_grows_all h s1) as G.
  specialize (IH s1 (c0 :: called)). destruct (instantiations ceq mro s1 h) as [l s2]. cbn [fst snd] in *. destruct i as [|i]; cbn in N, E.
  - injection N as ->. injection E as ->. destruct (inherited ceq (s_own s) (mro c)) as [o'|] eqn:I.
    + injection Q as -> ->. destruct (inherited_in _ _ _ I) as (d & A & B). destruct (K d o' B) as [Md Cd]. exists d. split; [now apply G|]. split; [exact A|]. now right; left.
    + injection Q as -> ->. exists c. split; [|split; [apply refl|now left]]. apply G. cbn. rewrite nth_error_app2 by lia. now rewrite Nat.sub_diag.
  - destruct (IH i c x K1 N E) as (d & A & B & D). exists d. split; [exact A|]. split; [exact B|]. destruct D as [D|[[->|D]|(j & Lj & D)]].
    + now left.
    + right; right. exists 0. split; [lia|reflexivity].
    + now right; left.
    + right; right. exists (S j). split; [lia|exact D].
Qed.
End Singleton.

(** * Uniform mappings *)

Section Uniform.
Context {V O : Type}.
Variable none : V.
Lemma mapM_all {A B} (f : A -> res B) (g : A -> B) l : (forall x, In x l -> f x = Ok (g x)) -> mapM f l = Ok (map g l).
Proof. induction l as [|x l IH]; intro H; [reflexivity|]. cbn. rewrite (H x) by now left. cbn. rewrite IH; [reflexivity|]. intros y I. apply H. now right. Qed.
Lemma get_map (names : list str) (f : str -> V) p : In p names -> d_get str_eqb (map (fun p => (p, f p)) names) p = Some (f p).
Proof.
  induction names as [|q names IH]; intro I; [destruct I|]. cbn. destruct (str_eqb_spec p q) as [->|N]; [reflexivity|].
  apply IH. destruct I as [->|I]; [congruence|exact I].
Qed.
Lemma uniform_value m (ps : @parameters V) (new : list V -> res O) key row : d_get str_eqb m key = Some row ->
  uniform_getitem none m (mkType (Some ps) new) key
  = new (map (fun p => match d_get str_eqb row (fst p) with Some v => v | None => none end) ps).
Proof.
  intro H. unfold uniform_getitem. rewrite H. unfold construct, init_names. cbn [t_params t_new]. unfold bind_keywords.
  set (f := fun p => match d_get str_eqb row p with Some v => v | None => none end).
  change (map _ (map fst ps)) with (map (fun p => (p, f p)) (map fst ps)).
  assert (forallb (fun kv : str * V => existsb (fun p => str_eqb (fst p) (fst kv)) ps) (map (fun p => (p, f p)) (map fst ps)) = true) as ->.
  { apply forallb_forall. intros kv I. apply in_map_iff in I as (p & <- & I). apply in_map_iff in I as ((q, d) & <- & I). apply existsb_exists.
    exists (q, d). split; [exact I|]. cbn. apply str_eqb_refl. }
  rewrite (mapM_all _ (fun p => f (fst p))); [reflexivity|]. intros p I. rewrite get_map; [reflexivity|]. apply in_map. exact I.
Qed.
End Uniform.

(** * Registries *)

Lemma rkey_spec a b : reflect (a = b) (rkey_eqb a b).
Proof. destruct a as [a|], b as [b|]; cbn; try (constructor; congruence). destruct (str_eqb_spec a b); constructor; congruence. Qed.

Section Registries.
Context {X : Type}.
Variable qualname : X -> option str.
Implicit Types w : world X.

Lemma update_nth_same {A} n (x : A) l : n < length l -> nth_error (update_nth n x l) n = Some x.
Proof. revert l. induction n; intros [|y l] L; cbn in *; try lia; auto. apply IHn. lia. Qed.
Lemma update_nth_other {A} n m (x : A) l : m <> n -> nth_error (update_nth n x l) m = nth_error l m.
Proof. revert m l. induction n; intros [|m] [|y l] N; cbn; auto; try congruence. Qed.
Lemma update_nth_length {A} n (x : A) l : length (update_nth n x l) = length l.
Proof. revert l. induction n; intros [|y l]; cbn; auto. Qed.

(** All references are to existing dictionaries. *)
Definition good w : Prop := forall i r, nth_error (w_regs w) i = Some r ->
  Forall (fun kv => snd kv < length (w_heap w)) (g_items r) /\ Forall (fun kv => snd kv < length (w_heap w)) (g_init r).

Lemma wrap_heap okey base : forall heap, exists more, snd (wrap_all (X:=X) okey heap base) = heap ++ more.
Proof.
  induction base as [|[k [x|r]] b IH]; intro heap; cbn.
  - exists []. now rewrite app_nil_r.
  - destruct (IH (heap ++ [[(okey, x)]])) as [m M]. destruct (wrap_all okey (heap ++ [[(okey, x)]]) b) as [l h]. cbn in *. exists ([(okey, x)] :: m). now rewrite M, <- app_assoc.
  - destruct (IH heap) as [m M]. destruct (wrap_all okey heap b) as [l h]. cbn in *. now exists m.
Qed.
Lemma wrap_refs okey base : forall heap, Forall (fun kv => match snd kv with inl _ => True | inr r => r < length heap end) base ->
  Forall (fun kv => snd kv < length (snd (wrap_all (X:=X) okey heap base))) (fst (wrap_all okey heap base)).
Proof.
  induction base as [|[k [x|r]] b IH]; intros heap H; cbn; [constructor| |]; inversion H as [|? ? H1 H2]; subst.
  - specialize (IH (heap ++ [[(okey, x)]])). destruct (wrap_heap okey b (heap ++ [[(okey, x)]])) as [m M].
    destruct (wrap_all okey (heap ++ [[(okey, x)]]) b) as [l h]. cbn in *. constructor; [cbn; rewrite M, !app_length; cbn; lia|]. apply IH.
    eapply Forall_impl; [|exact H2]. intros [k' [x'|r']] Q; cbn in *; auto. rewrite app_length. lia.
  - specialize (IH heap H2). destruct (wrap_heap okey b heap) as [m M]. destruct (wrap_all okey heap b) as [l h]. cbn in *. constructor; [cbn; rewrite M, app_length; lia|exact IH].
Qed.
Lemma wrap_inr okey heap (l : list (rkey * nat)) : wrap_all (X:=X) okey heap (map (fun kv => (fst kv, inr (snd kv))) l) = (l, heap).
Proof. induction l as [|[k r] l IH]; [reflexivity|]. cbn. now rewrite IH. Qed.

Lemma good_new w base okey : good w -> Forall (fun kv => match snd kv with inl _ => True | inr r => r < length (w_heap w) end) base ->
  good (new_registry w base okey).
Proof.
  intros G F. unfold new_registry. destruct (wrap_heap okey base (w_heap w)) as [m M]. pose proof (wrap_refs okey base (w_heap w) F) as R.
  destruct (wrap_all okey (w_heap w) base) as [l h]. cbn [fst snd] in *. subst h. intros i r H. cbn [w_regs w_heap] in *.
  destruct (Nat.lt_ge_cases i (length (w_regs w))) as [L|L].
  - rewrite nth_error_app1 in H by exact L. destruct (G i r H) as [A B]. split; eapply Forall_impl; try eassumption; cbn; intros; rewrite app_length; lia.
  - rewrite nth_error_app2 in H by exact L. destruct (i - length (w_regs w)) as [|n]; [|now destruct n]. cbn in H. injection H as <-. now split.
Qed.
Lemma d_set_Forall {K V} (keq : K -> K -> bool) (P : K * V -> Prop) d k v : Forall P d -> P (k, v) -> (forall j, keq k j = true -> P (j, v)) -> Forall P (d_set keq d k v).
Proof.
  intros F Pk Pj. induction F as [|[j u] d H F IH]; cbn; [now repeat constructor|]. destruct (keq k j) eqn:E; constructor; auto.
Qed.
Lemma good_step w a : good w -> good (gact qualname w a).
Proof.
  intro G. destruct a as [b k|i o u ow m|i|i|i k n x]; cbn [gact].
  - apply good_new; [exact G|]. apply Forall_forall. intros kv I. apply in_map_iff in I as (p & <- & I). exact Logic.I.
  - unfold register_entry. destruct (nth_error (w_regs w) i) as [r|] eqn:E; [|exact G]. destruct (entry_key qualname r o u ow) as [k n].
    destruct (G i r E) as [A B]. intros j r' H. cbn [w_regs w_heap] in *. rewrite app_length. cbn [length].
    destruct (Nat.eq_dec j i) as [->|N].
    + rewrite update_nth_same in H by (apply nth_error_Some; congruence). injection H as <-. cbn [g_items g_init]. split.
      * apply d_set_Forall; [eapply Forall_impl; [|exact A]; cbn; intros; lia|cbn; lia|cbn; intros; lia].
      * eapply Forall_impl; [|exact B]. cbn. intros. lia.
    + rewrite update_nth_other in H by exact N. destruct (G j r' H) as [A' B']. split; eapply Forall_impl; try eassumption; cbn; intros; lia.
  - unfold reset. destruct (nth_error (w_regs w) i) as [r|] eqn:E; [|exact G]. destruct (G i r E) as [A B]. intros j r' H. cbn [w_regs w_heap] in *.
    destruct (Nat.eq_dec j i) as [->|N].
    + rewrite update_nth_same in H by (apply nth_error_Some; congruence). injection H as <-. now split.
    + rewrite update_nth_other in H by exact N. exact (G j r' H).
  - unfold copy_registry. destruct (nth_error (w_regs w) i) as [r|] eqn:E; [|exact G]. apply good_new; [exact G|]. destruct (G i r E) as [A _].
    apply Forall_forall. intros kv I. apply in_map_iff in I as (p & <- & I). cbn. rewrite Forall_forall in A. exact (A p I).
  - unfold annotate. destruct (nth_error (w_regs w) i) as [r|] eqn:E; [|exact G]. destruct (d_get rkey_eqb (g_items r) k) as [a|]; [|exact G].
    destruct (nth_error (w_heap w) a) as [d|]; [|exact G]. intros j r' H. cbn [w_regs w_heap] in *. rewrite update_nth_length. exact (G j r' H).
Qed.
Lemma good_after h : forall w, good w -> good (gafter qualname w h).
Proof. induction h as [|a h IH]; intros w G; [exact G|]. cbn. apply IH. now apply good_step. Qed.
Lemma good_none : good no_registry.
Proof. intros [|i] r H; discriminate H. Qed.

(** Actions other than changes in place only add dictionaries. *)
Lemma heap_grows w a : ~ in_place a -> exists more, w_heap (gact qualname w a) = w_heap w ++ more.
Proof.
  intro N. destruct a as [b k|i o u ow m|i|i|i k n x]; cbn [gact].
  - unfold new_registry. destruct (wrap_heap k (map (fun kv : rkey * X => (fst kv, inl (snd kv))) b) (w_heap w)) as [m M].
    destruct (wrap_all k (w_heap w) _) as [l h]. now exists m.
  - unfold register_entry. destruct (nth_error (w_regs w) i) as [r|]; [|exists []; now rewrite app_nil_r]. destruct (entry_key qualname r o u ow). now eexists.
  - exists []. unfold reset. destruct (nth_error (w_regs w) i); now rewrite app_nil_r.
  - unfold copy_registry. destruct (nth_error (w_regs w) i) as [r|]; [|exists []; now rewrite app_nil_r]. unfold new_registry. rewrite wrap_inr. exists []. cbn. now rewrite app_nil_r.
  - exfalso. apply N. now exists i, k, n, x.
Qed.
(** Registries that an action is not about keep their dictionaries. *)
Lemma others_kept w a j : ~ acts_on a j -> j < length (w_regs w) -> nth_error (w_regs (gact qualname w a)) j = nth_error (w_regs w) j.
Proof.
  intros N L. destruct a as [b k|i o u ow m|i|i|i k n x]; cbn [gact acts_on] in *.
  - unfold new_registry. destruct (wrap_all k (w_heap w) _) as [l h]. cbn. now rewrite nth_error_app1.
  - unfold register_entry. destruct (nth_error (w_regs w) i) as [r|]; [|reflexivity]. destruct (entry_key qualname r o u ow). cbn. apply update_nth_other. congruence.
  - unfold reset. destruct (nth_error (w_regs w) i) as [r|]; [|reflexivity]. cbn. apply update_nth_other. congruence.
  - unfold copy_registry. destruct (nth_error (w_regs w) i) as [r|]; [|reflexivity]. unfold new_registry. rewrite wrap_inr. cbn. now rewrite nth_error_app1.
  - unfold annotate. destruct (nth_error (w_regs w) i) as [r|]; [|reflexivity]. destruct (d_get rkey_eqb (g_items r) k) as [a|]; [|reflexivity].
    now destruct (nth_error (w_heap w) a).
Qed.
Lemma regs_grow w a : length (w_regs w) <= length (w_regs (gact qualname w a)).
Proof.
  destruct a as [b k|i o u ow m|i|i|i k n x]; cbn [gact].
  - unfold new_registry. destruct (wrap_all k (w_heap w) _) as [l h]. cbn. rewrite app_length. lia.
  - unfold register_entry. destruct (nth_error (w_regs w) i) as [r|]; [|lia]. destruct (entry_key qualname r o u ow). cbn. rewrite update_nth_length. lia.
  - unfold reset. destruct (nth_error (w_regs w) i) as [r|]; [|lia]. cbn. rewrite update_nth_length. lia.
  - unfold copy_registry. destruct (nth_error (w_regs w) i) as [r|]; [|lia]. unfold new_registry. rewrite wrap_inr. cbn. rewrite app_length. lia.
  - unfold annotate. destruct (nth_error (w_regs w) i) as [r|]; [|lia]. destruct (d_get rkey_eqb (g_items r) k) as [a|]; [|lia]. destruct (nth_error (w_heap w) a); cbn; lia.
Qed.
Lemma d_get_bound (l : list (rkey * nat)) n k a : Forall (fun kv => snd kv < n) l -> d_get rkey_eqb l k = Some a -> a < n.
Proof. intros F H. apply (d_get_in rkey_eqb rkey_spec) in H. rewrite Forall_forall in F. exact (F _ H). Qed.
Lemma lookup_kept w a j k : good w -> ~ in_place a -> ~ acts_on a j -> j < length (w_regs w) -> lookup (gact qualname w a) j k = lookup w j k.
Proof.
  intros G NI NA L. unfold lookup. rewrite others_kept by auto. destruct (nth_error (w_regs w) j) as [r|] eqn:E; [|reflexivity].
  destruct (d_get rkey_eqb (g_items r) k) as [x|] eqn:D; [|reflexivity]. destruct (heap_grows w a NI) as [m ->]. apply nth_error_app1.
  destruct (G j r E) as [A _]. exact (d_get_bound _ _ _ _ A D).
Qed.
Lemma lookup_kept_all h : forall w j k, good w -> (forall a, In a h -> ~ in_place a /\ ~ acts_on a j) -> j < length (w_regs w) ->
  lookup (gafter qualname w h) j k = lookup w j k.
Proof.
  induction h as [|a h IH]; intros w j k G H L; [reflexivity|]. change (gafter qualname w (a :: h)) with (gafter qualname (gact qualname w a) h). destruct (H a) as [H1 H2]; [now left|]. rewrite IH.
  - now apply lookup_kept.
  - now apply good_step.
  - intros b I. apply H. now right.
  - pose proof (regs_grow w a). lia.
Qed.

(** The items that [reset] restores never change. *)
Lemma init_kept w a j r : nth_error (w_regs w) j = Some r -> exists r', nth_error (w_regs (gact qualname w a)) j = Some r' /\ g_init r' = g_init r.
Proof.
  intro E. assert (j < length (w_regs w)) as L by (apply nth_error_Some; congruence).
  assert (acts_on a j \/ ~ acts_on a j) as [A|A] by (destruct a; cbn; try tauto; destruct (Nat.eq_dec i j); tauto).
  - destruct a as [b k|i o u ow m|i|i|i k n x]; cbn [gact acts_on] in *; try contradiction; subst i.
    + unfold register_entry. rewrite E. destruct (entry_key qualname r o u ow). cbn. rewrite update_nth_same by exact L. eexists. split; [reflexivity|reflexivity].
    + unfold reset. rewrite E. cbn. rewrite update_nth_same by exact L. eexists. split; [reflexivity|reflexivity].
    + unfold annotate. rewrite E. destruct (d_get rkey_eqb (g_items r) k) as [a|]; [|eauto]. destruct (nth_error (w_heap w) a); eauto.
  - rewrite others_kept by auto. eauto.
Qed.
Lemma init_kept_all h : forall w j r, nth_error (w_regs w) j = Some r -> exists r', nth_error (w_regs (gafter qualname w h)) j = Some r' /\ g_init r' = g_init r.
Proof.
  induction h as [|a h IH]; intros w j r E; [now exists r|]. cbn. destruct (init_kept w a j r E) as (r1 & E1 & I1).
  destruct (IH _ j r1 E1) as (r2 & E2 & I2). exists r2. split; [exact E2|]. congruence.
Qed.
Lemma heap_grows_all h : forall w, (forall a, In a h -> ~ in_place a) -> exists more, w_heap (gafter qualname w h) = w_heap w ++ more.
Proof.
  induction h as [|a h IH]; intros w H; [exists []; now rewrite app_nil_r|]. change (gafter qualname w (a :: h)) with (gafter qualname (gact qualname w a) h). destruct (heap_grows w a) as [m M]; [apply H; now left|].
  destruct (IH (gact qualname w a)) as [m2 M2]; [intros b I; apply H; now right|]. exists (m ++ m2). now rewrite M2, M, app_assoc.
Qed.
Lemma reset_restores w j r h k : good w -> nth_error (w_regs w) j = Some r -> g_init r = g_items r -> (forall a, In a h -> ~ in_place a) ->
  lookup (reset (gafter qualname w h) j) j k = lookup w j k.
Proof.
  intros G E I H. destruct (init_kept_all h w j r E) as (r' & E' & I'). unfold reset. rewrite E'. unfold lookup. cbn [w_regs w_heap].
  rewrite update_nth_same by (apply nth_error_Some; congruence). cbn [g_items]. rewrite E, I', I. destruct (d_get rkey_eqb (g_items r) k) as [a|] eqn:D; [|reflexivity].
  destruct (heap_grows_all h w H) as [m ->]. apply nth_error_app1. destruct (G j r E) as [A _]. exact (d_get_bound _ _ _ _ A D).
Qed.
Lemma copy_ok w i r k : nth_error (w_regs w) i = Some r ->
  lookup (copy_registry w i) (length (w_regs w)) k = lookup w i k
  /\ length (w_regs (copy_registry w i)) = S (length (w_regs w))
  /\ exists r', nth_error (w_regs (copy_registry w i)) (length (w_regs w)) = Some r' /\ g_init r' = g_items r' /\ g_okey r' = g_okey r.
Proof.
  intro E. unfold copy_registry. rewrite E. unfold new_registry. rewrite wrap_inr. unfold lookup. cbn [w_regs w_heap].
  rewrite nth_error_app2 by lia. rewrite Nat.sub_diag. cbn. rewrite E. split; [reflexivity|]. split; [rewrite app_length; cbn; lia|]. eauto.
Qed.
Lemma new_ok w b okey : exists r', nth_error (w_regs (gact qualname w (GNew b okey))) (length (w_regs w)) = Some r' /\ g_init r' = g_items r'.
Proof.
  cbn [gact]. unfold new_registry. destruct (wrap_all okey (w_heap w) _) as [l h]. cbn. rewrite nth_error_app2 by lia. rewrite Nat.sub_diag. cbn. eauto.
Qed.

Lemma has_items (r : reg) (o : X) k : d_has rkey_eqb (map (fun kv => (fst kv, o)) (g_items r)) k = d_has rkey_eqb (g_items r) k.
Proof.
  unfold d_has. induction (g_items r) as [|[j u] l IH]; [reflexivity|]. cbn in *. destruct (rkey_eqb k j); [reflexivity|exact IH].
Qed.
Lemma has_lookup w i r k : good w -> nth_error (w_regs w) i = Some r -> (d_has rkey_eqb (g_items r) k = true <-> lookup w i k <> None).
Proof.
  intros G E. unfold lookup, d_has. rewrite E. destruct (d_get rkey_eqb (g_items r) k) as [a|] eqn:D.
  - destruct (G i r E) as [A _]. pose proof (d_get_bound _ _ _ _ A D) as L. split; [intros _; now apply nth_error_Some|auto].
  - split; [discriminate|congruence].
Qed.
Lemma registered w i r o u ow m : nth_error (w_regs w) i = Some r ->
  lookup (register_entry qualname w i o u ow m) i (fst (entry_key qualname r o u ow)) = Some (d_update str_eqb [(g_okey r, o)] m)
  /\ (good w -> forall k, k <> fst (entry_key qualname r o u ow) -> lookup (register_entry qualname w i o u ow m) i k = lookup w i k).
Proof.
  intro E. unfold register_entry. rewrite E. destruct (entry_key qualname r o u ow) as [k0 n]. cbn [fst]. unfold lookup. cbn [w_regs w_heap].
  rewrite update_nth_same by (apply nth_error_Some; congruence). cbn [g_items]. rewrite E. split.
  - rewrite (d_get_set_same rkey_eqb rkey_spec). rewrite nth_error_app2 by lia. now rewrite Nat.sub_diag.
  - intros G k N. rewrite (d_get_set_other rkey_eqb rkey_spec) by exact N. destruct (d_get rkey_eqb (g_items r) k) as [a|] eqn:D; [|reflexivity].
    apply nth_error_app1. destruct (G i r E) as [A _]. exact (d_get_bound _ _ _ _ A D).
Qed.
(** Default names are new as long as all names are such. *)
Definition gkeys (r : @reg) : Prop :=
  forall k, In k (map fst (g_items r)) ->
    exists s, k = Some s /\ (unnumbered s \/ exists p n, s = p ++ lit "_" ++ dec_of_N n /\ (n < g_count r)%N).
Lemma entry_fresh r o s : gkeys r -> qualname o = Some s -> unnumbered s ->
  ~ In (fst (entry_key qualname r o None false)) (map fst (g_items r))
  /\ forall a, gkeys (mkRegistry (d_set rkey_eqb (g_items r) (fst (entry_key qualname r o None false)) a) (g_init r) (g_okey r) (snd (entry_key qualname r o None false))).
Proof.
  intros I Q U. set (r' := mkReg (map (fun kv => (fst kv, o)) (g_items r)) (g_count r)).
  assert (map fst (items r') = map fst (g_items r)) as M by (cbn; rewrite map_map; reflexivity).
  assert (reg_keys r') as I' by (intros k J; rewrite M in J; exact (I k J)).
  destruct (register_fresh qualname r' o s I' Q U) as (k & N & E & K). unfold register in E, K. change (mapping_key qualname r' o None false) with (entry_key qualname r o None false) in E, K.
  destruct (entry_key qualname r o None false) as [k0 n]. cbn [items fst snd] in *.
  assert (~ In k0 (map fst (items r'))) as N0.
  { intro J. apply (f_equal (fun l => length (map fst l))) in E. rewrite map_app, app_length in E. cbn [length map] in E.
    assert (forall d : list (rkey * X), In k0 (map fst d) -> length (map fst (d_set rkey_eqb d k0 o)) = length (map fst d)) as S.
    { clear. induction d as [|[j u] d IH]; intro J; [destruct J|]. cbn [d_set map fst In] in *. destruct (rkey_spec k0 j) as [->|Nj]; [reflexivity|].
      cbn [map fst length]. f_equal. apply IH. destruct J; [congruence|assumption]. }
    rewrite (S _ J) in E. lia. }
  rewrite M in N0. split; [exact N0|]. intros a j J. cbn [g_items g_count] in *. apply K. cbn [items].
  rewrite (d_set_new rkey_eqb rkey_spec) in J by exact N0. rewrite (d_set_new rkey_eqb rkey_spec) by (rewrite M; exact N0).
  rewrite map_app in *. rewrite M. exact J.
Qed.
Definition plain (i : nat) (a : gaction X) : Prop :=
  ~ in_place a /\ (~ acts_on a i \/ exists o m s, a = GRegister i o None false m /\ qualname o = Some s /\ unnumbered s).
Definition holds (i : nat) (okey : str) (w : world X) : Prop :=
  good w /\ exists r, nth_error (w_regs w) i = Some r /\ gkeys r /\ g_okey r = okey.
Lemma plain_step i okey w a : holds i okey w -> plain i a -> holds i okey (gact qualname w a) /\ forall k d, lookup w i k = Some d -> lookup (gact qualname w a) i k = Some d.
Proof.
  intros (G & r & E & K & O) (P & [N|(o & m & s & -> & Q & U)]).
  - assert (i < length (w_regs w)) as L by (apply nth_error_Some; congruence). split.
    + split; [now apply good_step|]. exists r. split; [|now split]. now rewrite others_kept.
    + intros k d H. now rewrite lookup_kept.
  - destruct (entry_fresh r o s K Q U) as [F Kn]. destruct (registered w i r o None false m E) as [R1 R2]. split.
    + split; [now apply good_step|]. cbn [gact]. unfold register_entry. rewrite E. destruct (entry_key qualname r o None false) as [k n].
      eexists. cbn [w_regs]. split; [apply update_nth_same; apply nth_error_Some; congruence|]. split; [apply Kn|exact O].
    + intros k d H. cbn [gact]. rewrite (R2 G k); [exact H|]. intros ->. apply F.
      unfold lookup in H. rewrite E in H. destruct (d_get rkey_eqb (g_items r) _) as [a|] eqn:D; [|discriminate].
      apply (d_get_in rkey_eqb rkey_spec) in D. apply in_map_iff. eexists. split; [|exact D]. reflexivity.
Qed.
Lemma plain_run i okey h : forall w, holds i okey w -> Forall (plain i) h -> holds i okey (gafter qualname w h) /\ forall k d, lookup w i k = Some d -> lookup (gafter qualname w h) i k = Some d.
Proof.
  induction h as [|a h IH]; intros w H F; [now split|]. inversion F; subst. change (gafter qualname w (a :: h)) with (gafter qualname (gact qualname w a) h).
  destruct (plain_step i okey w a H H2) as [H' S]. destruct (IH _ H' H3) as [H'' S']. split; [exact H''|]. intros k d L. apply S', S, L.
Qed.
Lemma new_holds w b okey : good w -> (forall k, In k (map fst b) -> exists s, k = Some s /\ unnumbered s) ->
  holds (length (w_regs w)) okey (gact qualname w (GNew b okey)).
Proof.
  intros G B. split; [now apply good_step|]. cbn [gact]. unfold new_registry.
  assert (forall b h, map fst (fst (wrap_all okey h (map (fun kv : rkey * X => (fst kv, inl (snd kv))) b))) = map fst b) as M.
  { clear. induction b as [|[k x] b IH]; intro h; [reflexivity|]. cbn. specialize (IH (h ++ [[(okey, x)]])).
    destruct (wrap_all okey _ _) as [l h']. cbn in *. now rewrite IH. }
  specialize (M b (w_heap w)). destruct (wrap_all okey (w_heap w) _) as [l h']. cbn [w_regs fst] in *.
  eexists. split; [rewrite nth_error_app2 by lia; rewrite Nat.sub_diag; reflexivity|]. split; [|reflexivity].
  intros k J. cbn [g_items] in J. rewrite M in J. destruct (B k J) as (s & -> & U). exists s. auto.
Qed.
Lemma annotated w i k n x d : lookup w i k = Some d -> lookup (gact qualname w (GAnnotate i k n x)) i k = Some (d_set str_eqb d n x).
Proof.
  unfold lookup. cbn [gact]. unfold annotate. destruct (nth_error (w_regs w) i) as [r|] eqn:E; [|discriminate].
  destruct (d_get rkey_eqb (g_items r) k) as [a|] eqn:D; [|discriminate]. intro H. rewrite H. cbn [w_regs w_heap]. rewrite E, D.
  apply update_nth_same. apply nth_error_Some. congruence.
Qed.
End Registries.

Lemma updated (X : Type) key (o : X) meta : let d := d_update str_eqb [(key, o)] meta in
  (~ In key (map fst meta) -> d_get str_eqb d key = Some o)
  /\ (NoDup (map fst meta) -> forall n x, In (n, x) meta -> d_get str_eqb d n = Some x)
  /\ (forall n, n <> key -> ~ In n (map fst meta) -> d_get str_eqb d n = None).
Proof.
  intro d. subst d. split; [|split].
  - intro N. rewrite (d_update_get str_eqb str_eqb_spec). assert (d_get str_eqb (rev meta) key = None) as ->.
    { apply (d_get_none str_eqb str_eqb_spec). rewrite map_rev. now rewrite <- in_rev. }
    cbn. now rewrite str_eqb_refl.
  - intros ND n x I. rewrite (d_update_get str_eqb str_eqb_spec). assert (d_get str_eqb (rev meta) n = Some x) as ->; [|reflexivity].
    apply (d_get_iff str_eqb str_eqb_spec); [rewrite map_rev; now apply NoDup_rev|now apply -> in_rev].
  - intros n No Nm. rewrite (d_update_get str_eqb str_eqb_spec). assert (d_get str_eqb (rev meta) n = None) as ->.
    { apply (d_get_none str_eqb str_eqb_spec). rewrite map_rev. now rewrite <- in_rev. }
    cbn. now rewrite (str_eqb_neq n key No).
Qed.

(** * Collections *)

Section Collection.
Context {A : Type}.
Lemma after_snoc h (a : caction A) : cafter (h ++ [a]) = cact (cafter h) a.
Proof. unfold cafter. now rewrite fold_left_app. Qed.
Lemma attrs_nodup h : NoDup (map fst (a_attrs (@cafter A h))).
Proof.
  induction h as [|a h IH] using rev_ind; [constructor|]. rewrite after_snoc. destruct a as [n|n l|n]; cbn; auto.
  - now apply (d_set_NoDup str_eqb str_eqb_spec).
  - generalize dependent (a_attrs (cafter h)). intros d ND. induction d as [|[j u] d IH]; cbn; [constructor|]. inversion ND as [|? ? Nj Nd]; subst.
    destruct (str_eqb n j); [exact Nd|]. cbn. constructor; [|now apply IH]. intro K. apply Nj. clear - K. induction d as [|[i v] d IH]; cbn in *; [exact K|].
    destruct (str_eqb n i); [now right|]. destruct K as [K|K]; [now left|right; auto].
Qed.
Lemma collection_ok h : a_name (@cafter A h) = last_collected (rev h)
  /\ forall n, match d_get str_eqb (a_attrs (cafter h)) n with Some l => l | None => [] end = last_value (rev h) n.
Proof.
  induction h as [|a h IH] using rev_ind; [split; reflexivity|]. rewrite after_snoc, rev_app_distr. pose proof (attrs_nodup h) as ND. destruct IH as [IH1 IH2].
  destruct a as [n|n l|n]; cbn [rev app cact a_name a_attrs last_collected last_value].
  - split; [reflexivity|exact IH2].
  - split; [exact IH1|]. intro m. rewrite (d_get_set str_eqb str_eqb_spec). rewrite str_eqb_sym. destruct (str_eqb n m); [reflexivity|apply IH2].
  - split; [exact IH1|]. intro m. rewrite (d_del_get str_eqb str_eqb_spec) by exact ND. rewrite str_eqb_sym. destruct (str_eqb n m); [reflexivity|apply IH2].
Qed.
End Collection.

(** * Tables *)

Section Tables.
Context {V : Type}.
Lemma tafter_snoc es h (a : taction V) : tafter es (h ++ [a]) = tact (tafter es h) a.
Proof. unfold tafter. now rewrite fold_left_app. Qed.
Lemma get_table (t : table V) k : snd (cached_getitem t k) = snd (keys_of t).
Proof. unfold cached_getitem. now destruct (keys_of t) as [[ks|e] t']. Qed.
Lemma get_table' (t : table V) k d : snd (cached_get t k d) = snd (keys_of t).
Proof. unfold cached_get. rewrite <- (get_table t k). destruct (cached_getitem t k) as [[l|[]] t']; reflexivity. Qed.
Lemma keys_entries (t : table V) : b_entries (snd (keys_of t)) = b_entries t.
Proof. unfold keys_of. destruct t as [es [ks|]]; [reflexivity|]. now destruct es. Qed.
Lemma entries_ok es h : b_entries (@tafter V es h) = last_entries es (rev h).
Proof.
  induction h as [|a h IH] using rev_ind; [reflexivity|]. rewrite tafter_snoc, rev_app_distr. destruct a as [k|k d|es']; cbn [tact rev app last_entries].
  - rewrite get_table, keys_entries. exact IH.
  - rewrite get_table', keys_entries. exact IH.
  - reflexivity.
Qed.
(** The keys in the cache are those of some earlier entries. *)
Lemma keys_cached (t : table V) ks : b_keys (snd (keys_of t)) = Some ks ->
  b_keys t = Some ks \/ (b_keys t = None /\ b_entries t <> [] /\ ks = fun k => forallb (fun e => sd_has e k) (b_entries t)).
Proof. unfold keys_of. destruct t as [es [ks'|]]; [now left|]. destruct es as [|e es]; [discriminate|]. cbn. intro H. injection H as <-. right. repeat split; congruence. Qed.
Definition all_entries (es : list (@entry V)) (h : list (taction V)) : list (list (@entry V)) :=
  es :: flat_map (fun a => match a with TChange es' => [es'] | _ => [] end) h.
Lemma cache_ok es h ks : b_keys (@tafter V es h) = Some ks -> exists e0, In e0 (all_entries es h) /\ e0 <> [] /\ ks = fun k => forallb (fun e => sd_has e k) e0.
Proof.
  assert (forall h, In (last_entries es (rev h)) (all_entries es h)) as LI.
  { intro g. induction g as [|a g IH] using rev_ind; [now left|]. rewrite rev_app_distr. unfold all_entries in *. rewrite flat_map_app.
    destruct a as [k|k d|es']; cbn [rev app last_entries flat_map]; try (rewrite app_nil_r; exact IH). right. apply in_or_app. right. now left. }
  assert (forall h a e, In e (all_entries es h) -> In e (all_entries es (h ++ [a]))) as AI.
  { intros g a e I. unfold all_entries in *. rewrite flat_map_app. destruct I as [I|I]; [now left|]. right. apply in_or_app. now left. }
  induction h as [|a h IH] using rev_ind; [discriminate|]. rewrite tafter_snoc.
  assert (forall t', snd (keys_of (tafter es h)) = t' -> b_keys t' = Some ks -> exists e0, In e0 (all_entries es (h ++ [a])) /\ e0 <> [] /\ ks = fun k => forallb (fun e => sd_has e k) e0) as K.
  { intros t' <- H. apply keys_cached in H as [H|(H & N & ->)].
    - destruct (IH H) as (e0 & I & R). exists e0. split; [now apply AI|exact R].
    - exists (b_entries (tafter es h)). split; [|split; [exact N|reflexivity]]. rewrite entries_ok. apply AI, LI. }
  destruct a as [k|k d|es']; cbn [tact].
  - apply K. now rewrite get_table.
  - apply K. now rewrite get_table'.
  - cbn [b_keys]. intro H. destruct (IH H) as (e0 & I & R). exists e0. split; [now apply AI|exact R].
Qed.
End Tables.

(** * Nested lookups and queues *)

Section Nested.
Context {V : Type}.
Lemma nested_step (m : nested V) k l : l <> [] -> get_nested_element m (k :: l) = bind (child m k) (fun n => get_nested_element n l).
Proof.
  intro N. destruct l as [|j l]; [congruence|]. cbn. destruct (child m k) as [n|e]; [reflexivity|]. cbn. clear. induction l as [|i l IH]; [reflexivity|]. exact IH.
Qed.
Lemma nested_app (m n : nested V) p q : p <> [] -> q <> [] -> get_nested_element m p = Ok n -> get_nested_element m (p ++ q) = get_nested_element n q.
Proof.
  revert m. induction p as [|k p IH]; intros m Np Nq H; [congruence|]. cbn [app]. rewrite nested_step by (destruct p; [exact Nq|discriminate]).
  destruct p as [|j p].
  - unfold get_nested_element in H at 1. cbn in H. rewrite H. reflexivity.
  - rewrite nested_step in H by discriminate. destruct (child m k) as [m1|]; [|discriminate]. cbn [bind] in *. apply IH; [discriminate|exact Nq|exact H].
Qed.
Lemma nested_path (m n : nested V) p : path_to m p n -> p <> [] -> get_nested_element m p = Ok n.
Proof.
  intro P. induction P as [|l k n p m ND I P IH]; intro N; [congruence|].
  assert (child (Node l) k = Ok n) as C.
  { cbn. apply (d_get_iff str_eqb str_eqb_spec) in I; [|exact ND]. now rewrite I. }
  destruct p as [|j p].
  - inversion P; subst. exact C.
  - rewrite nested_step by discriminate. rewrite C. cbn [bind]. apply IH. discriminate.
Qed.
End Nested.
Lemma pops_ok {A} n : forall (l : list A) d, pops n l d = (firstn n l ++ repeat d (n - length l), skipn n l).
Proof.
  induction n as [|n IH]; intros l d; [reflexivity|]. cbn [pops]. destruct l as [|x l]; cbn [pop].
  - rewrite IH. cbn. rewrite firstn_nil, skipn_nil. now rewrite Nat.sub_0_r.
  - rewrite IH. reflexivity.
Qed.
