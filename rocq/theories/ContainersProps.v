(** Properties of further containers (C297-C304). *)

From Coq Require Import String Ascii List Bool ZArith NArith Lia.
From Verif Require Import Py PyFacts PyDict IterablesModel IterablesSpec ContainersModel ContainersSpec ContainersProofs.
Import ListNotations.
Open Scope list_scope.
Open Scope nat_scope.

(** ** C297: singletons *)

(** With single inheritance, all calls of a class in any history of calls of
    classes give the same object. *)
Theorem C297_same_object : forall (C : Type) (ceq : C -> C -> bool) (mro : C -> list C), decides ceq -> single_inheritance mro ->
  forall h i j c x y, nth_error h i = Some c -> nth_error h j = Some c ->
  nth_error (fst (instantiations ceq mro no_singles h)) i = Some x -> nth_error (fst (instantiations ceq mro no_singles h)) j = Some y -> x = y.
Proof.
  intros C ceq mro D S h i j c x y Ni Nj Ei Ej. destruct (Nat.le_ge_cases i j) as [L|L].
  - exact (same_object ceq mro D S h no_singles i j c x y L Ni Nj Ei Ej).
  - symmetry. exact (same_object ceq mro D S h no_singles j i c y x L Nj Ni Ej Ei).
Qed.
Print Assumptions C297_same_object.

(** Classes 1, 2 and 3, in this order of inheritance, below [Singleton]. *)
Definition ex_mro (c : nat) : list nat := rev (seq 0 (S c)).
Example C297_meets : single_inheritance ex_mro /\ fst (instantiations Nat.eqb ex_mro no_singles [3; 2; 3; 1; 2; 3]) = [0; 1; 0; 2; 1; 0].
Proof.
  split; [|reflexivity]. intros [|c]; [now left|]. right. exists c. unfold ex_mro. rewrite seq_S. rewrite rev_app_distr. reflexivity.
Qed.

(** ** C298: instances of singletons *)

(** The object is of the class that is called, or of one of its ancestors that
    had been called before. *)
Theorem C298_instance_partial : forall (C : Type) (ceq : C -> C -> bool) (mro : C -> list C), decides ceq -> (forall c, In c (mro c)) ->
  forall h i c x, nth_error h i = Some c -> nth_error (fst (instantiations ceq mro no_singles h)) i = Some x ->
  exists d, nth_error (s_made (snd (instantiations ceq mro no_singles h))) x = Some d /\ In d (mro c)
    /\ (d = c \/ exists j, j < i /\ nth_error h j = Some d).
Proof.
  intros C ceq mro D R h i c x N E. destruct (instance_class ceq mro D h R no_singles [] i c x) as (d & A & B & K); auto; [intros a o H; discriminate H|].
  exists d. split; [exact A|]. split; [exact B|]. destruct K as [K|[[]|K]]; auto.
Qed.
Print Assumptions C298_instance_partial.

(** A class called after its parent gives the parent's object. *)
Theorem C298_parent_refuted : let (l, s) := instantiations Nat.eqb ex_mro no_singles [1; 2] in
  l = [0; 0] /\ nth_error (s_made s) 0 = Some 1 /\ nth_error (s_made s) 1 = None.
Proof. repeat split. Qed.
Print Assumptions C298_parent_refuted.

(** With multiple inheritance, the object of a class may change. *)
Definition ex_multiple (c : nat) : list nat := match c with 3 => [3; 1; 2; 0] | 2 => [2; 0] | 1 => [1; 0] | c => [c] end.
Theorem C298_multiple_refuted : fst (instantiations Nat.eqb ex_multiple no_singles [2; 3; 1; 3]) = [0; 0; 1; 1].
Proof. reflexivity. Qed.
Print Assumptions C298_multiple_refuted.

Example C298_meets : (forall c, In c (ex_mro c)) /\ (forall c, In c (ex_multiple c)).
Proof. split; intro c; [unfold ex_mro; rewrite <- in_rev; apply in_seq; lia|]. destruct c as [|[|[|[|c]]]]; cbn; auto. Qed.

(** ** C299: uniform mappings *)

(** A lookup is a call of the class with the entries of the interior mapping,
    if these include all parameters; entries that are not parameters are
    ignored. *)
Theorem C299_uniform_partial : forall (V O : Type) (none : V) m (ps : @parameters V) (new : list V -> res O) key row,
  let t := mkType (Some ps) new in
  (d_get str_eqb m key = None -> uniform_getitem none m t key = Err KeyError)
  /\ (d_get str_eqb m key = Some row -> (forall p, In p ps -> d_has str_eqb row (fst p) = true) ->
      (exists args, length args = length ps
        /\ (forall i p v, nth_error ps i = Some p -> nth_error args i = Some v -> d_get str_eqb row (fst p) = Some v)
        /\ uniform_getitem none m t key = new args)
      /\ ((forall k v, In (k, v) row -> In k (map fst ps)) -> uniform_getitem none m t key = construct t row)).
Proof.
  intros V O none m ps new key row t. split; [intro H; unfold uniform_getitem; now rewrite H|]. intros H A. split.
  - eexists. split; [|split; [|exact (uniform_value none m ps new key row H)]]; [apply map_length|].
    intros i p v Np Nv. rewrite nth_error_map, Np in Nv. cbn in Nv. injection Nv as <-. apply nth_error_In in Np. specialize (A p Np).
    unfold d_has in A. now destruct (d_get str_eqb row (fst p)).
  - intro Only. unfold t. rewrite (uniform_value none m ps new key row H). unfold construct. cbn [t_params t_new]. unfold bind_keywords.
    assert (forallb (fun kv => existsb (fun p => str_eqb (fst p) (fst kv)) ps) row = true) as ->.
    { apply forallb_forall. intros [k v] I. apply Only in I. apply in_map_iff in I as (p & <- & I). apply existsb_exists. exists p. split; [exact I|apply str_eqb_refl]. }
    rewrite (mapM_all _ (fun p => match d_get str_eqb row (fst p) with Some v => v | None => none end)); [reflexivity|].
    intros p I. specialize (A p I). unfold d_has in A. now destruct (d_get str_eqb row (fst p)).
Qed.
Print Assumptions C299_uniform_partial.

(** A missing entry is passed as [None]: a default is not used, and a missing
    argument is not reported. *)
Theorem C299_missing_refuted : forall (V O : Type) (none d : V) (name : str) (new : list V -> res O) key,
  uniform_getitem none [(key, [])] (mkType (Some [(name, Some d)]) new) key = new [none]
  /\ construct (mkType (Some [(name, Some d)]) new) [] = new [d]
  /\ uniform_getitem none [(key, [])] (mkType (Some [(name, None)]) new) key = new [none]
  /\ construct (mkType (Some [(name, None)]) new) [] = Err TypeError.
Proof.
  intros V O none d name new key. assert (d_get str_eqb [(key, @nil (str * V))] key = Some []) as H by (cbn; now rewrite str_eqb_refl).
  repeat split; try (rewrite (uniform_value none _ _ new key [] H); reflexivity).
Qed.
Print Assumptions C299_missing_refuted.

(** A class without an [__init__] of its own cannot be used at all. *)
Theorem C299_no_init_refuted : forall (V O : Type) (none : V) m (new : list V -> res O) key row, d_get str_eqb m key = Some row ->
  uniform_getitem none m (mkType None new) key = Err TypeError.
Proof. intros V O none m new key row H. unfold uniform_getitem. now rewrite H. Qed.
Print Assumptions C299_no_init_refuted.

Example C299_meets : uniform_getitem 0%Z [(lit "a", [(lit "value", 1%Z); (lit "name", 2%Z); (lit "extra", 3%Z)])]
  (mkType (Some [(lit "name", None); (lit "value", Some 7%Z)]) (fun l => Ok l)) (lit "a") = Ok [2; 1]%Z.
Proof. reflexivity. Qed.

(** ** C300: registries are independent *)

(** In any history of registries, one is not affected by what is done with
    others; a copy starts with the entries of the original; [reset] restores the
    entries at the creation of the registry.  (Changes of an entry in place are
    excluded here: copies are shallow.) *)
Theorem C300_independent : forall (X : Type) (qualname : X -> option str) h g j k, let w := gafter qualname no_registry h in
  j < length (w_regs w) -> (forall a, In a g -> ~ in_place a /\ ~ acts_on a j) ->
  lookup (gafter qualname w g) j k = lookup w j k.
Proof. intros X q h g j k w L H. apply lookup_kept_all; auto. apply good_after, good_none. Qed.
Print Assumptions C300_independent.

Theorem C300_copy : forall (X : Type) (qualname : X -> option str) h i k, let w := gafter qualname no_registry h in
  i < length (w_regs w) -> let w' := gact qualname w (GCopy i) in
  length (w_regs w') = S (length (w_regs w)) /\ lookup w' (length (w_regs w)) k = lookup w i k
  /\ exists r r', nth_error (w_regs w) i = Some r /\ nth_error (w_regs w') (length (w_regs w)) = Some r' /\ g_okey r' = g_okey r.
Proof.
  intros X q h i k w L w'. destruct (nth_error (w_regs w) i) as [r|] eqn:E; [|apply nth_error_None in E; lia].
  destruct (copy_ok w i r k E) as (A & B & r' & C & _ & O). split; [exact B|]. split; [exact A|]. now exists r, r'.
Qed.
Print Assumptions C300_copy.

(** [a] creates a registry, which is the one with the next number. *)
Theorem C300_reset : forall (X : Type) (qualname : X -> option str) h a g k, let w := gafter qualname no_registry h in
  (exists b okey, a = GNew b okey) \/ (exists i, a = GCopy i /\ i < length (w_regs w)) -> (forall b, In b g -> ~ in_place b) ->
  let j := length (w_regs w) in let w0 := gact qualname w a in
  lookup (gact qualname (gafter qualname w0 g) (GReset j)) j k = lookup w0 j k.
Proof.
  intros X q h a g k w Ha Hg j w0. assert (exists r, nth_error (w_regs w0) j = Some r /\ g_init r = g_items r) as (r & E & I).
  { destruct Ha as [(b & okey & ->)|(i & -> & L)]; [apply new_ok|].
    destruct (nth_error (w_regs w) i) as [r|] eqn:E; [|apply nth_error_None in E; lia]. destruct (copy_ok w i r None E) as (_ & _ & r' & R1 & R2 & _). now exists r'. }
  cbn [gact]. apply (reset_restores q w0 j r); auto. apply good_step. apply good_after, good_none.
Qed.
Print Assumptions C300_reset.

(** Objects are numbers; all are called 'f'. *)
Definition ex_name (x : nat) : option str := Some (lit "f").
Definition ex_reg (o : nat) : gaction nat := GRegister 0 o None false [].
Example C300_meets : let w := gafter ex_name no_registry [GNew [(Some (lit "g"), 5)] (lit "object"); ex_reg 1; GCopy 0; GRegister 1 2 (Some (lit "g")) true [(lit "unit", 3)]] in
  lookup w 0 (Some (lit "g")) = Some [(lit "object", 5)] /\ lookup w 1 (Some (lit "g")) = Some [(lit "object", 2); (lit "unit", 3)]
  /\ lookup (gact ex_name w (GReset 1)) 1 (Some (lit "g")) = Some [(lit "object", 5)]
  /\ lookup (gact ex_name w (GReset 1)) 1 (Some (lit "f")) = Some [(lit "object", 1)]
  /\ lookup (gact ex_name w (GReset 0)) 0 (Some (lit "f")) = None.
Proof. repeat split. Qed.

(** ** C301: what a registry holds *)

(** After a registration, the entry holds the object and the metadata: at the
    name given by the user if that is free or may be overwritten, else at the
    defined name if that is free; all other entries are as before.  The last is
    proved for these two cases only, and the object only if the metadata do not
    use its key. *)
Theorem C301_registered_partial : forall (X : Type) (qualname : X -> option str) h i r o user ow meta key, let w := gafter qualname no_registry h in
  nth_error (w_regs w) i = Some r ->
  (exists c s, user = Some (c :: s) /\ key = Some (c :: s) /\ (lookup w i key = None \/ ow = true))
  \/ ((user = None \/ user = Some [] \/ (ow = false /\ lookup w i user <> None)) /\ key = qualname o /\ key <> None /\ lookup w i key = None) ->
  let w' := gact qualname w (GRegister i o user ow meta) in
  (exists d, lookup w' i key = Some d
    /\ (~ In (g_okey r) (map fst meta) -> d_get str_eqb d (g_okey r) = Some o)
    /\ (NoDup (map fst meta) -> forall n x, In (n, x) meta -> d_get str_eqb d n = Some x)
    /\ (forall n, n <> g_okey r -> ~ In n (map fst meta) -> d_get str_eqb d n = None))
  /\ (forall k, k <> key -> lookup w' i k = lookup w i k).
Proof.
  intros X q h i r o user ow meta key w E C w'. assert (good w) as G by apply good_after, good_none.
  destruct (registered q w i r o user ow meta E) as [A B]. specialize (B G).
  assert (fst (entry_key q r o user ow) = key) as K.
  { unfold entry_key, mapping_key, default_key. destruct C as [(c & s & -> & -> & C)|(Cu & -> & N & C)]; cbn [items count].
    - rewrite has_items. destruct (d_has rkey_eqb (g_items r) (Some (c :: s))) eqn:H; [|reflexivity].
      destruct C as [C| ->]; [|reflexivity]. apply (has_lookup w i r _ G E) in H. contradiction.
    - assert (fst (match q o with
                   | Some p => if d_has rkey_eqb (map (fun kv : rkey * nat => (fst kv, o)) (g_items r)) (Some p)
                               then (Some (p ++ lit "_" ++ dec_of_N (g_count r)), (g_count r + 1)%N) else (Some p, g_count r)
                   | None => (None, g_count r) end) = q o) as Dk.
      { destruct (q o) as [p|] eqn:Q; [|reflexivity]. rewrite has_items. destruct (d_has rkey_eqb (g_items r) (Some p)) eqn:H; [|reflexivity].
        apply (has_lookup w i r _ G E) in H. contradiction. }
      destruct user as [[|c s]|]; try exact Dk. rewrite has_items. destruct Cu as [Cu|[Cu|[-> Cu]]]; try discriminate.
      apply (has_lookup w i r _ G E) in Cu. rewrite Cu. exact Dk. }
  rewrite K in A, B. split; [|exact B]. eexists. split; [exact A|]. apply updated.
Qed.
Print Assumptions C301_registered_partial.

(** Registrations without names never replace an entry: in a registry whose
    initial names are not numbered, whatever happens to other registries, each
    object gets an entry of its own that stays. *)
Theorem C301_keeps : forall (X : Type) (qualname : X -> option str) h base okey g1 o meta g2,
  let w := gafter qualname no_registry h in let i := length (w_regs w) in
  let new := GRegister i o None false meta in
  (forall k, In k (map fst base) -> exists s, k = Some s /\ unnumbered s) ->
  (forall a, In a (g1 ++ new :: g2) -> ~ in_place a
     /\ (~ acts_on a i \/ exists o m s, a = GRegister i o None false m /\ qualname o = Some s /\ unnumbered s)) ->
  let before := gafter qualname w (GNew base okey :: g1) in
  let after := gafter qualname before (new :: g2) in
  (forall k d, lookup before i k = Some d -> lookup after i k = Some d)
  /\ exists k d, lookup before i k = None /\ lookup after i k = Some d
    /\ (~ In okey (map fst meta) -> d_get str_eqb d okey = Some o)
    /\ (NoDup (map fst meta) -> forall n x, In (n, x) meta -> d_get str_eqb d n = Some x)
    /\ (forall n, n <> okey -> ~ In n (map fst meta) -> d_get str_eqb d n = None).
Proof.
  intros X q h base okey g1 o meta g2 w i new B P before after0.
  assert (Forall (plain q i) (g1 ++ new :: g2)) as F by (apply Forall_forall; exact P).
  apply Forall_app in F as [F1 F2]. inversion F2 as [|? ? Fn F3]; subst.
  assert (holds i okey before) as H.
  { apply (plain_run q i okey g1); [|exact F1]. apply new_holds; [apply good_after, good_none|exact B]. }
  destruct (plain_run q i okey (new :: g2) before H F2) as [_ K]. split; [exact K|].
  destruct H as (G & r & E & Kr & O). destruct Fn as (_ & [N|(o' & m' & s & En & Q & U)]); [exfalso; apply N; reflexivity|].
  injection En as <- <-. destruct (entry_fresh q r o s Kr Q U) as [Nk _]. destruct (registered q before i r o None false meta E) as [R _].
  exists (fst (entry_key q r o None false)), (d_update str_eqb [(g_okey r, o)] meta).
  split; [|split].
  - unfold lookup. rewrite E. destruct (d_get rkey_eqb (g_items r) _) as [a|] eqn:D; [|reflexivity]. exfalso. apply Nk.
    apply (d_get_in rkey_eqb rkey_spec) in D. apply in_map_iff. eexists. split; [|exact D]. reflexivity.
  - change after0 with (gafter q (gact q before new) g2).
    assert (holds i okey (gact q before new)) as H'.
    { apply (plain_step q i okey before new); [split; eauto|]. split; [now intros (? & ? & ? & ? & ?)|]. right. exists o, meta, s. auto. }
    apply (plain_run q i okey g2 _ H' F3). exact R.
  - subst okey. apply updated.
Qed.
Print Assumptions C301_keeps.

Example C301_keeps_meets : unnumbered (lit "f") /\ ex_name 1 = Some (lit "f") /\ ex_name 2 = Some (lit "f")
  /\ let w := gafter ex_name no_registry [GNew [] (lit "object"); ex_reg 1; ex_reg 2] in
     lookup w 0 (Some (lit "f")) = Some [(lit "object", 1)] /\ lookup w 0 (Some (lit "f_1")) = Some [(lit "object", 2)].
Proof.
  split; [|repeat split]. intros p n E. assert (In "_"%char (lit "f")) as [H|[]]; [|discriminate]. rewrite E. apply in_or_app. right. now left.
Qed.

(** A change in place changes one member of an entry. *)
Theorem C301_in_place : forall (X : Type) (qualname : X -> option str) h i k n x d, let w := gafter qualname no_registry h in
  lookup w i k = Some d -> exists d', lookup (gact qualname w (GAnnotate i k n x)) i k = Some d'
    /\ d_get str_eqb d' n = Some x /\ forall m, m <> n -> d_get str_eqb d' m = d_get str_eqb d m.
Proof.
  intros X q h i k n x d w H. exists (d_set str_eqb d n x). split; [now apply annotated|]. split.
  - apply (d_get_set_same str_eqb str_eqb_spec).
  - intros m N. now apply (d_get_set_other str_eqb str_eqb_spec).
Qed.
Print Assumptions C301_in_place.

(** Metadata with the key of objects replace the object. *)
Theorem C301_metadata_refuted : lookup (gafter ex_name no_registry [GNew [] (lit "object"); GRegister 0 1 None false [(lit "object", 7)]]) 0 (Some (lit "f"))
  = Some [(lit "object", 7)].
Proof. reflexivity. Qed.
Print Assumptions C301_metadata_refuted.

(** A registration in a copy may overwrite an entry without being told to. *)
Theorem C301_copy_refuted : let w := gafter ex_name no_registry [GNew [] (lit "object"); ex_reg 1; ex_reg 2; GCopy 0] in
  lookup w 1 (Some (lit "f_1")) = Some [(lit "object", 2)]
  /\ lookup (gact ex_name w (GRegister 1 3 None false [])) 1 (Some (lit "f_1")) = Some [(lit "object", 3)].
Proof. split; reflexivity. Qed.
Print Assumptions C301_copy_refuted.

(** Changes of an entry in place survive [reset]. *)
Theorem C301_reset_refuted : let w := gafter ex_name no_registry [GNew [(Some (lit "g"), 5)] (lit "object")] in
  lookup (gafter ex_name w [GAnnotate 0 (Some (lit "g")) (lit "object") 6; GReset 0]) 0 (Some (lit "g")) = Some [(lit "object", 6)]
  /\ lookup w 0 (Some (lit "g")) = Some [(lit "object", 5)].
Proof. split; reflexivity. Qed.
Print Assumptions C301_reset_refuted.

Example C301_meets : let w := gafter ex_name no_registry [GNew [(Some (lit "g"), 5)] (lit "object")] in
  (exists r, nth_error (w_regs w) 0 = Some r /\ g_okey r = lit "object") /\ lookup w 0 (Some (lit "f")) = None /\ lookup w 0 (Some (lit "g")) <> None.
Proof. split; [now eexists|]. split; [reflexivity|discriminate]. Qed.

(** ** C302: mixin for collections *)

(** Length, members and membership are always those of the current value of the
    attribute that was named last; without a value the object is empty; before a
    name is given, AttributeError. *)
Theorem C302_live : forall (A : Type) (aeq : A -> A -> bool) h x, let o := cafter h in
  match last_collected (rev h) with
  | None => c_iter o = Err AttributeError /\ c_len o = Err AttributeError /\ c_contains aeq o x = Err AttributeError
  | Some n => c_iter o = Ok (last_value (rev h) n) /\ c_len o = Ok (length (last_value (rev h) n))
              /\ c_contains aeq o x = Ok (existsb (aeq x) (last_value (rev h) n))
  end.
Proof.
  intros A aeq h x o. destruct (@collection_ok A h) as [N L]. unfold c_iter, c_len, c_contains, collection, o. rewrite N.
  destruct (last_collected (rev h)) as [n|]; [|repeat split]. rewrite L. repeat split.
Qed.
Print Assumptions C302_live.

Example C302_meets : c_iter (cafter [SetAttr (lit "a") [1]; Collect (lit "a"); SetAttr (lit "a") [1; 2]]) = Ok [1; 2]
  /\ c_len (cafter [SetAttr (lit "a") [1]; Collect (lit "b")]) = Ok 0.
Proof. split; reflexivity. Qed.

(** ** C303: tables whose entries change *)

(** Lookups in a table are those in a new table of its current entries, as long
    as no change has changed which keys are common to all entries. *)
Theorem C303_current_partial : forall (V : Type) (es : list (@entry V)) h k d, let now := last_entries es (rev h) in
  now <> [] -> (forall e, In e (es :: flat_map (fun a => match a with TChange e => [e] | _ => [] end) h) -> e <> [] ->
                 forallb (fun r => sd_has r k) e = forallb (fun r => sd_has r k) now) ->
  fst (cached_getitem (tafter es h) k) = table_getitem now k /\ fst (cached_get (tafter es h) k d) = table_get now k d.
Proof.
  intros V es h k d now N H. assert (fst (cached_getitem (tafter es h) k) = table_getitem now k /\ b_entries (snd (cached_getitem (tafter es h) k)) = now) as [K E].
  { pose proof (entries_ok es h) as Een. fold now in Een. pose proof (keys_entries (tafter es h)) as Ek. rewrite Een in Ek. split; [|now rewrite get_table].
    unfold cached_getitem, table_getitem, common. pose proof (cache_ok es h) as Co. unfold keys_of in *. destruct (b_keys (tafter es h)) as [ks|].
    - destruct (Co ks eq_refl) as (e0 & I & N0 & ->). rewrite Een. destruct now as [|r l]; [congruence|]. cbn [bind fst]. rewrite (H e0 I N0). reflexivity.
    - rewrite Een in *. destruct now as [|r l]; [congruence|]. reflexivity. }
  split; [exact K|]. unfold cached_get, table_get. destruct (cached_getitem (tafter es h) k) as [r t]. cbn [fst snd] in *. subst r. rewrite <- E.
  destruct (table_getitem (b_entries t) k) as [l|[]]; reflexivity.
Qed.
Print Assumptions C303_current_partial.

(** Otherwise [get] may raise KeyError instead of giving the default, and a key
    that has become common is not found. *)
Theorem C303_stale_refuted : let row k := [(lit k, 1)] in let h := [TGet (lit "a") 0; TChange [row "a"%string; row "b"%string]] in
  fst (cached_get (tafter [row "a"%string] h) (lit "a") 0) = Err KeyError
  /\ table_get [row "a"%string; row "b"%string] (lit "a") 0 = Ok [1; 0]
  /\ fst (cached_getitem (tafter [row "a"%string; row "b"%string] [TGet (lit "a") 0; TChange [row "a"%string]]) (lit "a")) = Err TableKeyError
  /\ table_getitem [row "a"%string] (lit "a") = Ok [1].
Proof. repeat split. Qed.
Print Assumptions C303_stale_refuted.

(** A table that never had an entry raises IndexError. *)
Theorem C303_no_entries : forall (V : Type) h k,
  (forall e, In (TChange e) h -> e = []) -> fst (cached_getitem (@tafter V [] h) k) = Err IndexError.
Proof.
  intros V h k H. assert (L : last_entries (@nil (@entry V)) (rev h) = []).
  { assert (G : forall g : list (taction V), incl g h -> last_entries [] g = []).
    { induction g as [|a g IH]; intro I; [reflexivity|]. destruct a; cbn; try (apply IH; intros x X; apply I; now right). apply H, I. now left. }
    apply G. intros x X. now apply in_rev. }
  pose proof (entries_ok [] h) as E. rewrite L in E. pose proof (cache_ok [] h) as C.
  unfold cached_getitem, keys_of. destruct (b_keys (tafter [] h)) as [ks|].
  - exfalso. destruct (C ks eq_refl) as (e0 & [<-|I] & N & _); [congruence|]. apply in_flat_map in I as (a & I & J).
    destruct a as [| |e]; try contradiction. destruct J as [<-|[]]. apply N, H, I.
  - rewrite E. reflexivity.
Qed.
Print Assumptions C303_no_entries.

Example C303_meets : let h := [TGet (lit "a") 0; TChange [[(lit "a", 2)]]] in
  fst (cached_getitem (tafter [[(lit "a", 1)]; [(lit "a", 3)]] h) (lit "a")) = Ok [2] /\ last_entries [[(lit "a", 1)]] (rev h) = [[(lit "a", 2)]].
Proof. split; reflexivity. Qed.

(** ** C304: nested lookups, queues and checks *)

(** A nested lookup follows the path of keys; lookups compose. *)
Theorem C304_nested : forall (V : Type) (m n : nested V) p, p <> [] ->
  (path_to m p n -> get_nested_element m p = Ok n)
  /\ (forall q, q <> [] -> get_nested_element m p = Ok n -> get_nested_element m (p ++ q) = get_nested_element n q).
Proof. intros V m n p N. split; [intro P; now apply nested_path|]. intros q Nq H. now apply nested_app. Qed.
Print Assumptions C304_nested.

(** A path that goes on after the end of the dictionaries raises TypeError, one
    with a key that is missing raises KeyError, whatever follows, and there is
    no empty path. *)
Theorem C304_lost : forall (V : Type) (m : nested V) p k q,
  (forall v, path_to m p (Leaf v) -> get_nested_element m (p ++ k :: q) = Err TypeError)
  /\ (forall l, path_to m p (Node l) -> ~ In k (map fst l) -> get_nested_element m (p ++ k :: q) = Err KeyError)
  /\ get_nested_element m [] = Err IndexError.
Proof.
  intros V m p k q.
  assert (F : forall (n : nested V) e, child n k = Err e -> get_nested_element n (k :: q) = Err e).
  { intros n e H. cbn. rewrite H. clear. induction q; [reflexivity|assumption]. }
  assert (G : forall n e, path_to m p n -> child n k = Err e -> get_nested_element m (p ++ k :: q) = Err e).
  { intros n e P H. destruct p as [|j p].
    - inversion P; subst. now apply F.
    - rewrite (nested_app m n); [now apply F|discriminate|discriminate|]. now apply nested_path. }
  split; [intros v P; now apply (G _ _ P)|]. split; [|reflexivity]. intros l P N. apply (G _ _ P). cbn.
  now rewrite (proj2 (d_get_none str_eqb str_eqb_spec l k) N).
Qed.
Print Assumptions C304_lost.

(** Any number of calls of [pop] empty a list from the front and then give the
    default. *)
Theorem C304_pop : forall (A : Type) n (l : list A) d, pops n l d = (firstn n l ++ repeat d (n - length l), skipn n l).
Proof. intros. apply pops_ok. Qed.
Print Assumptions C304_pop.

(** An object is created exactly if it has all required attributes. *)
Theorem C304_required : forall required made,
  (required_call required made = Ok made <-> incl required made) /\ (~ incl required made -> required_call required made = Err NotImplementedError).
Proof.
  intros required made. unfold required_call. destruct (forallb (fun a => existsb (str_eqb a) made) required) eqn:H.
  - assert (incl required made) as I.
    { intros a J. rewrite forallb_forall in H. apply H, existsb_exists in J as (b & J & E). now destruct (str_eqb_spec a b) as [->|]. }
    split; [now split|contradiction].
  - split; [split; [discriminate|]|reflexivity]. intro I. assert (forallb (fun a => existsb (str_eqb a) made) required = true) as K; [|congruence].
    apply forallb_forall. intros a J. apply existsb_exists. exists a. split; [now apply I|apply str_eqb_refl].
Qed.
Print Assumptions C304_required.

(** A strict iterable gives its arguments if all are of the type. *)
Theorem C304_oftype : forall (A : Type) (isinstance : A -> bool) args,
  (oftype isinstance args = Err TypeError <-> exists x, In x args /\ isinstance x = false)
  /\ (Forall (fun x => isinstance x = true) args -> match args with [x] => oftype isinstance args = Ok (inl x) | l => oftype isinstance args = Ok (inr l) end).
Proof.
  intros A f args. unfold oftype. destruct (forallb f args) eqn:H.
  - split; [split; [discriminate|]|intros _; now destruct args as [|x [|y l]]]. intros (x & I & E). rewrite forallb_forall in H. apply H in I. congruence.
  - split; [split; [intros _|reflexivity]|].
    + induction args as [|x l IH]; [discriminate|]. cbn in H. destruct (f x) eqn:E; [|exists x; split; [now left|exact E]].
      destruct (IH H) as (y & I & Ey). exists y. split; [now right|exact Ey].
    + intro F. exfalso. assert (forallb f args = true) as K; [|congruence]. apply forallb_forall. now apply Forall_forall.
Qed.
Print Assumptions C304_oftype.

Example C304_meets : path_to (Node [(lit "a", Node [(lit "b", Leaf 1)])]) [lit "a"; lit "b"] (Leaf 1) /\ pops 3 [1; 2] 0 = ([1; 2; 0], []).
Proof.
  split; [|reflexivity]. eapply path_down; [repeat constructor; intros []|now left|]. eapply path_down; [repeat constructor; intros []|now left|constructor].
Qed.
