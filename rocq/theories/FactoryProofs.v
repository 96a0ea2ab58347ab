(** Proofs about operands, operations and names. *)

From Coq Require Import String List Bool Arith Lia.
From Verif Require Import Py PyFacts PyDict IterablesModel IterablesSpec IterablesProofs AliasedModel AliasedSpec AliasedProofs
  AliasedMapProofs AliasedMoreProofs MetadataModel MetadataProofs ViewsModel ViewsProofs FactoryModel FactorySpec.
Import ListNotations.
Open Scope list_scope.
Open Scope nat_scope.
Open Scope py_scope.

(** * Rules do not depend on the names of attributes *)

Section Rules.
Variable cls : Type.
Variable ceqb : cls -> cls -> bool.
Variable issub : cls -> cls -> bool.

Definition like (o o' : operation cls) : Prop :=
  op_type _ o = op_type _ o' /\ op_supported _ o = op_supported _ o'
  /\ op_suppressed _ o = op_suppressed _ o' /\ op_nargs _ o = op_nargs _ o'.

Lemma like_refl o : like o o.
Proof. now repeat split. Qed.
Lemma like_trans a b c : like a b -> like b c -> like a c.
Proof. intros (A & B & C & D) (A' & B' & C' & D'). repeat split; congruence. Qed.
Lemma like_sym a b : like a b -> like b a.
Proof. intros (A & B & C & D). repeat split; congruence. Qed.

Lemma supports_like o o' types : like o o' -> supports cls ceqb issub o types = supports cls ceqb issub o' types.
Proof. intros (A & B & C & D). unfold supports. now rewrite A, B, C, D. Qed.

Lemma suppress_like o o' types sym : like o o' -> like (suppress cls o types sym) (suppress cls o' types sym).
Proof. intros (A & B & C & D). unfold suppress. repeat split; simpl; congruence. Qed.

Lemma support_loop_like these sym : forall o o', like o o' ->
  like (fst (support_loop cls o these sym)) (fst (support_loop cls o' these sym)).
Proof.
  induction these as [|[c|this] these IH]; intros o o' L; [exact L|exact L|].
  pose proof L as (A & B & C & D). cbn [support_loop]. rewrite D.
  destruct (negb _); [repeat split; simpl; congruence|]. apply IH. repeat split; simpl; congruence.
Qed.
Lemma support_like o o' types sym : like o o' ->
  like (fst (support cls o types sym)) (fst (support cls o' types sym)).
Proof.
  intro L. unfold support. destruct types as [|t ts]; [exact L|].
  destruct (forallb _ _); now apply support_loop_like.
Qed.

Lemma support_loop_params these sym : forall o, op_parameters _ (fst (support_loop cls o these sym)) = op_parameters _ o.
Proof.
  induction these as [|[c|this] these IH]; intro o; [reflexivity|reflexivity|]. cbn [support_loop].
  destruct (negb _); [reflexivity|]. now rewrite IH.
Qed.
Lemma support_params o types sym : op_parameters _ (fst (support cls o types sym)) = op_parameters _ o.
Proof. unfold support. destruct types; [reflexivity|]. destruct (forallb _ _); apply support_loop_params. Qed.

Lemma run_calls_app l l' : forall o, run_calls cls o (l ++ l') = run_calls cls (run_calls cls o l) l'.
Proof. induction l as [|c l IH]; intro o; [reflexivity|]. cbn. apply IH. Qed.

End Rules.

(** * The table of operations *)

Section Table.
Variable cls : Type.
Variable ceqb : cls -> cls -> bool.
Variable issub : cls -> cls -> bool.
Variable val : Type.
Variable mkset : list str -> list str.
Hypothesis order : set_order mkset.
Variable table : list (str * (option (method val) * option (list str))).
Hypothesis fine : unambiguous table.

Notation same := (same_op table).
Notation knows := (known table).

Lemma same_opb_spec a b : same_opb table a b = true <-> same a b.
Proof.
  unfold same_opb, same_op. rewrite existsb_exists. split.
  - intros (p & I & H). apply andb_true_iff in H as (A & B). apply gin_In in A, B. eauto.
  - intros (p & I & A & B). exists p. split; [exact I|]. apply andb_true_iff. split; now apply gin_In.
Qed.

Lemma disjoint_in (gs : list (list str)) g h a : disjoint gs -> In g gs -> In h gs -> In a g -> In a h -> g = h.
Proof.
  induction 1 as [|x l F D IH]; [contradiction|]. rewrite Forall_forall in F. intros [<-|I] [<-|J] A B; auto.
  - destruct (F h J a A B).
  - destruct (F g I a B A).
Qed.

Lemma same_names p q a : In p table -> In q table -> In a (names_of p) -> In a (names_of q) -> names_of p = names_of q.
Proof.
  intros I J A B. apply (disjoint_in (map names_of table) _ _ a); auto; [apply fine| |]; now apply in_map.
Qed.

Lemma disjoint_rows (l : list (str * (option (method val) * option (list str)))) p q a :
  disjoint (map names_of l) -> In p l -> In q l -> In a (names_of p) -> In a (names_of q) -> p = q.
Proof.
  induction l as [|x l IH]; intros D; [contradiction|]. cbn [map] in D. inversion D as [|? ? F D']; subst.
  rewrite Forall_forall in F. intros [<-|I] [<-|J] A B; auto.
  - destruct (F (names_of q) (in_map _ _ _ J) a A B).
  - destruct (F (names_of p) (in_map _ _ _ I) a B A).
Qed.

Lemma same_sym a b : same a b -> same b a.
Proof. intros (p & I & A & B). exists p. auto. Qed.
Lemma same_trans a b c : same a b -> same b c -> same a c.
Proof.
  intros (p & I & A & B) (q & J & B' & C). exists p. repeat split; auto.
  now rewrite (same_names p q b I J B B').
Qed.
Lemma same_refl a : knows a <-> same a a.
Proof. split; [intros (p & I & A); exists p; auto|intros (p & I & A & _); exists p; auto]. Qed.
Lemma same_known a b : same a b -> knows a /\ knows b.
Proof. intros (p & I & A & B). split; exists p; auto. Qed.

(** A mapping whose names and aliases are those of the table. *)
Definition shaped {V} (m : amap V) : Prop :=
  AliasedSpec.consistent m /\ (forall a b, aliases_of m a b <-> same a b).

Lemma shaped_contains {V} (m : amap V) a : shaped m -> (contains m a = true <-> knows a).
Proof.
  intros (C & A). rewrite same_refl, <- A. unfold contains, aliases_of. destruct (resolve_key m a) as [g|] eqn:E.
  - split; [|auto]. intros _. exists g. split; [reflexivity|]. apply consistent_dict in C as (d & -> & G).
    now apply resolve_spec in E as (v & _ & I).
  - split; [discriminate|]. intros (g & H & _). discriminate.
Qed.

Lemma shaped_get {V} (m : amap V) a : shaped m -> knows a -> exists v, getitem m a = Ok v.
Proof.
  intros S K. apply (shaped_contains m a S) in K. destruct S as (C & _). apply consistent_dict in C as (d & -> & G).
  unfold contains in K. destruct (resolve_key (of_dict d) a) as [g|] eqn:E; [|discriminate].
  apply resolve_spec in E as (v & I & Ia); [|exact G]. exists v. apply getitem_spec; eauto.
Qed.

Lemma shaped_flat {V} (m : amap V) a : shaped m -> (In a (flat_keys m) <-> knows a).
Proof.
  intros S. rewrite <- (shaped_contains m a S). destruct S as (C & _). apply consistent_dict in C as (d & -> & G).
  rewrite in_flat_keys. unfold contains. destruct (resolve_key (of_dict d) a) as [g|] eqn:E.
  - split; auto. intros _. apply resolve_spec in E as (v & I & Ia); eauto.
  - split; [|discriminate]. intros (g & v & I & Ia). exfalso. exact (proj1 (resolve_none d a) E g v I Ia).
Qed.

(** ** The reference *)

Lemma entry_names_of p : entry_names (entry_aliases val) (lit "aliases") (interior val p) = names_of p.
Proof. destruct p as (n & m & [l|]); reflexivity. Qed.

Lemma interior_filter p : filter (fun q : str * entry val => negb (str_eqb (fst q) (lit "aliases"))) (snd (interior val p))
  = [(lit "callable", Callable val (fst (snd p)))].
Proof. destruct p as (n & m & [l|]); reflexivity. Qed.

Lemma reference_ok : exists ref, reference_map val mkset table = Ok ref /\ shaped ref
  /\ (forall p a, In p table -> In a (names_of p) -> getitem ref a = Ok (Callable val (fst (snd p)))).
Proof.
  destruct fine as (NE & D).
  assert (D' : disjoint (map (entry_names (entry_aliases val) (lit "aliases")) (map (interior val) table))).
  { rewrite map_map. erewrite map_ext; [exact D|]. intro p. apply entry_names_of. }
  destruct (interior_spec mkset order (entry_aliases val) _ _ D') as (C & G & N & A).
  unfold reference_map. set (m := mapping_interior mkset (entry_aliases val) (map (interior val) table) (lit "aliases")) in *.
  assert (G' : forall p a, In p table -> In a (names_of p) -> getitem m a = Ok [(lit "callable", Callable val (fst (snd p)))]).
  { intros p a I J. rewrite <- interior_filter. apply (G (interior val p)); [now apply in_map|]. now rewrite entry_names_of. }
  assert (U : forall a v, getitem m a = Ok v -> exists p, In p table /\ v = [(lit "callable", Callable val (fst (snd p)))]).
  { intros a v E. destruct (existsb (fun p => existsb (str_eqb a) (names_of p)) table) eqn:X.
    - apply existsb_exists in X as (p & I & X). apply gin_In in X. exists p. split; [exact I|].
      rewrite (G' p a I X) in E. congruence.
    - exfalso. rewrite N in E; [discriminate|]. intros q I J. apply in_map_iff in I as (p & <- & I).
      rewrite entry_names_of in J. assert (K : existsb (fun p => existsb (str_eqb a) (names_of p)) table = true).
      { apply existsb_exists. exists p. split; [exact I|]. now apply gin_In. } congruence. }
  destruct (squeeze_spec m true C) as (S1 & S2 & S3).
  destruct (squeeze m true) as [[m'|m']|e] eqn:Q.
  - exfalso. destruct (S2 m' eq_refl) as (_ & a & v & E & L). destruct (U a v E) as (p & _ & ->). now apply L.
  - destruct (S1 m' eq_refl) as (C' & E & A' & _). exists m'. cbn [bind]. split; [reflexivity|]. split; [split; [exact C'|]|].
    + intros a b. rewrite A'. split.
      * intro H. pose proof H as (g & R & I).
        assert (K : contains m a = true) by (unfold contains; now rewrite R).
        assert (X : exists v, getitem m a = Ok v).
        { apply consistent_dict in C as (d & Ed & Gd). rewrite Ed in *. apply resolve_spec in R as (v & J & Ja); [|exact Gd].
          exists v. apply getitem_spec; eauto. }
        destruct X as (v & X).
        destruct (existsb (fun p => existsb (str_eqb a) (names_of p)) table) eqn:Y.
        -- apply existsb_exists in Y as (p & J & Y). apply gin_In in Y. exists p. split; [exact J|]. split; [exact Y|].
           rewrite <- entry_names_of. apply (A (interior val p) a b); [now apply in_map|now rewrite entry_names_of|exact H].
        -- exfalso. rewrite N in X; [discriminate|]. intros q J Z. apply in_map_iff in J as (p & <- & J).
           rewrite entry_names_of in Z. assert (W : existsb (fun p => existsb (str_eqb a) (names_of p)) table = true).
           { apply existsb_exists. exists p. split; [exact J|]. now apply gin_In. } congruence.
      * intros (p & J & Y & Z). apply (A (interior val p) a b); [now apply in_map|now rewrite entry_names_of|now rewrite entry_names_of].
    + intros p a I J. apply E. exists (lit "callable"). now apply G'.
  - exfalso. destruct (S3 e eq_refl) as (_ & [(-> & H)|(-> & a & b & k & l & x & y & X & Y & Z)]).
    + destruct table as [|p t] eqn:T; [now apply NE|].
      assert (X := G' p (fst p) (or_introl eq_refl) (or_introl eq_refl)). specialize (H (fst p)).
      unfold getitem in X. unfold contains in H. destruct (resolve_key m (fst p)); [discriminate|]. discriminate X.
    + destruct (U a _ X) as (p & _ & P). destruct (U b _ Y) as (q & _ & P'). congruence.
Qed.

(** ** Creating the operations *)

Notation obj := (object_ cls).
Notation fresh t ps := (new_operation cls t ps).

(** What the loop that creates operations keeps up. *)
Definition placed (t : cls) (ps : list str) (done : list str) (s : amap (option nat) * list obj) : Prop :=
  shaped (fst s)
  /\ (forall a, knows a -> (exists d, In d done /\ same d a) ->
        exists i n, getitem (fst s) a = Ok (Some i) /\ nth_error (snd s) i = Some (mkObject cls (Some n) (fresh t ps)) /\ same n a)
  /\ (forall a, knows a -> (forall d, In d done -> ~ same d a) -> getitem (fst s) a = Ok None)
  /\ (forall a b i, getitem (fst s) a = Ok (Some i) -> getitem (fst s) b = Ok (Some i) -> same a b).

Lemma get_same {V} (m : amap V) a b : shaped m -> same a b -> getitem m a = getitem m b.
Proof.
  intros (C & A) S. pose proof (proj2 (A a b) S) as (g & R & I). apply consistent_dict in C as (d & -> & G).
  apply resolve_spec in R as (v & J & Ja); [|exact G].
  rewrite (proj2 (getitem_spec d G a v) (ex_intro _ g (conj J Ja))).
  now rewrite (proj2 (getitem_spec d G b v) (ex_intro _ g (conj J I))).
Qed.

Lemma get_known {V} (m : amap V) a v : shaped m -> getitem m a = Ok v -> knows a.
Proof.
  intros S E. apply (shaped_contains m a S). unfold getitem in E. unfold contains.
  destruct (resolve_key m a); [reflexivity|discriminate].
Qed.

Lemma same_dec a b : same a b \/ ~ same a b.
Proof. destruct (same_opb table a b) eqn:E; [left; now apply same_opb_spec|right; intro H; apply same_opb_spec in H; congruence]. Qed.

Lemma shaped_set {V} (m : amap V) k v : shaped m -> knows k -> shaped (setitem mkset m k v)
  /\ (forall b, same k b -> getitem (setitem mkset m k v) b = Ok v)
  /\ (forall b, ~ same k b -> getitem (setitem mkset m k v) b = getitem m b).
Proof.
  intros S K. pose proof S as (C & A).
  destruct (set_frame mkset order m k v C) as (C' & E & F & O & A'). split; [split; [exact C'|]|split].
  - intros x y. rewrite A', A. split; [|auto]. intros [H|(H & _)]; [exact H|].
    apply (shaped_contains m k S) in K. congruence.
  - intros b H. apply F. now apply A.
  - intros b H. apply O; [now rewrite A|]. intros ->. apply H. now apply same_refl.
Qed.

Lemma place_ok t ps done s k : knows k -> placed t ps done s -> placed t ps (done ++ [k]) (place cls mkset t ps s k).
Proof.
  intros K (S & A & B & I). destruct s as (m & heap). unfold place. cbn [fst snd] in *.
  destruct (shaped_set m k (Some (length heap)) S K) as (S' & E & O).
  assert (LT : forall a i, getitem m a = Ok (Some i) -> i < length heap).
  { intros a i H. assert (Ka := get_known m a _ S H).
    destruct (existsb (fun d => same_opb table d a) done) eqn:X.
    - apply existsb_exists in X as (d & J & Y). apply same_opb_spec in Y.
      destruct (A a Ka (ex_intro _ d (conj J Y))) as (j & n & G & N & _). rewrite G in H. injection H as <-.
      apply nth_error_Some. congruence.
    - rewrite B in H; [discriminate|exact Ka|]. intros d J Z. apply same_opb_spec in Z.
      assert (Y : existsb (fun d => same_opb table d a) done = true) by (apply existsb_exists; eauto). congruence. }
  split; [exact S'|split; [|split]].
  - intros a Ka (d & J & X). destruct (same_dec k a) as [Y|Y].
    + exists (length heap), k. cbn [fst snd]. rewrite E by exact Y. split; [reflexivity|]. split; [|exact Y].
      rewrite nth_error_app2 by lia. now rewrite Nat.sub_diag.
    + cbn [fst snd]. rewrite O by exact Y. apply in_app_iff in J as [J|[<-|[]]]; [|contradiction].
      destruct (A a Ka (ex_intro _ d (conj J X))) as (j & n & G & N & Z). exists j, n. split; [exact G|]. split; [|exact Z].
      rewrite nth_error_app1; [exact N|]. apply nth_error_Some. congruence.
  - intros a Ka N. cbn [fst]. rewrite O; [|apply N; apply in_app_iff; simpl; auto].
    apply B; [exact Ka|]. intros d J. apply N. apply in_app_iff. auto.
  - intros a b i. cbn [fst]. destruct (same_dec k a) as [Y|Y]; destruct (same_dec k b) as [Z|Z].
    + intros _ _. apply same_trans with k; [now apply same_sym|exact Z].
    + rewrite (E a Y), (O b Z). intros H G. injection H as <-. apply LT in G. lia.
    + rewrite (O a Y), (E b Z). intros G H. injection H as <-. apply LT in G. lia.
    + rewrite (O a Y), (O b Z). apply I.
Qed.

Lemma place_all t ps ks : forall done s, (forall k, In k ks -> knows k) -> placed t ps done s ->
  placed t ps (done ++ ks) (fold_left (place cls mkset t ps) ks s).
Proof.
  induction ks as [|k ks IH]; intros done s K P; [now rewrite app_nil_r|].
  cbn [fold_left]. replace (done ++ k :: ks) with ((done ++ [k]) ++ ks) by now rewrite <- app_assoc.
  apply IH; [intros x J; apply K; now right|]. apply place_ok; [apply K; now left|exact P].
Qed.

(** A state in which the operations exist: every name leads to the object of
    its operation and to no other. *)
Definition made (s : factory cls) (m : amap (option nat)) : Prop :=
  f_table _ s = Some m /\ shaped m
  /\ (forall a, knows a -> exists i o n, getitem m a = Ok (Some i) /\ nth_error (f_heap _ s) i = Some o
        /\ ob_name _ o = Some n /\ same n a)
  /\ (forall a b i, getitem m a = Ok (Some i) -> getitem m b = Ok (Some i) -> same a b).

Lemma operations_new t ps : exists s m, operations cls val mkset table (mkFactory cls t ps None []) = Ok (s, m)
  /\ made s m /\ f_type _ s = t /\ f_params _ s = ps
  /\ (forall a i o, getitem m a = Ok (Some i) -> nth_error (f_heap _ s) i = Some o -> ob_rules _ o = fresh t ps).
Proof.
  destruct reference_ok as (ref & ER & SR & _). unfold operations. cbn [f_table f_type f_params f_heap]. rewrite ER. cbn [bind].
  destruct (fromkeys_map mkset order ref (@None nat) (proj1 SR)) as (m0 & E0 & G0 & N0 & A0). rewrite E0. cbn [bind].
  assert (S0 : shaped m0).
  { split; [|intros a b; rewrite A0; apply SR]. unfold fromkeys in E0. injection E0 as <-.
    destruct SR as ((_ & D & F) & _). apply consistent_mapping; [exact order| |].
    - rewrite map_map. exact D.
    - apply Forall_map. apply Forall_forall. intros p I. rewrite Forall_forall in F. exact (proj2 (F (fst p) (in_map fst _ p I))). }
  destruct (fold_left (place cls mkset t ps) (flat_keys ref) (m0, [])) as (m & heap) eqn:EF.
  assert (P : placed t ps ([] ++ flat_keys ref) (m, heap)).
  { rewrite <- EF. apply place_all; [intros k J; now apply (shaped_flat ref k SR)|].
    split; [exact S0|split; [|split]].
    - intros a _ (d & [] & _).
    - intros a K _. cbn [fst]. apply G0. now apply (shaped_contains ref a SR).
    - intros a b i H. cbn [fst] in H. assert (K := get_known m0 a _ S0 H).
      rewrite G0 in H by now apply (shaped_contains ref a SR). discriminate. }
  destruct P as (S & A & _ & I). cbn [fst snd] in *.
  assert (A' : forall a, knows a -> exists i n, getitem m a = Ok (Some i)
             /\ nth_error heap i = Some (mkObject cls (Some n) (fresh t ps)) /\ same n a).
  { intros a K. apply A; [exact K|]. exists a. split; [|now apply same_refl].
    simpl. now apply (shaped_flat ref a SR). }
  do 2 eexists. split; [reflexivity|]. split; [|split; [reflexivity|split; [reflexivity|]]].
  - split; [reflexivity|]. split; [exact S|]. split; [|exact I].
    intros a K. destruct (A' a K) as (i & n & G & N & Z). exists i, (mkObject cls (Some n) (fresh t ps)), n. auto.
  - intros a i o G N. assert (K := get_known m a _ S G). destruct (A' a K) as (j & n & G' & N' & _).
    rewrite G in G'. injection G' as <-. cbn [f_heap] in N. rewrite N' in N. injection N as <-. reflexivity.
Qed.

(** ** Changing objects *)

Lemma put_nth (heap : list obj) o : forall i j, nth_error (put cls heap i o) j =
  if j =? i then match nth_error heap i with Some _ => Some o | None => None end else nth_error heap j.
Proof.
  induction heap as [|x heap IH]; intros [|i] [|j]; cbn; try reflexivity.
  - now destruct (j =? i).
  - apply IH.
Qed.

Lemma with_rules_ok s m k i o f : made s m -> getitem m k = Ok (Some i) -> nth_error (f_heap _ s) i = Some o ->
  let s' := fst (with_rules cls s i f) in
  made s' m /\ f_type _ s' = f_type _ s /\ f_params _ s' = f_params _ s
  /\ snd (with_rules cls s i f) = snd (f (ob_rules _ o))
  /\ (forall a j o', getitem m a = Ok (Some j) -> nth_error (f_heap _ s') j = Some o' ->
        (same k a /\ o' = mkObject cls (ob_name _ o) (fst (f (ob_rules _ o))))
        \/ (~ same k a /\ nth_error (f_heap _ s) j = Some o')).
Proof.
  intros (T & S & A & I) Gk N. unfold with_rules. rewrite N. destruct (f (ob_rules _ o)) as (r & e) eqn:F. cbn.
  split; [split; [exact T|split; [exact S|split; [|exact I]]]|split; [reflexivity|split; [reflexivity|split; [reflexivity|]]]].
  - intros a K. destruct (A a K) as (j & o' & n & G & N' & E & Z). cbn. destruct (Nat.eqb_spec j i) as [->|NE].
    + rewrite N in N'. injection N' as <-. exists i, (mkObject cls (ob_name _ o) r), n.
      rewrite put_nth, Nat.eqb_refl, N. auto.
    + exists j, o', n. rewrite put_nth. apply Nat.eqb_neq in NE. rewrite NE. auto.
  - intros a j o' G N'. rewrite put_nth in N'. destruct (Nat.eqb_spec j i) as [->|NE].
    + rewrite N in N'. injection N' as <-. left. split; [exact (I k a i Gk G)|reflexivity].
    + right. split; [|exact N']. intro Z. rewrite (get_same m k a S Z) in Gk. congruence.
Qed.

(** ** Histories *)

Definition facts (t : cls) (ps : list str) (h : list (act cls)) (s : factory cls) (m : amap (option nat)) : Prop :=
  made s m /\ f_type _ s = t
  /\ (forall p, In p (f_params _ s) <-> In p (ps ++ registered h))
  /\ (forall a i o, getitem m a = Ok (Some i) -> nth_error (f_heap _ s) i = Some o ->
        like cls (ob_rules _ o) (run_calls cls (fresh t []) (addressed table a h))
        /\ forall p, In p (op_parameters _ (ob_rules _ o)) <-> In p (ps ++ announced table a h)).

Definition reached (t : cls) (ps : list str) (h : list (act cls)) (s : factory cls) : Prop :=
  (exists m, facts t ps h s m)
  \/ (h = [] /\ f_table _ s = None /\ f_heap _ s = [] /\ f_type _ s = t /\ forall p, In p (f_params _ s) <-> In p ps).

Lemma operations_ok t ps h s : reached t ps h s ->
  exists s' m, operations cls val mkset table s = Ok (s', m) /\ facts t ps h s' m.
Proof.
  intros [(m & F)|(-> & T & H & Ty & P)].
  - exists s, m. split; [|exact F]. unfold operations. destruct F as ((T & _) & _). now rewrite T.
  - destruct s as [ty pa ta he]. cbn in *. subst ta he ty.
    destruct (operations_new t pa) as (s' & m & E & M & Ty & Pa & R). exists s', m. split; [exact E|].
    split; [exact M|]. split; [exact Ty|]. split; [intro p; rewrite Pa, P; cbn; now rewrite app_nil_r|].
    intros a i o G N. rewrite (R a i o G N). split; [now repeat split|]. intro p. cbn. now rewrite app_nil_r.
Qed.

Lemma lookup_ok t ps h s k : reached t ps h s -> knows k ->
  exists s' m i o n, operations cls val mkset table s = Ok (s', m) /\ facts t ps h s' m
  /\ lookup cls val mkset table s k = Ok (s', i)
  /\ getitem m k = Ok (Some i) /\ nth_error (f_heap _ s') i = Some o /\ ob_name _ o = Some n /\ same n k.
Proof.
  intros R K. destruct (operations_ok t ps h s R) as (s' & m & E & F).
  pose proof F as ((T & S & A & I) & _). destruct (A k K) as (i & o & n & G & N & On & Z).
  exists s', m, i, o, n. split; [exact E|]. split; [exact F|]. split; [|auto].
  unfold lookup. rewrite E. cbn [bind fst snd]. rewrite (proj2 (shaped_contains m k S) K), G. reflexivity.
Qed.

Lemma lookup_unknown t ps h s k : reached t ps h s -> ~ knows k -> lookup cls val mkset table s k = Err KeyError.
Proof.
  intros R K. destruct (operations_ok t ps h s R) as (s' & m & E & F). pose proof F as ((T & S & A & I) & _).
  unfold lookup. rewrite E. cbn [bind fst snd]. destruct (contains m k) eqn:C; [|reflexivity].
  exfalso. apply K. now apply (shaped_contains m k S).
Qed.

Lemma same_opb_known a k : ~ knows k -> same_opb table a k = false.
Proof. intro N. destruct (same_opb table a k) eqn:E; [|reflexivity]. apply same_opb_spec in E. exfalso. apply N. now apply same_known in E. Qed.

Lemma addressed_app a h x : addressed table a (h ++ [x]) = addressed table a h ++ addressed (cls := cls) table a [x].
Proof. unfold addressed. now rewrite flat_map_app. Qed.
Lemma announced_app a h x : announced table a (h ++ [x]) = announced table a h ++ announced (cls := cls) table a [x].
Proof. unfold announced. now rewrite flat_map_app. Qed.
Lemma registered_app h x : registered (h ++ [x]) = registered h ++ registered (cls := cls) [x].
Proof. unfold registered. now rewrite flat_map_app. Qed.

(** One change of an operation. *)
Lemma on_ok t ps h s k f x : reached t ps h s -> registered [x] = [] ->
  (forall a, ~ same k a -> addressed table a [x] = [] /\ announced table a [x] = []) ->
  (forall a o, same k a -> like cls o (run_calls cls (fresh t []) (addressed table a h)) ->
     like cls (fst (f o)) (run_calls cls (fresh t []) (addressed table a h ++ addressed table a [x]))
     /\ forall p, In p (op_parameters _ (fst (f o))) <-> In p (op_parameters _ o ++ announced table a [x])) ->
  (exists m, facts t ps (h ++ [x]) (fst (on cls val mkset table s k f)) m)
  /\ (~ knows k -> snd (on cls val mkset table s k f) = Some KeyError).
Proof.
  intros R RG NK SK.
  assert (D : knows k \/ ~ knows k).
  { destruct (same_dec k k) as [Y|Y]; [left|right]; rewrite same_refl; exact Y. }
  destruct D as [K|K].
  - split; [|contradiction]. destruct (lookup_ok t ps h s k R K) as (s' & m & i & o & n & E & F & L & G & N & On & Z).
    unfold on. rewrite L. exists m. pose proof F as (M & Ty & Pa & Ru).
    destruct (with_rules_ok s' m k i o f M G N) as (M' & Ty' & Pa' & _ & Ch).
    split; [exact M'|]. split; [congruence|]. split; [intro p; rewrite Pa', registered_app, RG, app_nil_r; apply Pa|].
    intros a j o' Ga Na. rewrite addressed_app, announced_app. destruct (Ch a j o' Ga Na) as [(Y & ->)|(Y & N')].
    + cbn [ob_rules]. pose proof M as (_ & S & _). 
      assert (Gi : getitem m a = Ok (Some i)) by now rewrite <- (get_same m k a S Y).
      destruct (Ru a i o Gi N) as (Li & In_). destruct (SK a (ob_rules _ o) Y Li) as (Li' & In').
      split; [exact Li'|]. intro p. rewrite In'. rewrite !in_app_iff, In_, in_app_iff. tauto.
    + destruct (NK a Y) as (-> & ->). rewrite !app_nil_r. now apply (Ru a j o').
  - split.
    + unfold on. rewrite (lookup_unknown t ps h s k R K). destruct (operations_ok t ps h s R) as (s' & m & E & F). rewrite E.
      cbn [fst]. exists m. destruct F as (M & Ty & Pa & Ru). split; [exact M|]. split; [exact Ty|].
      split; [intro p; rewrite registered_app, RG, app_nil_r; apply Pa|].
      intros a i o G N. destruct (NK a) as (Q1 & Q2); [intro Y; apply K; now apply same_known in Y|].
      rewrite addressed_app, announced_app, Q1, Q2, !app_nil_r. now apply (Ru a i o).
    + intros _. unfold on. now rewrite (lookup_unknown t ps h s k R K).
Qed.

(** Updating all operations. *)
Lemma update_all_ok names ids : names <> [] -> forall s,
  (forall x, In x ids -> exists i, x = Some i /\ i < length (f_heap _ s)) ->
  let s' := fst (update_all cls s names ids) in
  snd (update_all cls s names ids) = None
  /\ f_type _ s' = f_type _ s /\ f_params _ s' = f_params _ s /\ f_table _ s' = f_table _ s
  /\ length (f_heap _ s') = length (f_heap _ s)
  /\ (forall j o', nth_error (f_heap _ s') j = Some o' -> exists o, nth_error (f_heap _ s) j = Some o
        /\ ob_name _ o' = ob_name _ o /\ like cls (ob_rules _ o') (ob_rules _ o)
        /\ forall p, In p (op_parameters _ (ob_rules _ o')) <->
             In p (op_parameters _ (ob_rules _ o)) \/ (In (Some j) ids /\ In p names)).
Proof.
  intro NE. induction ids as [|x ids IH]; intros s B.
  - cbn. repeat split; auto. intros j o' N. exists o'. repeat split; auto. tauto.
  - destruct (B x (or_introl eq_refl)) as (i & -> & LT). cbn [update_all].
    unfold with_rules. destruct (nth_error (f_heap _ s) i) as [o|] eqn:N; [|apply nth_error_None in N; lia].
    assert (U : update cls names (ob_rules cls o) = (mkOperation _ (op_type _ (ob_rules _ o))
                 (op_parameters _ (ob_rules _ o) ++ names) (op_supported _ (ob_rules _ o))
                 (op_suppressed _ (ob_rules _ o)) (op_nargs _ (ob_rules _ o)), None)).
    { unfold update. destruct names; [contradiction|reflexivity]. }
    rewrite U. set (s1 := mkFactory _ _ _ _ _).
    assert (LH : length (f_heap _ s1) = length (f_heap _ s)).
    { unfold s1. cbn [f_heap]. clear. generalize (f_heap cls s) as heap. intro heap. revert i.
      induction heap as [|y heap IH]; intros [|i]; cbn; auto. }
    destruct (IH s1) as (E & Ty & Pa & Ta & Le & Ch).
    { intros y J. destruct (B y (or_intror J)) as (j & -> & LJ). exists j. split; [reflexivity|]. now rewrite LH. }
    split; [exact E|]. split; [exact Ty|]. split; [exact Pa|]. split; [exact Ta|]. split; [congruence|].
    intros j o' N'. destruct (Ch j o' N') as (o1 & N1 & On & Li & In_). unfold s1 in N1. cbn [f_heap] in N1.
    rewrite put_nth, N in N1. destruct (Nat.eqb_spec j i) as [->|Nj].
    + injection N1 as <-. exists o. cbn [ob_name ob_rules] in *. split; [exact N|]. split; [exact On|].
      split; [destruct Li as (L1 & L2 & L3 & L4); repeat split; assumption|].
      intro p. rewrite In_. cbn [op_parameters]. rewrite in_app_iff. cbn [In]. split; [|tauto].
      intros [[H|H]|(H & H')]; auto.
    + exists o1. split; [exact N1|]. split; [exact On|]. split; [exact Li|]. intro p. rewrite In_. cbn [In].
      split; [intros [H|(H & H')]; auto|intros [H|([H|H] & H')]; auto]. congruence.
Qed.

Lemma unique_in l (x : str) : In x (unique str_eqb l) <-> In x l.
Proof.
  split.
  - intro I. pose proof (unique_sub str_eqb l) as S. clear - I S. induction S; cbn in *; tauto.
  - intro I. destruct (unique_covers str_eqb str_equivalence l x I) as (y & J & E). apply str_eqb_iff in E. now subst.
Qed.

Lemma register_ok t ps h s names : reached t ps h s ->
  (exists m, facts t ps (h ++ [ARegister cls names]) (fst (register cls val mkset table s names)) m)
  /\ snd (register cls val mkset table s names) = match names with [] => Some ValueError | _ => None end.
Proof.
  intro R. unfold register. set (s1 := mkFactory _ _ _ _ _).
  assert (O : exists s2 m, operations cls val mkset table s1 = Ok (s2, m) /\ made s2 m /\ f_type _ s2 = t
     /\ (forall p, In p (f_params _ s2) <-> In p (ps ++ registered h ++ names))
     /\ (forall a i o, getitem m a = Ok (Some i) -> nth_error (f_heap _ s2) i = Some o ->
        like cls (ob_rules _ o) (run_calls cls (fresh t []) (addressed table a h))
        /\ forall p, (In p (op_parameters _ (ob_rules _ o)) \/ In p names) <-> In p (ps ++ announced table a h ++ names))).
  { destruct R as [(m & M & Ty & Pa & Ru)|(-> & T & H & Ty & P)].
    - exists s1, m. split.
      + unfold operations, s1. destruct M as (T & _). cbn [f_table]. now rewrite T.
      + split; [exact M|]. split; [exact Ty|]. split.
        * intro p. unfold s1. cbn [f_params]. rewrite !in_app_iff, Pa, unique_in, in_app_iff. tauto.
        * intros a i o G N. destruct (Ru a i o G N) as (L & Q). split; [exact L|]. intro p. rewrite Q, !in_app_iff. tauto.
    - destruct s as [ty pa ta he]. cbn in T, H, Ty, P. subst ta he ty. unfold s1. cbn [f_type f_params f_table f_heap].
      destruct (operations_new t (pa ++ unique str_eqb names)) as (s2 & m & E & M & Ty & Pa & Ru). exists s2, m.
      split; [exact E|]. split; [exact M|]. split; [exact Ty|]. split.
      + intro p. rewrite Pa. cbn. rewrite !in_app_iff, P, unique_in. tauto.
      + intros a i o G N. rewrite (Ru a i o G N). split; [now repeat split|]. intro p. cbn [op_parameters new_operation].
        cbn. rewrite !in_app_iff, P, unique_in. tauto. }
  destruct O as (s2 & m & E & M & Ty & Pa & Ru). rewrite E.
  pose proof M as (T & S & A & I).
  assert (G : exists ids, mapM (getitem m) (flat_keys m) = Ok ids
     /\ (forall x, In x ids -> exists i, x = Some i /\ i < length (f_heap _ s2))
     /\ (forall a i, getitem m a = Ok (Some i) -> In (Some i) ids)
     /\ ids <> []).
  { assert (Q : forall ks, (forall k, In k ks -> knows k) -> exists ids, mapM (getitem m) ks = Ok ids
       /\ (forall x, In x ids -> exists i, x = Some i /\ i < length (f_heap _ s2))
       /\ (forall a i, In a ks -> getitem m a = Ok (Some i) -> In (Some i) ids) /\ length ids = length ks).
    { induction ks as [|k ks IH]; intro K; [exists []; repeat split; try easy|].
      destruct IH as (ids & E' & B & C & L); [intros x J; apply K; now right|].
      destruct (A k (K k (or_introl eq_refl))) as (i & o & n & G & N & _). exists (Some i :: ids). cbn [mapM]. rewrite G. cbn [bind].
      rewrite E'. cbn [bind]. split; [reflexivity|]. split; [|split].
      - intros x [<-|J]; [|now apply B]. exists i. split; [reflexivity|]. apply nth_error_Some. congruence.
      - intros a j [<-|J] Ga; [left; congruence|right; now apply (C a)].
      - cbn. now rewrite L. }
    destruct (Q (flat_keys m)) as (ids & E' & B & C & L); [intros k J; now apply (shaped_flat m k S)|].
    exists ids. split; [exact E'|]. split; [exact B|]. split.
    - intros a i Ga. apply (C a i); [|exact Ga]. apply (shaped_flat m a S). exact (get_known m a _ S Ga).
    - intros ->. destruct fine as (NE & _). destruct table as [|p tt] eqn:TB; [now apply NE|].
      assert (J : In (fst p) (flat_keys m)).
      { apply (shaped_flat m _ S). exists p. rewrite TB. split; left; reflexivity. }
      destruct (flat_keys m); [contradiction|discriminate]. }
  destruct G as (ids & -> & B & C & NE).
  destruct names as [|nm names'].
  - destruct ids as [|x ids]; [contradiction|]. destruct (B x (or_introl eq_refl)) as (i & -> & LT).
    cbn [update_all]. destruct (nth_error (f_heap _ s2) i) as [o|] eqn:N; [|apply nth_error_None in N; lia].
    unfold with_rules. rewrite N. cbn [update].
    split; [|reflexivity]. exists m. cbn [fst].
    assert (PE : forall j, nth_error (put cls (f_heap _ s2) i (mkObject cls (ob_name _ o) (ob_rules _ o))) j = nth_error (f_heap _ s2) j).
    { intro j. rewrite put_nth. destruct (Nat.eqb_spec j i) as [->|Nj]; [|reflexivity]. rewrite N. now destruct o. }
    split; [split; [exact T|split; [exact S|split; [|exact I]]]|].
    + intros a K. cbn [f_heap]. destruct (A a K) as (j & o' & n & H). exists j, o', n. now rewrite PE.
    + cbn [f_type f_params f_heap]. split; [exact Ty|]. split.
      * intro p. rewrite registered_app. cbn. rewrite Pa, !in_app_iff. tauto.
      * intros a j o' Ga Na. rewrite PE in Na. rewrite addressed_app, announced_app. cbn. rewrite !app_nil_r.
        destruct (Ru a j o' Ga Na) as (L & Q). split; [exact L|]. intro p. specialize (Q p). rewrite !in_app_iff in *. cbn in Q. tauto.
  - set (names := nm :: names') in *. destruct (update_all_ok names ids) with (s := s2) as (E2 & Ty2 & Pa2 & Ta2 & Le2 & Ch); [discriminate|exact B|].
    split; [|exact E2]. exists m. set (s3 := fst _) in *.
    split; [split; [congruence|split; [exact S|split; [|exact I]]]|].
    + intros a K. destruct (A a K) as (j & o & n & Ga & N & On & Z).
      destruct (nth_error (f_heap _ s3) j) as [o'|] eqn:N'; [|apply nth_error_None in N'; rewrite Le2 in N'; apply nth_error_None in N'; congruence].
      destruct (Ch j o' N') as (o0 & N0 & On' & _). rewrite N in N0. injection N0 as <-. exists j, o', n. repeat split; auto. congruence.
    + split; [congruence|]. split.
      * intro p. rewrite Pa2, registered_app, Pa. cbn. rewrite app_nil_r. reflexivity.
      * intros a j o' Ga Na. destruct (Ch j o' Na) as (o & N & On & Li & Q). destruct (Ru a j o Ga N) as (L & Q').
        rewrite addressed_app, announced_app. cbn. rewrite !app_nil_r. split; [now apply like_trans with (ob_rules cls o)|].
        intro p. rewrite Q. fold names. rewrite <- Q'. specialize (C a j Ga). tauto.
Qed.

Lemma run_act_ok t ps h s x : reached t ps h s -> reached t ps (h ++ [x]) (fst (run_act cls val mkset table s x)).
Proof.
  intro R. left.
  assert (SB : forall a k, ~ same k a -> same_opb table a k = false).
  { intros a k N. destruct (same_opb table a k) eqn:E; [|reflexivity]. apply same_opb_spec in E. exfalso. apply N. now apply same_sym. }
  assert (SA : forall a k, same k a -> same_opb table a k = true) by (intros a k Y; apply same_opb_spec; now apply same_sym).
  destruct x as [k types sym|k types sym|k names|names|k]; cbn [run_act].
  - eapply proj1, on_ok; [exact R|reflexivity| |].
    + intros a N. cbn. now rewrite SB.
    + intros a o Y L. cbn. rewrite SA by exact Y. cbn [app fst]. rewrite run_calls_app. cbn.
      split; [now apply suppress_like|]. intro p. now rewrite app_nil_r.
  - eapply proj1, on_ok; [exact R|reflexivity| |].
    + intros a N. cbn. now rewrite SB.
    + intros a o Y L. cbn. rewrite SA by exact Y. cbn [app fst]. rewrite run_calls_app. cbn [run_calls run_call].
      split; [now apply support_like|]. intro p. now rewrite app_nil_r, support_params.
  - eapply proj1, on_ok; [exact R|reflexivity| |].
    + intros a N. cbn. now rewrite SB.
    + intros a o Y L. cbn. rewrite SA by exact Y. rewrite !app_nil_r. unfold update. destruct names as [|n names].
      * split; [exact L|]. intro p. cbn [fst]. now rewrite app_nil_r.
      * cbn [fst op_parameters]. split; [destruct L as (A & B & C & D); repeat split; assumption|]. reflexivity.
  - apply register_ok. exact R.
  - eapply proj1, on_ok; [exact R|reflexivity| |].
    + intros a N. cbn. auto.
    + intros a o Y L. cbn. rewrite app_nil_r. split; [exact L|]. intro p. now rewrite app_nil_r.
Qed.

Lemma run_acts_ok t ps l : forall h s, reached t ps h s -> reached t ps (h ++ l) (run_acts cls val mkset table s l).
Proof.
  induction l as [|x l IH]; intros h s R; [now rewrite app_nil_r|]. cbn [run_acts].
  replace (h ++ x :: l) with ((h ++ [x]) ++ l) by now rewrite <- app_assoc. apply IH. now apply run_act_ok.
Qed.

Lemma new_reached t ps : reached t ps [] (new_factory cls t ps).
Proof. right. repeat split; cbn; auto; apply unique_in. Qed.

Lemma run_reached t ps h : reached t ps h (run_acts cls val mkset table (new_factory cls t ps) h).
Proof. exact (run_acts_ok t ps h [] _ (new_reached t ps)). Qed.

(** ** What a user sees *)

Notation run t ps h := (run_acts cls val mkset table (new_factory cls t ps) h).

Lemma asks_ok t ps h k types : knows k ->
  asks cls ceqb issub val mkset table (run t ps h) k types
  = Ok (supports cls ceqb issub (run_calls cls (new_operation cls t []) (addressed table k h)) types).
Proof.
  intro K. destruct (lookup_ok t ps h _ k (run_reached t ps h) K) as (s' & m & i & o & n & E & F & L & G & N & On & Z).
  unfold asks. rewrite L. cbn [bind fst snd]. rewrite N. f_equal. destruct F as (_ & _ & _ & Ru).
  apply supports_like. exact (proj1 (Ru k i o G N)).
Qed.

Lemma identity_ok t ps h a b : knows a -> knows b ->
  (exists s i j, lookup cls val mkset table (run t ps h) a = Ok (s, i) /\ lookup cls val mkset table (run t ps h) b = Ok (s, j)
     /\ (i = j <-> same a b)).
Proof.
  intros Ka Kb. destruct (lookup_ok t ps h _ a (run_reached t ps h) Ka) as (s' & m & i & o & n & E & F & L & G & N & On & Z).
  destruct (lookup_ok t ps h _ b (run_reached t ps h) Kb) as (s2 & m2 & j & o2 & n2 & E2 & F2 & L2 & G2 & N2 & On2 & Z2).
  rewrite E in E2. injection E2 as <- <-. exists s', i, j. split; [exact L|]. split; [exact L2|].
  destruct F as ((_ & S & _ & I) & _). split.
  - intros ->. exact (I a b j G G2).
  - intro Y. rewrite (get_same m a b S Y) in G. congruence.
Qed.

Lemma names_ok t ps h : exists l, names_ cls val mkset table (run t ps h) = Ok l /\ NoDup l /\ forall a, In a l <-> knows a.
Proof.
  destruct (operations_ok t ps h _ (run_reached t ps h)) as (s & m & E & ((_ & S & _) & _)).
  unfold names_. rewrite E. cbn [bind snd]. exists (flat_keys m). split; [reflexivity|]. split.
  - destruct S as (C & _). apply consistent_dict in C as (d & -> & G). now apply good_keys_NoDup.
  - intro a. now apply shaped_flat.
Qed.

Lemma params_ok t ps h p : In p (f_params _ (run t ps h)) <-> In p (ps ++ registered h).
Proof.
  destruct (run_reached t ps h) as [(m & _ & _ & P & _)|(-> & _ & _ & _ & P)]; [apply P|].
  rewrite P. cbn. now rewrite app_nil_r.
Qed.

Lemma type_ok t ps h : f_type _ (run t ps h) = t.
Proof. now destruct (run_reached t ps h) as [(m & _ & T & _)|(_ & _ & _ & T & _)]. Qed.

(** Evaluating. *)
Lemma compute_ok f (args : list (operand cls val)) p : should_be f args p (compute cls val f args p).
Proof.
  unfold should_be, compute, operator_call.
  change (fun o : operand cls val => getattrval o p) with (contributes (cls := cls) (val := val) p).
  destruct (f (map (contributes p) args)) as [v|e]; [reflexivity|]. destruct e; try reflexivity.
  assert (H : allhave [p] (mkOperands args None) = true <-> Forall (has p) args).
  { unfold allhave. cbn [o_args]. rewrite forallb_forall, Forall_forall. split; intros H o I; specialize (H o I); cbn in *.
    - unfold hasattr in H. unfold has. destruct (o_attr o p); [discriminate|]. discriminate H.
    - unfold hasattr. unfold has in H. destruct (o_attr o p); [reflexivity|]. now destruct H. }
  destruct args as [|a [|b args]]; cbn [map].
  - left. split; [constructor|reflexivity].
  - reflexivity.
  - destruct (allhave _ _); [left|right]; (split; [|reflexivity]); [now apply H|intro Y; apply H in Y; discriminate].
Qed.

Lemma should_fun f (args : list (operand cls val)) p r r' : should_be f args p r -> should_be f args p r' -> r = r'.
Proof.
  unfold should_be. destruct (f _) as [v|e]; [congruence|]. destruct e; try congruence.
  destruct args as [|a [|b args]]; try congruence; intros [(A & ->)|(A & ->)] [(B & ->)|(B & ->)]; auto; contradiction.
Qed.

Lemma apply_ok rules f args attrs : (forall p, In p (op_parameters _ rules) <-> In p attrs) ->
  supports cls ceqb issub rules (map o_class args) = true ->
  answers f args attrs (apply cls ceqb issub val rules (Some f) args).
Proof.
  intros A S. unfold apply. rewrite S.
  assert (Q : forall l, match mapM (fun p => do v <- compute cls val f args p; Ok (p, v)) l with
     | Ok d => map fst d = l /\ forall p v, In (p, v) d -> compute cls val f args p = Ok v
     | Err e => exists p, In p l /\ compute cls val f args p = Err e
     end).
  { induction l as [|p l IH]; cbn [mapM]; [now split|]. destruct (compute cls val f args p) as [v|e] eqn:E; cbn [bind].
    - destruct (mapM _ l) as [d|e] eqn:M; cbn [bind].
      + destruct IH as (IH1 & IH2). split; [cbn; now rewrite IH1|]. intros q w [H|H]; [congruence|now apply IH2].
      + destruct IH as (q & J & K). exists q. split; [now right|exact K].
    - exists p. split; [now left|exact E]. }
  specialize (Q (op_parameters _ rules)). destruct (mapM _ _) as [l|e]; cbn [bind answers].
  - destruct Q as (Q1 & Q2).
    assert (GI : forall p v, In (p, v) (d_of str_eqb l) -> In (p, v) l).
    { intros p v I. apply (d_get_iff str_eqb str_eqb_spec) in I; [|apply d_of_NoDup; exact str_eqb_spec].
      rewrite d_of_get in I by exact str_eqb_spec. apply (d_get_in str_eqb str_eqb_spec) in I. now apply in_rev. }
    assert (KI : forall p, In p (map fst (d_of str_eqb l)) <-> In p (map fst l)).
    { intro p. split.
      - intro I. apply in_map_iff in I as ((q & v) & <- & I). apply GI in I. now apply (in_map fst) in I.
      - intro I. apply (d_has_in str_eqb str_eqb_spec). unfold d_has.
        rewrite d_of_get by exact str_eqb_spec.
        destruct (d_get str_eqb (rev l) p) eqn:X; [reflexivity|]. apply (d_get_none str_eqb str_eqb_spec) in X.
        exfalso. apply X. rewrite map_rev. now apply in_rev in I. }
    split; [apply d_of_NoDup; exact str_eqb_spec|]. split.
    + intro p. rewrite KI, Q1. apply A.
    + intros p v I. apply GI, Q2 in I. rewrite <- I. apply compute_ok.
  - destruct Q as (p & I & E). exists p. split; [now apply A|]. rewrite <- E. apply compute_ok.
Qed.

Lemma evaluate_ok t ps h k n m al args : In (n, (m, al)) table -> In k (names_of (n, (m, al))) ->
  match m with
  | None => evaluate cls ceqb issub val mkset table (run t ps h) k args = Ok None
  | Some f =>
      if supports cls ceqb issub (run_calls cls (new_operation cls t []) (addressed table k h)) (map o_class args)
      then answers f args (ps ++ announced table k h) (evaluate cls ceqb issub val mkset table (run t ps h) k args)
      else evaluate cls ceqb issub val mkset table (run t ps h) k args = Err OperandTypeError
  end.
Proof.
  intros I J. assert (K : knows k) by (exists (n, (m, al)); auto).
  destruct (lookup_ok t ps h _ k (run_reached t ps h) K) as (s' & mp & i & o & n' & E & F & L & G & N & On & Z).
  destruct reference_ok as (ref & ER & SR & GR).
  assert (EV : evaluate cls ceqb issub val mkset table (run t ps h) k args = apply cls ceqb issub val (ob_rules _ o) m args).
  { unfold evaluate. rewrite L. cbn [bind fst snd]. rewrite N, On, ER. cbn [bind].
    destruct Z as (p & Ip & A & B). assert (p = (n, (m, al))) as -> by (apply (disjoint_rows table _ _ k); auto; apply fine).
    rewrite (GR _ n' Ip A). reflexivity. }
  rewrite EV. destruct m as [f|]; [|reflexivity]. destruct F as (_ & _ & _ & Ru). destruct (Ru k i o G N) as (Li & Pa).
  rewrite <- (supports_like cls ceqb issub _ _ (map o_class args) Li).
  destruct (supports cls ceqb issub (ob_rules cls o) (map o_class args)) eqn:S.
  - now apply apply_ok.
  - unfold apply. now rewrite S.
Qed.

Lemma implement_ok t ps h f (args : list (operand cls val)) :
  if existsb (ceqb t) (map o_class args)
  then answers f args (ps ++ registered h) (implement cls ceqb issub val (run t ps h) f args)
  else implement cls ceqb issub val (run t ps h) f args = Err OperandTypeError.
Proof.
  unfold implement. rewrite type_ok.
  assert (S : supports cls ceqb issub (new_operation cls t (f_params _ (run t ps h))) (map o_class args) = existsb (ceqb t) (map o_class args)).
  { reflexivity. }
  destruct (existsb (ceqb t) (map o_class args)) eqn:X.
  - apply apply_ok; [|now rewrite S]. cbn [op_parameters new_operation]. intro p. apply params_ok.
  - unfold apply. now rewrite S.
Qed.

Lemma register_result t ps h names :
  snd (run_act cls val mkset table (run t ps h) (ARegister cls names)) = match names with [] => Some ValueError | _ => None end.
Proof. exact (proj2 (register_ok t ps h _ names (run_reached t ps h))). Qed.

Lemma unknown_result t ps h k f : ~ knows k -> snd (on cls val mkset table (run t ps h) k f) = Some KeyError.
Proof. intro K. unfold on. now rewrite (lookup_unknown t ps h _ k (run_reached t ps h) K). Qed.

Lemma asks_unknown t ps h k types : ~ knows k -> asks cls ceqb issub val mkset table (run t ps h) k types = Err KeyError.
Proof. intro K. unfold asks. now rewrite (lookup_unknown t ps h _ k (run_reached t ps h) K). Qed.

Lemma evaluate_unknown t ps h k args : ~ knows k -> evaluate cls ceqb issub val mkset table (run t ps h) k args = Err KeyError.
Proof. intro K. unfold evaluate. now rewrite (lookup_unknown t ps h _ k (run_reached t ps h) K). Qed.

End Table.

(** * Operands *)

Section Operands.
Context {cls val : Type}.
Variable vtrue : val -> bool.

Lemma getall_strict_ok (os : operands cls val) name :
  (Forall (has name) (o_args os) -> exists vs, getall os name MStrict = Ok (map Some vs) /\ map Some vs = map (fun o => o_attr o name) (o_args os))
  /\ (~ Forall (has name) (o_args os) -> getall os name MStrict = Err AttributeError).
Proof.
  unfold getall. induction (o_args os) as [|o l IH]; cbn [mapM map].
  - split; [exists []; auto|]. intro N. exfalso. apply N. constructor.
  - destruct IH as (IH1 & IH2). unfold get_ at 1. unfold get_ at 2. unfold hasattr, getattrval.
    destruct (o_attr o name) as [v|] eqn:E; cbn.
    + split.
      * intro F. inversion F; subst. destruct (IH1 H2) as (vs & E1 & E2). rewrite E1. cbn. exists (v :: vs). cbn. now rewrite E2.
      * intro N. rewrite IH2; [reflexivity|]. intro F. apply N. constructor; [unfold has; congruence|exact F].
    + split; [|reflexivity]. intro F. inversion F; subst. now destruct (H1 E).
Qed.

Lemma getall_force_ok (os : operands cls val) name :
  getall os name MForce = Ok (map (fun o => Some (contributes name o)) (o_args os)).
Proof.
  unfold getall. induction (o_args os) as [|o l IH]; cbn [mapM map]; [reflexivity|].
  unfold get_ at 1. rewrite andb_false_r, orb_true_r. cbn [bind]. rewrite IH. reflexivity.
Qed.

Lemma getall_next_ok (os : operands cls val) name :
  getall os name MNext = Ok (map (fun o => o_attr o name) (o_args os)).
Proof.
  unfold getall. induction (o_args os) as [|o l IH]; cbn [mapM map]; [reflexivity|].
  cbn [get_ bind]. now rewrite IH.
Qed.

Lemma getall_default_ok (os : operands cls val) name r : o_reference os = Some r \/ (o_reference os = None /\ hd_error (o_args os) = Some r) ->
  getall os name MDefault = Ok (map (fun o => Some (match o_attr o name with Some v => v | None => contributes name r end)) (o_args os)).
Proof.
  intro R. assert (E : reference os = Ok r).
  { unfold reference. destruct R as [->|(-> & H)]; [reflexivity|]. destruct (o_args os); [discriminate|]. cbn in H. congruence. }
  unfold getall. clear R. induction (o_args os) as [|o l IH]; cbn [mapM map]; [reflexivity|].
  rewrite IH. unfold get_, hasattr, getattrval. rewrite E. cbn [bind]. now destruct (o_attr o name).
Qed.

Lemma getany_ok (os : operands cls val) name :
  exists r, getany vtrue os name = Ok r
  /\ match r with
     | Some v => exists pre o post, o_args os = pre ++ o :: post /\ o_attr o name = Some v /\ vtrue v = true
                 /\ Forall (fun x => forall w, o_attr x name = Some w -> vtrue w = false) pre
     | None => Forall (fun x => forall w, o_attr x name = Some w -> vtrue w = false) (o_args os)
     end.
Proof.
  unfold getany. rewrite getall_next_ok. cbn [bind]. eexists. split; [reflexivity|].
  induction (o_args os) as [|o l IH]; cbn [map find]; [constructor|].
  destruct (o_attr o name) as [v|] eqn:E.
  - destruct (vtrue v) eqn:T.
    + exists [], o, l. repeat split; auto.
    + destruct (find _ _) as [[w|]|].
      * destruct IH as (pre & o' & post & -> & A & B & C). exists (o :: pre), o', post. repeat split; auto.
        constructor; [|exact C]. intros w' H. congruence.
      * constructor; [|exact IH]. intros w' H. congruence.
      * constructor; [|exact IH]. intros w' H. congruence.
  - destruct (find _ _) as [[w|]|].
    + destruct IH as (pre & o' & post & -> & A & B & C). exists (o :: pre), o', post. repeat split; auto.
      constructor; [|exact C]. intros w' H. congruence.
    + constructor; [|exact IH]. intros w' H. congruence.
    + constructor; [|exact IH]. intros w' H. congruence.
Qed.

Lemma find_ok (os : operands cls val) names o : In o (find_ names os) <-> In o (o_args os) /\ forall n, In n names -> has n o.
Proof.
  unfold find_. rewrite filter_In, forallb_forall. unfold has, hasattr. split; intros (A & B); split; auto; intros n I; specialize (B n I).
  - destruct (o_attr o n); [discriminate|discriminate].
  - destruct (o_attr o n); [reflexivity|contradiction].
Qed.

Lemma allhave_ok (os : operands cls val) names : allhave names os = true <-> forall o n, In o (o_args os) -> In n names -> has n o.
Proof.
  unfold allhave. rewrite forallb_forall. unfold has, hasattr. split.
  - intros A o n I J. specialize (A o I). rewrite forallb_forall in A. specialize (A n J). destruct (o_attr o n); [discriminate|discriminate].
  - intros A o I. apply forallb_forall. intros n J. specialize (A o n I J). destruct (o_attr o n); [reflexivity|contradiction].
Qed.

Lemma slice_default_ok (os : operands cls val) a b name : Forall (has name) (o_args (slice_ os a b)) ->
  getall (slice_ os a b) name MDefault = Ok (map (fun o => o_attr o name) (firstn (b - a) (skipn a (o_args os)))).
Proof.
  unfold getall. unfold slice_ at 1 3. cbn [o_args]. induction (firstn (b - a) (skipn a (o_args os))) as [|o l IH]; intro F; cbn [mapM map]; [reflexivity|].
  inversion F; subst. rewrite IH by assumption. unfold get_, hasattr, getattrval.
  unfold has in H1. destruct (o_attr o name); [reflexivity|contradiction].
Qed.

End Operands.

(** * Names *)

Section Names.
Variable mkset : list str -> list str.
Hypothesis order : set_order mkset.

Lemma alias_ok name updates reset :
  match alias mkset name updates reset with
  | Ok n => NoDup n /\ (forall a, In a n <-> In a updates \/ (reset = false /\ In a name)) /\ (reset = true -> updates <> [])
  | Err e => e = TypeError /\ reset = true /\ updates = []
  end.
Proof.
  unfold alias, name_of. destruct reset.
  - destruct updates as [|u us]; [auto|]. split; [apply order|]. split; [|discriminate].
    intro a. destruct (order (u :: us)) as (_ & O). rewrite O. split; [auto|]. intros [H|(H & _)]; [exact H|discriminate].
  - split; [apply order|]. split; [|discriminate]. intro a. rewrite (mkset_In mkset order), (group_or_In mkset order).
    rewrite !(mkset_In mkset order). tauto.
Qed.

Lemma alias_run_ok h : forall name name', (forall a, In a name <-> In a name') ->
  forall a, In a (alias_run mkset name h) <-> In a (given name' h).
Proof.
  induction h as [|(u & r) h IH]; intros name name' E a; [apply E|].
  unfold alias_run. cbn [fold_left fst snd]. cbn [given]. fold (alias_run mkset).
  change (In a (alias_run mkset (match alias mkset name u r with Ok n' => n' | Err _ => name end) h) <-> In a (given (if r then match u with [] => name' | _ :: _ => u end else name' ++ u) h)).
  apply IH. intro b. pose proof (alias_ok name u r) as A. destruct (alias mkset name u r) as [n|e].
  - destruct A as (_ & A & B). rewrite A. destruct r.
    + destruct u; [now destruct (B eq_refl)|]. split; [intros [H|(H & _)]; [exact H|discriminate]|auto].
    + rewrite in_app_iff, <- E. tauto.
  - destruct A as (_ & -> & ->). apply E.
Qed.

End Names.
