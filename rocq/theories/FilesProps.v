(** Properties of files and datasets. *)

From Coq Require Import String Ascii List Bool Lia Arith.
From Verif Require Import Py PyFacts PyDict FilesModel FilesSpec FilesProofs.
From Verif Require AliasedModel AliasedSpec AliasedMapProofs ObserverModel ObserverSpec ObserverProps.
Import ListNotations.
Open Scope list_scope.
Open Scope nat_scope.
Open Scope py_scope.

(** ** C147: comments at the end of a line *)

(** Missing: signs that overlap (see below), empty signs. *)
Theorem C147_before_first_sign_partial : forall s signs, Forall (fun c => c <> []) signs -> apart signs ->
  exists t, before_signs signs s t /\ strip_inline_comments s signs = Ok (strip t).
Proof.
  intros s signs F A. destruct (cut_all_spec signs s F) as (t & E & C). exists t. split; [now apply cut_state_before|].
  unfold strip_inline_comments. now rewrite E.
Qed.
Print Assumptions C147_before_first_sign_partial.

Theorem C147_order_partial : forall s signs signs', Forall (fun c => c <> []) signs -> apart signs ->
  (forall c, In c signs <-> In c signs') -> strip_inline_comments s signs = strip_inline_comments s signs'.
Proof.
  intros s l l' F A I.
  assert (Forall (fun c => c <> []) l') as F' by (rewrite Forall_forall in *; intros c J; apply F; now apply I).
  assert (apart l') as A' by (intros c d d1 d2 J K; apply A; now apply I).
  destruct (C147_before_first_sign_partial s l F A) as (t & B & ->). destruct (C147_before_first_sign_partial s l' F' A') as (t' & B' & ->).
  f_equal. f_equal. apply (before_signs_unique l s); [exact B|].
  destruct B' as (rest & E & R & N). exists rest. split; [exact E|].
  assert (forall x, sign_here l' x <-> sign_here l x) as X by (intros x; split; intros (c & J & K); exists c; split; auto; now apply I).
  split; [destruct R as [R|R]; [now left|right; now apply X]|]. intros u v G Nv H. apply (N u v G Nv). now apply X.
Qed.
Print Assumptions C147_order_partial.

(** Whatever the signs: none is left, and a second pass changes nothing. *)
Theorem C261_clean : forall s signs, Forall (fun c => c <> []) signs ->
  exists r, strip_inline_comments s signs = Ok r /\ (forall c, In c signs -> ~ occurs c r)
    /\ strip_inline_comments r signs = Ok r.
Proof.
  intros s signs F. destruct (cut_all_spec signs s F) as (t & E & (r & _ & _ & D)). exists (strip t).
  assert (forall c, In c signs -> ~ occurs c (strip t)) as N by (intros c I O; exact (D c I (occurs_strip c t O))).
  unfold strip_inline_comments. rewrite E, (cut_all_keeps signs (strip t) F N). simpl. now rewrite strip_twice.
Qed.
Print Assumptions C261_clean.

(** An empty sign is an error, wherever it is among the signs. *)
Theorem C261_empty_sign : forall s signs, In [] signs -> strip_inline_comments s signs = Err ValueError.
Proof.
  intros s signs. unfold strip_inline_comments. revert s. induction signs as [|c l IH]; intros s I; [destruct I|].
  destruct c as [|x c]; [reflexivity|]. destruct I as [C|I]; [discriminate C|]. exact (IH _ I).
Qed.
Print Assumptions C261_empty_sign.

(** With overlapping signs the order matters. *)
Theorem C147_overlap_refuted : exists s signs signs', (forall c, In c signs <-> In c signs') /\
  Forall (fun c => c <> []) signs /\ strip_inline_comments s signs <> strip_inline_comments s signs'.
Proof.
  exists (lit "x/*"), [lit "*"; lit "/*"], [lit "/*"; lit "*"]. split; [intros c; simpl; tauto|]. split; [repeat constructor; discriminate|]. vm_compute. discriminate.
Qed.
Print Assumptions C147_overlap_refuted.

Example C147_example : Forall (fun c => c <> []) [lit "#"; lit "//"] /\ apart [lit "#"; lit "//"]
  /\ strip_inline_comments (lit " a = 1 // b # c") [lit "#"; lit "//"] = Ok (lit "a = 1").
Proof.
  split; [repeat constructor; discriminate|]. split; [|reflexivity].
  intros c d d1 d2 [<-|[<-|[]]] [<-|[<-|[]]] N E N1 N2; try congruence.
  - destruct d1 as [|x [|y [|z d1]]]; [congruence| | |]; cbn in E.
    + injection E as <- E. subst d2. split; intros (t & T); discriminate.
    + injection E as <- <- E. congruence.
    + discriminate.
  - destruct d1 as [|x [|y d1]]; [congruence| |]; cbn in E; [injection E as <- E; congruence|discriminate].
Qed.

(** ** C148: searching directories *)

Section Paths.
Context (exists_ is_dir : str -> bool) (resolve : str -> str) (join : str -> str -> str).

(** Missing: paths that do not exist (see below). *)
Theorem C148_first_partial : forall paths file, (forall p, In p paths -> exists_ (resolve p) = true) ->
  exists r, first_such (has_file exists_ is_dir resolve join file) paths r
    /\ search exists_ is_dir resolve join paths file = Ok (option_map (fun p => join (resolve p) file) r).
Proof. intros. now apply search_spec. Qed.

(** A missing directory makes the search fail, wherever the file is. *)
Theorem C148_missing_refuted : forall p l file, exists_ (resolve p) = false ->
  search exists_ is_dir resolve join (p :: l) file = Err NonExistentPathError.
Proof. intros. now apply search_missing. Qed.

(** ** C149: files named by templates *)

Theorem C149_first_template : forall templates name d, exists_ (resolve d) = true ->
  exists r, first_such (fun t : str -> str => exists_ (join (resolve d) (t name)) = true) templates r
    /\ find_file_by_template exists_ resolve join templates name d = Ok (option_map (fun t => join (resolve d) (t name)) r).
Proof.
  intros ts name d E. unfold find_file_by_template, read_only_path. rewrite E. simpl.
  destruct (first_existing_spec exists_ join (resolve d) (map (fun t => t name) ts)) as (r & F & ->). destruct r as [f|]; simpl in F.
  - destruct F as (l1 & l2 & M & P & N). apply map_eq_app in M as (t1 & t2 & -> & M1 & M2). apply map_eq_cons in M2 as (t & t3 & -> & M3 & M4).
    exists (Some t). simpl. subst f. split; [|reflexivity]. exists t1, t3. split; [reflexivity|]. split; [exact P|].
    intros y I. apply N. rewrite <- M1. now apply (in_map (fun t => t name)).
  - exists None. split; [|reflexivity]. intros t I. apply F. now apply (in_map (fun t => t name)).
Qed.
End Paths.
Print Assumptions C148_first_partial.
Print Assumptions C148_missing_refuted.
Print Assumptions C149_first_template.

(** The directories [d] and [e]; only [e] has the file [f]. *)
Definition ex_exists (p : str) : bool := existsb (str_eqb p) [lit "d"; lit "e"; lit "e/f"].
Definition ex_dir (p : str) : bool := existsb (str_eqb p) [lit "d"; lit "e"].
Definition ex_join (d f : str) : str := d ++ lit "/" ++ f.
Example C148_example :
  search ex_exists ex_dir (fun p => p) ex_join [lit "d"; lit "e"] (lit "f") = Ok (Some (lit "e/f"))
  /\ search ex_exists ex_dir (fun p => p) ex_join [lit "c"; lit "e"] (lit "f") = Err NonExistentPathError
  /\ search ex_exists ex_dir (fun p => p) ex_join [lit "d"; lit "d"] (lit "f") = Ok None.
Proof. repeat split. Qed.
Example C149_example :
  find_file_by_template ex_exists (fun p => p) ex_join [fun n => n ++ lit ".nc"; fun n => n] (lit "f") (lit "e") = Ok (Some (lit "e/f")).
Proof. reflexivity. Qed.

(** ** C150: reading matching lines *)

Theorem C150_last_line : forall M K V (keq : K -> K -> bool) (match_line : str -> option M) (parse : M -> res (K * V)) lines,
  (forall a b, reflect (a = b) (keq a b)) ->
  (forall l m, In l lines -> match_line l = Some m -> exists kv, parse m = Ok kv) ->
  exists d, extract keq match_line parse lines = Ok d /\ NoDup (map fst d)
  /\ forall k v, d_get keq d k = Some v <->
       exists l1 l l2 m, lines = l1 ++ l :: l2 /\ match_line l = Some m /\ parse m = Ok (k, v)
         /\ forall l' m' w, In l' l2 -> match_line l' = Some m' -> parse m' <> Ok (k, w).
Proof. intros. now apply extract_spec. Qed.
Print Assumptions C150_last_line.

Theorem C150_bad_line : forall M K V (keq : K -> K -> bool) (match_line : str -> option M) (parse : M -> res (K * V)) lines l m e,
  In l lines -> match_line l = Some m -> parse m = Err e -> exists e', extract keq match_line parse lines = Err e'.
Proof. intros. eapply extract_fails; eauto. Qed.
Print Assumptions C150_bad_line.

Example C150_example :
  extract str_eqb (fun l => match l with c :: l' => if Ascii.eqb c "#"%char then None else Some ([c], l') | [] => None end) (fun m => Ok m)
    [lit "a1"; lit "#b"; []; lit "c2"; lit "a3"] = Ok [(lit "a", lit "3"); (lit "c", lit "2")].
Proof. reflexivity. Qed.

(** ** C151: one object for each path *)

Theorem C246_same : forall C (create : C -> arg -> res unit) s l i j c d a o, i <= j ->
  nth_error l i = Some (c, Some a) -> nth_error l j = Some (d, Some a) ->
  nth_error (calls create s l) i = Some (Ok o) -> nth_error (calls create s l) j = Some (Ok o).
Proof. intros. eapply calls_same; eauto. Qed.
Print Assumptions C246_same.

Theorem C246_distinct : forall C (create : C -> arg -> res unit) l i j c d a b o p, a <> b ->
  nth_error l i = Some (c, Some a) -> nth_error l j = Some (d, Some b) ->
  nth_error (calls create ([], 0) l) i = Some (Ok o) -> nth_error (calls create ([], 0) l) j = Some (Ok p) -> o <> p.
Proof.
  intros C create l i j c d a b o p N I J A B E. subst p. destruct (calls_final create l _ separate_start) as (s & W & _ & R).
  apply N. apply (proj2 W a b o o); [eapply R; eauto|eapply R; eauto|reflexivity].
Qed.
Print Assumptions C246_distinct.

(** Missing: programs that use two classes (see below). *)
Theorem C151_class_partial : forall C (create : C -> arg -> res unit) l c o,
  (forall d x, In (d, x) l -> d = c) -> In (Ok o) (calls create ([], 0) l) -> fst o = c.
Proof. intros C create l c o H. apply (calls_class create l c H). discriminate. Qed.
Print Assumptions C151_class_partial.

(** Another class gets the object of the first. *)
Theorem C151_class_refuted : forall C (create : C -> arg -> res unit) c d a o, create c a = Ok tt ->
  nth_error (calls create ([], 0) [(c, Some a); (d, Some a)]) 1 = Some (Ok o) -> fst o = c.
Proof.
  intros C create c d a o E. cbn. rewrite E. cbn.
  assert (arg_eqb a a = true) as -> by (destruct (arg_eqb_spec a a); congruence). cbn. intros H. injection H as <-. reflexivity.
Qed.
Print Assumptions C151_class_refuted.

(** A path given as a string and as a path object gives two objects. *)
Theorem C151_two_forms_refuted : forall C (create : C -> arg -> res unit) c p, create c (Text p) = Ok tt -> create c (PathObject p) = Ok tt ->
  exists o o', calls create ([], 0) [(c, Some (Text p)); (c, Some (PathObject p))] = [Ok o; Ok o'] /\ o <> o'.
Proof. intros C create c p E F. cbn. rewrite E. cbn. rewrite F. cbn. exists (c, 0), (c, 1). split; [reflexivity|congruence]. Qed.
Print Assumptions C151_two_forms_refuted.

Example C151_example :
  calls (C := bool) (fun _ a => match a with Text [] => Err NonExistentPathError | _ => Ok tt end) ([], 0)
    [(true, Some (Text (lit "a"))); (true, Some (Text [])); (true, Some (Text (lit "b"))); (true, Some (Text (lit "a"))); (false, Some (Text (lit "a"))); (true, None)]
  = [Ok (true, 0); Err NonExistentPathError; Ok (true, 1); Ok (true, 0); Ok (true, 0); Err TypeError].
Proof. reflexivity. Qed.

(** ** C152: choosing how to read a dataset *)

Section Viewers.
Context (viewer : Type).

(** Missing: after the dataset was read (see below). *)
Theorem C152_effect_partial : forall (w : world viewer) i g v d, nth_error (w_datasets w) i = Some d ->
  d_has str_eqb (w_viewers w) (ds_suffix d) = true -> d_get str_eqb (ds_made d) g = None ->
  fst (access (snd (use w i g v)) i g) = Ok v.
Proof.
  intros w i g v d N H M. unfold access. rewrite use_datasets, N, M, (use_viewers w i g v d N).
  unfold d_has in H. destruct (d_get str_eqb (w_viewers w) (ds_suffix d)) as [m|]; [|discriminate].
  destruct (str_eqb_spec (ds_suffix d) (ds_suffix d)); [|congruence]. now rewrite (d_get_set_same _ str_eqb_spec).
Qed.

(** The choice does not reach a dataset that was read. *)
Theorem C152_late_refuted : forall (w : world viewer) i g v v0, fst (access w i g) = Ok v0 ->
  fst (access (snd (use (snd (access w i g)) i g v)) i g) = Ok v0.
Proof.
  intros w i g v v0 H. destruct (access_made w i g v0 H) as (d & N & M). unfold access at 1. now rewrite use_datasets, N, M.
Qed.

(** Missing: unread datasets of the same type (see below). *)
Theorem C152_isolated_partial : forall (w : world viewer) i j g v d e h, nth_error (w_datasets w) i = Some d -> nth_error (w_datasets w) j = Some e ->
  (ds_suffix d <> ds_suffix e \/ h <> g \/ d_get str_eqb (ds_made e) h <> None) ->
  fst (access (snd (use w i g v)) j h) = fst (access w j h).
Proof.
  intros w i j g v d e h Ni Nj H. unfold access. rewrite use_datasets, Nj, (use_viewers w i g v d Ni).
  destruct (d_get str_eqb (ds_made e) h) as [u|]; [reflexivity|]. destruct (d_get str_eqb (w_viewers w) (ds_suffix e)) as [m|]; [|reflexivity].
  destruct (str_eqb_spec (ds_suffix e) (ds_suffix d)) as [E|E]; [|now destruct (d_get str_eqb m h)].
  destruct H as [H|[H|H]]; [congruence| |congruence]. rewrite (d_get_set_other _ str_eqb_spec) by exact H. now destruct (d_get str_eqb m h).
Qed.

(** Another dataset of the same type is read with the chosen viewer. *)
Theorem C152_isolated_refuted : forall (w : world viewer) i j g v d e, nth_error (w_datasets w) i = Some d -> nth_error (w_datasets w) j = Some e ->
  ds_suffix d = ds_suffix e -> d_has str_eqb (w_viewers w) (ds_suffix d) = true -> d_get str_eqb (ds_made e) g = None ->
  fst (access (snd (use w i g v)) j g) = Ok v.
Proof.
  intros w i j g v d e Ni Nj E H M. unfold access. rewrite use_datasets, Nj, M, (use_viewers w i g v d Ni), <- E.
  unfold d_has in H. destruct (d_get str_eqb (w_viewers w) (ds_suffix d)) as [m|]; [|discriminate].
  destruct (str_eqb_spec (ds_suffix d) (ds_suffix d)); [|congruence]. now rewrite (d_get_set_same _ str_eqb_spec).
Qed.

(** ** C153: unknown types of files *)

Theorem C153_known : forall (w : world viewer) suffix m g v, d_get str_eqb (w_viewers w) suffix = Some m -> d_get str_eqb m g = Some v ->
  fst (access (open_dataset w suffix) (length (w_datasets w)) g) = Ok v.
Proof.
  intros w s m g v E G. unfold access, open_dataset. simpl. rewrite nth_error_app2, Nat.sub_diag by lia. simpl. now rewrite E, G.
Qed.

(** Opening succeeds; every later use raises TypeError. *)
Theorem C153_unknown_refuted : forall (w : world viewer) suffix g v, d_get str_eqb (w_viewers w) suffix = None ->
  let w' := open_dataset w suffix in
  length (w_datasets w') = S (length (w_datasets w))
  /\ fst (access w' (length (w_datasets w)) g) = Err TypeError /\ fst (use w' (length (w_datasets w)) g v) = Err TypeError.
Proof.
  intros w s g v E. cbv zeta. split; [unfold open_dataset; simpl; rewrite app_length; simpl; lia|].
  unfold access, use, open_dataset. simpl. rewrite nth_error_app2, Nat.sub_diag by lia. simpl. now rewrite E.
Qed.
End Viewers.
Print Assumptions C152_effect_partial.
Print Assumptions C152_late_refuted.
Print Assumptions C152_isolated_partial.
Print Assumptions C152_isolated_refuted.
Print Assumptions C153_known.
Print Assumptions C153_unknown_refuted.

Definition ex_world : world nat :=
  open_dataset (open_dataset (open_dataset (mkWorld [(lit ".nc", [(lit "variables", 1); (lit "axes", 2)])] []) (lit ".nc")) (lit ".nc")) (lit ".h5").
Example C152_example :
  fst (access ex_world 0 (lit "variables")) = Ok 1
  /\ fst (access (snd (use ex_world 0 (lit "variables") 7)) 0 (lit "variables")) = Ok 7
  /\ fst (access (snd (use ex_world 0 (lit "variables") 7)) 1 (lit "variables")) = Ok 7
  /\ fst (access (snd (use ex_world 0 (lit "variables") 7)) 1 (lit "axes")) = Ok 2
  /\ fst (access (snd (use (snd (access ex_world 0 (lit "variables"))) 0 (lit "variables") 7)) 0 (lit "variables")) = Ok 1.
Proof. repeat split. Qed.
Example C153_example : fst (access ex_world 2 (lit "axes")) = Err TypeError.
Proof. reflexivity. Qed.

(** ** C154: the variables of a dataset *)

(** Missing: two variables with names of one quantity (see below). *)
Theorem C154_names_partial : forall mkset members, AliasedSpec.set_order mkset -> NoDup (map fst members) -> unambiguous (map fst members) ->
  let m := variables mkset members in
  (forall k r a, In (k, r) members -> ObserverSpec.same_name k a -> AliasedModel.getitem m a = Ok (mkVariable
        (match r_unit r with Some u => Some u | None => r_units r end) (match r_dimensions r with Some d => d | None => [] end) k))
  /\ (forall a, (forall k, In k (map fst members) -> ~ ObserverSpec.same_name k a) -> AliasedModel.getitem m a = Err KeyError)
  /\ NoDup (available_full mkset members)
  /\ forall a, In a (available_full mkset members) <-> exists k, In k (map fst members) /\ ObserverSpec.same_name k a.
Proof.
  intros mkset members O N U m. destruct (variables_spec mkset O members N U) as (_ & P & Q & _).
  destruct (full_names mkset O members N U) as (A & B). auto.
Qed.
Print Assumptions C154_names_partial.

(** The groups of names are those of the stored variables, in their order. *)
Theorem C154_groups_partial : forall mkset members, AliasedSpec.set_order mkset -> NoDup (map fst members) -> unambiguous (map fst members) ->
  available_canonical members = map fst members
  /\ Forall2 (fun k g => forall a, In a g <-> ObserverSpec.same_name k a) (map fst members) (available_grouped mkset members).
Proof. intros mkset members O N U. destruct (variables_spec mkset O members N U) as (_ & _ & _ & G). auto. Qed.
Print Assumptions C154_groups_partial.

Theorem C154_units_partial : forall mkset members, AliasedSpec.set_order mkset -> NoDup (map fst members) -> unambiguous (map fst members) ->
  exists u, units mkset members = Ok u
  /\ (forall k r a, In (k, r) members -> ObserverSpec.same_name k a ->
        AliasedModel.getitem u a = Ok (match r_unit r with Some x => Some x | None => r_units r end))
  /\ (forall a, (forall k, In k (map fst members) -> ~ ObserverSpec.same_name k a) -> AliasedModel.getitem u a = Err KeyError).
Proof.
  intros mkset members O N U. destruct (variables_spec mkset O members N U) as (_ & P & Q & _).
  destruct (units_same mkset O members N U) as (u & E & X). exists u. split; [exact E|]. split.
  - intros k r a I S. rewrite X, (P k r a I S). reflexivity.
  - intros a H. now rewrite X, (Q a H).
Qed.
Print Assumptions C154_units_partial.

(** The later of two variables hides the other one. *)
Theorem C154_hidden_refuted : forall mkset k1 k2 r1 r2, AliasedSpec.set_order mkset -> k1 <> k2 -> ObserverSpec.same_name k1 k2 ->
  AliasedModel.getitem (variables mkset [(k1, r1); (k2, r2)]) k1 = Ok (view k2 r2).
Proof. intros. now apply variables_hidden. Qed.
Print Assumptions C154_hidden_refuted.

Definition ex_members : list (str * raw) :=
  [(lit "R", mkRaw None (Some (lit "au")) (Some [lit "time"; lit "shell"])); (lit "Vr", mkRaw (Some (lit "km/s")) (Some (lit "m/s")) None)].
Example C154_example :
  AliasedModel.getitem (variables ObserverProps.ord ex_members) (lit "radius") = Ok (mkVariable (Some (lit "au")) [lit "time"; lit "shell"] (lit "R"))
  /\ (exists u, units ObserverProps.ord ex_members = Ok u /\ AliasedModel.getitem u (lit "vr") = Ok (Some (lit "km/s")))
  /\ AliasedModel.getitem (variables ObserverProps.ord ex_members) (lit "rho") = Err KeyError.
Proof.
  split; [vm_compute; reflexivity|]. split; [|vm_compute; reflexivity].
  eexists. split; [vm_compute; reflexivity|]. vm_compute. reflexivity.
Qed.

(** ** C155: paths for reading only *)

Section ReadOnly.
Context (exists_ : str -> bool) (resolve : str -> str).

Theorem C155_exists : forall p, (exists r, read_only_path exists_ resolve p = Ok r /\ snd r = resolve p /\ exists_ (snd r) = true)
  \/ exists_ (resolve p) = false /\ read_only_path exists_ resolve p = Err NonExistentPathError.
Proof. intros p. unfold read_only_path. destruct (exists_ (resolve p)) eqn:E; [left|now right]. eexists. split; [reflexivity|]. auto. Qed.

(** What the methods of the class itself would do: [open] refuses the argument
    ['w'], among whatever others, and nothing else. *)
Theorem C155_methods : forall p args,
  (In (lit "w") args -> open_path (ReadOnly, p) args = Err ReadOnlyPathError)
  /\ (~ In (lit "w") args -> open_path (ReadOnly, p) args = Ok p)
  /\ write_text (ReadOnly, p) = Err ReadOnlyPathError.
Proof.
  intros p args. unfold open_path. cbn [fst snd]. destruct (existsb (str_eqb (lit "w")) args) eqn:E.
  - apply existsb_exists in E as (x & I & X). destruct (str_eqb_spec (lit "w") x) as [<-|]; [|discriminate].
    split; [reflexivity|]. split; [contradiction|reflexivity].
  - split; [|split; reflexivity]. intros I. exfalso. assert (existsb (str_eqb (lit "w")) args = true) as T; [|congruence].
    apply existsb_exists. exists (lit "w"). split; [exact I|]. now destruct (str_eqb_spec (lit "w") (lit "w")).
Qed.

(** Writing is always allowed. *)
Theorem C155_writes_refuted : forall p r args, read_only_path exists_ resolve p = Ok r ->
  open_path r args = Ok (resolve p) /\ write_text r = Ok (resolve p).
Proof. intros p r args H. unfold read_only_path in H. destruct (exists_ (resolve p)); [|discriminate]. injection H as <-. split; reflexivity. Qed.
End ReadOnly.
Print Assumptions C155_exists.
Print Assumptions C155_methods.
Print Assumptions C155_writes_refuted.

Example C155_example : read_only_path ex_exists (fun p => p) (lit "d") = Ok (Posix, lit "d")
  /\ open_path (Posix, lit "d") [lit "w"] = Ok (lit "d") /\ open_path (ReadOnly, lit "d") [lit "w"] = Err ReadOnlyPathError.
Proof. repeat split. Qed.
