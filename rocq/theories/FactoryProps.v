(** Properties of operands, of the operations of a quantity and of names. *)

From Coq Require Import String Ascii List Bool Arith Lia.
From Verif Require Import Py PyFacts PyDict AliasedModel AliasedSpec AliasedProofs AliasedProps MetadataModel ViewsModel
  UfuncModel FactoryModel FactorySpec FactoryProofs.
Import ListNotations.
Open Scope list_scope.
Open Scope nat_scope.

(** The factory of a quantity of class [t], created with the attributes [ps],
    after a history of calls. *)
Notation after cls val mkset table t ps h := (run_acts cls val mkset table (new_factory cls t ps) h).

(** ** C217: the rules of an operation *)

(** The operand types that an operation supports depend on the calls that were
    addressed to it, by whatever names, and on nothing else. *)
Theorem C217_shared : forall cls ceqb issub val mkset table t ps ps' h h' k k' types,
  set_order mkset -> unambiguous table -> same_op table k k' ->
  addressed table k h = addressed table k' h' ->
  asks cls ceqb issub val mkset table (after cls val mkset table t ps h) k types
  = asks cls ceqb issub val mkset table (after cls val mkset table t ps' h') k' types.
Proof.
  intros cls ceqb issub val mkset table t ps ps' h h' k k' types O F S E.
  destruct (same_known val table k k' S) as (K & K').
  rewrite (asks_ok cls ceqb issub val mkset O table F t ps h k types K).
  rewrite (asks_ok cls ceqb issub val mkset O table F t ps' h' k' types K'). now rewrite E.
Qed.
Print Assumptions C217_shared.

(** They are the types that a single operation (see C36) would support. *)
Theorem C217_rules : forall cls ceqb issub val mkset table t ps h k types,
  set_order mkset -> unambiguous table -> known table k ->
  asks cls ceqb issub val mkset table (after cls val mkset table t ps h) k types
  = Ok (supports cls ceqb issub (run_calls cls (new_operation cls t []) (addressed table k h)) types).
Proof. exact (fun cls ceqb issub val mkset table t ps h k types O F K => asks_ok cls ceqb issub val mkset O table F t ps h k types K). Qed.
Print Assumptions C217_rules.

(** Two names give one object exactly if they are names of one operation. *)
Theorem C217_identity : forall cls val mkset table t ps h a b,
  set_order mkset -> unambiguous table -> known table a -> known table b ->
  exists s i j, lookup cls val mkset table (after cls val mkset table t ps h) a = Ok (s, i)
    /\ lookup cls val mkset table (after cls val mkset table t ps h) b = Ok (s, j)
    /\ (i = j <-> same_op table a b).
Proof. exact (fun cls val mkset table t ps h a b O F => identity_ok cls (fun _ _ => true) (fun _ _ => true) val mkset O table F t ps h a b). Qed.
Print Assumptions C217_identity.

(** The table of the module has no ambiguous names, whatever the callables. *)
Definition apart (gs : list (list str)) : bool :=
  (fix go l := match l with [] => true | g :: l' => forallb (fun h => forallb (fun a => negb (gin a h)) g) l' && go l' end) gs.
Lemma apart_disjoint gs : apart gs = true -> disjoint gs.
Proof.
  induction gs as [|g gs IH]; intro H; [constructor|]. cbn in H. apply andb_true_iff in H as (A & B).
  constructor; [|now apply IH]. apply Forall_forall. intros h I a Ia. rewrite forallb_forall in A. specialize (A h I).
  rewrite forallb_forall in A. specialize (A a Ia). apply negb_true_iff in A. now apply gin_false.
Qed.
Lemma reference_unambiguous val (sem : str -> method val) : unambiguous (reference_rows sem).
Proof. split; [discriminate|]. apply apart_disjoint. vm_compute. reflexivity. Qed.

(** variable.py 48-57. *)
Definition setup : list (act cls) :=
  [ ASuppress cls (lit "true divide") [Ty CReal; Ty CQuantity] false;
    ASuppress cls (lit "power") [Ty CQuantity; Ty CQuantity] false;
    ASuppress cls (lit "power") [Ty CReal; Ty CQuantity] false;
    ASuppress cls (lit "power") [Ty CQuantity; Ty CIterable] true ].

Definition all_names : list str := flat_map names_of (reference_rows (fun _ _ => Ok tt)).
Lemma known_all val (sem : str -> method val) k : known (reference_rows sem) k -> In k all_names.
Proof. intros (p & I & J). change all_names with (flat_map names_of (reference_rows sem)). apply in_flat_map. eauto. Qed.

Definition calls_of (k : option kind) : list (call cls) :=
  match k with
  | Some KDiv => [Suppress [Ty CReal; Ty CQuantity] false]
  | Some KPow => [Suppress [Ty CQuantity; Ty CQuantity] false; Suppress [Ty CReal; Ty CQuantity] false;
                  Suppress [Ty CQuantity; Ty CIterable] true]
  | _ => []
  end.
Lemma setup_calls : Forall (fun k => addressed (reference_rows (fun _ _ => Ok tt)) k setup = calls_of (kind_of k)) all_names.
Proof.
  let l := eval vm_compute in all_names in change all_names with l.
  repeat (constructor; [vm_compute; reflexivity|]). constructor.
Qed.

(** The rules set up through some names hold for numpy's names as well: they
    are those of UfuncModel.v. *)
Theorem C217_variables : forall val (sem : str -> method val) mkset ps k types, set_order mkset ->
  known (reference_rows sem) k ->
  asks cls cls_eqb cls_sub val mkset (reference_rows sem) (after cls val mkset (reference_rows sem) CVar ps setup) k types
  = Ok (supports cls cls_eqb cls_sub (operation_of (kind_of k)) types).
Proof.
  intros val sem mkset ps k types O K.
  rewrite (asks_ok cls cls_eqb cls_sub val mkset O _ (reference_unambiguous val sem) CVar ps setup k types K). f_equal.
  apply supports_like.
  pose proof setup_calls as T. rewrite Forall_forall in T. specialize (T k (known_all val sem k K)).
  change (addressed (reference_rows sem) k setup) with (addressed (reference_rows (fun _ _ => Ok tt)) k setup).
  rewrite T. destruct (kind_of k) as [[]|]; now repeat split.
Qed.
Print Assumptions C217_variables.

Definition rows := reference_rows (fun _ _ => Ok tt).
Lemma ord_order : set_order ord.
Proof. exact ord_is_set_order. Qed.
Example C217_example :
  same_op rows (lit "true_divide") (lit "truediv")
  /\ asks cls cls_eqb cls_sub unit ord rows (after cls unit ord rows CVar [] setup) (lit "true_divide") [CNumber; CVar] = Ok false
  /\ asks cls cls_eqb cls_sub unit ord rows (after cls unit ord rows CVar [] setup) (lit "multiply") [CNumber; CVar] = Ok true.
Proof.
  split; [apply same_opb_spec; vm_compute; reflexivity|]. split; vm_compute; reflexivity.
Qed.

(** ** C218: the names of operations *)

Theorem C218_names : forall cls val mkset table t ps h, set_order mkset -> unambiguous table ->
  exists l, names_ cls val mkset table (after cls val mkset table t ps h) = Ok l
  /\ NoDup l /\ forall a, In a l <-> known table a.
Proof. exact (fun cls val mkset table t ps h O F => names_ok cls (fun _ _ => true) (fun _ _ => true) val mkset O table F t ps h). Qed.
Print Assumptions C218_names.

(** Any other name raises KeyError, for reading and for changing rules. *)
Theorem C218_unknown : forall cls ceqb issub val mkset table t ps h k types sym names args, set_order mkset -> unambiguous table ->
  ~ known table k ->
  let s := after cls val mkset table t ps h in
  asks cls ceqb issub val mkset table s k (map o_class args) = Err KeyError
  /\ evaluate cls ceqb issub val mkset table s k args = Err KeyError
  /\ snd (run_act cls val mkset table s (ASuppress cls k types sym)) = Some KeyError
  /\ snd (run_act cls val mkset table s (ASupport cls k types sym)) = Some KeyError
  /\ snd (run_act cls val mkset table s (AUpdate cls k names)) = Some KeyError.
Proof.
  intros cls ceqb issub val mkset table t ps h k types sym names args O F K s.
  split; [now apply asks_unknown|]. split; [now apply evaluate_unknown|].
  split; [|split]; exact (unknown_result cls (fun _ _ => true) (fun _ _ => true) val mkset O table F t ps h k _ K).
Qed.
Print Assumptions C218_unknown.

Example C218_example : known rows (lit "less equal") /\ ~ known rows (lit "floor_divide").
Proof.
  split.
  - exists (lit "le", (None, Some [lit "less_equal"; lit "less equal"])). split; [|right; right; now left].
    unfold rows, reference_rows. cbn [map]. do 10 right. left. reflexivity.
  - intro H. apply known_all in H. apply gin_In in H. vm_compute in H. discriminate H.
Qed.

(** ** C219: every announced attribute is computed *)

Theorem C219_evaluate : forall cls ceqb issub val mkset table t ps h k n f al args,
  set_order mkset -> unambiguous table -> In (n, (Some f, al)) table -> In k (names_of (n, (Some f, al))) ->
  let s := after cls val mkset table t ps h in
  (asks cls ceqb issub val mkset table s k (map o_class args) = Ok true ->
     answers f args (ps ++ announced table k h) (evaluate cls ceqb issub val mkset table s k args))
  /\ (asks cls ceqb issub val mkset table s k (map o_class args) = Ok false ->
     evaluate cls ceqb issub val mkset table s k args = Err OperandTypeError).
Proof.
  intros cls ceqb issub val mkset table t ps h k n f al args O F I J s.
  pose proof (evaluate_ok cls ceqb issub val mkset O table F t ps h k n (Some f) al args I J) as E. cbv iota in E.
  unfold s. rewrite (asks_ok cls ceqb issub val mkset O table F t ps h k _ (ex_intro _ _ (conj I J))).
  destruct (supports _ _ _ _ _); split; intro H; try discriminate H; exact E.
Qed.
Print Assumptions C219_evaluate.

(** What an attribute should be is unambiguous. *)
Theorem C219_determined : forall cls val (f : method val) (args : list (FactoryModel.operand cls val)) p r r',
  should_be f args p r -> should_be f args p r' -> r = r'.
Proof. exact should_fun. Qed.
Print Assumptions C219_determined.

(** Registering raises exactly if there is nothing to register. *)
Theorem C219_register : forall cls val mkset table t ps h names, set_order mkset -> unambiguous table ->
  snd (run_act cls val mkset table (after cls val mkset table t ps h) (ARegister cls names))
  = match names with [] => Some ValueError | _ => None end.
Proof. exact (fun cls val mkset table t ps h names O F => register_result cls (fun _ _ => true) (fun _ _ => true) val mkset O table F t ps h names). Qed.
Print Assumptions C219_register.

(** Values are lists of names; a product joins them. *)
Definition joins : str -> method (list nat) := fun _ l => Ok (concat l).
Definition thing (l : list nat) : FactoryModel.operand cls (list nat) :=
  mkOperand CVar (fun n => if str_eqb n (lit "unit") then Some l else None) [].
Example C219_example :
  asks cls cls_eqb cls_sub (list nat) ord (reference_rows joins)
    (after cls (list nat) ord (reference_rows joins) CVar [] (setup ++ [ARegister cls [lit "unit"]; ARegister cls [lit "unit"]]))
    (lit "multiply") [CVar; CVar] = Ok true
  /\ evaluate cls cls_eqb cls_sub (list nat) ord (reference_rows joins)
    (after cls (list nat) ord (reference_rows joins) CVar [] (setup ++ [ARegister cls [lit "unit"]; ARegister cls [lit "unit"]]))
    (lit "multiply") [thing [1]; thing [2]] = Ok (Some [(lit "unit", [1; 2])]).
Proof. split; vm_compute; reflexivity. Qed.

(** ** C220: operations refuse what their rules refuse *)

(** Missing: the operations without a callable (casts and comparisons). *)
Theorem C220_refused_partial : forall cls ceqb issub val mkset table t ps h k n f al args,
  set_order mkset -> unambiguous table -> In (n, (Some f, al)) table -> In k (names_of (n, (Some f, al))) ->
  asks cls ceqb issub val mkset table (after cls val mkset table t ps h) k (map o_class args) = Ok false ->
  evaluate cls ceqb issub val mkset table (after cls val mkset table t ps h) k args = Err OperandTypeError.
Proof. intros. eapply C219_evaluate; eauto. Qed.
Print Assumptions C220_refused_partial.

(** Casts and comparisons have no metadata and no errors, whatever the rules. *)
Theorem C220_comparison_partial : forall cls ceqb issub val mkset table t ps h k n al args,
  set_order mkset -> unambiguous table -> In (n, (None, al)) table -> In k (@names_of val (n, (None, al))) ->
  evaluate cls ceqb issub val mkset table (after cls val mkset table t ps h) k args = Ok None.
Proof.
  intros cls ceqb issub val mkset table t ps h k n al args O F I J.
  exact (evaluate_ok cls ceqb issub val mkset O table F t ps h k n None al args I J).
Qed.
Print Assumptions C220_comparison_partial.

Theorem C220_refuted : exists k h args,
  known rows k
  /\ asks cls cls_eqb cls_sub unit ord rows (after cls unit ord rows CVar [] h) k (map o_class args) = Ok false
  /\ evaluate cls cls_eqb cls_sub unit ord rows (after cls unit ord rows CVar [] h) k args = Ok None.
Proof.
  exists (lit "less"), [ASuppress cls (lit "lt") [Ty CQuantity; Ty CReal] true],
    [mkOperand CVar (fun _ => None) tt; mkOperand CNumber (fun _ => None) tt].
  split; [|split; vm_compute; reflexivity].
  apply same_refl. apply same_opb_spec. vm_compute. reflexivity.
Qed.
Print Assumptions C220_refuted.

Example C220_example :
  evaluate cls cls_eqb cls_sub unit ord rows (after cls unit ord rows CVar [] setup) (lit "power")
    [mkOperand CVar (fun _ => None) tt; mkOperand CVar (fun _ => None) tt] = Err OperandTypeError.
Proof. vm_compute. reflexivity. Qed.

(** ** C221: the list of attributes *)

Theorem C221_members_partial : forall cls val mkset table t ps h p, set_order mkset -> unambiguous table ->
  In p (f_params _ (after cls val mkset table t ps h)) <-> In p ps \/ exists names, In (ARegister cls names) h /\ In p names.
Proof.
  intros cls val mkset table t ps h p O F. rewrite (params_ok cls (fun _ _ => true) (fun _ _ => true) val mkset O table F t ps h p), in_app_iff.
  unfold registered. rewrite in_flat_map. split; (intros [H|H]; [now left|right]).
  - destruct H as (x & I & J). destruct x; try contradiction. eauto.
  - destruct H as (names & I & J). eexists. split; [exact I|exact J].
Qed.
Print Assumptions C221_members_partial.

(** Registering an attribute again lists it again. *)
Theorem C221_once_refuted : exists h, ~ NoDup (f_params _ (after cls unit ord rows CVar [] h)).
Proof.
  exists [ARegister cls [lit "unit"]; ARegister cls [lit "unit"]].
  assert (E : f_params _ (after cls unit ord rows CVar [] [ARegister cls [lit "unit"]; ARegister cls [lit "unit"]]) = [lit "unit"; lit "unit"])
    by (vm_compute; reflexivity).
  rewrite E. intro N. inversion N as [|? ? H _]; subst. apply H. now left.
Qed.
Print Assumptions C221_once_refuted.

Example C221_example : f_params _ (after cls unit ord rows CVar [lit "unit"] [ARegister cls [lit "dimensions"]])
  = [lit "unit"; lit "dimensions"].
Proof. vm_compute. reflexivity. Qed.

(** ** C222: functions without an operation *)

Theorem C222_implement : forall cls ceqb issub val mkset table t ps h f (args : list (FactoryModel.operand cls val)),
  set_order mkset -> unambiguous table -> (forall a b, ceqb a b = true <-> a = b) ->
  (In t (map o_class args) ->
     answers f args (ps ++ registered h) (implement cls ceqb issub val (after cls val mkset table t ps h) f args))
  /\ (~ In t (map o_class args) ->
     implement cls ceqb issub val (after cls val mkset table t ps h) f args = Err OperandTypeError).
Proof.
  intros cls ceqb issub val mkset table t ps h f args O F C.
  pose proof (implement_ok cls ceqb issub val mkset O table F t ps h f args) as E.
  assert (X : existsb (ceqb t) (map o_class args) = true <-> In t (map o_class args)).
  { rewrite existsb_exists. split; [intros (x & I & H); apply C in H; now subst|intro I; exists t; split; [exact I|now apply C]]. }
  destruct (existsb (ceqb t) (map o_class args)).
  - split; [intros _; exact E|]. intro N. exfalso. apply N. now apply X.
  - split; [|intros _; exact E]. intro I. apply X in I. discriminate.
Qed.
Print Assumptions C222_implement.

Example C222_example :
  implement cls cls_eqb cls_sub (list nat)
    (after cls (list nat) ord (reference_rows joins) CVar [lit "unit"] setup) (joins []) [thing [1]; thing [2]]
  = Ok (Some [(lit "unit", [1; 2])])
  /\ forall a b, cls_eqb a b = true <-> a = b.
Proof. split; [vm_compute; reflexivity|]. intros [] []; split; intro H; (reflexivity || discriminate H). Qed.

(** ** C223: reading an attribute of all operands *)

Theorem C223_strict : forall cls val (os : operands cls val) name,
  (Forall (has name) (o_args os) ->
     exists vs, getall os name MStrict = Ok (map Some vs) /\ map Some vs = map (fun o => o_attr o name) (o_args os))
  /\ (~ Forall (has name) (o_args os) -> getall os name MStrict = Err AttributeError).
Proof. exact @getall_strict_ok. Qed.
Print Assumptions C223_strict.

Theorem C223_force : forall cls val (os : operands cls val) name,
  getall os name MForce = Ok (map (fun o => Some (contributes name o)) (o_args os)).
Proof. exact @getall_force_ok. Qed.
Print Assumptions C223_force.

Theorem C223_next : forall cls val (os : operands cls val) name,
  getall os name MNext = Ok (map (fun o => o_attr o name) (o_args os)).
Proof. exact @getall_next_ok. Qed.
Print Assumptions C223_next.

(** By default the reference stands in: the given one, else the first operand. *)
Theorem C223_default : forall cls val (os : operands cls val) name r,
  o_reference os = Some r \/ (o_reference os = None /\ hd_error (o_args os) = Some r) ->
  getall os name MDefault
  = Ok (map (fun o => Some (match o_attr o name with Some v => v | None => contributes name r end)) (o_args os)).
Proof. exact @getall_default_ok. Qed.
Print Assumptions C223_default.

Definition bare : FactoryModel.operand cls (list nat) := mkOperand CNumber (fun _ => None) [7].
Example C223_example :
  let os := mkOperands [thing [1]; bare] None in
  getall os (lit "unit") MDefault = Ok [Some [1]; Some [1]]
  /\ getall os (lit "unit") MForce = Ok [Some [1]; Some [7]]
  /\ getall os (lit "unit") MNext = Ok [Some [1]; None]
  /\ getall os (lit "unit") MStrict = Err AttributeError.
Proof. repeat split; vm_compute; reflexivity. Qed.

(** ** C224: searching operands *)

Theorem C224_getany : forall cls val (vtrue : val -> bool) (os : operands cls val) name,
  exists r, getany vtrue os name = Ok r
  /\ match r with
     | Some v => exists pre o post, o_args os = pre ++ o :: post /\ o_attr o name = Some v /\ vtrue v = true
                 /\ Forall (fun x => forall w, o_attr x name = Some w -> vtrue w = false) pre
     | None => Forall (fun x => forall w, o_attr x name = Some w -> vtrue w = false) (o_args os)
     end.
Proof. exact (fun cls val => @getany_ok cls val). Qed.
Print Assumptions C224_getany.

Theorem C224_find : forall cls val (os : operands cls val) names o,
  In o (find_ names os) <-> In o (o_args os) /\ forall n, In n names -> has n o.
Proof. exact (fun cls val => @find_ok cls val). Qed.
Print Assumptions C224_find.

Theorem C224_allhave : forall cls val (os : operands cls val) names,
  allhave names os = true <-> forall o n, In o (o_args os) -> In n names -> has n o.
Proof. exact (fun cls val => @allhave_ok cls val). Qed.
Print Assumptions C224_allhave.

Example C224_example :
  getany (fun l => negb (Nat.eqb (length l) 0)) (mkOperands [bare; thing []; thing [3]; thing [4]] None) (lit "unit") = Ok (Some [3])
  /\ length (find_ [lit "unit"] (mkOperands [bare; thing []; thing [3]] None)) = 2
  /\ allhave [lit "unit"] (mkOperands [thing [3]; bare] None) = false.
Proof. repeat split; vm_compute; reflexivity. Qed.

(** ** C225: some of the operands *)

(** Missing: operands that lack the attribute, for which the reference of the
    whole sequence is not used any more. *)
Theorem C225_slice_partial : forall cls val (os : operands cls val) a b name,
  Forall (has name) (firstn (b - a) (skipn a (o_args os))) ->
  getall (slice_ os a b) name MDefault = Ok (map (fun o => o_attr o name) (firstn (b - a) (skipn a (o_args os)))).
Proof. exact (fun cls val => @slice_default_ok cls val). Qed.
Print Assumptions C225_slice_partial.

Theorem C225_slice_refuted : exists (os : operands cls (list nat)) name,
  getall os name MDefault = Ok [Some [1]; Some [5]; Some [2]] /\ getall (slice_ os 0 2) name MDefault = Ok [Some [1]; Some [1]].
Proof.
  exists (mkOperands [thing [1]; bare; thing [2]] (Some (thing [5]))), (lit "unit"). split; vm_compute; reflexivity.
Qed.
Print Assumptions C225_slice_refuted.

Example C225_example : getall (slice_ (mkOperands [bare; thing [1]; thing [2]] None) 1 3) (lit "unit") MDefault = Ok [Some [1]; Some [2]].
Proof. vm_compute. reflexivity. Qed.

(** ** C226: naming a quantity *)

Theorem C226_alias : forall mkset name updates reset, set_order mkset ->
  match alias mkset name updates reset with
  | Ok n => NoDup n /\ (forall a, In a n <-> In a updates \/ (reset = false /\ In a name)) /\ (reset = true -> updates <> [])
  | Err e => e = TypeError /\ reset = true /\ updates = []
  end.
Proof. exact (fun mkset name updates reset O => alias_ok mkset O name updates reset). Qed.
Print Assumptions C226_alias.

(** After any history: the names given since the last reset that succeeded. *)
Theorem C226_history : forall mkset name h a, set_order mkset -> In a (alias_run mkset name h) <-> In a (given name h).
Proof. intros mkset name h a O. apply (alias_run_ok mkset O). reflexivity. Qed.
Print Assumptions C226_history.

Example C226_example :
  alias_run ord [lit "a"] [([lit "b"], false); ([], true); ([lit "c"; lit "d"], true); ([lit "e"], false)]
  = map lit ["c"; "d"; "e"]%string.
Proof. vm_compute. reflexivity. Qed.

(** ** C227: names for a quantity without a name *)

(** A quantity without a name has the name ''. *)
Theorem C227_reset_partial : forall mkset updates, set_order mkset -> updates <> [] ->
  exists n, alias mkset (name_of mkset [[]]) updates true = Ok n /\ forall a, In a n <-> In a updates.
Proof.
  intros mkset updates O NE. pose proof (alias_ok mkset O (name_of mkset [[]]) updates true) as A.
  destruct (alias _ _ _ _) as [n|e].
  - exists n. split; [reflexivity|]. intro a. destruct A as (_ & A & _). rewrite A. split; [intros [H|(H & _)]; [exact H|discriminate]|auto].
  - destruct A as (_ & _ & A). contradiction.
Qed.
Print Assumptions C227_reset_partial.

Theorem C227_empty_refuted : forall mkset updates, set_order mkset ->
  exists n, alias mkset (name_of mkset [[]]) updates false = Ok n /\ In [] n.
Proof.
  intros mkset updates O. pose proof (alias_ok mkset O (name_of mkset [[]]) updates false) as A.
  destruct (alias _ _ _ _) as [n|e]; [|destruct A as (_ & A & _); discriminate].
  exists n. split; [reflexivity|]. destruct A as (_ & A & _). apply A. right. split; [reflexivity|].
  apply (mkset_In mkset O). now left.
Qed.
Print Assumptions C227_empty_refuted.

Example C227_example : alias ord (name_of ord [[]]) [lit "r"] true = Ok [lit "r"].
Proof. vm_compute. reflexivity. Qed.
