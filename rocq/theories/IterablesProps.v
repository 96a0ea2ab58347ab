(** The properties of the iterable tools. *)

From Coq Require Import String Ascii List Bool ZArith NArith QArith Qcanon Arith.
From Verif Require Import Py PyFacts PyDict IterablesModel IterablesSpec IterablesProofs IterablesMoreProofs IterablesToolsProofs.
Import ListNotations.
Open Scope nat_scope.
Open Scope list_scope.

(** ** C17: strict table requests *)

(** The result is [r] exactly when every requested key is common and [r] is
    the only row that has all the requested pairs. *)
Theorem C17_strict : forall (V : Type) (veq : V -> V -> bool) rows request r, dicts rows ->
  (table_call veq rows true request = Ok r <->
   (forall k v, In (k, v) request -> common_key rows k) /\ only (satisfies veq request) rows r).
Proof. exact @strict_call. Qed.
Print Assumptions C17_strict.

Theorem C17_strict_errors : forall (V : Type) (veq : V -> V -> bool) rows request, dicts rows -> rows <> [] ->
  ((exists k v, In (k, v) request /\ ~ common_key rows k) -> table_call veq rows true request = Err TableKeyError)
  /\ ((forall k v, In (k, v) request -> common_key rows k) -> (forall r, ~ only (satisfies veq request) rows r) ->
      table_call veq rows true request = Err TableLookupError).
Proof. exact @strict_errors. Qed.
Print Assumptions C17_strict_errors.

Definition sample_table : list (@entry Z) :=
  [[(lit "a", 1%Z); (lit "b", 2%Z)]; [(lit "a", 1%Z); (lit "b", 3%Z)]; [(lit "a", 4%Z); (lit "b", 3%Z); (lit "c", 0%Z)]].
Example C17_case : dicts sample_table
  /\ table_call Z.eqb sample_table true [(lit "a", 1%Z); (lit "b", 3%Z)] = Ok [(lit "a", 1%Z); (lit "b", 3%Z)]
  /\ table_call Z.eqb sample_table true [(lit "a", 1%Z)] = Err TableLookupError
  /\ table_call Z.eqb sample_table true [(lit "c", 0%Z)] = Err TableKeyError.
Proof.
  split; [|vm_compute; auto]. unfold dicts, sample_table.
  repeat (apply Forall_cons || apply Forall_nil); simpl; repeat (apply NoDup_cons || apply NoDup_nil);
    simpl; intuition discriminate.
Qed.

(** A table without rows has no keys at all. *)
Theorem C17_no_rows : forall (V : Type) (veq : V -> V -> bool) strict k v request,
  table_call veq [] strict ((k, v) :: request) = Err IndexError /\ table_call veq [] strict [] = Err TableLookupError.
Proof. now split. Qed.
Print Assumptions C17_no_rows.

(** ** C18: non-strict table requests *)

(** Exactly when a non-strict request returns [r]: [r] is the only row with the
    first [n] pairs, no shorter prefix determines a row, and, when all pairs
    were needed, at most [n] rows have the last value.  The last condition is
    what the English property does not allow. *)
Theorem C18_nonstrict_partial : forall (V : Type) (veq : V -> V -> bool) rows request r, dicts rows ->
  (table_call veq rows false request = Ok r <->
   exists n, (1 <= n <= length request)%nat
    /\ (forall k v, In (k, v) (firstn n request) -> common_key rows k)
    /\ only (satisfies veq (firstn n request)) rows r
    /\ (forall m, (1 <= m < n)%nat -> forall x, ~ only (satisfies veq (firstn m request)) rows x)
    /\ (n = length request -> forall k v, nth_error request (n - 1) = Some (k, v) ->
        (holders veq k v rows <= n)%nat)).
Proof. exact @loose_call. Qed.
Print Assumptions C18_nonstrict_partial.

(** A request that determines one row raises [AmbiguousRequestError]. *)
Theorem C18_nonstrict_refuted : exists rows request r, dicts rows
  /\ (forall k v, In (k, v) request -> common_key rows k)
  /\ only (satisfies Z.eqb request) rows r
  /\ table_call Z.eqb rows true request = Ok r
  /\ table_call Z.eqb rows false request = Err AmbiguousRequestError.
Proof.
  exists [[(lit "a", 1%Z); (lit "b", 2%Z)]; [(lit "a", 1%Z); (lit "b", 3%Z)];
          [(lit "a", 4%Z); (lit "b", 2%Z)]; [(lit "a", 5%Z); (lit "b", 2%Z)]],
    [(lit "a", 1%Z); (lit "b", 2%Z)], [(lit "a", 1%Z); (lit "b", 2%Z)].
  match goal with |- ?P /\ _ => assert P as D end.
  { unfold dicts. repeat (apply Forall_cons || apply Forall_nil); simpl; repeat (apply NoDup_cons || apply NoDup_nil);
      simpl; intuition discriminate. }
  split; [exact D|]. apply and_assoc. split; [|vm_compute; auto].
  apply (strict_call Z.eqb _ _ _ D). vm_compute. reflexivity.
Qed.
Print Assumptions C18_nonstrict_refuted.

Example C18_case :
  table_call Z.eqb sample_table false [(lit "a", 4%Z)] = Ok [(lit "a", 4%Z); (lit "b", 3%Z); (lit "c", 0%Z)]
  /\ table_call Z.eqb sample_table false [(lit "b", 3%Z); (lit "a", 1%Z)] = Ok [(lit "a", 1%Z); (lit "b", 3%Z)].
Proof. vm_compute. auto. Qed.

(** ** C19: connections *)

(** The weight from [a] to [b] is that of the first addition that links them. *)
Theorem C231_first_wins : forall l a b, get_weight (connect l) a b =
  match first_link l a b with Some w => Ok w | None => Err KeyError end.
Proof. exact weight_first. Qed.
Print Assumptions C231_first_wins.

Theorem C231_never_overwritten : forall l l' a b w,
  get_weight (connect l) a b = Ok w -> get_weight (connect (l ++ l')) a b = Ok w.
Proof. exact weight_keeps. Qed.
Print Assumptions C231_never_overwritten.

(** Missing: connections of a node to itself, and zero weights (which have no
    reciprocal). *)
Theorem C19_reciprocal_partial : forall l a b w, a <> b -> w <> Q2Qc 0 ->
  get_weight (connect l) a b = Ok (Some w) ->
  exists w', get_weight (connect l) b a = Ok (Some w') /\ (w * w' = 1)%Qc.
Proof. exact weight_recip. Qed.
Print Assumptions C19_reciprocal_partial.

(** A node connected to itself with weight 2 is its own inverse with weight 2. *)
Theorem C19_reciprocal_refuted : exists l a w, w <> Q2Qc 0 /\ get_weight (connect l) a a = Ok (Some w)
  /\ (w * w <> 1)%Qc.
Proof.
  exists [((lit "a", lit "a"), Some (Q2Qc 2))], (lit "a"), (Q2Qc 2).
  split; [discriminate|]. split; [reflexivity|discriminate].
Qed.
Print Assumptions C19_reciprocal_refuted.

Definition sample_links : list (edge * weight) :=
  [((lit "m", lit "cm"), Some (Q2Qc 100)); ((lit "cm", lit "m"), Some (Q2Qc 7)); ((lit "m", lit "km"), None)].
Example C19_case : get_weight (connect sample_links) (lit "m") (lit "cm") = Ok (Some (Q2Qc 100))
  /\ get_weight (connect sample_links) (lit "cm") (lit "m") = Ok (Some (Q2Qc (1 # 100)))
  /\ get_weight (connect sample_links) (lit "km") (lit "m") = Ok None.
Proof. split; [reflexivity|]. split; [|reflexivity]. rewrite weight_first. reflexivity. Qed.

(** ** C20: bijections *)

Theorem C20_accepts : forall (K V : Type) (veq : V -> V -> bool) (m : list (K * V)), decides veq ->
  (NoDup (map snd m) -> bijection veq m = Ok m)
  /\ (~ NoDup (map snd m) -> bijection veq m = Err InjectiveTypeError).
Proof. exact (fun K V veq m D => @bijection_spec K V veq D m). Qed.
Print Assumptions C20_accepts.

(** The inverse holds the swapped pairs and inverts back to the bijection. *)
Theorem C20_inverts : forall (K V : Type) (keq : K -> K -> bool) (veq : V -> V -> bool) (m b : list (K * V)),
  decides keq -> decides veq -> NoDup (map fst m) -> bijection veq m = Ok b ->
  exists i, invert veq keq b = Ok i /\ (forall k v, In (v, k) i <-> In (k, v) m) /\ invert keq veq i = Ok b.
Proof. exact @bijection_inverts. Qed.
Print Assumptions C20_inverts.

Example C20_case : bijection Z.eqb [(lit "a", 1%Z); (lit "b", 2%Z)] = Ok [(lit "a", 1%Z); (lit "b", 2%Z)]
  /\ invert Z.eqb str_eqb [(lit "a", 1%Z); (lit "b", 2%Z)] = Ok [(1%Z, lit "a"); (2%Z, lit "b")]
  /\ bijection Z.eqb [(lit "a", 1%Z); (lit "b", 1%Z)] = Err InjectiveTypeError.
Proof. vm_compute. auto. Qed.

(** ** C21: registries *)

(** From a base whose keys, and for objects whose names, do not end in [_] and
    a number: everything registered stays available, under the same key.
    Missing: names that do end so, and objects without a name. *)
Theorem C21_register_partial : forall (O : Type) (qualname : O -> option str) base l1 l2,
  NoDup (map fst base) -> (forall k, In k (map fst base) -> exists s, k = Some s /\ unnumbered s) ->
  Forall (fun o => exists s, qualname o = Some s /\ unnumbered s) (l1 ++ l2) ->
  let run l := items (reg_run qualname (reg_init base) (map (fun o => (o, None, false)) l)) in
  (forall k o, d_get rkey_eqb (run l1) k = Some o -> d_get rkey_eqb (run (l1 ++ l2)) k = Some o)
  /\ (forall o, In o l1 -> exists k, d_get rkey_eqb (run (l1 ++ l2)) k = Some o)
  /\ length (run l1) = (length base + length l1)%nat.
Proof. exact @reg_keeps. Qed.
Print Assumptions C21_register_partial.

(** Whatever the names, one registration changes one key. *)
Theorem C21_register_frame : forall (O : Type) (qualname : O -> option str) r o u w, exists k, forall j,
  d_get rkey_eqb (items (register qualname r o u w)) j
  = if rkey_eqb j k then Some o else d_get rkey_eqb (items r) j.
Proof. exact @register_frame. Qed.
Print Assumptions C21_register_frame.

(** With a name that is not in use, or that may be overwritten, the object is
    found under that name; otherwise, as without a name. *)
Theorem C21_register_named : forall (O : Type) (qualname : O -> option str) r o u w, u <> [] ->
  let run u := items (register qualname r o u w) in
  (w = true \/ d_get rkey_eqb (items r) (Some u) = None ->
     d_get rkey_eqb (run (Some u)) (Some u) = Some o
     /\ forall j, j <> Some u -> d_get rkey_eqb (run (Some u)) j = d_get rkey_eqb (items r) j)
  /\ (w = false /\ d_get rkey_eqb (items r) (Some u) <> None -> run (Some u) = run None)
  /\ run (Some []) = run None.
Proof. exact @register_named. Qed.
Print Assumptions C21_register_named.

(** Without one, under the name of the object if that is not in use. *)
Theorem C21_register_own : forall (O : Type) (qualname : O -> option str) r o w s, qualname o = Some s ->
  d_get rkey_eqb (items r) (Some s) = None ->
  d_get rkey_eqb (items (register qualname r o None w)) (Some s) = Some o
  /\ forall j, j <> Some s -> d_get rkey_eqb (items (register qualname r o None w)) j = d_get rkey_eqb (items r) j.
Proof. exact @register_own. Qed.
Print Assumptions C21_register_own.

(** Registering three functions named [f_1], [f], [f] loses the first; so does
    registering two objects without names. *)
Theorem C21_register_refuted :
  (exists (qualname : nat -> option str), let run l := items (reg_run qualname (reg_init []) (map (fun o => (o, None, false)) l)) in
    d_get rkey_eqb (run [0; 1]) (Some (lit "f_1")) = Some 0
    /\ (forall k, d_get rkey_eqb (run [0; 1; 2]) k <> Some 0)
    /\ qualname 0 <> None /\ qualname 1 <> None /\ qualname 2 <> None)
  /\ (exists (qualname : nat -> option str), let run l := items (reg_run qualname (reg_init []) (map (fun o => (o, None, false)) l)) in
    d_get rkey_eqb (run [0]) None = Some 0 /\ forall k, d_get rkey_eqb (run [0; 1]) k <> Some 0).
Proof.
  split.
  - exists (fun o => match o with 0 => Some (lit "f_1") | _ => Some (lit "f") end). cbv zeta.
    split; [reflexivity|]. split; [|split; [discriminate|split; discriminate]].
    intros k H. apply (d_get_in rkey_eqb rkey_eqb_spec) in H. vm_compute in H. intuition discriminate.
  - exists (fun _ => None). cbv zeta. split; [reflexivity|].
    intros k H. apply (d_get_in rkey_eqb rkey_eqb_spec) in H. vm_compute in H. intuition discriminate.
Qed.
Print Assumptions C21_register_refuted.

Example C21_case :
  map fst (items (reg_run (fun _ : nat => Some (lit "f")) (reg_init [])
                          (map (fun o => (o, None, false)) [0; 1; 2])))
  = [Some (lit "f"); Some (lit "f_1"); Some (lit "f_2")].
Proof. reflexivity. Qed.
Example C21_unnumbered : unnumbered (lit "f") /\ unnumbered (lit "my_f").
Proof.
  split; intros p n H; apply (f_equal (@rev ascii)) in H; rewrite !rev_app_distr in H.
  all: assert (D := dec_of_N_spec n); destruct D as [N [D _]].
  all: assert (forallb is_digit (rev (dec_of_N n)) = true) as R
    by (rewrite forallb_forall in *; intros c I; apply D; now apply in_rev).
  all: destruct (rev (dec_of_N n)) as [|c r] eqn:E;
    [apply N; rewrite <- (rev_involutive (dec_of_N n)), E; reflexivity|].
  all: cbn in H; injection H as <- H; discriminate.
Qed.

(** ** C22: unique *)

(** What is kept: an element is kept iff no earlier element equals it. *)
Theorem C22_first_occurrence : forall (A : Type) (eqb : A -> A -> bool) l x, equivalence eqb ->
  unique eqb [] = [] /\
  unique eqb (l ++ [x]) = if existsb (eqb x) l then unique eqb l else unique eqb l ++ [x].
Proof. exact (fun A eqb l x E => conj eq_refl (@unique_snoc A eqb E l x)). Qed.
Print Assumptions C22_first_occurrence.

Theorem C22_unique : forall (A : Type) (eqb : A -> A -> bool) l, equivalence eqb ->
  subsequence (unique eqb l) l
  /\ ForallOrdPairs (fun x y => eqb x y = false) (unique eqb l)
  /\ (forall x, In x l -> exists y, In y (unique eqb l) /\ eqb x y = true)
  /\ unique eqb (unique eqb l) = unique eqb l.
Proof.
  exact (fun A eqb l E => conj (@unique_sub A eqb l) (conj (@unique_distinct A eqb E l)
          (conj (@unique_covers A eqb E l) (@unique_idem A eqb E l)))).
Qed.
Print Assumptions C22_unique.

Theorem C22_same_set : forall (A : Type) (eqb : A -> A -> bool) l, decides eqb ->
  NoDup (unique eqb l) /\ forall x, In x (unique eqb l) <-> In x l.
Proof. exact (fun A eqb l D => conj (@unique_NoDup A eqb l D) (fun x => @unique_In A eqb l x D)). Qed.
Print Assumptions C22_same_set.

Example C22_case : unique Z.eqb [3; 1; 3; 2; 1]%Z = [3; 1; 2]%Z /\ equivalence Z.eqb.
Proof. split; [reflexivity|]. apply decides_equiv. exact Z.eqb_spec. Qed.

(** ** C23: unwrap *)

Theorem C23_unwrap : forall o r, unwrap o = r <-> wraps o r /\ ~ singleton r.
Proof. exact unwrap_spec. Qed.
Print Assumptions C23_unwrap.

Theorem C23_unwrap_idempotent : forall o, unwrap (unwrap o) = unwrap o.
Proof. exact unwrap_idem. Qed.
Print Assumptions C23_unwrap_idempotent.

(** Extra layers do not matter. *)
Theorem C23_unwrap_layers : forall o p, wraps o p -> unwrap o = unwrap p.
Proof. exact wraps_same. Qed.
Print Assumptions C23_unwrap_layers.

(** With a target type: the members of the unwrapped object, in that type. *)
Theorem C23_unwrap_as : forall k o, unwrap_as k o = OSeq k
  (match unwrap o with ONone => [] | OSeq _ l => l | x => [x] end).
Proof. exact unwrap_as_spec. Qed.
Print Assumptions C23_unwrap_as.

Example C23_case : unwrap (OSeq KList [OSeq KTuple [OSeq KList [ONum 1; ONum 2]]]) = OSeq KList [ONum 1; ONum 2]
  /\ unwrap (OSeq KList []) = OSeq KList [] /\ unwrap_as KTuple (OSeq KList [ONum 3]) = OSeq KTuple [ONum 3].
Proof. auto. Qed.

(** ** C24: slices *)

(** Missing: an explicit stop of 0 or beyond the length, and negative or zero
    steps. *)
Theorem C24_slice_partial : forall s n, (0 <= n)%Z ->
  match s_start s with Some x => (0 <= x)%Z | None => True end ->
  match s_stop s with Some x => (0 < x <= n)%Z | None => True end ->
  match s_step s with Some x => (0 < x)%Z | None => True end ->
  exists r i, slice_to_range s (Some n) = Ok r /\ slice_indices s n = Some i /\ range_list r = range_list i.
Proof. exact slice_range_ok. Qed.
Print Assumptions C24_slice_partial.

(** [slice(0, 0)] on 3 elements gives [range(0, 3)]; [slice(0, 5)] gives
    [range(0, 5)]. *)
Theorem C24_slice_refuted : forall stop, stop = 0%Z \/ stop = 5%Z -> exists r i,
  slice_to_range (mkSlice (Some 0%Z) (Some stop) None) (Some 3%Z) = Ok r
  /\ slice_indices (mkSlice (Some 0%Z) (Some stop) None) 3 = Some i /\ range_list r <> range_list i.
Proof. intros stop [->| ->]; do 2 eexists; (split; [reflexivity|split; [reflexivity|discriminate]]). Qed.
Print Assumptions C24_slice_refuted.

Theorem C24_no_length : forall s, slice_to_range s None = Err TypeError.
Proof. reflexivity. Qed.
Print Assumptions C24_no_length.

Example C24_case : exists r, slice_to_range (mkSlice (Some 1%Z) None (Some 2%Z)) (Some 6%Z) = Ok r
  /\ range_list r = [1; 3; 5]%Z.
Proof. eexists. split; reflexivity. Qed.

(** ** C25: guards *)

(** The substitute declared last for the type of the exception is returned.
    Missing: subtypes of a declared type. *)
Theorem C25_guard_partial : forall (C A R : Type) (ceq sub : C -> C -> bool) h1 h2 c (r : R) (args : list A) kwargs,
  decides ceq -> sub c c = true -> (forall s, ~ In (c, s) h2) ->
  guard_call ceq sub (fold_left (fun d p => catch ceq d (fst p) (snd p)) (h1 ++ (c, Value r) :: h2) [])
    (Raises c) args kwargs = Returns (GValue r).
Proof. exact (fun C A R ceq sub h1 h2 c r args kwargs D => @guard_value C A R ceq sub D h1 h2 c r args kwargs). Qed.
Print Assumptions C25_guard_partial.

Theorem C25_others_pass : forall (C A R : Type) (ceq sub : C -> C -> bool) (h : list (C * subst R)) c (args : list A) kwargs,
  decides ceq -> (forall k s, In (k, s) h -> sub c k = false) ->
  guard_call ceq sub (fold_left (fun d p => catch ceq d (fst p) (snd p)) h []) (Raises c) args kwargs = Raises c.
Proof. exact (fun C A R ceq sub h c args kwargs D => @guard_passes C A R ceq sub D h c args kwargs). Qed.
Print Assumptions C25_others_pass.

(** Every exception of a proper subtype that is not itself declared turns into a
    [KeyError]. *)
Theorem C25_guard_refuted : forall (C A R : Type) (ceq sub : C -> C -> bool) (h : list (C * subst R)) c p s (args : list A) kwargs,
  decides ceq -> In (p, s) h -> sub c p = true -> (forall s', ~ In (c, s') h) ->
  guard_call ceq sub (fold_left (fun d p => catch ceq d (fst p) (snd p)) h []) (Raises c) args kwargs = KeyErr.
Proof. exact (fun C A R ceq sub h c p s args kwargs D => @guard_subclass C A R ceq sub D h c p s args kwargs). Qed.
Print Assumptions C25_guard_refuted.

Example C25_case :
  guard_call Nat.eqb Nat.leb (catch Nat.eqb [] 3 (Value 7)) (Raises 3) [5] [] = Returns (GValue 7)
  /\ guard_call Nat.eqb Nat.leb (catch Nat.eqb [] 3 (Value 7)) (Raises 2) [5] [] = KeyErr
  /\ guard_call Nat.eqb Nat.leb (catch Nat.eqb [] 3 (Value 7)) (Raises 4) [5] [] = Raises 4
  /\ guard_call (R := nat) Nat.eqb Nat.leb (catch Nat.eqb [] 3 Echo) (Raises 3) [5] [] = Returns (GArg 5).
Proof. auto. Qed.

(** ** C69: abbreviated display *)

(** Short lists are shown whole; of a longer list the first [n - 1] and the
    last are shown.  Missing: [n <= 0]. *)
Theorem C69_show_partial : forall (A : Type) (n : Z) (l : list A),
  ((Z.of_nat (length l) <= n)%Z -> show_at_most n l = map Some l)
  /\ ((1 <= n < Z.of_nat (length l))%Z ->
      exists pre mid last, l = pre ++ mid ++ [last] /\ Z.of_nat (length pre) = (n - 1)%Z /\ mid <> []
        /\ show_at_most n l = map Some pre ++ [None; Some last]).
Proof. exact (fun A n l => conj (@show_short A n l) (@show_long A n l)). Qed.
Print Assumptions C69_show_partial.

(** Asked for at most 0 values, every value is shown. *)
Theorem C69_show_refuted : exists l : list nat, l <> [] /\ forall x, In x l -> In (Some x) (show_at_most 0 l).
Proof. exists [1; 2; 3]. split; [discriminate|]. simpl. intros x H. intuition congruence. Qed.
Print Assumptions C69_show_refuted.
(** What a number below 1 shows: all values but the last [1 - n], and the last
    one. *)
Theorem C69_below_one : forall (A : Type) (n : Z) (l : list A), (n <= 0)%Z -> l <> [] ->
  exists pre mid last, l = pre ++ mid /\ Z.of_nat (length mid) = Z.min (1 - n) (Z.of_nat (length l))
    /\ (exists init, l = init ++ [last]) /\ show_at_most n l = map Some pre ++ [None; Some last].
Proof. exact @show_below. Qed.
Print Assumptions C69_below_one.
Example C69_case : show_at_most 3 [1; 2; 3; 4; 5] = [Some 1; Some 2; None; Some 5].
Proof. reflexivity. Qed.

(** ** C70: transposition *)

Theorem C70_transpose : forall (A : Type) (d : A) (l : list (list A)) n m,
  l <> [] -> Forall (fun r => length r = n) l -> length l = m ->
  exists t, transpose_list l = Ok t /\ length t = n /\ Forall (fun r => length r = m) t
  /\ forall i j, (i < n)%nat -> (j < m)%nat -> nth j (nth i t []) d = nth i (nth j l []) d.
Proof. exact @transpose_entries. Qed.
Print Assumptions C70_transpose.

Theorem C70_transpose_twice : forall (A : Type) (l t : list (list A)) n,
  l <> [] -> n <> O -> Forall (fun r => length r = n) l -> transpose_list l = Ok t -> transpose_list t = Ok l.
Proof. exact @transpose_twice. Qed.
Print Assumptions C70_transpose_twice.
(** There must be a first row, and no row shorter than it; longer rows are cut. *)
Theorem C70_transpose_errors : forall (A : Type) (l : list (list A)),
  transpose_list (@nil (list A)) = Err IndexError
  /\ (forall first rest, l = first :: rest ->
        ((exists r, In r rest /\ (length r < length first)%nat) -> transpose_list l = Err IndexError)
        /\ (Forall (fun r => (length first <= length r)%nat) rest ->
            transpose_list l = transpose_list (map (firstn (length first)) l))).
Proof. exact @transpose_errors. Qed.
Print Assumptions C70_transpose_errors.
Example C70_case : transpose_list [[1; 2; 3]; [4; 5; 6]] = Ok [[1; 4]; [2; 5]; [3; 6]].
Proof. reflexivity. Qed.

(** ** C71: distribution *)

Theorem C71_distribute : forall a b l, distribute a b = Ok l ->
  (forall x y, In (x, y) l <->
    (match a with OSeq _ la => In x la | _ => x = a end) /\ (match b with OSeq _ lb => In y lb | _ => y = b end))
  /\ length l = (match a with OSeq _ la => length la | _ => 1 end * match b with OSeq _ lb => length lb | _ => 1 end)%nat.
Proof. exact (fun a b l H => conj (distribute_spec a b l H) (distribute_count a b l H)). Qed.
Print Assumptions C71_distribute.

Theorem C71_distribute_error : forall a b, distribute a b = Err TypeError <->
  (forall k l, a <> OSeq k l) /\ (forall k l, b <> OSeq k l).
Proof.
  intros a b. rewrite distribute_err. destruct a, b; simpl; split; try (intros [? ?]; discriminate); try (split; congruence); auto;
    intros [H1 H2]; exfalso; try (eapply H1; reflexivity); eapply H2; reflexivity.
Qed.
Print Assumptions C71_distribute_error.
Example C71_case : distribute (OStr (lit "a")) (OSeq KList [ONum 1; ONum 2])
  = Ok [(OStr (lit "a"), ONum 1); (OStr (lit "a"), ONum 2)].
Proof. reflexivity. Qed.

(** ** C72: instance caches *)

(** In any history of requests two requests return the same object iff they
    have the same key. *)
Theorem C72_instances : forall (K : Type) (keq : K -> K -> bool) ks i j k k' x x', decides keq ->
  nth_error ks i = Some k -> nth_error ks j = Some k' ->
  nth_error (instances keq [] 0 ks) i = Some x -> nth_error (instances keq [] 0 ks) j = Some x' ->
  (x = x' <-> k = k').
Proof. exact (fun K keq ks i j k k' x x' D => @instances_spec K keq D ks i j k k' x x'). Qed.
Print Assumptions C72_instances.
Example C72_case : instances Z.eqb [] 0 [5; 7; 5; 9; 7]%Z = [0; 1; 0; 2; 1].
Proof. reflexivity. Qed.

(** ** C73: table search *)

Theorem C73_find : forall (V : Type) (veq : V -> V -> bool) rows v,
  let has e := exists k w, In (k, w) e /\ veq w v = true in
  (forall l, table_find veq rows v false = Ok (inl l) ->
     subsequence l rows /\ l <> [] /\ forall e, In e l <-> In e rows /\ has e)
  /\ (forall e, table_find veq rows v true = Ok (inr e) <-> only has rows e)
  /\ (forall u, (forall e, In e rows -> ~ has e) -> table_find veq rows v u = Err MissingValueError).
Proof. exact @find_spec. Qed.
Print Assumptions C73_find.
Example C73_case : table_find Z.eqb sample_table 4%Z true = Ok (inr [(lit "a", 4%Z); (lit "b", 3%Z); (lit "c", 0%Z)])
  /\ table_find Z.eqb sample_table 3%Z true = Err AmbiguousValueError
  /\ table_find Z.eqb sample_table 9%Z false = Err MissingValueError.
Proof. vm_compute. auto. Qed.

(** ** C74: adjacencies *)

Theorem C74_adjacencies : forall l a b w,
  In (b, w) (get_adjacencies (connect l) a) <-> get_weight (connect l) a b = Ok w.
Proof. exact adjacencies_spec. Qed.
Print Assumptions C74_adjacencies.
Example C74_case : map fst (get_adjacencies (connect sample_links) (lit "m")) = [lit "cm"; lit "km"].
Proof. reflexivity. Qed.

(** ** C320: objects of a type, and with members of a type *)

Theorem C320_true : forall o ty wrappers strict, hastype o ty wrappers strict = Ok true <->
  ty o = true
  \/ (exists w, In w wrappers /\ w o = true)
     /\ exists l, members o l /\ if strict then (forall x, In x l -> ty x = true) else exists x, In x l /\ ty x = true.
Proof. exact hastype_true. Qed.
Print Assumptions C320_true.

(** An object without members must not be an instance of a wrapper. *)
Theorem C320_error : forall o ty wrappers strict e, hastype o ty wrappers strict = Err e <->
  e = TypeError /\ ty o = false /\ (exists w, In w wrappers /\ w o = true) /\ forall l, ~ members o l.
Proof. exact hastype_error. Qed.
Print Assumptions C320_error.

Definition is_num (o : obj) : bool := match o with ONum _ => true | _ => false end.
Definition is_text (o : obj) : bool := match o with OStr _ => true | _ => false end.
Definition is_list (o : obj) : bool := match o with OSeq KList _ => true | _ => false end.
Example C320_case :
  hastype (OSeq KList [ONum 1; OStr (lit "a")]) is_num [is_list] false = Ok true
  /\ hastype (OSeq KList [ONum 1; OStr (lit "a")]) is_num [is_list] true = Ok false
  /\ hastype (OSeq KTuple [ONum 1]) is_num [is_list] true = Ok false
  /\ hastype (OSeq KList []) is_num [is_list] true = Ok true
  /\ hastype (ONum 1) is_text [is_list; is_num] true = Err TypeError.
Proof. auto. Qed.

(** ** C321: the first method with a result *)

(** Methods after the one that gives the result, or that raises an exception,
    do not matter. *)
Theorem C321_first : forall (A R : Type) (methods : list (A -> res (option R))) a,
  (forall r, apply_methods methods a = Ok (Some r) <->
     exists l1 m l2, methods = l1 ++ m :: l2 /\ Forall (fun m => m a = Ok None) l1 /\ m a = Ok (Some r))
  /\ (forall e, apply_methods methods a = Err e <->
     exists l1 m l2, methods = l1 ++ m :: l2 /\ Forall (fun m => m a = Ok None) l1 /\ m a = Err e)
  /\ (apply_methods methods a = Ok None <-> Forall (fun m => m a = Ok None) methods).
Proof. exact @apply_first. Qed.
Print Assumptions C321_first.
Example C321_case : apply_methods [fun _ => Ok None; fun n => Ok (Some (n + 1)); fun _ => Err ValueError] 4 = Ok (Some 5)
  /\ apply_methods [fun _ => Ok None; fun _ : nat => @Err (option nat) KeyError; fun n => Ok (Some (n + 1))] 4 = Err KeyError.
Proof. auto. Qed.

(** ** C322: columns of a table *)

(** [column k rows l]: [l] holds the values of [k] in the rows, in order. *)
Theorem C322_column : forall (V : Type) (rows : list (@entry V)) k, dicts rows -> rows <> [] ->
  (common_key rows k -> exists l, table_getitem rows k = Ok l /\ Forall2 (fun e v => In (k, v) e) rows l)
  /\ (~ common_key rows k -> table_getitem rows k = Err TableKeyError).
Proof. exact @column_spec. Qed.
Print Assumptions C322_column.

(** With a default, the rows without the key have the default. *)
Theorem C322_default : forall (V : Type) (rows : list (@entry V)) k d, dicts rows -> rows <> [] ->
  exists l, table_get rows k d = Ok l
  /\ Forall2 (fun e v => In (k, v) e \/ (~ In k (map fst e)) /\ v = d) rows l.
Proof. exact @column_default. Qed.
Print Assumptions C322_default.

(** A table without rows has no column, with or without a default. *)
Theorem C322_no_rows : forall (V : Type) k (d : V),
  table_getitem (@nil (@entry V)) k = Err IndexError /\ table_get [] k d = Err IndexError.
Proof. now split. Qed.
Print Assumptions C322_no_rows.
Example C322_case : table_getitem sample_table (lit "b") = Ok [2; 3; 3]%Z /\ table_get sample_table (lit "c") 9%Z = Ok [9; 9; 0]%Z
  /\ table_getitem sample_table (lit "c") = Err TableKeyError.
Proof. auto. Qed.
