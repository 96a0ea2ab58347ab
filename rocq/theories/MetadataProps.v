(** The properties of metadata. *)

From Coq Require Import String Ascii List Bool ZArith QArith Qcanon Permutation.
From Verif Require Import Py PyFacts SymbolicModel IterablesModel IterablesSpec AliasedModel AliasedSpec.
From Verif Require Import MetadataModel MetadataSpec MetadataProofs.
Import ListNotations.
Open Scope list_scope.
Open Scope nat_scope.

(** ** C36: which operand types an operation supports *)

(** Missing for the full property: suppressed rules of another length than
    the operand types, and grouped types in a suppressed rule. *)
Theorem C36_supports_partial : forall (cls : Type) (ceqb issub : cls -> cls -> bool) owner params calls types,
  decides ceqb -> (forall c, issub c c = true) ->
  all_return cls (new_operation cls owner params) calls = true ->
  (forall ts s, In (Suppress ts s) calls -> forallb (is_type cls) ts = true) ->
  (forall r, In r (suppressed_by calls) -> length r = length types) ->
  (forall r, In r (supported_by calls) -> r <> []) ->
  supports cls ceqb issub (run_calls cls (new_operation cls owner params) calls) types = true
  <-> (forall r, In r (supported_by calls) -> length r = length types)
      /\ (forall r, In r (suppressed_by calls) -> ~ matches issub types r)
      /\ ((exists r, In r (supported_by calls) /\ matches issub types r) \/ In owner types).
Proof. intros. now apply supports_spec. Qed.
Print Assumptions C36_supports_partial.

(** Classes 0 (object), 1, 2 (a subclass of 1), 3. *)
Definition sub (c d : nat) : bool := Nat.eqb c d || Nat.eqb d 0 || (Nat.eqb c 2 && Nat.eqb d 1).
Definition some_calls : list (call nat) :=
  [Support [Ty 1; Ty 3] true; Suppress [Ty 2; Ty 3] false; Support [Tup [1; 1]; Tup [3; 3]] false].
Example C36_case :
  all_return nat (new_operation nat 1 []) some_calls = true
  /\ (forall ts s, In (Suppress ts s) some_calls -> forallb (is_type nat) ts = true)
  /\ (forall r, In r (suppressed_by some_calls) -> length r = 2)
  /\ (forall r, In r (supported_by some_calls) -> r <> [])
  /\ supports nat Nat.eqb sub (run_calls nat (new_operation nat 1 []) some_calls) [3; 2] = true
  /\ supports nat Nat.eqb sub (run_calls nat (new_operation nat 1 []) some_calls) [2; 3] = false
  /\ supports nat Nat.eqb sub (run_calls nat (new_operation nat 1 []) some_calls) [1; 0] = true
  /\ supports nat Nat.eqb sub (run_calls nat (new_operation nat 1 []) some_calls) [0; 2] = false.
Proof.
  split; [reflexivity|]. split; [intros ts s [E|[E|[E|[]]]]; inversion E; reflexivity|].
  split; [intros r [<-|[]]; reflexivity|].
  split; [intros r I; repeat (destruct I as [<-|I]; [discriminate|]); destruct I|]. repeat split.
Qed.

(** Refuted: a suppressed rule with fewer types than operands applies as if
    it ended there, so that [suppress(A)] rejects a pair whose first type is
    [A], and [suppress()] rejects everything. *)
Theorem C36_length_refuted : exists calls types,
  all_return nat (new_operation nat 1 []) calls = true
  /\ (forall ts s, In (Suppress ts s) calls -> forallb (is_type nat) ts = true)
  /\ (forall r, In r (suppressed_by calls) -> ~ matches sub types r)
  /\ (exists r, In r (supported_by calls) /\ matches sub types r)
  /\ supports nat Nat.eqb sub (run_calls nat (new_operation nat 1 []) calls) types = false.
Proof.
  exists [Support [Ty 1; Ty 3] false; Suppress [Ty 1] false], [1; 3]. split; [reflexivity|].
  split; [intros ts s [E|[E|[]]]; inversion E; reflexivity|].
  split; [intros r [<-|[]] M; inversion M as [|? ? ? ? ? M']; inversion M'|].
  split; [|reflexivity]. exists [Ty 1; Ty 3]. split; [now left|]. repeat constructor.
Qed.
Print Assumptions C36_length_refuted.
Theorem C36_suppress_nothing_refuted : forall (cls : Type) (ceqb issub : cls -> cls -> bool) owner params s types,
  supports cls ceqb issub (suppress cls (new_operation cls owner params) [] s) types = false.
Proof.
  intros. destruct types as [|c types], s; reflexivity.
Qed.
Print Assumptions C36_suppress_nothing_refuted.

(** Refuted: suppressing two groups of types suppresses the pairs of a member
    of the first and a member of the second, and not the groups. *)
Theorem C36_groups_refuted :
  let o := run_calls nat (new_operation nat 1 []) [Suppress [Tup [1; 3]; Tup [3; 1]] false] in
  documented [Tup [1; 3]; Tup [3; 1]] = [[Ty 1; Ty 3]; [Ty 3; Ty 1]]
  /\ supports nat Nat.eqb Nat.eqb o [1; 1] = false
  /\ (forall r, In r (documented [Tup [1; 3]; Tup [3; 1]]) -> ~ matches Nat.eqb [1; 1] r).
Proof.
  split; [reflexivity|]. split; [reflexivity|].
  intros r [<-|[<-|[]]] M; inversion M as [|? ? ? ? F M']; subst; clear M; [|discriminate F].
  inversion M' as [|? ? ? ? F']. discriminate F'.
Qed.
Print Assumptions C36_groups_refuted.

(** ** C88: copies of an operation *)

(** What a copy keeps. *)
Theorem C88_copy_partial : forall cls (o : operation cls),
  op_type cls (copy cls o) = op_type cls o /\ op_parameters cls (copy cls o) = op_parameters cls o.
Proof. split; reflexivity. Qed.
Print Assumptions C88_copy_partial.
(** Refuted: a copy forgets every rule. *)
Theorem C88_copy_refuted : exists calls types,
  let o := run_calls nat (new_operation nat 1 []) calls in
  all_return nat (new_operation nat 1 []) calls = true
  /\ supports nat Nat.eqb sub o types = true /\ supports nat Nat.eqb sub (copy nat o) types = false.
Proof. exists [Support [Ty 3; Ty 3] false], [3; 3]. repeat split. Qed.
Print Assumptions C88_copy_refuted.
Theorem C88_suppressed_again_refuted : exists calls types,
  let o := run_calls nat (new_operation nat 1 []) calls in
  all_return nat (new_operation nat 1 []) calls = true
  /\ supports nat Nat.eqb sub o types = false /\ supports nat Nat.eqb sub (copy nat o) types = true.
Proof. exists [Suppress [Ty 3; Ty 1] false], [3; 1]. repeat split. Qed.
Print Assumptions C88_suppressed_again_refuted.

(** ** C89: consistency of metadata *)

Theorem C89_check : forall (V : Type) (veq : V -> V -> bool) params args, decides veq ->
  (check V veq params args = Ok tt \/ check V veq params args = Err ValueError)
  /\ (check V veq params args = Ok tt <->
      forall p a b x y, In p params -> In a args -> In b args -> a p = Some x -> b p = Some y -> x = y).
Proof.
  intros V veq params args D. split.
  - destruct (check V veq params args) as [[]|e] eqn:E; [now left|right]. rewrite <- E. apply check_error. congruence.
  - rewrite (check_spec V veq D). split; intros H; [intros p a b x y I; now apply (H p I)|].
    intros p I a b x y. now apply H.
Qed.
Print Assumptions C89_check.
Definition having (name : str) (v : nat) : operand_ nat := fun n => if str_eqb n name then Some v else None.
Example C89_case :
  check nat Nat.eqb [lit "unit"; lit "name"] [having (lit "unit") 1; having (lit "name") 2; having (lit "unit") 1] = Ok tt
  /\ check nat Nat.eqb [lit "unit"; lit "name"] [having (lit "unit") 1; having (lit "name") 2; having (lit "unit") 3] = Err ValueError.
Proof. split; reflexivity. Qed.

(** [agree], which the docstring describes in the same words: equal to the
    above whenever some operand has all the attributes.  Missing: no operand
    has them. *)
Theorem C89_agree_partial : forall (V : Type) (veq : V -> V -> bool) name args, decides veq ->
  (exists a x, In a args /\ a name = Some x) ->
  exists r, agree V veq [name] false args = Ok r /\
  (r = true <-> forall a b x y, In a args -> In b args -> a name = Some x -> b name = Some y -> x = y).
Proof. intros V veq name args D. exact (agree_one V veq D name args). Qed.
Print Assumptions C89_agree_partial.
(** Refuted: it raises IndexError if there are several operands none of which
    has the attribute. *)
Theorem C89_agree_refuted : forall (V : Type) (veq : V -> V -> bool) name (args : list (operand_ V)),
  length args <> 1 -> (forall a, In a args -> a name = None) ->
  agree V veq [name] false args = Err IndexError.
Proof. exact agree_none. Qed.
Print Assumptions C89_agree_refuted.

(** Several attributes: the operands that have all of them are compared; in
    strict mode every operand must have them. *)
Theorem C89_agree_all_partial : forall (V : Type) (veq : V -> V -> bool) names args, decides veq ->
  (exists a, In a args /\ forall n, In n names -> a n <> None) ->
  exists r, agree V veq names false args = Ok r /\
  (r = true <-> forall a b, In a args -> In b args -> (forall n, In n names -> a n <> None) -> (forall n, In n names -> b n <> None) ->
     forall n, In n names -> a n = b n).
Proof. intros V veq names args D. exact (agree_many V veq D names args). Qed.
Print Assumptions C89_agree_all_partial.
Theorem C89_agree_strict : forall (V : Type) (veq : V -> V -> bool) names args, decides veq -> args <> [] ->
  ((forall n a, In n names -> In a args -> a n <> None) ->
     exists r, agree V veq names true args = Ok r /\ (r = true <-> forall n a b, In n names -> In a args -> In b args -> a n = b n))
  /\ (forall name a, length args <> 1 -> In a args -> a name = None -> agree V veq [name] true args = Err AttributeError).
Proof.
  intros V veq names args D N. split.
  - exact (agree_strict V veq D names args N).
  - intros name a. exact (agree_strict_error V veq name args a).
Qed.
Print Assumptions C89_agree_strict.
Example C89_agree_case : let both u v : operand_ nat := fun n => if str_eqb n (lit "unit") then Some u else if str_eqb n (lit "name") then Some v else None in
  agree nat Nat.eqb [lit "unit"; lit "name"] false [both 1 2; having (lit "unit") 3; both 1 2] = Ok true
  /\ agree nat Nat.eqb [lit "unit"; lit "name"] true [both 1 2; both 1 3] = Ok false.
Proof. split; reflexivity. Qed.

(** ** C90: equality of operands *)

(** Without repeats, equality is equality up to order.  Missing: operands
    with repeats. *)
Theorem C90_operands_partial : forall (A : Type) (eqb : A -> A -> bool) (l m : list A), decides eqb ->
  NoDup l -> NoDup m -> operands_eq eqb l m = true <-> Permutation l m.
Proof. exact @operands_perm. Qed.
Print Assumptions C90_operands_partial.
Example C90_case : operands_eq Nat.eqb [1; 2; 3] [3; 1; 2] = true /\ operands_eq Nat.eqb [1; 2] [1; 3] = false.
Proof. split; reflexivity. Qed.
(** Refuted: equality is not symmetric. *)
Theorem C90_symmetry_refuted : exists l m : list nat,
  operands_eq Nat.eqb l m = true /\ operands_eq Nat.eqb m l = false.
Proof. exists [1; 1], [1; 2]. split; reflexivity. Qed.
Print Assumptions C90_symmetry_refuted.

(** ** C38: merging dimensions *)

Theorem C38_ordered : forall a b, NoDup a -> NoDup b -> followed_by_new a b (merge a [Some b]).
Proof. exact merge_ordered. Qed.
Print Assumptions C38_ordered.
Theorem C38_members : forall a b, NoDup (merge a [Some b]) /\ forall x, In x (merge a [Some b]) <-> In x a \/ In x b.
Proof. exact merge_members. Qed.
Print Assumptions C38_members.
Theorem C38_associative : forall a b c, merge (merge a [Some b]) [Some c] = merge a [Some (merge b [Some c])].
Proof. exact merge_assoc. Qed.
Print Assumptions C38_associative.
Theorem C38_idempotent : forall a, NoDup a -> merge a [Some a] = a.
Proof. exact merge_idem. Qed.
Print Assumptions C38_idempotent.
(** Merging several at once is merging one after the other; operands that are
    not dimensions do not matter. *)
Theorem C38_several : forall a l b, merge (merge a l) [b] = merge a (l ++ [b]).
Proof. exact merge_many. Qed.
Print Assumptions C38_several.
Theorem C38_scalars : forall a, NoDup a -> merge a [None] = a.
Proof. exact merge_scalar. Qed.
Print Assumptions C38_scalars.
Example C38_case : merge [lit "time"; lit "shell"] [Some [lit "energy"; lit "shell"; lit "mu"]]
  = [lit "time"; lit "shell"; lit "energy"; lit "mu"].
Proof. reflexivity. Qed.

(** ** C39: equality of dimensions *)

(** Distinct axes: equality is symmetric and means the same axes.  Missing
    for the full property: the order. *)
Theorem C39_axes_partial : forall a b, NoDup a -> NoDup b -> dims_eq a (DDims b) = true <-> Permutation a b.
Proof. exact dims_eq_perm. Qed.
Print Assumptions C39_axes_partial.
Theorem C39_symmetric_partial : forall a b, NoDup a -> NoDup b -> dims_eq a (DDims b) = dims_eq b (DDims a).
Proof. exact dims_eq_sym. Qed.
Print Assumptions C39_symmetric_partial.
Example C39_case : dims_eq [lit "time"; lit "shell"] (DDims [lit "time"; lit "shell"]) = true
  /\ dims_eq [lit "time"; lit "shell"] (DDims [lit "time"; lit "energy"]) = false.
Proof. split; reflexivity. Qed.
(** Refuted: the order does not count, and sums accept swapped axes. *)
Theorem C39_order_refuted : forall a b, a <> b ->
  dims_eq [a; b] (DDims [b; a]) = true /\ dims_add [a; b] [b; a] = Some [a; b] /\ [a; b] <> [b; a].
Proof. exact dims_order. Qed.
Print Assumptions C39_order_refuted.
(** Refuted: with a repeated axis equality is not symmetric. *)
Theorem C39_symmetry_refuted : forall a b, a <> b ->
  dims_eq [a; b] (DDims [a; a]) = true /\ dims_eq [a; a] (DDims [a; b]) = false.
Proof. exact dims_asym. Qed.
Print Assumptions C39_symmetry_refuted.
(** Refuted: two one-letter axes equal the two-letter string. *)
Theorem C39_string_refuted : forall c d, dims_eq [[c]; [d]] (DStr [c; d]) = true.
Proof. exact dims_string. Qed.
Print Assumptions C39_string_refuted.

(** ** C91: sums of dimensions *)

(** A sum of operands with distinct axes has the dimensions of the left
    operand, and exists only if both have the same axes. *)
Theorem C91_sum : forall a b, NoDup a -> NoDup b ->
  (Permutation a b -> dims_add a b = Some a) /\ (~ Permutation a b -> dims_add a b = None).
Proof. exact dims_add_spec. Qed.
Print Assumptions C91_sum.
Example C91_case : dims_add [lit "time"; lit "shell"] [lit "time"; lit "shell"] = Some [lit "time"; lit "shell"]
  /\ dims_add [lit "time"; lit "shell"] [lit "time"] = None.
Proof. split; reflexivity. Qed.

(** ** C325: creating dimensions *)

(** The names are kept in the given order, given one by one or in one
    sequence. *)
Theorem C325_names : forall k names,
  dimensions_of_args (map OStr names) = Ok names /\ dimensions_of_args [OSeq k (map OStr names)] = Ok names.
Proof. intros. split; [apply dims_args|apply dims_wrapped]. Qed.
Print Assumptions C325_names.
Theorem C325_error : forall args o, length args <> 1 -> In o args -> (forall s, o <> OStr s) -> dimensions_of_args args = Err TypeError.
Proof. exact dims_error. Qed.
Print Assumptions C325_error.
Example C325_case : dimensions_of_args [OSeq KTuple [OStr (lit "time"); OStr (lit "shell")]] = Ok [lit "time"; lit "shell"]
  /\ dimensions_of_args [OStr (lit "time"); ONum 1] = Err TypeError.
Proof. split; reflexivity. Qed.

(** ** C40: names of results *)

Lemma named a : a <> [[]] -> name_truth a = true.
Proof. intro H. destruct a as [|[|c s] [|b a]]; try reflexivity. now contradiction H. Qed.
Lemma something_true o : something o -> truth o = true.
Proof.
  intros (H1 & H2 & H3 & H4). destruct o as [l|s|v f|l]; cbn [truth].
  - apply named. congruence.
  - destruct s; try reflexivity. now contradiction H2.
  - destruct (Qc_eqb_spec v 0); try reflexivity. subst. now contradiction (H3 f).
  - destruct l; try reflexivity. now contradiction H4.
Qed.

(** Two different names. *)
Theorem C40_names_partial : forall mkset fixed a b, set_order mkset -> NoDup a -> NoDup b ->
  a <> [[]] -> b <> [[]] -> ~ same_names a b ->
  (exists l, name_add mkset fixed a (OName b) = Ok l /\ spelled (lit " + ") a b l)
  /\ (exists l, name_sub mkset fixed a (OName b) = Ok l /\ spelled (lit " - ") a b l)
  /\ (exists l, name_mul mkset fixed a (OName b) = Ok l /\ spelled (lit " * ") a b l)
  /\ (exists l, name_truediv mkset fixed a (OName b) = Ok l /\ spelled (lit " / ") a b l)
  /\ (exists l, name_pow mkset fixed a (OName b) = Ok l /\ spelled (lit "^") a b l).
Proof.
  intros mkset fixed a b Hm Na Nb Ta%named Tb%named N.
  split; [|split; [|split; [|split]]]; now apply op_names.
Qed.
Print Assumptions C40_names_partial.
(** A number or a string in place of the right operand, and (reflected) of
    the left operand. *)
Theorem C40_numbers_partial : forall mkset fixed a v f, set_order mkset -> NoDup a ->
  a <> [[]] -> v <> 0%Qc -> (v = 1%Qc -> f = true) ->
  let n := dec_of_Qc v in
  (exists l, name_mul mkset fixed a (ONumber v f) = Ok l /\ spelled (lit " * ") a [n] l)
  /\ (exists l, name_truediv mkset fixed a (ONumber v f) = Ok l /\ spelled (lit " / ") a [n] l)
  /\ (exists l, name_pow mkset fixed a (ONumber v f) = Ok l /\ spelled (lit "^") a [n] l)
  /\ (exists l, name_rmul mkset fixed a (ONumber v f) = Ok l /\ spelled (lit " * ") [n] a l)
  /\ (exists l, name_rtruediv mkset fixed a (ONumber v f) = Ok l /\ spelled (lit " / ") [n] a l)
  /\ (exists l, name_rpow mkset fixed a (ONumber v f) = Ok l /\ spelled (lit "^") [n] a l).
Proof.
  intros mkset fixed a v f Hm Na Ta%named V F n.
  split; [|split; [|split; [|split; [|split]]]].
  - now apply (op_number mkset fixed Hm (lit " * ") false).
  - now apply (op_number mkset fixed Hm (lit " / ") false).
  - now apply (op_number mkset fixed Hm (lit "^") false).
  - now apply (op_number mkset fixed Hm (lit " * ") true).
  - now apply (op_number mkset fixed Hm (lit " / ") true).
  - now apply (op_number mkset fixed Hm (lit "^") true).
Qed.
Print Assumptions C40_numbers_partial.
Theorem C40_strings_partial : forall mkset fixed a t, set_order mkset -> NoDup a ->
  a <> [[]] -> t <> [] -> t <> lit "1" -> ~ same_names a [t] ->
  (exists l, name_mul mkset fixed a (OText t) = Ok l /\ spelled (lit " * ") a [fixed t] l)
  /\ (exists l, name_truediv mkset fixed a (OText t) = Ok l /\ spelled (lit " / ") a [fixed t] l)
  /\ (exists l, name_rmul mkset fixed a (OText t) = Ok l /\ spelled (lit " * ") [fixed t] a l)
  /\ (exists l, name_rtruediv mkset fixed a (OText t) = Ok l /\ spelled (lit " / ") [fixed t] a l).
Proof.
  intros mkset fixed a t Hm Na Ta%named V F S.
  split; [|split; [|split]].
  - now apply (op_text mkset fixed Hm (lit " * ") false).
  - now apply (op_text mkset fixed Hm (lit " / ") false).
  - now apply (op_text mkset fixed Hm (lit " * ") true).
  - now apply (op_text mkset fixed Hm (lit " / ") true).
Qed.
Print Assumptions C40_strings_partial.
(** Names have no sum or difference with anything but names, and the reflected
    operations on names are those on names. *)
Theorem C40_sums_need_names : forall mkset fixed a o, a <> [[]] -> something o -> (forall l, o <> OName l) ->
  name_add mkset fixed a o = Err TypeError /\ name_sub mkset fixed a o = Err TypeError
  /\ name_radd mkset fixed a o = Err TypeError /\ name_rsub mkset fixed a o = Err TypeError.
Proof. intros mkset fixed a o Ta%named To%something_true N. repeat split; now apply op_strict. Qed.
Print Assumptions C40_sums_need_names.
Example C40_sums_case : [lit "a"; lit "A"] <> [[]] /\ something (OText (lit "b")) /\ forall l, OText (lit "b") <> OName l.
Proof. repeat split; discriminate. Qed.
Theorem C40_reflected_names : forall mkset fixed a b, set_order mkset -> NoDup a -> NoDup b ->
  a <> [[]] -> b <> [[]] -> ~ same_names a b ->
  (exists l, name_radd mkset fixed a (OName b) = Ok l /\ spelled (lit " + ") a b l)
  /\ (exists l, name_rsub mkset fixed a (OName b) = Ok l /\ spelled (lit " - ") a b l).
Proof. intros mkset fixed a b Hm Na Nb Ta%named Tb%named N. split; now apply op_names. Qed.
Print Assumptions C40_reflected_names.
(** The same name on both sides: a sum keeps it, as documented; a product
    pairs each member with itself only. *)
Theorem C40_same_partial : forall mkset fixed a b, set_order mkset -> NoDup a -> NoDup b ->
  a <> [[]] -> b <> [[]] -> same_names a b ->
  name_add mkset fixed a (OName b) = Ok a /\ name_sub mkset fixed a (OName b) = Ok a
  /\ exists l, name_mul mkset fixed a (OName b) = Ok l
       /\ forall s, In s l <-> exists x, In x a /\ s = x ++ lit " * " ++ x.
Proof.
  intros mkset fixed a b Hm Na Nb Ta%named Tb%named S.
  destruct (op_same mkset fixed Hm (lit " + ") false true a b Na Nb Ta Tb S) as [l [E ->]].
  destruct (op_same mkset fixed Hm (lit " - ") false true a b Na Nb Ta Tb S) as [m [F ->]].
  split; [exact E|]. split; [exact F|]. exact (op_same mkset fixed Hm (lit " * ") false false a b Na Nb Ta Tb S).
Qed.
Print Assumptions C40_same_partial.
Example C40_case : name_mul (nodup str_eq_dec) (fun s => s) [lit "a"; lit "A"] (OName [lit "b"; lit "B"])
    = Ok [lit "a * b"; lit "a * B"; lit "A * b"; lit "A * B"]
  /\ name_rtruediv (nodup str_eq_dec) (fun s => s) [lit "a"; lit "A"] (ONumber (Q2Qc 2) false) = Ok [lit "2 / a"; lit "2 / A"]
  /\ name_add (nodup str_eq_dec) (fun s => s) [lit "a"; lit "A"] (OName [lit "a"; lit "A"]) = Ok [lit "a"; lit "A"].
Proof. repeat split; reflexivity. Qed.

(** Unary operations. *)
Theorem C40_unary : forall mkset before after a, set_order mkset -> a <> [[]] ->
  exists l, name_unary mkset before after a = Ok l /\ forall s, In s l <-> exists x, In x a /\ s = before ++ x ++ after.
Proof.
  intros mkset before after a Hm Ta%named. unfold name_unary. rewrite Ta. eexists. split; [reflexivity|].
  intros s. unfold name_of. rewrite (proj2 (Hm _)), in_map_iff. split; intros (x & E1 & E2); exists x; auto.
Qed.
Print Assumptions C40_unary.
Example C40_unary_case : name_unary (nodup str_eq_dec) (lit "abs(") (lit ")") [lit "a"; lit "A"] = Ok [lit "abs(a)"; lit "abs(A)"].
Proof. reflexivity. Qed.

(** Refuted: one divided by a name is the name. *)
Theorem C40_reciprocal_refuted : forall mkset fixed a, a <> [[]] ->
  name_rtruediv mkset fixed a (ONumber 1 false) = Ok (name_of mkset a)
  /\ name_truediv mkset fixed a (ONumber 1 false) = Ok (name_of mkset a).
Proof. intros mkset fixed a Ta%named. now apply name_one. Qed.
Print Assumptions C40_reciprocal_refuted.
(** Refuted: a reflected operation with a list of strings swaps the operands. *)
Theorem C40_reflected_refuted :
  name_rtruediv (nodup str_eq_dec) (fun s => s) [lit "a"] (OList [lit "b"]) = Ok [lit "a / b"].
Proof. reflexivity. Qed.
Print Assumptions C40_reflected_refuted.
(** Refuted: an unknown name cannot be negated. *)
Theorem C40_empty_refuted : forall mkset before after, name_unary mkset before after [[]] = Err TypeError.
Proof. reflexivity. Qed.
Print Assumptions C40_empty_refuted.

(** ** C103: operations that metadata do not support *)

Theorem C103_unsupported : forall (V W : Type) (method : list V -> res W) first values allhave,
  (forall w, method values = Ok w -> operator_call method first values allhave = Ok w)
  /\ (forall e, method values = Err e -> e <> TypeError -> operator_call method first values allhave = Err e)
  /\ (method values = Err TypeError -> forall v, values = [v] -> operator_call method first values allhave = Ok (first v))
  /\ (method values = Err TypeError -> length values <> 1 ->
      operator_call method first values allhave = Err (if allhave then MetadataError else TypeError)).
Proof.
  intros V W method first values allhave. unfold operator_call.
  split; [intros w ->; reflexivity|]. split; [intros e -> N; destruct e; congruence|].
  split; [intros -> v ->; reflexivity|]. intros -> N. destruct values as [|v [|x l]]; cbn in *; try congruence; now destruct allhave.
Qed.
Print Assumptions C103_unsupported.
Example C103_case :
  let method l := match l with [a; b] => if Nat.eqb a b then Ok a else Err TypeError | _ => Err TypeError end in
  operator_call method (fun v => v) [3; 3] true = Ok 3 /\ operator_call method (fun v => v) [3; 4] true = Err MetadataError
  /\ operator_call method (fun v => v) [3; 4] false = Err TypeError /\ operator_call method (fun v => v) [5] true = Ok 5.
Proof. repeat split; reflexivity. Qed.

(** ** C92: names tell results apart *)

(** A single operation: the names of the operands can be read off, if the
    left operand's name does not contain the operator.  Missing for the full
    property: operands that are results themselves. *)
Theorem C92_injective_partial : forall op x y x' y' : str, op <> [] ->
  ~ infix op (x ++ removelast op) -> ~ infix op (x' ++ removelast op) ->
  x ++ op ++ y = x' ++ op ++ y' -> x = x' /\ y = y'.
Proof. exact spelled_injective. Qed.
Print Assumptions C92_injective_partial.
(** Refuted: different computations get the same name. *)
Theorem C92_parentheses_refuted : forall mkset fixed, set_order mkset -> (forall s, fixed s = s) ->
  exists ab bc r r', name_add mkset fixed [lit "a"] (OName [lit "b"]) = Ok ab
    /\ name_mul mkset fixed ab (OName [lit "c"]) = Ok r
    /\ name_mul mkset fixed [lit "b"] (OName [lit "c"]) = Ok bc
    /\ name_add mkset fixed [lit "a"] (OName bc) = Ok r'
    /\ same_names r r'.
Proof. intros mkset fixed Hm. exact (name_parentheses mkset fixed Hm). Qed.
Print Assumptions C92_parentheses_refuted.
