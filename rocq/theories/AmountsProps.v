(** Conversions of quantities between units of the package preserve amounts. *)

From Coq Require Import String Ascii List Bool ZArith QArith Qcanon Lia.
From Verif Require Import MeasurableModel.
From Verif Require Import Py PyFacts SymbolicModel MetricTables MetricModel MetricSpec MetricProps ArrayModel ArraySpec ArrayProofs ArrayProps SystemSpec ConverterModel ConverterSpec
  AmountsModel AmountsSpec AmountsProofs.
Import ListNotations.
Open Scope list_scope.
Open Scope nat_scope.

(** ** C333 Converting a quantity keeps the amounts *)

(** Every history of creating, reading, converting and subsetting quantities
    shows the readings of amounts that no conversion changes: whatever was
    cached or converted before, the numbers shown times the size of the unit
    are those of the data times the size of the data's unit. *)
Theorem C333_histories : forall (D : Type) asarray get has_shape systems units_of past size (l : list (op D expression)),
  reads_like asarray get -> both systems -> sizes identified the_connections size ->
  no_copies l -> sensible asarray size (package_eq systems) [] l ->
  run asarray get has_shape (package_eq systems) (package_or systems) (package_factor units_of past) [] l
  = amount_run asarray size (package_eq systems) [] l.
Proof.
  intros D asarray get has_shape systems units_of past size l R B Z N S.
  rewrite (run_no_copies asarray get has_shape _ _ _ R l N). exact (run_amounts systems units_of past size B Z asarray l [] S).
Qed.
Print Assumptions C333_histories.

(** One conversion, number by number. *)
Theorem C333_convert : forall (D : Type) asarray get has_shape systems units_of past size (o : object D expression) u,
  both systems -> sizes identified the_connections size -> shaped asarray o ->
  unscaled asarray o = data_array asarray (o_data o) ->
  exchangeable (o_unit o) u -> package_eq systems u (o_unit o) = Ok false ->
  exists n, update_unit asarray get has_shape (package_eq systems) (package_or systems) (package_factor units_of past) o u = Ok (false, n)
    /\ o_unit n = u /\ o_dims n = o_dims o /\ shape (meaning asarray n) = shape (meaning asarray o)
    /\ forall i, (at_ (meaning asarray n) i * size (expr_format F64 u)
                  = at_ (meaning asarray o) i * size (expr_format F64 (o_unit o)))%Qc.
Proof. intros. now apply (convert_amount systems units_of past size). Qed.
Print Assumptions C333_convert.

(** 1 m, 2 m and 3 m: read in cm, and part of it back in m. *)
Definition metre : expression := [mkTerm 1 (lit "m") 1].
Definition cm : expression := [mkTerm 1 (lit "cm") 1].
Lemma lengths b : match identified b with Some n => str_eqb (n_quantity n) (lit "length") | None => false end = true ->
  product_of_units [mkTerm 1 b 1].
Proof.
  intros H. destruct (identified b) as [n|] eqn:E; [|discriminate]. destruct (str_eqb_spec (n_quantity n) (lit "length")) as [Q|]; [|discriminate].
  split; [discriminate|]. split; [|vm_compute; discriminate]. constructor; [|constructor]. split.
  + exists (lit "length"). split; [exists n; auto|]. cbn. intros [X|[X|[X|[]]]]; discriminate.
  + exists 1%Z. split; [reflexivity|discriminate].
Qed.
Lemma prefixes u v : match identified u, identified v with
  | Some m, Some n => n_base m = n_base n /\ Qc_eqb (n_scale m) 0%Qc = false /\ Qc_eqb (n_scale n) 0%Qc = false
  | _, _ => False end -> comparable u v.
Proof.
  intro H. left. destruct (identified u) as [m|], (identified v) as [n|]; try contradiction. destruct H as (E & P & Q).
  exists m, n. split; [reflexivity|]. split; [reflexivity|]. split; [exact E|]. split; intro K; rewrite K in *; discriminate.
Qed.
Lemma m_cm : exchangeable metre cm /\ exchangeable cm metre.
Proof.
  assert (product_of_units metre) by (apply lengths; vm_compute; reflexivity).
  assert (product_of_units cm) by (apply lengths; vm_compute; reflexivity).
  assert (comparable (expr_format F64 metre) (expr_format F64 cm)) by (apply prefixes; vm_compute; repeat split).
  assert (comparable (expr_format F64 cm) (expr_format F64 metre)) by (apply prefixes; vm_compute; repeat split).
  split; split; auto.
Qed.
Example C333_example : let h := [Make (true, mkArr [3] [Qc_of_Z 1; Qc_of_Z 2; Qc_of_Z 3]) [lit "x"] metre; Read 0 NAll;
            Convert 0 cm; Read 1 (NStd (Bare (ISlice (Some 1%Z) None None))); Subset 1 (Many [IInt 2]); Convert 2 metre; Read 3 NAll] in
  both mks_first /\ no_copies h /\ (exists size, sizes identified the_connections size)
  /\ (forall size, sensible sample_array size (package_eq mks_first) [] h)
  /\ exists r, run sample_array sample_get sample_shape (package_eq mks_first) (package_or mks_first)
      (package_factor (fun _ => Err KeyError) (fun _ _ => [])) [] h = r
    /\ shown_is (nth 3 r (Made (Err KeyError))) [2] [200; 300] = true
    /\ shown_is (nth 6 r (Made (Err KeyError))) [1] [3] = true.
Proof.
  assert (package_eq mks_first cm metre = Ok false) as E by (vm_compute; reflexivity).
  intro h. split; [split; cbn; auto|]. split.
  { intros k H. cbn in H. intuition discriminate. }
  split; [exact C233_module_table_consistent|]. split.
  { intro size. pose proof m_cm. unfold h.
    Local Opaque package_eq exchangeable scale_arr size_in. cbn -[value_subset]. rewrite E. cbn -[value_subset].
    destruct (value_subset _ _) as [v|e] eqn:V; cbn; [|intuition].
    assert (ArraySpec.v_unit v = cm) as W.
    2: { rewrite W. intuition. }
    revert V. unfold value_subset, value_make, reading. cbn -[normalize value_read rebuild Nat.eqb].
    destruct (normalize _ _); [|discriminate]. cbn [bind]. destruct (value_read _ _); [|discriminate]. cbn [bind].
    destruct (rebuild _ _ _); [|discriminate]. cbn [bind]. destruct (Nat.eqb _ _); [|discriminate]. now intros [= <-]. }
  eexists. split; [reflexivity|]. split; vm_compute; reflexivity.
Qed.
