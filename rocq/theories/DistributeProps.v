(** Properties of distributed units. *)

From Coq Require Import String Ascii List Bool ZArith Lia.
From Verif Require Import Py PyFacts IterablesModel IterablesSpec MeasurableModel MeasurableSpec MeasurableProofs DistributeModel DistributeSpec DistributeProofs.
Import ListNotations.
Open Scope list_scope.
Open Scope nat_scope.

(** ** C323: every value with its unit *)

Theorem C323_distributed : forall is_unity show o ps, spread is_unity o ps ->
  parse_distributed is_unity show (S (MeasurableModel.depth o)) o = Ok (Some (map pair_of ps)) /\ map fst ps = numbers_of o.
Proof.
  intros is_unity show o ps S. split; [exact (spread_depth is_unity show _ _ _ _ (le_n _) (Nat.lt_succ_diag_r _) S)|].
  assert (forall d o ps, MeasurableModel.depth o <= d -> spread is_unity o ps -> map fst ps = numbers_of o) as X.
  { clear. induction d as [|d IH]; intros o ps D S; [destruct o; cbn [MeasurableModel.depth] in D; lia|].
    destruct S as [o ns u M|k items pss N Cs H].
    - rewrite map_map. cbn [fst]. rewrite map_id. symmetry. exact (measured_numbers is_unity _ o ns u (le_n _) M).
    - cbn [numbers_of]. rewrite concat_map. f_equal.
      assert (forall o, In o items -> MeasurableModel.depth o <= d) as Q by (intros o I; assert (K := depth_in k o _ I); lia).
      clear - H Q IH. induction H as [|o p l r M HH IHH]; [reflexivity|]. cbn [map]. f_equal.
      + apply IH; auto. apply Q. now left.
      + apply IHH. intros; apply Q; now right. }
  exact (X _ o ps (le_n _) S).
Qed.
Print Assumptions C323_distributed.

(** If the object is measurable with one unit, the two ways of measuring agree. *)
Theorem C323_agrees : forall is_unity show args ns u, measured is_unity (OSeq KTuple args) ns u ->
  measure is_unity show args = Ok (map ONum ns, OStr u)
  /\ parse_distributed is_unity show (S (MeasurableModel.depth (OSeq KTuple args))) (OSeq KTuple args)
     = Ok (Some (map (fun n => (ONum n, OStr u)) ns)).
Proof.
  intros is_unity show args ns u M. split; [now apply measure_measured|].
  rewrite (spread_depth is_unity show _ _ _ _ (le_n _) (Nat.lt_succ_diag_r _) (spread_one _ _ _ _ M)). now rewrite map_map.
Qed.
Print Assumptions C323_agrees.

(** Nothing has no values, and a flat list must not have two units. *)
Theorem C323_errors : forall is_unity show fuel,
  (forall o r, wraps o r -> r = ONone \/ r = OStr [] \/ (exists k, r = OSeq k []) ->
     parse_distributed is_unity show (S fuel) o = Err UnmeasurableError)
  /\ (forall k items, Forall (fun o => ~ container o) items -> 1 < length (filter is_str items) ->
     parse_distributed is_unity show (S fuel) (OSeq k items) = Err MeasuringTypeError).
Proof.
  intros is_unity show fuel. split.
  - intros o r W. induction W as [r|k o r W IH].
    + intros [->|[->|(k & ->)]]; reflexivity.
    + intros H. rewrite parse_single. now apply IH.
  - intros k items F N. apply parse_two_units; [assumption|assumption|lia].
Qed.
Print Assumptions C323_errors.

(** A text of one character is a unit without numbers, which is an error. *)
Theorem C323_letter : forall is_unity show fuel c b, is_unity (OStr [c]) = Ok b ->
  parse_distributed is_unity show (S fuel) (OStr [c]) = Err TypeError.
Proof. intros is_unity show fuel c b H. cbn. unfold ensure_unit. cbn. rewrite H. destruct b; reflexivity. Qed.
Print Assumptions C323_letter.

(** Different units in one object, which measuring rejects. *)
Example C323_case :
  let o := OSeq KTuple [OSeq KList [ONum 1; ONum 2; OStr (lit "m")]; OSeq KList [OSeq KTuple [ONum 3; ONum 4]; OStr (lit "km")]] in
  let unity := fun o => Ok (match o with OStr s => str_eqb s (lit "1") | _ => false end) in
  spread unity o [(1, lit "m"); (2, lit "m"); (3, lit "km"); (4, lit "km")]%Z
  /\ parse_distributed unity (fun _ => []) 9 o
     = Ok (Some [(ONum 1, OStr (lit "m")); (ONum 2, OStr (lit "m")); (ONum 3, OStr (lit "km")); (ONum 4, OStr (lit "km"))])
  /\ parse_measurable unity (fun _ => []) 9 o = Err MeasuringTypeError.
Proof.
  cbv zeta. split; [|split; vm_compute; reflexivity].
  apply (spread_nested _ KTuple _ [[(1, lit "m"); (2, lit "m")]; [(3, lit "km"); (4, lit "km")]]%Z).
  - discriminate.
  - repeat constructor; red; eauto.
  - constructor; [|constructor; [|constructor]].
    + apply (spread_one _ _ [1; 2]%Z (lit "m")). apply (numbers_and_unit _ KList [1; 2]%Z (lit "m")); [discriminate|]. right. split; reflexivity.
    + apply (spread_one _ _ [3; 4]%Z (lit "km")). apply (pair_with_unit _ KList KTuple [3; 4]%Z (lit "km")); [discriminate|]. right. split; reflexivity.
Qed.
