(** Proofs about distributed units. *)

From Coq Require Import String Ascii List Bool ZArith Lia.
From Verif Require Import Py PyFacts IterablesModel MeasurableModel MeasurableSpec MeasurableProofs DistributeModel DistributeSpec.
Import ListNotations.
Open Scope list_scope.
Open Scope nat_scope.

Section Distributing.
Variable is_unity : obj -> res bool.
Variable show : obj -> str.
Notation measured := (measured is_unity).
Notation spread := (spread is_unity).
Notation parse := (parse_distributed is_unity show).

Lemma parse_single fuel k x : parse fuel (OSeq k [x]) = parse fuel x.
Proof. destruct fuel; [reflexivity|]. cbn [parse_distributed]. now rewrite !unwrap_strip, strip_single. Qed.

Lemma distribute_nums k ns u : distribute (OSeq k (map ONum ns)) (OStr u) = Ok (map pair_of (map (fun n => (n, u)) ns)).
Proof. simpl. now rewrite !map_map. Qed.

Lemma parse_nested fuel k a b l pss :
  Forall container (a :: b :: l) ->
  Forall2 (fun o ps => parse fuel o = Ok (Some (map pair_of ps))) (a :: b :: l) pss ->
  parse (S fuel) (OSeq k (a :: b :: l)) = Ok (Some (map pair_of (concat pss))).
Proof.
  intros Cs H. cbn [parse_distributed]. rewrite unwrap_strip, strip_long. cbn [missing is_num MeasurableModel.iterate].
  destruct (whole_filter _ Cs) as [-> ->]. rewrite whole_not_num by (auto; discriminate). cbn [length Nat.ltb Nat.leb].
  rewrite (mapM_out _ _ (map (map pair_of) pss)).
  - cbn [bind]. now rewrite concat_map.
  - clear Cs. induction H as [|o ps l' r E H IH]; cbn [map]; constructor; [now rewrite E|exact IH].
Qed.

Lemma spread_depth d : forall fuel o ps, MeasurableModel.depth o <= d -> MeasurableModel.depth o < fuel ->
  spread o ps -> parse fuel o = Ok (Some (map pair_of ps)).
Proof.
  induction d as [|d IH]; intros fuel o ps D L M.
  { destruct o; cbn [MeasurableModel.depth] in D; lia. }
  assert (forall k items pss, MeasurableModel.depth (OSeq k items) <= S d -> MeasurableModel.depth (OSeq k items) < fuel ->
    items <> [] -> Forall container items -> Forall2 spread items pss ->
    parse fuel (OSeq k items) = Ok (Some (map pair_of (concat pss)))) as Nested.
  { clear o ps D L M. intros k items pss D L N Cs H. destruct H as [|a n0 l nss H0 H]; [congruence|]. destruct H as [|b n1 l nss H1 H].
    - rewrite parse_single. cbn [concat]. rewrite app_nil_r.
      assert (K := depth_in k a [a] (or_introl eq_refl)). apply IH; auto; lia.
    - destruct fuel as [|fuel]; [lia|]. apply parse_nested; [exact Cs|].
      assert (forall o, In o (a :: b :: l) -> MeasurableModel.depth o <= d /\ MeasurableModel.depth o < fuel) as Q.
      { intros o I. assert (K := depth_in k o _ I). lia. }
      assert (Forall2 spread (a :: b :: l) (n0 :: n1 :: nss)) as HH by (constructor; auto).
      clear - HH Q IH. induction HH as [|o ns l' r M HH IHH]; constructor.
      + destruct (Q o (or_introl eq_refl)). apply IH; auto.
      + apply IHH. intros; apply Q; now right. }
  destruct M as [o ns u M|k items pss N Cs H]; [|now apply Nested].
  destruct M as [n|k ns N|k ns u t N U|k k' ns u t N U|k items nss u N Cs H].
  - destruct fuel; [lia|]. reflexivity.
  - destruct fuel as [|fuel]; [lia|]. destruct ns as [|a [|b ns]]; [congruence|reflexivity|]. cbn [parse_distributed map].
    rewrite unwrap_strip, strip_long. cbn [missing is_num MeasurableModel.iterate].
    change (ONum a :: ONum b :: map ONum ns) with (map ONum (a :: b :: ns)).
    rewrite nums_str, nums_num. cbn [length Nat.ltb Nat.leb]. rewrite distribute_nums. reflexivity.
  - destruct fuel as [|fuel]; [lia|]. destruct ns as [|a ns]; [congruence|].
    assert (strip_seq (OSeq k (map ONum (a :: ns) ++ [OStr u])) = OSeq k (map ONum (a :: ns) ++ [OStr u])) as E
      by (destruct ns; reflexivity).
    cbn [parse_distributed]. rewrite unwrap_strip, E. cbn [is_num MeasurableModel.iterate].
    change (missing (OSeq k (map ONum (a :: ns) ++ [OStr u]))) with false. cbn iota.
    rewrite filter_one. cbn [length Nat.ltb Nat.leb].
    assert (forallb is_num (map ONum (a :: ns) ++ [OStr u]) = false) as ->
      by (rewrite forallb_app, nums_num; reflexivity).
    assert (forallb is_whole (map ONum (a :: ns) ++ [OStr u]) = false) as -> by reflexivity.
    rewrite (ensure_text is_unity show _ _ _ U). cbn [bind but_last]. rewrite removelast_last, nums_num, distribute_nums. reflexivity.
  - destruct fuel as [|fuel]; [lia|]. cbn [parse_distributed]. rewrite unwrap_strip, strip_long.
    cbn [missing is_num MeasurableModel.iterate filter is_str length Nat.ltb Nat.leb forallb is_whole andb removelast].
    assert (ensure_unit is_unity show [OSeq k' (map ONum ns); OStr u] = Ok t) as ->
      by (destruct U as [[E ->]|[E ->]]; unfold ensure_unit; cbn; now rewrite E).
    cbn [bind]. rewrite distribute_nums. reflexivity.
  - rewrite concat_map. apply Nested; auto. clear - H. induction H as [|o ns l r M H IH]; cbn [map]; constructor; [|exact IH].
    now constructor.
Qed.

Lemma parse_two_units k items : Forall (fun o => ~ container o) items -> 1 < length (filter is_str items) ->
  forall fuel, 0 < fuel -> parse fuel (OSeq k items) = Err MeasuringTypeError.
Proof.
  intros Cs N fuel L. destruct fuel as [|fuel]; [lia|]. cbn [parse_distributed].
  assert (strip_seq (OSeq k items) = OSeq k items) as E.
  { destruct items as [|a [|b l]]; auto. simpl in N. destruct (is_str a); simpl in N; lia. }
  rewrite unwrap_strip, E. destruct items as [|a l]; [simpl in N; lia|]. cbn [missing is_num MeasurableModel.iterate].
  apply Nat.ltb_lt in N. now rewrite N.
Qed.
End Distributing.
