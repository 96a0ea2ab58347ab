(** Proofs about measurements and quantities. *)

From Coq Require Import String Ascii List Bool ZArith QArith Qcanon Lia.
From Verif Require Import Py PyFacts SymbolicModel SymbolicSpec SymbolicTermProofs SymbolicReduceProofs SymbolicExprProofs
  IterablesModel IterablesProofs AliasedModel MetricTables MetricModel MetadataModel MeasurableModel MeasurableSpec.
Import ListNotations.
Open Scope list_scope.
Open Scope nat_scope.
Open Scope py_scope.

(** * Measuring *)

Section Measuring.
Variable is_unity : obj -> res bool.
Variable show : obj -> str.
Notation measured := (measured is_unity).
Notation parse := (parse_measurable is_unity show).

Lemma strip_single k x : strip_seq (OSeq k [x]) = strip_seq x. Proof. reflexivity. Qed.
Lemma unwrap_strip o : unwrap o = strip_seq o. Proof. reflexivity. Qed.
Lemma parse_single fuel k x : parse fuel (OSeq k [x]) = parse fuel x.
Proof. destruct fuel; [reflexivity|]. cbn [parse_measurable]. now rewrite !unwrap_strip, strip_single. Qed.

Lemma strip_long k a b l : strip_seq (OSeq k (a :: b :: l)) = OSeq k (a :: b :: l).
Proof. reflexivity. Qed.

Lemma nums_num ns : forallb is_num (map ONum ns) = true.
Proof. induction ns; auto. Qed.
Lemma nums_str ns : filter is_str (map ONum ns) = [].
Proof. induction ns; auto. Qed.
Lemma existsb_str ns u : existsb is_str (map ONum ns ++ [OStr u]) = true.
Proof. induction ns; auto. Qed.
Lemma filter_one ns u : filter is_str (map ONum ns ++ [OStr u]) = [OStr u].
Proof. rewrite filter_app, nums_str. reflexivity. Qed.

Lemma whole_filter items : Forall container items -> filter is_str items = [] /\ forallb is_whole items = true.
Proof. induction 1 as [|x l [k [m ->]] H [IH1 IH2]]; auto. Qed.
Lemma whole_not_num items : items <> [] -> Forall container items -> forallb is_num items = false.
Proof. intros N H. destruct H as [|x l [k [m ->]] H]; [congruence|reflexivity]. Qed.

Lemma mapM_out {A B} (f : A -> res B) l r : Forall2 (fun x y => f x = Ok y) l r -> mapM f l = Ok r.
Proof. induction 1 as [|x y l r H _ IH]; auto. cbn [mapM]. rewrite H. cbn [bind]. rewrite IH. reflexivity. Qed.

Definition out (ns : list Z) (u : str) : option (list obj) := Some (map ONum ns ++ [OStr u]).
Definition last_of (p : option (list obj)) : res obj :=
  match p with
  | Some l => match rev l with u :: _ => Ok u | [] => Err IndexError end
  | None => Err TypeError end.
Definition but_last (p : option (list obj)) : list obj := match p with Some l => removelast l | None => [] end.

Lemma removelast_last {A} (l : list A) x : removelast (l ++ [x]) = l.
Proof. apply removelast_app_one || idtac. induction l as [|a l IH]; auto. simpl. rewrite IH. destruct l; auto. Qed.
Lemma out_last ns u : last_of (out ns u) = Ok (OStr u).
Proof. unfold out, last_of. now rewrite rev_app_distr. Qed.
Lemma out_but ns u : but_last (out ns u) = map ONum ns.
Proof. unfold out, but_last. apply removelast_last. Qed.

Lemma depth_in k x l : In x l -> MeasurableModel.depth x < MeasurableModel.depth (OSeq k l).
Proof.
  intro I. cbn [MeasurableModel.depth]. apply Nat.lt_succ_r. induction l as [|y l IH]; [destruct I|].
  cbn [map fold_right]. destruct I as [->|I]; [apply Nat.le_max_l|].
  etransitivity; [now apply IH|apply Nat.le_max_r].
Qed.

(** One step on several containers. *)
Lemma parse_nested fuel k a b l (ps : list (list Z * str)) :
  Forall container (a :: b :: l) ->
  Forall2 (fun o p => parse fuel o = Ok (out (fst p) (snd p))) (a :: b :: l) ps ->
  parse (S fuel) (OSeq k (a :: b :: l)) =
  match ps with
  | [] => Err IndexError
  | p0 :: _ => if forallb (fun p => str_eqb (snd p) (snd p0)) ps then Ok (out (concat (map fst ps)) (snd p0))
               else Err MeasuringTypeError
  end.
Proof.
  intros Cs H. cbn [parse_measurable]. rewrite unwrap_strip, strip_long. cbn [missing is_num iterate].
  destruct (whole_filter _ Cs) as [-> ->]. rewrite whole_not_num by (auto; discriminate). cbn [length Nat.ltb Nat.leb].
  rewrite (mapM_out _ _ (map (fun p => out (fst p) (snd p)) ps)).
  2: { clear Cs. induction H; constructor; auto. }
  cbn [bind].
  change (fun p : option (list obj) => match p with
            | Some l0 => match rev l0 with [] => Err IndexError | u :: _ => Ok u end
            | None => Err TypeError end) with last_of.
  rewrite (mapM_out last_of _ (map (fun p : list Z * str => OStr (snd p)) ps)).
  2: { clear. induction ps; constructor; auto. apply out_last. }
  cbn [bind]. destruct ps as [|p0 ps]; [inversion H|]. cbn [map].
  change (OStr (snd p0) :: map (fun p : list Z * str => OStr (snd p)) ps)
    with (map (fun p : list Z * str => OStr (snd p)) (p0 :: ps)).
  set (qs := p0 :: ps).
  assert (existsb (fun u => negb (match u, OStr (snd p0) with OStr a0, OStr b0 => str_eqb a0 b0 | _, _ => false end))
            (map (fun p : list Z * str => OStr (snd p)) qs)
          = negb (forallb (fun p => str_eqb (snd p) (snd p0)) qs)) as ->.
  { clear. induction qs as [|q qs IH]; auto. cbn [map existsb forallb]. rewrite IH, negb_andb. reflexivity. }
  destruct (forallb (fun p => str_eqb (snd p) (snd p0)) qs); cbn [negb]; auto.
  change (fst p0 :: map fst ps) with (map fst qs).
  change (out (fst p0) (snd p0) :: map (fun p : list Z * str => out (fst p) (snd p)) ps)
    with (map (fun p : list Z * str => out (fst p) (snd p)) qs).
  change (fun p : option (list obj) => match p with Some l0 => removelast l0 | None => [] end) with but_last.
  assert (flat_map but_last (map (fun p : list Z * str => out (fst p) (snd p)) qs) = map ONum (concat (map fst qs))) as ->.
  { clear. rewrite concat_map, map_map. induction qs as [|q qs IH]; [reflexivity|]. cbn [map flat_map concat].
    rewrite IH. f_equal. apply out_but. }
  reflexivity.
Qed.

Lemma ensure_text ns u t : unit_text is_unity u t -> ensure_unit is_unity show (map ONum ns ++ [OStr u]) = Ok t.
Proof.
  intro U. unfold ensure_unit. rewrite last_last, existsb_str. destruct U as [[-> ->]|[-> ->]]; reflexivity.
Qed.

Theorem parse_measured d : forall fuel o ns u, MeasurableModel.depth o <= d -> MeasurableModel.depth o < fuel ->
  measured o ns u -> parse fuel o = Ok (out ns u).
Proof.
  induction d as [|d IH]; intros fuel o ns u D L M.
  { destruct o; cbn [MeasurableModel.depth] in D; lia. }
  destruct fuel as [|fuel]; [lia|]. destruct M as [n|k ns N|k ns u t N U|k k' ns u t N U|k items nss u N Cs H].
  - reflexivity.
  - destruct ns as [|a [|b ns]]; [congruence|reflexivity|]. cbn [parse_measurable map].
    rewrite unwrap_strip, strip_long. cbn [missing is_num iterate].
    change (ONum a :: ONum b :: map ONum ns) with (map ONum (a :: b :: ns)).
    rewrite nums_str, nums_num. reflexivity.
  - destruct ns as [|a ns]; [congruence|].
    assert (strip_seq (OSeq k (map ONum (a :: ns) ++ [OStr u])) = OSeq k (map ONum (a :: ns) ++ [OStr u])) as E
      by (destruct ns; reflexivity).
    cbn [parse_measurable]. rewrite unwrap_strip, E. cbn [is_num iterate].
    change (missing (OSeq k (map ONum (a :: ns) ++ [OStr u]))) with false. cbn iota.
    rewrite filter_one. cbn [length Nat.ltb Nat.leb].
    assert (forallb is_num (map ONum (a :: ns) ++ [OStr u]) = false) as ->
      by (rewrite forallb_app, nums_num; reflexivity).
    assert (forallb is_whole (map ONum (a :: ns) ++ [OStr u]) = false) as -> by reflexivity.
    rewrite (ensure_text _ _ _ U). cbn [bind]. rewrite removelast_last, nums_num. reflexivity.
  - cbn [parse_measurable]. rewrite unwrap_strip, strip_long. cbn [missing is_num iterate filter is_str length Nat.ltb Nat.leb
      forallb is_whole andb removelast].
    assert (ensure_unit is_unity show [OSeq k' (map ONum ns); OStr u] = Ok t) as ->
      by (destruct U as [[E ->]|[E ->]]; unfold ensure_unit; cbn; now rewrite E).
    reflexivity.
  - destruct H as [|a n0 l nss H0 H]; [congruence|]. destruct H as [|b n1 l nss H1 H].
    + rewrite parse_single. cbn [concat]. rewrite app_nil_r.
      assert (K := depth_in k a [a] (or_introl eq_refl)). apply IH; auto; lia.
    + rewrite (parse_nested fuel k a b l (map (fun ns => (ns, u)) (n0 :: n1 :: nss))); auto.
      * cbn [map]. change ((n0, u) :: (n1, u) :: map (fun ns => (ns, u)) nss) with (map (fun ns : list Z => (ns, u)) (n0 :: n1 :: nss)).
        assert (forallb (fun p => str_eqb (snd p) (snd (n0, u))) (map (fun ns : list Z => (ns, u)) (n0 :: n1 :: nss)) = true) as ->.
        { clear. apply forallb_forall. intros p I. apply in_map_iff in I as [x [<- _]]. apply str_eqb_refl. }
        rewrite map_map. cbn [fst snd]. now rewrite map_id.
      * assert (forall o, In o (a :: b :: l) -> MeasurableModel.depth o <= d /\ MeasurableModel.depth o < fuel) as Q.
        { intros o I. assert (K := depth_in k o _ I). lia. }
        assert (Forall2 (fun o ns => measured o ns u) (a :: b :: l) (n0 :: n1 :: nss)) as HH by (constructor; auto).
        clear - HH Q IH. induction HH as [|o ns l' r M HH IHH]; cbn [map]; constructor.
        -- cbn [fst snd]. destruct (Q o (or_introl eq_refl)). apply IH; auto.
        -- apply IHH. intros; apply Q; now right.
Qed.

Theorem measure_measured args ns u : measured (OSeq KTuple args) ns u ->
  measure is_unity show args = Ok (map ONum ns, OStr u).
Proof.
  intro M. unfold measure.
  assert (args <> []) as N.
  { intros ->. inversion M; subst.
    - destruct ns; [congruence|discriminate].
    - destruct ns; discriminate.
    - congruence. }
  destruct args as [|a args]; [congruence|].
  rewrite (parse_measured _ _ _ _ _ (le_n _) (Nat.lt_succ_diag_r _) M). cbn [bind]. unfold out.
  rewrite rev_app_distr. cbn [rev app]. now rewrite removelast_last.
Qed.

(** The numbers are all the numbers of the object. *)
Lemma numbers_map ns : concat (map numbers_of (map ONum ns)) = ns.
Proof. induction ns; simpl; congruence. Qed.
Lemma measured_numbers d : forall o ns u, MeasurableModel.depth o <= d -> measured o ns u -> numbers_of o = ns.
Proof.
  induction d as [|d IH]; intros o ns u D M.
  { destruct o; cbn [MeasurableModel.depth] in D; lia. }
  destruct M as [n|k ns N|k ns u t N U|k k' ns u t N U|k items nss u N Cs H]; cbn [numbers_of].
  - reflexivity.
  - apply numbers_map.
  - rewrite map_app, concat_app, numbers_map. simpl. apply app_nil_r.
  - cbn [map numbers_of concat app]. rewrite numbers_map. apply app_nil_r.
  - f_equal.
    assert (forall o, In o items -> MeasurableModel.depth o <= d) as Q
      by (intros o I; assert (K := depth_in k o _ I); lia).
    clear - H Q IH. induction H as [|o ns l r M HH IHH]; [reflexivity|]. cbn [map]. f_equal.
    + apply (IH _ _ u); auto. apply Q. now left.
    + apply IHH. intros; apply Q; now right.
Qed.

Theorem conflicting_units k items (ps : list (list Z * str)) : Forall container items ->
  Forall2 (fun o p => measured o (fst p) (snd p)) items ps ->
  (exists p q, In p ps /\ In q ps /\ snd p <> snd q) ->
  forall fuel, MeasurableModel.depth (OSeq k items) < fuel -> parse fuel (OSeq k items) = Err MeasuringTypeError.
Proof.
  intros Cs H [p [q [Ip [Iq N]]]] fuel L. destruct fuel as [|fuel]; [lia|].
  destruct H as [|a p0 l ps H0 H]; [destruct Ip|]. destruct H as [|b p1 l ps H1 H].
  { destruct Ip as [<-|[]], Iq as [<-|[]]. congruence. }
  rewrite (parse_nested fuel k a b l (p0 :: p1 :: ps)); auto.
  - destruct (forallb (fun p => str_eqb (snd p) (snd p0)) (p0 :: p1 :: ps)) eqn:E; auto.
    rewrite forallb_forall in E. assert (Ep := E p Ip). assert (Eq := E q Iq).
    destruct (str_eqb_spec (snd p) (snd p0)), (str_eqb_spec (snd q) (snd p0)); congruence.
  - assert (forall o, In o (a :: b :: l) -> MeasurableModel.depth o < fuel) as Q
      by (intros o I; assert (K := depth_in k o _ I); lia).
    assert (Forall2 (fun o p => measured o (fst p) (snd p)) (a :: b :: l) (p0 :: p1 :: ps)) as HH by auto.
    clear - HH Q. induction HH as [|o p l' r M HH IHH]; constructor.
    + apply (parse_measured (MeasurableModel.depth o)); auto. apply Q. now left.
    + apply IHH. intros; apply Q; now right.
Qed.

Theorem two_units k items : Forall (fun o => ~ container o) items -> 1 < length (filter is_str items) ->
  forall fuel, 0 < fuel -> parse fuel (OSeq k items) = Err MeasuringTypeError.
Proof.
  intros Cs N fuel L. destruct fuel as [|fuel]; [lia|]. cbn [parse_measurable].
  assert (strip_seq (OSeq k items) = OSeq k items) as E.
  { destruct items as [|a [|b l]]; auto. simpl in N. destruct (is_str a); simpl in N; lia. }
  rewrite unwrap_strip, E. destruct items as [|a l]; [simpl in N; lia|]. cbn [missing is_num iterate].
  apply Nat.ltb_lt in N. now rewrite N.
Qed.

(** * Measurable objects *)

Lemma ismeasurable_single fuel k x : ismeasurable fuel (OSeq k [x]) = ismeasurable fuel x.
Proof. destruct fuel; [reflexivity|]. cbn [ismeasurable]. now rewrite !unwrap_strip, strip_single. Qed.

Lemma mapM_all {A} (f : A -> res bool) l : (forall x, In x l -> f x = Ok true) ->
  exists bs, mapM f l = Ok bs /\ forallb (fun b => b) bs = true.
Proof.
  intro H. induction l as [|x l IH]; [exists []; auto|]. cbn [mapM]. rewrite H by now left. cbn [bind].
  destruct IH as [bs [-> E]]; [intros; apply H; now right|]. cbn [bind]. exists (true :: bs). auto.
Qed.

Theorem measured_measurable d : forall fuel o ns u, MeasurableModel.depth o <= d -> MeasurableModel.depth o < fuel ->
  measured o ns u -> ismeasurable fuel o = Ok true.
Proof.
  induction d as [|d IH]; intros fuel o ns u D L M.
  { destruct o; cbn [MeasurableModel.depth] in D; lia. }
  destruct fuel as [|fuel]; [lia|]. destruct M as [n|k ns N|k ns u t N U|k k' ns u t N U|k items nss u N Cs H].
  - reflexivity.
  - destruct ns as [|a [|b ns]]; [congruence|reflexivity|]. cbn [ismeasurable map].
    rewrite unwrap_strip, strip_long.
    change (ONum a :: ONum b :: map ONum ns) with (map ONum (a :: b :: ns)).
    now rewrite nums_num.
  - destruct ns as [|a ns]; [congruence|].
    assert (strip_seq (OSeq k (map ONum (a :: ns) ++ [OStr u])) = OSeq k (map ONum (a :: ns) ++ [OStr u])) as E
      by (destruct ns; reflexivity).
    cbn [ismeasurable]. rewrite unwrap_strip, E.
    assert (forallb is_num (map ONum (a :: ns) ++ [OStr u]) = false) as ->
      by (rewrite forallb_app, nums_num; reflexivity).
    rewrite last_last. cbn [is_str andb].
    change (map ONum (a :: ns) ++ [OStr u]) with (ONum a :: (map ONum ns ++ [OStr u])). cbn iota beta.
    change (ONum a :: (map ONum ns ++ [OStr u])) with (map ONum (a :: ns) ++ [OStr u]).
    now rewrite removelast_last, nums_num.
  - cbn [ismeasurable]. rewrite unwrap_strip, strip_long. cbn [forallb is_num andb last is_str].
    now rewrite nums_num.
  - destruct H as [|a n0 l nss H0 H]; [congruence|]. destruct H as [|b n1 l nss H1 H].
    + rewrite ismeasurable_single.
      assert (K := depth_in k a [a] (or_introl eq_refl)). apply (IH _ _ n0 u); auto; lia.
    + cbn [ismeasurable]. rewrite unwrap_strip, strip_long.
      rewrite whole_not_num by (auto; discriminate).
      match goal with |- (if ?c then _ else _) = _ => destruct c; [reflexivity|] end.
      destruct (mapM_all (ismeasurable fuel) (a :: b :: l)) as [bs [-> E]].
      * assert (forall o, In o (a :: b :: l) -> MeasurableModel.depth o <= d /\ MeasurableModel.depth o < fuel) as Q.
        { intros o I. assert (K := depth_in k o _ I). lia. }
        assert (Forall2 (fun o ns => measured o ns u) (a :: b :: l) (n0 :: n1 :: nss)) as HH by (constructor; auto).
        clear - HH Q IH. induction HH as [|o ns l' r M HH IHH]; intros x [].
        -- subst x. destruct (Q o (or_introl eq_refl)). apply (IH _ _ ns u); auto.
        -- apply IHH; auto. intros; apply Q; now right.
      * cbn [bind]. now rewrite E.
Qed.
End Measuring.

Lemma measure_conflict is_unity show args ps : args <> [] -> Forall container args ->
  Forall2 (fun o p => measured is_unity o (fst p) (snd p)) args ps ->
  (exists p q, In p ps /\ In q ps /\ snd p <> snd q) ->
  measure is_unity show args = Err MeasuringTypeError.
Proof.
  intros N Cs H E. unfold measure. destruct args as [|a args]; [congruence|].
  rewrite (conflicting_units is_unity show KTuple _ ps Cs H E) by lia. reflexivity.
Qed.
Lemma measure_two_units is_unity show args :
  Forall (fun o => ~ container o) args -> 1 < length (filter is_str args) ->
  measure is_unity show args = Err MeasuringTypeError.
Proof.
  intros Cs N. unfold measure. destruct args as [|a args]; [simpl in N; lia|].
  rewrite (two_units is_unity show KTuple _ Cs N) by lia. reflexivity.
Qed.

(** * Indexing *)

Lemma py_index_in {A} (l : list A) j : (0 <= j < Z.of_nat (length l))%Z ->
  exists v, nth_error l (Z.to_nat j) = Some v /\ py_index l j = Ok v.
Proof.
  intro H. destruct (nth_error l (Z.to_nat j)) as [v|] eqn:E.
  - exists v. split; auto. unfold py_index. destruct (Z.ltb_spec j 0); [lia|].
    destruct (Z.leb_spec 0 j); [|lia]. destruct (Z.ltb_spec j (Z.of_nat (length l))); [|lia]. cbn [andb]. now rewrite E.
  - apply nth_error_None in E. lia.
Qed.
Lemma getitem_index (A : Type) (data : list A) unit i : let n := Z.of_nat (length data) in
  ((0 <= i < n)%Z -> exists v, nth_error data (Z.to_nat i) = Some v /\ measurement_getitem data unit i = Ok [(v, unit)])
  /\ ((- n <= i < 0)%Z -> exists v, nth_error data (Z.to_nat (n + i)) = Some v
        /\ measurement_getitem data unit i = Ok [(v, unit)])
  /\ ((n <= i)%Z -> measurement_getitem data unit i = Err IndexError).
Proof.
  intro n. unfold measurement_getitem. fold n. split; [|split]; intro H.
  - destruct (Z.ltb_spec i 0); [lia|]. destruct (py_index_in data i H) as [v [E K]]. exists v. rewrite K. auto.
  - destruct (Z.ltb_spec i 0); [|lia]. destruct (py_index_in data (i + n)%Z) as [v [E K]]; [fold n; lia|].
    exists v. rewrite K. split; auto. now rewrite Z.add_comm.
  - destruct (Z.ltb_spec i 0); [lia|]. unfold py_index. fold n. destruct (Z.ltb_spec i 0); [lia|].
    destruct (Z.ltb_spec i n); [lia|]. rewrite andb_false_r. reflexivity.
Qed.
Lemma getitem_wraps (A : Type) (data : list A) unit v :
  measurement_getitem (data ++ [v]) unit (- Z.of_nat (length (data ++ [v])) - 1) = Ok [(v, unit)].
Proof.
  unfold measurement_getitem. set (n := Z.of_nat (length (data ++ [v]))).
  destruct (Z.ltb_spec (- n - 1) 0); [|lia].
  assert (0 < n)%Z by (unfold n; rewrite app_length; simpl; lia).
  unfold py_index. fold n. destruct (Z.ltb_spec (- n - 1 + n) 0); [|lia].
  replace (- n - 1 + n + n)%Z with (n - 1)%Z by lia.
  destruct (Z.leb_spec 0 (n - 1)); [|lia]. destruct (Z.ltb_spec (n - 1) n); [|lia]. cbn [andb].
  assert (Z.to_nat (n - 1) = length data) as -> by (unfold n; rewrite app_length; simpl; lia).
  rewrite nth_error_app2, Nat.sub_diag by auto. reflexivity.
Qed.

Lemma measured_example :
  let l := OSeq KList in
  measured module_unity (OSeq KTuple [l [ONum 1; ONum 2; OStr (lit "m")]; l [l [ONum 3; ONum 4]; OStr (lit "m")]]) [1; 2; 3; 4]%Z (lit "m")
  /\ measured module_unity (l [ONum 5; OStr (lit "km")])  [5]%Z (lit "km").
Proof.
  cbn zeta.
  assert (unit_text module_unity (lit "m") (lit "m")) as U by (right; split; [vm_compute; reflexivity|reflexivity]).
  split.
  - apply (nested module_unity KTuple _ [[1; 2]; [3; 4]]%Z); [discriminate| |].
    + repeat constructor; repeat eexists.
    + constructor; [|constructor; [|constructor]].
      * apply (numbers_and_unit module_unity KList [1; 2]%Z (lit "m")); [discriminate|exact U].
      * apply (pair_with_unit module_unity KList KList [3; 4]%Z (lit "m")); [discriminate|exact U].
  - apply (numbers_and_unit module_unity KList [5]%Z (lit "km")); [discriminate|].
    right; split; [vm_compute; reflexivity|reflexivity].
Qed.

Lemma alone_strip o : alone o -> exists p, strip_seq o = p /\ (p = ONone \/ exists s, p = OStr s).
Proof. induction 1; cbn [strip_seq]; eauto. Qed.
Lemma alone_not_measurable fuel o : alone o -> fuel <> 0 -> ismeasurable fuel o = Ok false.
Proof.
  intros A N. destruct fuel as [|fuel]; [congruence|]. cbn [ismeasurable]. rewrite unwrap_strip.
  destruct (alone_strip o A) as (p & -> & [-> |(s & ->)]); reflexivity.
Qed.
Lemma unity_module s x t : expression_of_str F64 false s = Ok x -> s <> lit "1" ->
  (unit_text module_unity s t <->
   (m_unit_eqb mks_first [mkTerm 1 (lit "1") 1] x = Ok true /\ t = lit "1") \/ (m_unit_eqb mks_first [mkTerm 1 (lit "1") 1] x = Ok false /\ t = s)).
Proof.
  intros E N. unfold unit_text, module_unity. rewrite str_eqb_neq, E by assumption.
  assert (expression_of_str F64 false (lit "1") = Ok [mkTerm 1 (lit "1") 1]) as -> by (vm_compute; reflexivity). reflexivity.
Qed.
Lemma measure_unit ns s x b : ns <> [] -> expression_of_str F64 false s = Ok x -> m_unit_eqb mks_first [mkTerm 1 (lit "1") 1] x = Ok b ->
  m_measure (map ONum ns ++ [OStr s]) = Ok (map ONum ns, OStr (if b then lit "1" else s)).
Proof.
  intros N E U. apply measure_measured. apply numbers_and_unit; [exact N|]. destruct (list_eq_dec Ascii.ascii_dec s (lit "1")) as [->|D].
  - left. split; [reflexivity|]. now destruct b.
  - apply (unity_module s x _ E D). destruct b; auto.
Qed.
