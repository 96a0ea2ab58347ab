(** Lemmas about metric units. *)

From Coq Require Import String Ascii List Bool ZArith QArith Qcanon Relations Lia.
From Verif Require Import Py PyFacts PyDict SymbolicModel AliasedModel AliasedSpec AliasedProofs.
From Verif Require Import IterablesModel IterablesMoreProofs MetricTables MetricModel MetricSpec.
Import ListNotations.
Open Scope list_scope.
Open Scope nat_scope.
Open Scope py_scope.

(** * Equality of named units *)

Lemma prefix_eqb_spec p q : reflect (p = q) (prefix_eqb p q).
Proof.
  destruct p as [a b c], q as [a' b' c']. unfold prefix_eqb. simpl.
  destruct (str_eqb_spec a a'); [subst|constructor; congruence].
  destruct b as [b|], b' as [b'|]; simpl; try (constructor; congruence).
  - destruct (str_eqb_spec b b'); [subst|constructor; congruence].
    destruct (Qc_eqb_spec c c'); constructor; congruence.
  - destruct (Qc_eqb_spec c c'); constructor; congruence.
Qed.

Lemma base_eqb_spec u v : reflect (u = v) (base_eqb u v).
Proof.
  destruct u as [a b c], v as [a' b' c']. unfold base_eqb. simpl.
  destruct (str_eqb_spec a a'), (str_eqb_spec b b'), (str_eqb_spec c c'); simpl; constructor; congruence.
Qed.

Lemma named_eqb_spec m n : reflect (m = n) (named_eqb m n).
Proof.
  destruct m as [p u], n as [q v]. unfold named_eqb. simpl.
  destruct (prefix_eqb_spec p q), (base_eqb_spec u v); simpl; constructor; congruence.
Qed.

(** * Ratios *)

Lemma ratio_ok u v : n_base u = n_base v -> n_scale v <> 0%Qc -> ratio u v = Ok (n_scale u / n_scale v)%Qc.
Proof.
  intros B N. unfold ratio. destruct (named_eqb_spec v u) as [->|E].
  - f_equal. field. auto.
  - destruct (base_eqb_spec (n_base v) (n_base u)) as [_|H]; [|congruence]. simpl.
    destruct (Qc_eqb_spec (n_scale v) 0); [contradiction|reflexivity].
Qed.

Lemma ratio_inv u v r : ratio u v = Ok r ->
  (u = v /\ r = 1%Qc) \/ (n_base u = n_base v /\ n_scale v <> 0%Qc /\ r = (n_scale u / n_scale v)%Qc).
Proof.
  unfold ratio. destruct (named_eqb_spec v u) as [->|E]; [intro H; injection H as <-; auto|].
  destruct (base_eqb_spec (n_base v) (n_base u)) as [B|B]; [|discriminate]. simpl.
  destruct (Qc_eqb_spec (n_scale v) 0); [discriminate|]. intro H. injection H as <-. right. auto.
Qed.

Lemma ratio_rejects u v : n_base u <> n_base v <-> ratio u v = Err ValueError.
Proof.
  unfold ratio. destruct (named_eqb_spec v u) as [->|E].
  - split; [congruence|discriminate].
  - destruct (base_eqb_spec (n_base v) (n_base u)) as [B|B]; simpl.
    + destruct (Qc_eqb_spec (n_scale v) 0); split; congruence.
    + split; congruence.
Qed.

Lemma ratio_no_fuel u v : ratio u v <> Err OutOfFuel.
Proof.
  unfold ratio. destruct (named_eqb v u); [discriminate|]. destruct (negb _); [discriminate|].
  destruct (Qc_eqb _ _); discriminate.
Qed.

Lemma ratio_defined u v : n_scale v <> 0%Qc -> (exists r, ratio u v = Ok r) \/ ratio u v = Err ValueError.
Proof.
  intro N. destruct (base_eqb_spec (n_base u) (n_base v)) as [B|B].
  - left. eexists. now apply ratio_ok.
  - right. now apply ratio_rejects.
Qed.

(** * The search *)

Section Search.
Variable F : flops.
Variable named : str -> option named_unit.
Variable l : list (edge * weight).
Notation conns := (connect l).
Variable nodes : list str.
Hypothesis Hn : enumerates conns nodes.

Notation search := (search_declared named conns).
Notation simple := (simple_conversion named conns).
Notation resc := (rescale named conns nodes).
Notation rescd := (rescaled named conns nodes).
Notation conv := (convert_strings named conns nodes).
Notation D := (derives named conns).

Lemma truthy_q_some x q : truthy_q x = Some q -> x = Some q /\ q <> 0%Qc.
Proof.
  destruct x as [y|]; simpl; [|discriminate]. destruct (Qc_eqb_spec y 0); [discriminate|].
  intro H. injection H as ->. auto.
Qed.

Lemma truthy_q_nz q : q <> 0%Qc -> truthy_q (Some q) = Some q.
Proof. intro H. simpl. destruct (Qc_eqb_spec q 0); [contradiction|reflexivity]. Qed.

Lemma get_In e w : d_get edge_eqb conns e = Some w <-> In (e, w) conns.
Proof. apply (d_get_iff edge_eqb edge_eqb_spec). apply connect_NoDup. Qed.

Lemma adj_In x v w : In (v, w) (get_adjacencies conns x) <-> In ((x, v), w) conns.
Proof.
  rewrite adjacencies_spec. unfold get_weight. rewrite <- get_In.
  destruct (d_get edge_eqb conns (x, v)); split; congruence.
Qed.

Lemma is_node_endpoint x : is_node conns x = true <-> endpoint conns x.
Proof.
  unfold is_node, endpoint. rewrite existsb_exists. split.
  - intros [[[u v] w] [I H]]. simpl in H. exists u, v, w. split; auto. apply orb_true_iff in H as [H|H]; apply str_eqb_iff in H; auto.
  - intros [u [v [w [I H]]]]. exists ((u, v), w). split; auto. simpl. apply orb_true_iff.
    destruct H as [->| ->]; rewrite str_eqb_refl; auto.
Qed.

Lemma search_inv u0 u1 w : search u0 u1 = Some w ->
  exists x y, In x (aliases_of named u0) /\ In y (aliases_of named u1) /\ In ((x, y), Some w) conns.
Proof.
  unfold search_declared. set (P := (u0, u1) :: list_prod (aliases_of named u0) (aliases_of named u1)).
  assert (forall e, In e P -> In (fst e) (aliases_of named u0) /\ In (snd e) (aliases_of named u1)) as HP.
  { intros e [<-|I]; [split; simpl; now left|]. destruct e as [x y]. apply in_prod_iff in I. auto. }
  clearbody P. induction P as [|e P IH]; [discriminate|]. simpl. destruct (d_get edge_eqb conns e) as [v|] eqn:E.
  - intros ->. apply get_In in E. destruct e as [x y]. destruct (HP (x, y)); [now left|]. exists x, y. auto.
  - intro H. apply IH; auto. intros e' I. apply HP. now right.
Qed.

Lemma alias_derives u x : In x (aliases_of named u) -> endpoint conns x -> D u x 1.
Proof.
  intros [<-|I] E; [apply by_identity|]. destruct (named u) as [n|] eqn:N; [|contradiction].
  apply by_alias with n; auto. destruct I as [<-|[<-|[]]]; auto.
Qed.

Lemma search_derives u0 u1 w : search u0 u1 = Some w -> D u0 u1 w.
Proof.
  intro H. apply search_inv in H as [x [y [X [Y I]]]].
  assert (endpoint conns x) as Ex by (exists x, y, (Some w); auto).
  assert (endpoint conns y) as Ey by (exists x, y, (Some w); auto).
  replace w with (1 * w * / 1)%Qc by (field; discriminate).
  apply by_steps with y; [apply by_steps with x; [now apply alias_derives|now apply by_table]|].
  apply by_inverse; [now apply alias_derives|discriminate].
Qed.

Lemma ratio_derives u v m n r : named u = Some m -> named v = Some n -> ratio m n = Ok r -> r <> 0%Qc -> D u v r.
Proof.
  intros U V R Z. apply ratio_inv in R as [[-> ->]|[B [N ->]]]; [now apply by_unit with n|].
  apply by_prefix; auto. intro E. apply Z. rewrite E. unfold Qcdiv. ring.
Qed.

Lemma simple_derives u0 u1 f : simple u0 u1 = Ok (Some f) -> D u0 u1 f /\ f <> 0%Qc.
Proof.
  unfold simple_conversion. destruct (str_eqb_spec u0 u1) as [->|Nu].
  { intro H. injection H as <-. split; [apply by_identity|discriminate]. }
  destruct (truthy_q (search u0 u1)) as [w|] eqn:S.
  { intro H. injection H as <-. apply truthy_q_some in S as [S Z]. split; auto. now apply search_derives. }
  destruct (named u1) as [n1|] eqn:N1; [|discriminate]. destruct (named u0) as [n0|] eqn:N0; [|discriminate].
  unfold floordiv. destruct (ratio n0 n1) as [r|e] eqn:R.
  - destruct (truthy_q (Some r)) as [q|] eqn:T; [|discriminate]. intro H. injection H as <-.
    apply truthy_q_some in T as [T Z]. injection T as ->. split; auto. now apply ratio_derives with n0 n1.
  - destruct e; discriminate.
Qed.

Lemma rescale_derives u0 u1 f : resc u0 u1 = Ok (Some f) -> D u0 u1 f /\ f <> 0%Qc.
Proof.
  unfold rescale. destruct (named u0) as [n0|] eqn:N0; [|discriminate].
  assert (forall L r, rescale_go named conns n0 u1 L = Ok (Some r) -> r <> 0%Qc -> D u0 u1 r) as G.
  { induction L as [|ux L IH]; intros r; simpl; [discriminate|]. destruct (named ux) as [nx|] eqn:Nx; auto.
    destruct (base_eqb_spec (n_base nx) (n_base n0)) as [B|B]; auto.
    destruct (truthy_q (search ux u1)) as [w|] eqn:S; auto. unfold floordiv.
    destruct (ratio n0 nx) as [k|e] eqn:R; [|discriminate]. simpl. intro H. injection H as <-. intro Z.
    apply truthy_q_some in S as [S _]. apply by_steps with ux; [|now apply search_derives].
    apply ratio_derives with n0 nx; auto. intros ->. apply Z. ring. }
  destruct (rescale_go named conns n0 u1 nodes) as [[r|]|e] eqn:E; [|discriminate|discriminate].
  cbn [bind]. destruct (truthy_q (Some r)) as [q|] eqn:T; [|discriminate]. intro H. injection H as <-.
  apply truthy_q_some in T as [T Z]. injection T as ->. split; auto. now apply (G nodes).
Qed.

Lemma inv_nz q : q <> 0%Qc -> (/ q)%Qc <> 0%Qc.
Proof.
  intros H E. apply H. assert (q * / q = 1)%Qc as K by (apply Qcmult_inv_r; auto).
  rewrite E, Qcmult_0_r in K. discriminate K.
Qed.

Lemma mul_nz a b : a <> 0%Qc -> b <> 0%Qc -> (a * b)%Qc <> 0%Qc.
Proof. intros A B E. apply Qcmult_integral in E as [E|E]; auto. Qed.

Lemma rescaled_derives u0 u1 f : rescd u0 u1 = Ok (Some f) -> D u0 u1 f /\ f <> 0%Qc.
Proof.
  unfold rescaled. destruct (if is_node conns u0 then _ else _) as [[a|]|e] eqn:A; cbn [bind]; try discriminate.
  - intro H. injection H as <-. destruct (is_node conns u0); [discriminate|]. now apply rescale_derives.
  - destruct (if is_node conns u1 then _ else _) as [[b|]|e] eqn:B; cbn [bind]; try discriminate.
    intro H. injection H as <-. destruct (is_node conns u1); [discriminate|].
    apply rescale_derives in B as [B Z]. split; [now apply by_inverse|now apply inv_nz].
Qed.

Lemma checked_in_In u ch : checked_in u ch = true <-> In u ch.
Proof.
  unfold checked_in. rewrite existsb_exists. split.
  - intros [x [I E]]. apply str_eqb_iff in E. now subst.
  - intro I. exists u. split; auto. apply str_eqb_refl.
Qed.

(** The inner loop of [convert_strings]. *)
Definition loop (f : nat) (u1 : str) := fix loop (adj : list (str * weight)) (checked : list str)
  : res (option Qc) * list str :=
  match adj with
  | [] => (Ok None, checked)
  | (u, w) :: adj' =>
      if checked_in u checked then loop adj' checked
      else match conv f checked u u1 with
           | (Err e, ch) => (Err e, ch)
           | (Ok None, ch) => loop adj' ch
           | (Ok (Some v), ch) =>
               match w with
               | Some w => (Ok (truthy_q (Some (w * v)%Qc)), ch)
               | None => (Err TypeError, ch)
               end
           end
  end.

Lemma conv_S f ch u0 u1 : conv (S f) ch u0 u1 =
  match simple u0 u1 with
  | Err e => (Err e, ch ++ [u0])
  | Ok (Some c) => (Ok (Some c), ch ++ [u0])
  | Ok None =>
      match rescd u0 u1 with
      | Err e => (Err e, ch ++ [u0])
      | Ok (Some c) => (Ok (truthy_q (Some c)), ch ++ [u0])
      | Ok None => loop f u1 (get_adjacencies conns u0) (ch ++ [u0])
      end
  end.
Proof. reflexivity. Qed.

Lemma loop_cons f u1 u w adj ch : loop f u1 ((u, w) :: adj) ch =
  if checked_in u ch then loop f u1 adj ch
  else match conv f ch u u1 with
       | (Err e, ch) => (Err e, ch)
       | (Ok None, ch) => loop f u1 adj ch
       | (Ok (Some v), ch) =>
           match w with
           | Some w => (Ok (truthy_q (Some (w * v)%Qc)), ch)
           | None => (Err TypeError, ch)
           end
       end.
Proof. reflexivity. Qed.

Lemma conv_derives f : forall ch u0 u1 q ch', conv f ch u0 u1 = (Ok (Some q), ch') -> D u0 u1 q /\ q <> 0%Qc.
Proof.
  induction f as [|f IH]; intros ch u0 u1 q ch'; [discriminate|]. rewrite conv_S.
  destruct (simple u0 u1) as [[c|]|e] eqn:S; try discriminate.
  { intro H. injection H as <- _. now apply simple_derives. }
  destruct (rescd u0 u1) as [[c|]|e] eqn:R; try discriminate.
  { apply rescaled_derives in R as [R Z]. rewrite truthy_q_nz by auto. intro H. injection H as <- _. auto. }
  assert (forall adj c, incl adj (get_adjacencies conns u0) -> loop f u1 adj c = (Ok (Some q), ch') -> D u0 u1 q /\ q <> 0%Qc) as L.
  { induction adj as [|[u w] adj IHa]; intros c I; [discriminate|]. rewrite loop_cons.
    destruct (checked_in u c); [apply IHa; intros x Hx; apply I; now right|].
    destruct (conv f c u u1) as [[[v|]|e] c2] eqn:E; try discriminate.
    - destruct w as [w|]; [|discriminate]. destruct (truthy_q (Some (w * v)%Qc)) eqn:T; [|discriminate].
      intro H. injection H as -> _. apply truthy_q_some in T as [T Z]. injection T as <-. split; auto.
      apply IH in E as [E _]. apply by_steps with u; auto. apply by_table. apply adj_In. apply I. now left.
    - apply IHa. intros x Hx. apply I. now right. }
  apply L. apply incl_refl.
Qed.

(** ** Termination *)

Definition unchecked (ch : list str) : nat := length (filter (fun x => negb (checked_in x ch)) nodes).

Lemma filter_length_le {A} (f g : A -> bool) L : (forall x, f x = true -> g x = true) ->
  length (filter f L) <= length (filter g L).
Proof.
  intro H. induction L as [|x L IH]; simpl; auto. specialize (H x). destruct (f x).
  - rewrite H by auto. simpl. lia.
  - destruct (g x); simpl; lia.
Qed.

Lemma filter_length_lt {A} (f g : A -> bool) L a : (forall x, f x = true -> g x = true) ->
  In a L -> f a = false -> g a = true -> length (filter f L) < length (filter g L).
Proof.
  intros H I Fa Ga. induction L as [|x L IH]; [contradiction|]. simpl. destruct I as [->|I].
  - rewrite Fa, Ga. simpl. assert (H1 := filter_length_le f g L H). lia.
  - specialize (IH I). assert (Hx := H x). destruct (f x).
    + rewrite Hx by auto. simpl. lia.
    + destruct (g x); simpl; lia.
Qed.

Lemma unchecked_le ch ch' : incl ch ch' -> unchecked ch' <= unchecked ch.
Proof.
  intro I. apply filter_length_le. intros x. rewrite !negb_true_iff. intro H.
  destruct (checked_in x ch) eqn:E; auto. apply checked_in_In in E. apply I in E. apply checked_in_In in E. congruence.
Qed.

Lemma unchecked_lt ch u : In u nodes -> checked_in u ch = false -> unchecked (ch ++ [u]) < unchecked ch.
Proof.
  intros I N. apply filter_length_lt with u; auto.
  - intros x. rewrite !negb_true_iff. intro H. destruct (checked_in x ch) eqn:E; auto.
    apply checked_in_In in E. assert (checked_in x (ch ++ [u]) = true); [|congruence]. apply checked_in_In, in_app_iff. auto.
  - apply negb_false_iff, checked_in_In, in_app_iff. right. now left.
  - now rewrite N.
Qed.

Lemma unchecked_all ch : unchecked ch <= length nodes.
Proof. unfold unchecked. clear. induction nodes as [|x L IH]; simpl; auto. destruct (negb _); simpl; lia. Qed.

Lemma simple_no_fuel u0 u1 : simple u0 u1 <> Err OutOfFuel.
Proof.
  unfold simple_conversion. destruct (str_eqb u0 u1); [discriminate|]. destruct (truthy_q _); [discriminate|].
  destruct (named u1) as [n1|]; [|discriminate]. destruct (named u0) as [n0|]; [|discriminate]. unfold floordiv.
  assert (H := ratio_no_fuel n0 n1). destruct (ratio n0 n1) as [r|e]; [discriminate|]. destruct e; congruence.
Qed.

Lemma rescale_no_fuel u0 u1 : resc u0 u1 <> Err OutOfFuel.
Proof.
  unfold rescale. destruct (named u0) as [n0|]; [|discriminate].
  assert (forall L, rescale_go named conns n0 u1 L <> Err OutOfFuel) as G.
  { induction L as [|ux L IH]; simpl; [discriminate|]. destruct (named ux) as [nx|]; auto.
    destruct (base_eqb _ _); auto. destruct (truthy_q _); auto. unfold floordiv.
    assert (H := ratio_no_fuel n0 nx). destruct (ratio n0 nx); simpl; congruence. }
  specialize (G nodes). destruct (rescale_go named conns n0 u1 nodes); simpl; congruence.
Qed.

Lemma rescaled_no_fuel u0 u1 : rescd u0 u1 <> Err OutOfFuel.
Proof.
  unfold rescaled. assert (H0 := rescale_no_fuel u0 u1). assert (H1 := rescale_no_fuel u1 u0).
  destruct (is_node conns u0); [|destruct (resc u0 u1) as [[a|]|e]; simpl; try congruence];
  (destruct (is_node conns u1); simpl; try discriminate; destruct (resc u1 u0) as [[b|]|e]; simpl; congruence).
Qed.

Lemma adj_node u v w : In (v, w) (get_adjacencies conns u) -> In v nodes.
Proof. intro I. apply adj_In in I. apply Hn. exists u, v, w. auto. Qed.

(** The search halts, adds to [checked], and adds every unit once. *)
Lemma conv_halts f : forall ch u0 u1, unchecked (ch ++ [u0]) < f ->
  fst (conv f ch u0 u1) <> Err OutOfFuel
  /\ exists new, snd (conv f ch u0 u1) = ch ++ u0 :: new
     /\ NoDup new /\ (forall x, In x new -> In x nodes /\ ~ In x (ch ++ [u0])).
Proof.
  induction f as [|f IH]; intros ch u0 u1 M; [lia|]. rewrite conv_S.
  assert (exists new, ch ++ [u0] = ch ++ u0 :: new /\ NoDup new
          /\ (forall x, In x new -> In x nodes /\ ~ In x (ch ++ [u0]))) as Base.
  { exists []. split; auto. split; [constructor|intros x []]. }
  destruct (simple u0 u1) as [[c|]|e] eqn:S; cbn [fst snd].
  { split; [discriminate|exact Base]. }
  2:{ split; [|exact Base]. intro H. injection H as ->. now apply simple_no_fuel in S. }
  destruct (rescd u0 u1) as [[c|]|e] eqn:R; cbn [fst snd].
  { split; [discriminate|exact Base]. }
  2:{ split; [|exact Base]. intro H. injection H as ->. now apply rescaled_no_fuel in R. }
  clear S R Base.
  assert (forall adj c, (forall v w, In (v, w) adj -> In v nodes) -> unchecked c < S f ->
    fst (loop f u1 adj c) <> Err OutOfFuel
    /\ exists new, snd (loop f u1 adj c) = c ++ new /\ NoDup new
       /\ (forall x, In x new -> In x nodes /\ ~ In x c)) as L.
  { induction adj as [|[u w] adj IHa]; intros c A Mc.
    - split; [discriminate|]. exists []. simpl. rewrite app_nil_r. split; auto. split; [constructor|intros x []].
    - rewrite loop_cons. destruct (checked_in u c) eqn:C.
      { apply IHa; auto. intros v w' I. apply (A v w'). now right. }
      assert (In u nodes) as Iu by (apply (A u w); now left).
      assert (unchecked (c ++ [u]) < f) as Mu by (pose proof (unchecked_lt c u Iu C); lia).
      destruct (IH c u u1 Mu) as [H1 [new [H2 [H3 H4]]]].
      assert (NoDup (u :: new)) as Nu.
      { constructor; auto. intro I. apply H4 in I as [_ I]. apply I. apply in_app_iff. right. now left. }
      assert (forall x, In x (u :: new) -> In x nodes /\ ~ In x c) as Xu.
      { intros x [<-|I].
        - split; auto. intro I. apply checked_in_In in I. congruence.
        - apply H4 in I as [I J]. split; auto. intro K. apply J. apply in_app_iff. auto. }
      destruct (conv f c u u1) as [[[v|]|e] c2]; cbn [fst snd] in *; subst c2.
      + split; [destruct w; discriminate|]. exists (u :: new). destruct w; auto.
      + destruct (IHa (c ++ u :: new)) as [K1 [new2 [K2 [K3 K4]]]].
        { intros v w' I. apply (A v w'). now right. }
        { pose proof (unchecked_le c (c ++ u :: new) (incl_appl _ (incl_refl c))). lia. }
        split; auto. exists ((u :: new) ++ new2). rewrite K2, app_assoc. split; auto. split.
        * apply NoDup_app_intro; auto. intros x I J. apply K4 in J as [_ J]. apply J. apply in_app_iff. auto.
        * intros x I. apply in_app_iff in I as [I|I]; auto. apply K4 in I as [I J]. split; auto.
          intro K. apply J. apply in_app_iff. auto.
      + split; [congruence|]. exists (u :: new). auto. }
  destruct (L (get_adjacencies conns u0) (ch ++ [u0])) as [K1 [new [K2 [K3 K4]]]].
  { intros v w. apply adj_node. }
  { lia. }
  split; auto. exists new. rewrite K2, <- app_assoc. auto.
Qed.

Lemma conv_halts_fuel ch u0 u1 : fst (conv (search_fuel nodes) ch u0 u1) <> Err OutOfFuel.
Proof. apply conv_halts. unfold search_fuel. pose proof (unchecked_all (ch ++ [u0])). lia. Qed.

(** ** Completeness *)

Hypothesis Hw : weighted conns.

Lemma conv_none f : forall ch u0 u1 ch', conv f ch u0 u1 = (Ok None, ch') ->
  incl (ch ++ [u0]) ch'
  /\ forall x, In x ch' -> ~ In x ch ->
     simple x u1 = Ok None /\ forall v, linked conns x v -> In v ch'.
Proof.
  induction f as [|f IH]; intros ch u0 u1 ch'; [discriminate|]. rewrite conv_S.
  destruct (simple u0 u1) as [[c|]|e] eqn:S; try discriminate.
  destruct (rescd u0 u1) as [[c|]|e] eqn:R; try discriminate.
  { apply rescaled_derives in R as [_ Z]. rewrite truthy_q_nz by auto. discriminate. }
  assert (forall adj c, (forall v w, In (v, w) adj -> exists q, w = Some q /\ q <> 0%Qc) ->
    loop f u1 adj c = (Ok None, ch') ->
    incl c ch' /\ (forall v w, In (v, w) adj -> In v ch')
    /\ forall x, In x ch' -> ~ In x c -> simple x u1 = Ok None /\ forall v, linked conns x v -> In v ch') as L.
  { induction adj as [|[u w] adj IHa]; intros c W.
    - intro H. injection H as <-. split; [apply incl_refl|]. split; [intros v w []|]. intros x I N. contradiction.
    - rewrite loop_cons. destruct (checked_in u c) eqn:C.
      + intro H. destruct (IHa c) as [L1 [L2 L3]]; auto. { intros v w' I. apply (W v w'). now right. }
        split; auto. split; auto. intros v w' [E|I]; [|now apply (L2 v w')]. injection E as <- <-.
        apply L1. now apply checked_in_In.
      + destruct (conv f c u u1) as [[[v|]|e] c2] eqn:E; try discriminate.
        * destruct (W u w) as [q [-> Zq]]; [now left|]. apply conv_derives in E as [_ Zv].
          rewrite truthy_q_nz by (now apply mul_nz). discriminate.
        * intro H. apply IH in E as [E1 E2]. destruct (IHa c2) as [L1 [L2 L3]]; auto.
          { intros v w' I. apply (W v w'). now right. }
          split; [|split].
          -- intros x I. apply L1, E1, in_app_iff. auto.
          -- intros v w' [K|I]; [|now apply (L2 v w')]. injection K as <- <-. apply L1, E1, in_app_iff. right. now left.
          -- intros x I N. destruct (in_dec str_eq_dec x c2) as [J|J]; [|now apply L3].
             destruct (E2 x J N) as [G1 G2]. split; auto. }
  intro H. apply L in H as [L1 [L2 L3]].
  2:{ intros v w I. apply adj_In in I. now apply Hw with (u0, v). }
  split; auto. intros x I N. destruct (str_eq_dec x u0) as [->|Nx].
  - split; auto. intros v [w J]. apply (L2 v w). now apply adj_In.
  - apply L3; auto. intro J. apply in_app_iff in J as [J|[J|[]]]; congruence.
Qed.

Lemma conv_complete f u0 u1 : connected conns u0 u1 -> fst (conv f [] u0 u1) <> Ok None.
Proof.
  intros P E. destruct (conv f [] u0 u1) as [r ch'] eqn:C. cbn [fst] in E. subst r.
  apply conv_none in C as [C1 C2].
  assert (In u0 ch') as I by (apply C1; simpl; now left).
  assert (In u1 ch') as J.
  { clear - P I C2. apply clos_rt_rt1n in P. induction P as [x|x y z Hxy Hyz IH]; auto.
    apply IH; auto. destruct (C2 x I) as [_ K]; auto. }
  destruct (C2 u1 J) as [K _]; [intros []|]. unfold simple_conversion in K. rewrite str_eqb_refl in K. discriminate.
Qed.

Hypothesis Hs : forall u, In u nodes -> scaled_unit named u.

Lemma simple_no_err u0 u1 e : scaled_unit named u1 -> simple u0 u1 <> Err e.
Proof.
  intro Sc. unfold simple_conversion. destruct (str_eqb u0 u1); [discriminate|]. destruct (truthy_q _); [discriminate|].
  destruct (named u1) as [n1|] eqn:N1; [|discriminate]. destruct (named u0) as [n0|]; [|discriminate]. unfold floordiv.
  destruct (ratio_defined n0 n1 (Sc n1 N1)) as [[r ->]| ->]; discriminate.
Qed.

Lemma rescale_no_err u0 u1 e : resc u0 u1 <> Err e.
Proof.
  unfold rescale. destruct (named u0) as [n0|]; [|discriminate].
  assert (forall L, incl L nodes -> rescale_go named conns n0 u1 L <> Err e) as G.
  { induction L as [|ux L IH]; intro I; simpl; [discriminate|].
    assert (incl L nodes) as I' by (intros x J; apply I; now right). specialize (IH I').
    destruct (named ux) as [nx|] eqn:Nx; auto.
    destruct (base_eqb_spec (n_base nx) (n_base n0)) as [B|B]; auto. destruct (truthy_q _); auto. unfold floordiv.
    rewrite ratio_ok; auto; [discriminate|]. apply (Hs ux); auto. apply I. now left. }
  specialize (G nodes (incl_refl _)). destruct (rescale_go named conns n0 u1 nodes); simpl; congruence.
Qed.

Lemma rescaled_no_err u0 u1 e : rescd u0 u1 <> Err e.
Proof.
  unfold rescaled. assert (H0 := rescale_no_err u0 u1 e). assert (H1 := rescale_no_err u1 u0 e).
  destruct (is_node conns u0); [|destruct (resc u0 u1) as [[a|]|x]; simpl; try congruence];
  (destruct (is_node conns u1); simpl; try discriminate; destruct (resc u1 u0) as [[b|]|x]; simpl; congruence).
Qed.

Lemma conv_no_err f : forall ch u0 u1 e, scaled_unit named u1 -> fst (conv f ch u0 u1) = Err e -> e = OutOfFuel.
Proof.
  induction f as [|f IH]; intros ch u0 u1 e Sc; [now intro H; injection H as <-|]. rewrite conv_S.
  destruct (simple u0 u1) as [[c|]|x] eqn:S; try discriminate.
  2:{ now apply simple_no_err in S. }
  destruct (rescd u0 u1) as [[c|]|x] eqn:R; try discriminate.
  2:{ now apply rescaled_no_err in R. }
  assert (forall adj c, (forall v w, In (v, w) adj -> exists q, w = Some q /\ q <> 0%Qc) ->
    fst (loop f u1 adj c) = Err e -> e = OutOfFuel) as L.
  { induction adj as [|[u w] adj IHa]; intros c W; [discriminate|]. rewrite loop_cons.
    assert (forall v w', In (v, w') adj -> exists q, w' = Some q /\ q <> 0%Qc) as W' by (intros v w' I; apply (W v w'); now right).
    destruct (checked_in u c); [now apply IHa|]. specialize (IH c u u1 e Sc).
    destruct (conv f c u u1) as [[[v|]|x] c2]; auto.
    - destruct (W u w) as [q [-> _]]; [now left|]. discriminate.
    - now apply IHa. }
  apply L. intros v w I. apply adj_In in I. now apply Hw with (u0, v).
Qed.

Lemma conv_total u0 u1 : connected conns u0 u1 -> scaled_unit named u1 ->
  exists q, fst (conv (search_fuel nodes) [] u0 u1) = Ok (Some q).
Proof.
  intros P Sc. assert (C := conv_complete (search_fuel nodes) u0 u1 P). assert (H := conv_halts_fuel [] u0 u1).
  assert (E := conv_no_err (search_fuel nodes) [] u0 u1).
  destruct (fst (conv (search_fuel nodes) [] u0 u1)) as [[q|]|e]; [eauto|congruence|].
  specialize (E e Sc eq_refl). congruence.
Qed.

End Search.

(** * Sizes *)

Lemma derives_size named conns size u v f : sizes named conns size -> derives named conns u v f ->
  size u = (f * size v)%Qc.
Proof.
  intros [Z T A U P] H. induction H.
  - ring.
  - now apply T.
  - rewrite (A u x n) by auto. ring.
  - rewrite (U u v n) by auto. ring.
  - assert (K := P u v m n H H0 H1 H2 H3). assert (size u = size u * n_scale n / n_scale n)%Qc as -> by (field; auto).
    rewrite K. field. auto.
  - rewrite IHderives. field. auto.
  - rewrite IHderives1, IHderives2. ring.
Qed.
