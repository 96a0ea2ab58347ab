(** Properties C178-C182: the species of a plasma. *)

From Coq Require Import String Ascii List Bool ZArith QArith Qcanon Lia.
From Verif Require Import Py PyFacts PyDict IterablesModel RuntimeModel EpremModel EpremSpec EpremProofs EpremProps
  SpeciesModel SpeciesSpec SpeciesProofs.
Import ListNotations.
Open Scope list_scope.
Open Scope nat_scope.

(** * The table *)

Lemma distinct_spec : forall l : list str,
  (fix go l := match l with [] => true | x :: l' => negb (inb x l') && go l' end) l = true -> NoDup l.
Proof.
  induction l as [|x l IH]; intro E; constructor; apply andb_true_iff in E as [E1 E2].
  - intro I. apply inb_in in I. now rewrite I in E1.
  - now apply IH.
Qed.
(** No text is used twice as symbol or name, and none has a sign. *)
Lemma rows_distinct : NoDup (map (fun r => fst (fst r)) element_rows ++ map (fun r => snd (fst r)) element_rows).
Proof. apply distinct_spec. vm_compute. reflexivity. Qed.
Lemma rows_plain r x : In r element_rows -> called r x -> no_signs x /\ exists b c, x = b ++ [c] /\ is_sign c = false.
Proof.
  assert (K : forallb (fun r => let ok x := match x with [] => false | _ => forallb (fun c => negb (is_sign c)) x end in
    ok (fst (fst r)) && ok (snd (fst r))) element_rows = true) by (vm_compute; reflexivity).
  rewrite forallb_forall in K. intros I C. specialize (K r I). cbv zeta in K. apply andb_true_iff in K.
  assert (E : match x with [] => false | _ => forallb (fun c => negb (is_sign c)) x end = true) by (destruct C as [-> | ->]; tauto).
  clear K. destruct x as [|a x]; [discriminate|]. rewrite forallb_forall in E.
  split.
  - intros c J. specialize (E c J). apply negb_true_iff in E. unfold is_sign in E. apply orb_false_iff in E as [E1 E2].
    split; intros ->; discriminate.
  - destruct (@exists_last _ (a :: x)) as (b & c & Eq); [discriminate|]. exists b, c. split; [assumption|].
    rewrite Eq in E. specialize (E c). apply negb_true_iff, E. apply in_or_app. right. now left.
Qed.
Lemma unique_row : forall rows r x,
  NoDup (map (fun r : row => fst (fst r)) rows ++ map (fun r => snd (fst r)) rows) -> In r rows -> called r x ->
  exists before after, rows = before ++ r :: after /\ (forall r', In r' before \/ In r' after -> ~ called r' x).
Proof.
  intros rows r x N I C. destruct (in_split _ _ I) as (b & a & ->). exists b, a. split; [reflexivity|].
  assert (P : forall r', In r' (b ++ a) -> ~ called r' x).
  { intros r' J D. rewrite !map_app in N. cbn [map] in N.
    assert (J1 : In (fst (fst r')) (map (fun r : row => fst (fst r)) b ++ map (fun r : row => fst (fst r)) a))
      by (rewrite <- map_app; apply in_map_iff; eauto).
    assert (J2 : In (snd (fst r')) (map (fun r : row => snd (fst r)) b ++ map (fun r : row => snd (fst r)) a))
      by (rewrite <- map_app; apply in_map_iff; eauto).
    set (A := map (fun r : row => fst (fst r)) b) in *. set (B := map (fun r : row => fst (fst r)) a) in *.
    set (A' := map (fun r : row => snd (fst r)) b) in *. set (B' := map (fun r : row => snd (fst r)) a) in *.
    assert (N1 : ~ In (fst (fst r)) ((A ++ B) ++ A' ++ snd (fst r) :: B')).
    { rewrite <- app_assoc in N. cbn [app] in N. apply NoDup_remove_2 in N. rewrite <- app_assoc. exact N. }
    assert (N2 : ~ In (snd (fst r)) (((A ++ fst (fst r) :: B) ++ A') ++ B')).
    { rewrite app_assoc in N. apply NoDup_remove_2 in N. exact N. }
    destruct C as [C|C], D as [D|D]; subst x.
    - apply N1. rewrite D. apply in_or_app. left. exact J1.
    - apply N1. rewrite D. apply in_or_app. right. apply in_app_or in J2. apply in_or_app. cbn. tauto.
    - apply N2. rewrite D. apply in_or_app. left. apply in_or_app. left. apply in_app_or in J1. apply in_or_app. cbn. tauto.
    - apply N2. rewrite D. rewrite <- app_assoc. apply in_or_app. right. exact J2. }
  intros r' [J|J]; apply P, in_or_app; auto.
Qed.

(** ** C178: the charge *)

(** The charge of a species with a symbol is the number of its plus signs
    minus the number of its minus signs, in units of the elementary charge.
    Missing: symbols with signs elsewhere than at the end. *)
Theorem C178_charge_partial : forall rows base signs mass s,
  no_signs base -> signs_only signs -> new_species (Some (base ++ signs)) mass None = Ok s ->
  fst (read rows s Charge) = RAmount (Ok (Measured (Qc_of_Z (tally signs)) (lit "e") [lit "q"; lit "charge"])).
Proof.
  intros rows b sg m s N S E. injection E as <-. unfold read, charge_in. cbn [sp_symbol sp_charge option_map].
  rewrite sign_of_app by assumption. rewrite charge_of_ok; [reflexivity|]. intros c I. apply is_sign_true, S, I.
Qed.
Print Assumptions C178_charge_partial.
(** In particular for the symbol or the name of any element. *)
Theorem C178_elements : forall rows r x signs mass s, In r element_rows -> called r x -> signs_only signs ->
  new_species (Some (x ++ signs)) mass None = Ok s ->
  fst (read rows s Charge) = RAmount (Ok (Measured (Qc_of_Z (tally signs)) (lit "e") [lit "q"; lit "charge"])).
Proof.
  intros rows r x sg m s I C S E. apply (C178_charge_partial rows x sg m s); [|assumption..].
  now apply (rows_plain r x).
Qed.
Print Assumptions C178_elements.
(** Signs inside the symbol hide those at its end. *)
Theorem C178_inner_refuted : forall rows, exists s, new_species (Some (lit "H+H+")) None None = Ok s /\
  fst (read rows s Charge) = RAmount (Ok (Measured 0%Qc (lit "e") [lit "q"; lit "charge"])).
Proof. intro rows. eexists. split; [reflexivity|]. vm_compute. reflexivity. Qed.
Print Assumptions C178_inner_refuted.

(** ** C179: the mass *)

(** The mass of a species with the symbol or the name of an element, with any
    signs, is the mass of that element in nucleons. *)
Theorem C179_mass : forall r x signs charge s, In r element_rows -> called r x -> signs_only signs ->
  new_species (Some (x ++ signs)) None charge = Ok s ->
  fst (read element_rows s Mass) = RAmount (Ok (Measured (snd r) (lit "nucleon") [lit "m"; lit "mass"])).
Proof.
  intros r x sg q s I C S E. destruct (rows_plain r x I C) as [_ (b & c & Eq & L)].
  destruct (unique_row element_rows r x rows_distinct I C) as (bf & af & Es & U).
  assert (F : find_mass element_rows (base_of (x ++ sg)) = Ok (snd r)).
  { rewrite Eq, base_of_last by assumption. rewrite <- Eq, Es. now apply find_mass_one. }
  unfold new_species in E. injection E as <-. unfold read, mass_of. cbn [sp_symbol sp_mass option_map].
  rewrite F. reflexivity.
Qed.
Print Assumptions C179_mass.
(** A symbol of no element has no mass, whatever the table. *)
Theorem C179_unknown : forall rows base c signs charge s, c <> "+"%char -> c <> "-"%char -> signs_only signs ->
  (forall r, In r rows -> ~ called r (base ++ [c])) ->
  new_species (Some ((base ++ [c]) ++ signs)) None charge = Ok s ->
  fst (read rows s Mass) = RAmount (Err MissingValueError).
Proof.
  intros rows b c sg q s N1 N2 S H E. unfold new_species in E. injection E as <-. unfold read, mass_of. cbn [sp_symbol sp_mass option_map].
  rewrite base_of_last; [|assumption|].
  - rewrite find_mass_none by assumption. reflexivity.
  - destruct (is_sign c) eqn:K; [|reflexivity]. apply is_sign_true in K. tauto.
Qed.
Print Assumptions C179_unknown.

(** ** C180: symbols and masses *)

Lemma rows_table : map (fun r => (fst (fst r), snd r)) element_rows = elements_table.
Proof. vm_compute. reflexivity. Qed.
Lemma tally_charged z : tally (charged z) = z.
Proof.
  unfold charged, tally.
  assert (K : forall (a : ascii) n, count_occ ascii_dec (repeat a n) a = n).
  { intros a n. induction n as [|n IH]; [reflexivity|]. cbn [repeat]. rewrite count_occ_cons_eq by reflexivity. now rewrite IH. }
  assert (K' : forall (a b : ascii) n, a <> b -> count_occ ascii_dec (repeat a n) b = 0).
  { intros a b n D. induction n as [|n IH]; [reflexivity|]. cbn [repeat]. now rewrite count_occ_cons_neq. }
  destruct z as [|p|p]; cbn; rewrite ?K, ?K' by discriminate; lia.
Qed.
Lemma charged_signs z : signs_only (charged z).
Proof.
  assert (K : forall (a b : ascii) n, In b (repeat a n) -> b = a) by (intros a b n I; now apply repeat_spec in I).
  intros c I. unfold charged in I. repeat match type of I with context [match ?x with _ => _ end] => destruct x end;
    try (apply K in I; subst; tauto); destruct I.
Qed.

(** A species with the mass of an element and an integral charge has the
    symbol of the element with a sign for each charge, and the species with
    that symbol has this mass and this charge.  Missing: elements after one of
    the same rounded mass in the table. *)
Theorem C180_symbols_partial : forall before after x n m z s,
  element_rows = before ++ (x, n, m) :: after ->
  (forall r k, In r before -> rounds m k -> ~ rounds (snd r) k) ->
  new_species None (Some m) (Some (Qc_of_Z z)) = Ok s ->
  fst (read element_rows s Symbol) = RSymbol (Ok (x ++ charged z)) /\
  exists t, new_species (Some (x ++ charged z)) None None = Ok t /\
    fst (read element_rows t Mass) = RAmount (Ok (Measured m (lit "nucleon") [lit "m"; lit "mass"])) /\
    fst (read element_rows t Charge) = RAmount (Ok (Measured (Qc_of_Z z) (lit "e") [lit "q"; lit "charge"])).
Proof.
  intros bf af x n m z s Es H E.
  assert (I : In (x, n, m) element_rows) by (rewrite Es; apply in_or_app; right; now left).
  split.
  - unfold new_species in E. injection E as <-. unfold read, symbol_of. cbn [sp_symbol sp_mass sp_charge option_map number_of].
    rewrite rows_table.
    rewrite (C57_identified_partial (map (fun r => (fst (fst r), snd r)) bf) (map (fun r => (fst (fst r), snd r)) af) x m z).
    + reflexivity.
    + rewrite <- rows_table, Es, map_app. reflexivity.
    + intros e k J R. apply in_map_iff in J as (r & <- & J). cbn [snd]. now apply H.
  - eexists. split; [reflexivity|]. split.
    + apply (C179_mass (x, n, m) x (charged z) None); [assumption|now left|apply charged_signs|reflexivity].
    + rewrite (C178_elements element_rows (x, n, m) x (charged z) None); [now rewrite tally_charged|assumption|now left|apply charged_signs|reflexivity].
Qed.
Print Assumptions C180_symbols_partial.
(** The species with the mass and the charge of doubly charged calcium is
    called argon. *)
Theorem C180_symbols_refuted : exists s m t,
  new_species (Some (lit "Ca++")) None None = Ok s /\
  fst (read element_rows s Mass) = RAmount (Ok (Measured m (lit "nucleon") [lit "m"; lit "mass"])) /\
  fst (read element_rows s Charge) = RAmount (Ok (Measured (Qc_of_Z 2) (lit "e") [lit "q"; lit "charge"])) /\
  new_species None (Some m) (Some (Qc_of_Z 2)) = Ok t /\
  fst (read element_rows t Symbol) = RSymbol (Ok (lit "Ar++")).
Proof.
  eexists _, _, _. split; [reflexivity|]. split; [vm_compute; reflexivity|]. split; [vm_compute; reflexivity|].
  split; [reflexivity|]. vm_compute. reflexivity.
Qed.
Print Assumptions C180_symbols_refuted.

(** ** C181: the answers do not depend on the order of the questions *)

Theorem C181_order : forall rows symbol mass charge s l, new_species symbol mass charge = Ok s ->
  Forall2 (fun a r => r = fst (read rows s a)) l (reads rows s l).
Proof.
  intros rows x m q s l _. rewrite reads_same. induction l; constructor; auto.
Qed.
Print Assumptions C181_order.
(** What was given is what is read, at any time. *)
Theorem C181_given : forall rows symbol mass charge s l, new_species symbol mass charge = Ok s ->
  Forall2 (fun a r =>
    match a with
    | Symbol => forall x, symbol = Some x -> r = RSymbol (Ok x)
    | Mass => forall m, mass = Some m -> r = RAmount (Ok (Plain m))
    | Charge => forall q, charge = Some q -> r = RAmount (Ok (Plain q))
    end) l (reads rows s l).
Proof.
  intros rows x m q s l E. rewrite reads_same.
  assert (Es : s = mkSpecies x (option_map Plain m) (option_map Plain q)).
  { unfold new_species in E. destruct x, m, q; try discriminate; now injection E as <-. }
  subst s. induction l as [|a l IH]; constructor; [|apply IH].
  destruct a; intros v ->; reflexivity.
Qed.
Print Assumptions C181_given.

(** ** C182: what determines a species *)

(** A species needs a symbol, a mass or a charge. *)
Theorem C182_defined : forall symbol mass charge,
  new_species symbol mass charge = Err ValueError <-> symbol = None /\ mass = None /\ charge = None.
Proof. intros [x|] [m|] [q|]; cbn; split; intro H; try discriminate; try (destruct H as (? & ? & ?); discriminate); auto. Qed.
Print Assumptions C182_defined.
(** But a mass or a charge alone determines nothing else: asking raises an
    error of another kind. *)
Theorem C182_mass_alone_refuted : forall rows m, exists s, new_species None (Some m) None = Ok s /\
  fst (read rows s Charge) = RAmount (Err AttributeError) /\
  exists e, fst (read rows s Symbol) = RSymbol (Err e).
Proof.
  intros rows m. eexists. split; [reflexivity|]. split; [reflexivity|].
  destruct (named_alone rows (Some (Plain m))) as [e E]. exists e. unfold read. cbn [option_map].
  rewrite symbol_of_eq, E. reflexivity.
Qed.
Print Assumptions C182_mass_alone_refuted.
Theorem C182_charge_alone_refuted : forall rows q, exists s, new_species None None (Some q) = Ok s /\
  fst (read rows s Mass) = RAmount (Err AttributeError) /\ fst (read rows s Symbol) = RSymbol (Err TypeError).
Proof. intros rows q. eexists. split; [reflexivity|]. split; reflexivity. Qed.
Print Assumptions C182_charge_alone_refuted.
(** A given mass or charge is a plain number, one taken from the symbol has a
    unit. *)
Theorem C182_unit_refuted : exists s t,
  new_species (Some (lit "He")) (Some (Qc_of_Z 4)) None = Ok s /\
  fst (read element_rows s Mass) = RAmount (Ok (Plain (Qc_of_Z 4))) /\
  new_species (Some (lit "He")) None None = Ok t /\
  fst (read element_rows t Mass) = RAmount (Ok (Measured (Q2Qc (20013 # 5000)) (lit "nucleon") [lit "m"; lit "mass"])).
Proof. eexists _, _. split; [reflexivity|]. split; [reflexivity|]. split; [reflexivity|]. vm_compute. reflexivity. Qed.
Print Assumptions C182_unit_refuted.

(** Cases: several questions to two species. *)
Example C178_example :
  (exists s, new_species (Some (lit "Fe++-")) None None = Ok s /\
     reads element_rows s [Charge; Symbol; Mass; Charge] =
     [RAmount (Ok (Measured (Qc_of_Z 1) (lit "e") [lit "q"; lit "charge"])); RSymbol (Ok (lit "Fe++-"));
      RAmount (Ok (Measured (Q2Qc (55847 # 1000)) (lit "nucleon") [lit "m"; lit "mass"]));
      RAmount (Ok (Measured (Qc_of_Z 1) (lit "e") [lit "q"; lit "charge"]))]) /\
  no_signs (lit "Fe") /\ signs_only (lit "++-") /\ tally (lit "++-") = 1%Z.
Proof.
  split; [eexists; split; [reflexivity|]; vm_compute; reflexivity|]. split; [|split; [|reflexivity]].
  - intros c [<-|[<-|[]]]; split; discriminate.
  - intros c [<-|[<-|[<-|[]]]]; tauto.
Qed.
Example C179_example : exists s, new_species (Some (lit "Helium+")) None None = Ok s /\
  reads element_rows s [Mass; Charge] =
  [RAmount (Ok (Measured (Q2Qc (20013 # 5000)) (lit "nucleon") [lit "m"; lit "mass"]));
   RAmount (Ok (Measured 1%Qc (lit "e") [lit "q"; lit "charge"]))].
Proof. eexists. split; [reflexivity|]. vm_compute. reflexivity. Qed.
Example C180_example : exists after, element_rows = [] ++ (lit "H", lit "Hydrogen", Q2Qc (100797 # 100000)) :: after.
Proof. eexists. vm_compute. reflexivity. Qed.
Example C181_example : exists s, new_species None (Some (Q2Qc (5 # 1))) (Some (Qc_of_Z (-2))) = Ok s /\
  reads element_rows s [Symbol; Mass; Charge] =
  [RSymbol (Err MassValueError); RAmount (Ok (Plain (Q2Qc 5))); RAmount (Ok (Plain (Qc_of_Z (-2))))].
Proof. eexists. split; [reflexivity|]. vm_compute. reflexivity. Qed.
