(** Proofs about the species of a plasma. *)

From Coq Require Import String Ascii List Bool ZArith QArith Qcanon Lia.
From Verif Require Import Py PyFacts PyDict IterablesModel RuntimeModel EpremModel SpeciesModel SpeciesSpec.
Import ListNotations.
Open Scope list_scope.
Open Scope nat_scope.

(** * Stripping *)

Lemma lstrip_of_app p a b : (forall c, In c a -> p c = true) -> lstrip_of p (a ++ b) = lstrip_of p b.
Proof.
  induction a as [|c a IH]; intro H; [reflexivity|]. cbn. rewrite (H c (or_introl eq_refl)).
  apply IH. intros d I. apply H. now right.
Qed.
Lemma lstrip_of_stop p a : (forall c, In c a -> p c = false) -> lstrip_of p a = a.
Proof. destruct a as [|c a]; intro H; [reflexivity|]. cbn. now rewrite (H c (or_introl eq_refl)). Qed.
Lemma is_sign_true c : is_sign c = true <-> c = "+"%char \/ c = "-"%char.
Proof. unfold is_sign. rewrite orb_true_iff, !Ascii.eqb_eq. tauto. Qed.

Lemma base_of_app b s : signs_only s -> (forall c, In c b -> is_sign c = false) -> base_of (b ++ s) = b.
Proof.
  intros H N. unfold base_of. rewrite rev_app_distr, lstrip_of_app.
  - rewrite lstrip_of_stop; [apply rev_involutive|]. intros c I. apply N. now apply in_rev in I.
  - intros c I. apply is_sign_true, H. now apply in_rev in I.
Qed.
Lemma base_of_last b c s : signs_only s -> is_sign c = false -> base_of ((b ++ [c]) ++ s) = b ++ [c].
Proof.
  intros H N. unfold base_of. rewrite !rev_app_distr, lstrip_of_app.
  - cbn. rewrite N. cbn. now rewrite rev_involutive.
  - intros d I. apply is_sign_true, H. now apply in_rev in I.
Qed.
Lemma no_signs_is b : no_signs b -> forall c, In c b -> is_sign c = false.
Proof.
  intros H c I. destruct (is_sign c) eqn:E; [|reflexivity]. apply is_sign_true in E. destruct (H c I). tauto.
Qed.
Lemma sign_of_app b s : signs_only s -> no_signs b -> sign_of (b ++ s) = s.
Proof.
  intros H N. unfold sign_of. rewrite base_of_app; [|assumption|now apply no_signs_is].
  rewrite lstrip_of_app.
  - apply lstrip_of_stop. intros c I. destruct (existsb (Ascii.eqb c) b) eqn:E; [|reflexivity].
    apply existsb_exists in E as (d & J & E). apply Ascii.eqb_eq in E. subst d. destruct (N c J), (H c I); contradiction.
  - intros c I. apply existsb_exists. exists c. split; [assumption|apply Ascii.eqb_refl].
Qed.
(** Every character that is left is one of the trailing signs. *)
Lemma sign_of_signs x : forall c, In c (sign_of x) -> is_sign c = true.
Proof.
  assert (K : forall p a c, In c (lstrip_of p a) -> exists d r, lstrip_of p a = d :: r /\ p d = false).
  { intros p a. induction a as [|e a IH]; cbn; [tauto|]. intros c. destruct (p e) eqn:E; [apply IH|]. intros _. now exists e, a. }
  assert (D : exists s, x = base_of x ++ s /\ forall c, In c s -> is_sign c = true).
  { unfold base_of. assert (L : forall a, exists s, a = s ++ lstrip_of is_sign a /\ forall c, In c s -> is_sign c = true).
    { induction a as [|e a (s & E & F)]; [exists []; split; [reflexivity|intros c []]|]. cbn. destruct (is_sign e) eqn:G.
      - exists (e :: s). split; [now rewrite E at 1|]. intros c [<-|I]; [assumption|now apply F].
      - exists []. split; [reflexivity|intros c []]. }
    destruct (L (rev x)) as (s & E & F). exists (rev s). split.
    - rewrite <- rev_app_distr, <- E. symmetry. apply rev_involutive.
    - intros c I. apply F. now apply in_rev. }
  destruct D as (s & E & F). intros c. unfold sign_of. set (b := base_of x) in *. rewrite E.
  rewrite lstrip_of_app by (intros d I; apply existsb_exists; exists d; split; [assumption|apply Ascii.eqb_refl]).
  assert (T : forall p a d, In d (lstrip_of p a) -> In d a).
  { intros p a d. induction a as [|e a IH]; cbn; [tauto|]. destruct (p e); [intro; right; now apply IH|trivial]. }
  intro I. apply F. now apply (T _ _ _ I).
Qed.
Lemma charge_of_ok s : (forall c, In c s -> is_sign c = true) -> charge_of s = Ok (Qc_of_Z (tally s)).
Proof.
  unfold tally. induction s as [|c s IH]; intro H.
  - reflexivity.
  - cbn [charge_of]. rewrite IH by (intros; apply H; now right). pose proof (proj1 (is_sign_true c) (H c (or_introl eq_refl))) as [-> | ->]; cbn [Ascii.eqb Bool.eqb]; cbn [bind].
    + f_equal. apply Qc_is_canon. unfold Qcplus, Qc_of_Z. cbn [this Q2Qc]. rewrite !Qred_correct.
      rewrite (count_occ_cons_eq ascii_dec s (eq_refl : "+"%char = "+"%char)), (count_occ_cons_neq ascii_dec s (x := "+"%char) (y := "-"%char)) by discriminate.
      rewrite Nat2Z.inj_succ. unfold Qeq. cbn [Qnum Qden Qplus Qopp inject_Z]. lia.
    + f_equal. apply Qc_is_canon. unfold Qcplus, Qcopp, Qc_of_Z. cbn [this Q2Qc]. rewrite !Qred_correct.
      rewrite (count_occ_cons_eq ascii_dec s (eq_refl : "-"%char = "-"%char)), (count_occ_cons_neq ascii_dec s (x := "-"%char) (y := "+"%char)) by discriminate.
      rewrite Nat2Z.inj_succ. unfold Qeq. cbn [Qnum Qden Qplus Qopp inject_Z]. lia.
Qed.

(** * The table of elements *)

Lemma found_iff r x : existsb (fun p => cell_eqb (snd p) (CText x)) (entry_of r) = true <-> called r x.
Proof.
  unfold entry_of, called. cbn. rewrite !orb_true_iff. destruct (str_eqb_spec (fst (fst r)) x), (str_eqb_spec (snd (fst r)) x); intuition congruence.
Qed.
Lemma find_mass_one before r after x :
  called r x -> (forall r', In r' before \/ In r' after -> ~ called r' x) ->
  find_mass (before ++ r :: after) x = Ok (snd r).
Proof.
  intros C N. unfold find_mass, table_find. rewrite map_app, filter_app. cbn [map filter].
  assert (Z : forall l, (forall r', In r' l -> ~ called r' x) ->
    filter (fun e => existsb (fun p => cell_eqb (snd p) (CText x)) e) (map entry_of l) = []).
  { induction l as [|r' l IH]; intro H; [reflexivity|]. cbn [map filter].
    destruct (existsb _ (entry_of r')) eqn:E; [apply found_iff in E; destruct (H r' (or_introl eq_refl) E)|].
    apply IH. intros. apply H. now right. }
  rewrite !Z by (intros; apply N; auto). rewrite (proj2 (found_iff r x) C). cbn [app negb bind].
  destruct r as [[s n] q]. reflexivity.
Qed.
Lemma find_mass_none rows x : (forall r, In r rows -> ~ called r x) -> find_mass rows x = Err MissingValueError.
Proof.
  intro H. unfold find_mass, table_find.
  replace (filter _ (map entry_of rows)) with (@nil (entry (V := cell))); [reflexivity|]. symmetry.
  induction rows as [|r' l IH]; [reflexivity|]. cbn [map filter].
  destruct (existsb _ (entry_of r')) eqn:E; [apply found_iff in E; destruct (H r' (or_introl eq_refl) E)|].
  apply IH. intros. apply H. now right.
Qed.

(** * Reading properties *)

(** The answer of the property [symbol] for an instance without symbol. *)
Definition named (rows : list row) (m q : option amount) : res str := fst (symbol_of rows (mkSpecies None m q)).
Lemma symbol_of_eq rows x m q :
  symbol_of rows (mkSpecies x m q) =
  match x with
  | Some y => (Ok y, mkSpecies x m q)
  | None => match named rows m q with Ok y => (Ok y, mkSpecies (Some y) m q) | Err e => (Err e, mkSpecies None m q) end
  end.
Proof.
  destruct x as [y|]; [reflexivity|]. unfold named, symbol_of. cbn [sp_symbol sp_mass sp_charge].
  match goal with |- context [match ?r with Ok _ => _ | Err _ => _ end] => set (R := r) end. now destruct R.
Qed.
Lemma named_none rows q : named rows None q = Err TypeError.
Proof. reflexivity. Qed.
Lemma named_alone rows m : exists e, named rows m None = Err e.
Proof.
  unfold named, symbol_of. cbn [sp_symbol sp_mass sp_charge]. destruct m as [m|]; [|now exists TypeError].
  destruct (get_mass_indices _ _) as [i|e]; cbn [bind fst]; eauto.
Qed.

Lemma read_same rows s a b : fst (read rows (snd (read rows s b)) a) = fst (read rows s a).
Proof.
  destruct s as [x m q]. destruct x as [y|].
  - destruct b; unfold read.
    + reflexivity.
    + unfold mass_of. cbn [sp_symbol sp_mass]. destruct m as [m|]; [reflexivity|].
      destruct (find_mass rows (base_of y)) as [v|e] eqn:E; cbn [snd]; destruct a; unfold symbol_of, mass_of, charge_in;
        cbn [sp_symbol sp_mass sp_charge fst]; rewrite ?E; try reflexivity; destruct q; try reflexivity; now destruct (charge_of (sign_of y)).
    + unfold charge_in. cbn [sp_symbol sp_charge]. destruct q as [q|]; [reflexivity|].
      destruct (charge_of (sign_of y)) as [v|e] eqn:E; cbn [snd]; destruct a; unfold symbol_of, mass_of, charge_in;
        cbn [sp_symbol sp_mass sp_charge fst]; rewrite ?E; try reflexivity; destruct m; try reflexivity; now destruct (find_mass rows (base_of y)).
  - destruct b; unfold read.
    + rewrite symbol_of_eq. destruct (named rows m q) as [z|e] eqn:E; cbn [snd].
      * destruct m as [m|]; [|discriminate]. destruct q as [q|]; [|destruct (named_alone rows (Some m)); congruence].
        destruct a; rewrite ?symbol_of_eq, ?E; reflexivity.
      * destruct a; rewrite ?symbol_of_eq, ?E; reflexivity.
    + unfold mass_of at 1. cbn [sp_symbol sp_mass]. now destruct m.
    + unfold charge_in at 1. cbn [sp_symbol sp_charge]. now destruct q.
Qed.
Lemma reads_same rows : forall l s, reads rows s l = map (fun a => fst (read rows s a)) l.
Proof.
  induction l as [|a l IH]; intro s; [reflexivity|]. cbn [reads map]. destruct (read rows s a) as [r s'] eqn:E. cbn [fst]. f_equal.
  rewrite IH. apply map_ext. intro b. rewrite <- (read_same rows s b a), E. reflexivity.
Qed.
