(** Facts about the module's own tables, and termination of [conversion]. *)

From Coq Require Import String Ascii List Bool ZArith QArith Qcanon Relations Permutation Lia.
From Verif Require Import Py PyFacts PyDict SymbolicModel SymbolicSpec SymbolicTermProofs SymbolicExprProofs.
From Verif Require Import AliasedModel AliasedSpec AliasedProofs.
From Verif Require Import IterablesModel IterablesMoreProofs MetricTables MetricModel MetricSpec MetricProofs MetricMoreProofs.
Import ListNotations.
Open Scope list_scope.
Open Scope nat_scope.
Open Scope py_scope.

(** * Sizes of the module's units *)

(** Sizes of the base units and of the compound strings in the table of
    conversions; all others are 1. *)
Definition base_sizes : list (str * Qc) := [
  (lit "au", Q2Qc (149597870700 # 1));
  (lit "F", Q2Qc (22468879468420441 # 2500000));
  (lit "nuc", Q2Qc (3321 # 2000000000000000000000000000));
  (lit "amu", Q2Qc (3321 # 2000000000000000000000000000));
  (lit "min", Q2Qc (60 # 1));
  (lit "h", Q2Qc (3600 # 1));
  (lit "d", Q2Qc (86400 # 1));
  (lit "statA", Q2Qc (1 # 299792458000));
  (lit "statC", Q2Qc (1 # 299792458000));
  (lit "e", Q2Qc (8011 # 50000000000000000000000));
  (lit "erg", Q2Qc (1 # 10000000));
  (lit "eV", Q2Qc (8011 # 50000000000000000000000));
  (lit "dyn", Q2Qc (1 # 100000));
  (lit "G", Q2Qc (1 # 10000));
  (lit "Mx", Q2Qc (1 # 100000000));
  (lit "statV", Q2Qc (149896229 # 5000));
  (lit "Ci", Q2Qc (37000000000 # 1));
  (lit "deg", Q2Qc (176855943800711 # 10133099161583616));
  (lit "Oe", Q2Qc (14073748835532800 # 176855943800711));
  (lit "P", Q2Qc (1 # 10))].
Definition compound_sizes : list (str * Qc) := [
  (lit "erg / s", Q2Qc (1 # 10000000));
  (lit "dyn / cm^2", Q2Qc (1 # 10));
  (lit "erg / g", Q2Qc (1 # 10000));
  (lit "cm / s", Q2Qc (5 # 44937758936840882));
  (lit "s / cm", Q2Qc (44937758936840882 # 5));
  (lit "s^2 / cm", Q2Qc (44937758936840882 # 5));
  (lit "H / m", Q2Qc (69084353047152734375 # 8796093022208));
  (lit "F / m", Q2Qc (15543979435609365234375 # 137438953472));
  (lit "1 / cm", Q2Qc (14073748835532800000000 # 176855943800711));
  (lit "G * cm", Q2Qc (1 # 1000000))].

Definition named_size (n : named_unit) : Qc :=
  if Qc_eqb (n_scale n) 0 then 1%Qc
  else (n_scale n * match sd_get base_sizes (b_symbol (n_base n)) with Some q => q | None => 1 end)%Qc.

Definition some_or {A B} (o : option A) (f : A -> B) (b : B) : B := match o with Some a => f a | None => b end.

Lemma sd_get_In {A} (d : list (str * A)) k v : sd_get d k = Some v -> In v (map snd d).
Proof.
  unfold sd_get. induction d as [|[a x] d IH]; simpl; [discriminate|]. destruct (str_eqb k a); auto.
  intro H. injection H as ->. auto.
Qed.

Lemma sizes_nonzero q : In q (map snd (base_sizes ++ compound_sizes)) -> q <> 0%Qc.
Proof.
  intros I E. assert (existsb (fun q => Qc_eqb q 0) (map snd (base_sizes ++ compound_sizes)) = true) as H.
  { apply existsb_exists. exists q. split; auto. subst. apply Qc_eqb_refl. }
  vm_compute in H. discriminate.
Qed.

Definition all_of (ps : list prefix) (us : list base_unit) : list named_unit :=
  map (fun pu => mkNamed (fst pu) (snd pu)) (pairs ps us).
Lemma in_all ps us n : In n (all_of ps us) <-> In (n_prefix n) ps /\ In (n_base n) us.
Proof.
  unfold all_of. rewrite in_map_iff. split.
  - intros [[p u] [<- I]]. now apply in_pairs in I.
  - intro H. exists (n_prefix n, n_base n). split; [now destruct n|]. now apply in_pairs.
Qed.

(** The look-up with a faster comparison of strings. *)
Fixpoint feq (a b : str) : bool :=
  match a, b with
  | [], [] => true
  | x :: a', y :: b' => if Ascii.eqb x y then feq a' b' else false
  | _, _ => false
  end.
Lemma feq_eqb a : forall b, feq a b = str_eqb a b.
Proof.
  induction a as [|x a IH]; intros [|y b]; auto. simpl. rewrite IH.
  destruct (Ascii.eqb_spec x y) as [->|N].
  - destruct (str_eqb_spec a b), (str_eqb_spec (y :: a) (y :: b)); congruence.
  - destruct (str_eqb_spec (x :: a) (y :: b)); congruence.
Qed.
Fixpoint fgeq (g h : list str) : bool :=
  match g, h with
  | [], [] => true
  | x :: a', y :: b' => if feq x y then fgeq a' b' else false
  | _, _ => false
  end.
Lemma fgeq_eqb g : forall h, fgeq g h = gmatch g h.
Proof.
  unfold gmatch. induction g as [|x a IH]; intros [|y b]; auto. simpl fgeq. rewrite IH, feq_eqb.
  destruct (str_eqb_spec x y) as [->|N].
  - destruct (list_eq_dec str_eq_dec a b), (list_eq_dec str_eq_dec (y :: a) (y :: b)); congruence.
  - destruct (list_eq_dec str_eq_dec (x :: a) (y :: b)); congruence.
Qed.
Fixpoint ffind (l : list (str * group)) (a : str) : option group :=
  match l with
  | [] => None
  | (b, g) :: l' => match ffind l' a with Some h => Some h | None => if feq a b then Some g else None end
  end.
Fixpoint fdget {V} (d : @gdict V) (g : group) : option V :=
  match d with
  | [] => None
  | (h, v) :: d' => if fgeq g h then Some v else fdget d' g
  end.
Lemma ffind_get l a : ffind l a = flat_get l a.
Proof. induction l as [|[b g] l IH]; simpl; auto. now rewrite IH, feq_eqb. Qed.
Lemma fdget_get {V} (d : @gdict V) g : fdget d g = dget d g.
Proof. induction d as [|[h v] d IH]; simpl; auto. now rewrite IH, fgeq_eqb. Qed.
Definition fidentify (t : @amap named_unit) (s : str) : option named_unit :=
  match truthy (ffind (flat_dict t) s) with Some g => fdget (as_dict t) g | None => None end.
Lemma fidentify_identify t s : fidentify t s = identify t s.
Proof.
  unfold fidentify, identify, getitem, resolve_key. rewrite ffind_get. destruct (truthy _); auto. rewrite fdget_get.
  now destruct (dget _ _).
Qed.


(** The facts are proved for any tables that pass the checks; the checks are
    then computed for the module's tables. *)
Section Checks.
Variable ps : list prefix.
Variable us : list base_unit.
Variable t : @amap named_unit.
Notation named := (identify t).
Variable conns : connections.
Variable nodes : list str.
Hypothesis Ht : t = unit_table ps us.
Hypothesis Hn : enumerates conns nodes.

Lemma known_in s n : named s = Some n -> In n (all_of ps us).
Proof. rewrite Ht. intro H. destruct (identify_sound ps us s n H) as [A [B _]]. apply in_all. auto. Qed.

Definition size_by (u : str) : Qc :=
  match named u with
  | Some n => named_size n
  | None => match sd_get compound_sizes u with Some q => q | None => 1%Qc end
  end.

Lemma size_by_nonzero u : size_by u <> 0%Qc.
Proof.
  unfold size_by. destruct (named u) as [n|].
  - unfold named_size. destruct (Qc_eqb_spec (n_scale n) 0); [discriminate|]. apply mul_nz; auto.
    destruct (sd_get base_sizes _) eqn:E; [|discriminate]. apply sd_get_In in E. apply sizes_nonzero.
    rewrite map_app. apply in_app_iff. auto.
  - destruct (sd_get compound_sizes u) eqn:E; [|discriminate]. apply sd_get_In in E. apply sizes_nonzero.
    rewrite map_app. apply in_app_iff. auto.
Qed.

Definition table_check : bool :=
  forallb (fun e => match snd e with
                    | Some w => Qc_eqb (size_by (fst (fst e))) (w * size_by (snd (fst e)))%Qc
                    | None => true end) conns.
Definition alias_check : bool :=
  forallb (fun x => let s := size_by x in
    forallb (fun n => if str_eqb x (n_symbol n) || str_eqb x (n_name n) then Qc_eqb (named_size n) s else true)
      (all_of ps us)) nodes.

Lemma checked_sizes : table_check = true -> alias_check = true -> sizes named conns size_by.
Proof.
  intros Ct Ca. split.
  - apply size_by_nonzero.
  - intros u v w I. unfold table_check in Ct. rewrite forallb_forall in Ct. apply Ct in I. simpl in I.
    now destruct (Qc_eqb_spec (size_by u) (w * size_by v)).
  - intros u x n U X E. unfold alias_check in Ca. rewrite forallb_forall in Ca.
    apply Hn in E. apply Ca in E. cbv zeta in E. rewrite forallb_forall in E.
    specialize (E n (known_in u n U)).
    replace (str_eqb x (n_symbol n) || str_eqb x (n_name n)) with true in E.
    2:{ symmetry. apply orb_true_iff. destruct X as [->| ->]; rewrite str_eqb_refl; auto. }
    destruct (Qc_eqb_spec (named_size n) (size_by x)); [|discriminate]. unfold size_by at 1. now rewrite U.
  - intros u v n U V. unfold size_by. now rewrite U, V.
  - intros u v m n U V B M N. unfold size_by. rewrite U, V. unfold named_size. rewrite (Qc_eqb_neq _ _ M), (Qc_eqb_neq _ _ N), B. ring.
Qed.

Definition weight_check : bool :=
  forallb (fun e => match snd e with Some w => negb (Qc_eqb w 0) | None => false end) conns.
Lemma checked_weights : weight_check = true -> weighted conns.
Proof.
  intros H e w I. unfold weight_check in H. rewrite forallb_forall in H. apply H in I. simpl in I.
  destruct w as [q|]; [|discriminate]. exists q. split; auto. intros ->. discriminate.
Qed.

Definition scale_check : bool :=
  forallb (fun u => match named u with Some n => negb (Qc_eqb (n_scale n) 0) | None => true end) nodes.
Lemma checked_scales : scale_check = true -> forall u, In u nodes -> scaled_unit named u.
Proof.
  intros H u I n E. unfold scale_check in H. rewrite forallb_forall in H. apply H in I. rewrite E in I.
  intro Z. rewrite Z in I. discriminate.
Qed.

Definition is_named (s : str) (n : named_unit) : bool :=
  match fidentify t s with Some m => named_eqb m n | None => false end.
Definition name_check (except : str) : bool :=
  forallb (fun n => forallb (fun s => if feq s except then true else is_named s n)
                      (build_unit_aliases (n_prefix n) (n_base n))) (all_of ps us).
Lemma checked_names except : name_check except = true ->
  forall p u s, In p ps -> In u us -> In s (build_unit_aliases p u) -> s <> except -> named s = Some (mkNamed p u).
Proof.
  intros H p u s P U S N. unfold name_check in H. rewrite forallb_forall in H.
  specialize (H (mkNamed p u)). rewrite forallb_forall in H.
  assert (In (mkNamed p u) (all_of ps us)) as I by (now apply in_all).
  specialize (H I s S). cbn beta in H. rewrite feq_eqb in H. destruct (str_eqb_spec s except); [contradiction|].
  unfold is_named in H. rewrite fidentify_identify in H. destruct (named s) as [m|]; [|discriminate].
  destruct (named_eqb_spec m (mkNamed p u)); congruence.
Qed.

(** A property of every named unit. *)
Lemma checked_all (P : named_unit -> bool) : forallb P (all_of ps us) = true ->
  forall s n, named s = Some n -> P n = true.
Proof. intros H s n I. rewrite forallb_forall in H. apply H. now apply known_in in I. Qed.

End Checks.

(** ** The module's tables *)

Lemma named_units_computed : named_units = unit_table prefixes units.
Proof. vm_compute. reflexivity. Qed.
Lemma identified_fun : identified = identify named_units.
Proof. reflexivity. Qed.
Definition the_size : str -> Qc := size_by named_units.

Lemma nodes_enumerate (g : connections) :
  enumerates g (nodup str_eq_dec (concat (map (fun p => [fst (fst p); snd (fst p)]) g))).
Proof.
  intro x. rewrite nodup_In. unfold endpoint. split.
  - intro I. apply in_concat in I as [y [I J]]. apply in_map_iff in I as [[[u v] w] [<- I]]. simpl in J.
    exists u, v, w. destruct J as [<-|[<-|[]]]; auto.
  - intros [u [v [w [I J]]]]. apply in_concat. exists [u; v]. split.
    + apply in_map_iff. exists ((u, v), w). auto.
    + destruct J as [->| ->]; simpl; auto.
Qed.
Lemma the_nodes_enumerate : enumerates the_connections the_nodes.
Proof. exact (nodes_enumerate the_connections). Qed.

Lemma table_checked : table_check named_units the_connections = true.
Proof. vm_compute. reflexivity. Qed.
Lemma alias_checked : alias_check prefixes units named_units the_nodes = true.
Proof. vm_compute. reflexivity. Qed.
Lemma weight_checked : weight_check the_connections = true.
Proof. vm_compute. reflexivity. Qed.
Lemma scale_checked : scale_check named_units the_nodes = true.
Proof. vm_compute. reflexivity. Qed.
Lemma name_checked : name_check prefixes units named_units (lit "cd") = true.
Proof. vm_compute. reflexivity. Qed.

Lemma the_sizes : sizes identified the_connections the_size.
Proof.
  exact (checked_sizes prefixes units named_units the_connections the_nodes named_units_computed the_nodes_enumerate
           table_checked alias_checked).
Qed.
Lemma the_weights : weighted the_connections.
Proof. exact (checked_weights the_connections weight_checked). Qed.
Lemma the_nodes_scaled : forall u, In u the_nodes -> scaled_unit identified u.
Proof. exact (checked_scales named_units the_nodes scale_checked). Qed.
Lemma names_ok : forall p u s, In p prefixes -> In u units -> In s (build_unit_aliases p u) -> s <> lit "cd" ->
  identified s = Some (mkNamed p u).
Proof. exact (checked_names prefixes units named_units (lit "cd") name_checked). Qed.

(** * Independence of the order of [SYSTEMS] *)

Definition same_result (a b : res (option (list term))) : bool :=
  match a, b with
  | Ok (Some x), Ok (Some y) => Nat.eqb (length x) (length y) && all2 term_same x y
  | Ok None, Ok None => true
  | Err KeyError, Err KeyError => true
  | _, _ => false
  end.
Lemma term_same_eq s t : term_same s t = true -> s = t.
Proof.
  unfold term_same. destruct s as [a b c], t as [a' b' c']. simpl.
  destruct (Qc_eqb_spec a a'); [|discriminate]. destruct (str_eqb_spec b b'); [|discriminate].
  destruct (Qc_eqb_spec c c'); [|discriminate]. congruence.
Qed.
Lemma same_result_eq a b : same_result a b = true -> a = b.
Proof.
  destruct a as [[x|]|e], b as [[y|]|e']; simpl; try discriminate; try (destruct e; discriminate); auto.
  - intro H. apply andb_true_iff in H as [_ H]. apply all2_Forall2 in H. do 2 f_equal.
    induction H; auto. f_equal; auto. now apply term_same_eq.
  - destruct e, e'; congruence || discriminate.
Qed.

Definition order_check (d : list system -> named_unit -> res (option (list term))) (n : named_unit) : bool :=
  same_result (d [Mks; Cgs] n) (d [Cgs; Mks] n).
Lemma order_check_ok d n : order_check d n = true -> d [Mks; Cgs] n = d [Cgs; Mks] n.
Proof. apply same_result_eq. Qed.
Lemma order_checked : forallb (order_check m_decomposed) (all_of prefixes units) = true.
Proof. vm_compute. reflexivity. Qed.
Lemma decomposed_order s n : identified s = Some n -> m_decomposed [Mks; Cgs] n = m_decomposed [Cgs; Mks] n.
Proof.
  intro I. rewrite identified_fun in I. apply (order_check_ok m_decomposed n).
  exact (checked_all prefixes units named_units named_units_computed (order_check m_decomposed) order_checked s n I).
Qed.

(** * Units with a dimension *)

Definition parses F (s : str) : bool := match expression_of_str F false s with Ok _ => true | Err _ => false end.
Lemma parses_ok F s : parses F s = true -> exists x, expression_of_str F false s = Ok x.
Proof. unfold parses. destruct (expression_of_str F false s); [eauto|discriminate]. Qed.

(** Every row of [CANONICAL] has well-formed dimensions, and every unit but
    [except] has a row. *)
Definition rows_check F (canonical : list canonical_row) : bool :=
  parses F [] && forallb (fun r => parses F (fst (snd (snd r))) && parses F (snd (snd (snd r)))) canonical.
Definition quantity_check (canonical : list canonical_row) (except : str) (u : base_unit) : bool :=
  match sd_get canonical (b_quantity u) with
  | Some _ => negb (str_eqb (b_symbol u) except)
  | None => str_eqb (b_symbol u) except
  end.

Lemma sd_get_pair {A} (d : list (str * A)) k v : sd_get d k = Some v -> exists k', In (k', v) d.
Proof.
  induction d as [|[k' v'] d IH]; simpl; [discriminate|]. destruct (str_eqb k k').
  - intro H. injection H as ->. eauto.
  - intro H. apply IH in H as [k2 H]. eauto.
Qed.

Lemma dimensions_row F named canonical n row : rows_check F canonical = true ->
  sd_get canonical (n_quantity n) = Some row -> exists d, dimensions F named canonical n = Ok d
    /\ exists sys, expression_of_str F false (pick sys (snd row)) = Ok (pick sys d).
Proof.
  intros C R. unfold rows_check in C. apply andb_true_iff in C as [C0 C].
  apply sd_get_pair in R as K. destruct K as [k K]. rewrite forallb_forall in C. apply C in K. simpl in K.
  apply andb_true_iff in K as [K1 K2].
  apply parses_ok in C0 as [x0 C0]. apply parses_ok in K1 as [x1 K1]. apply parses_ok in K2 as [x2 K2].
  assert (B : forall sys, exists b, is_defined_in named canonical n sys = Ok b).
  { intro sys. unfold is_defined_in, is_fundamental_in, canonical_unit. rewrite R. destruct row. cbn [bind].
    repeat (match goal with |- context [if ?b then _ else _] => destruct b end; cbn [bind]); eauto. }
  destruct (B Mks) as [m M], (B Cgs) as [c G]. unfold dimensions, dimension_strings. rewrite M, G, R.
  destruct row as [cu [d1 d2]]. cbn [fst snd] in *. cbn [bind].
  destruct m, c; cbn [Bool.eqb bind fst snd];
  rewrite ?C0, ?K1, ?K2; cbn [bind]; rewrite ?C0, ?K1, ?K2; cbn [bind];
  (eexists; split; [reflexivity|]); solve [exists Mks; exact K1 | exists Cgs; exact K2].
Qed.
Lemma dimensions_no_row F named canonical n : sd_get canonical (n_quantity n) = None ->
  dimensions F named canonical n = Err KeyError.
Proof.
  intro R. unfold dimensions, is_defined_in, is_fundamental_in, canonical_unit. now rewrite R.
Qed.

Lemma rows_checked : rows_check F64 the_canonical = true.
Proof. vm_compute. reflexivity. Qed.
Lemma quantities_checked : forallb (quantity_check the_canonical (lit "lx")) units = true.
Proof. vm_compute. reflexivity. Qed.

Lemma dimensions_checked F named canonical ps us t s n except :
  t = unit_table ps us -> rows_check F canonical = true -> forallb (quantity_check canonical except) us = true ->
  identify t s = Some n ->
  (b_symbol (n_base n) <> except -> exists row d, sd_get canonical (n_quantity n) = Some row
     /\ dimensions F named canonical n = Ok d
     /\ exists sys, expression_of_str F false (pick sys (snd row)) = Ok (pick sys d))
  /\ (b_symbol (n_base n) = except -> dimensions F named canonical n = Err KeyError).
Proof.
  intros -> R Q I. apply identify_sound in I as [_ [I _]]. rewrite forallb_forall in Q. apply Q in I.
  unfold quantity_check in I. destruct (sd_get canonical (b_quantity (n_base n))) as [row|] eqn:K.
  - split; [intros _; exists row; destruct (dimensions_row F named canonical n row R K) as [d D]; exists d; auto|]. intro E. rewrite E, str_eqb_refl in I. discriminate.
  - apply str_eqb_iff in I. split; [contradiction|]. intros _. now apply dimensions_no_row.
Qed.
Lemma dimensions_known s n : identified s = Some n ->
  (b_symbol (n_base n) <> lit "lx" -> exists row d, sd_get the_canonical (n_quantity n) = Some row
     /\ m_dimensions n = Ok d
     /\ exists sys, expression_of_str F64 false (pick sys (snd row)) = Ok (pick sys d))
  /\ (b_symbol (n_base n) = lit "lx" -> m_dimensions n = Err KeyError).
Proof.
  intro I. rewrite identified_fun in I.
  exact (dimensions_checked F64 identified the_canonical prefixes units named_units s n (lit "lx")
           named_units_computed rows_checked quantities_checked I).
Qed.

(** * Termination of a whole conversion *)

Lemma halts_then {A B} (m : res A) (f : A -> res B) : halts m -> (forall a, halts (f a)) -> halts (bind m f).
Proof. intros H G. apply halts_bind; auto. Qed.

Section Halts.
Variable F : flops.
Variable named : str -> option named_unit.
Variable canonical : list canonical_row.
Variable bases : list (str * str).
Variable qs : list (str * qdef).
Variable l : list (edge * weight).
Notation conns := (connect l).
Variable nodes : list str.
Hypothesis Hn : enumerates conns nodes.

Lemma halts_reduce ts : halts (reduce ts).
Proof. unfold reduce. destruct (map _ _); [discriminate|]. destruct (sort_by _ _); [discriminate|]. destruct (Qc_eqb _ _); discriminate. Qed.
Lemma halts_expr s : halts (expression_of_str F false s).
Proof. unfold expression_of_str. apply halts_then; [apply parse_halts|]. intros. apply halts_reduce. Qed.
Lemma halts_terms ts : halts (expression_of_terms F ts).
Proof. unfold expression_of_terms. apply halts_then; [apply parse_halts|]. intros. apply halts_reduce. Qed.
Lemma halts_map {A B} (f : A -> res B) L : (forall a, halts (f a)) -> halts (mapM f L).
Proof. intro H. apply mapM_halts. apply Forall_forall. auto. Qed.
Lemma halts_div x y : halts (expr_div F x y).
Proof.
  unfold expr_div. apply halts_then; [apply halts_map; intro; apply halts_term_pow|]. intros.
  apply halts_then; [apply halts_reduce|]. intros. apply halts_terms.
Qed.
Lemma halts_canonical s q : halts (canonical_unit canonical s q).
Proof. unfold canonical_unit. destruct (sd_get _ _) as [[a b]|]; discriminate. Qed.
Lemma halts_fundamental n s : halts (is_fundamental_in canonical n s).
Proof. unfold is_fundamental_in. apply halts_then; [apply halts_canonical|]. discriminate. Qed.
Lemma halts_defined n s : halts (is_defined_in named canonical n s).
Proof.
  unfold is_defined_in. apply halts_then; [apply halts_fundamental|]. intros [|]; [discriminate|].
  apply halts_then; [apply halts_canonical|]. discriminate.
Qed.
Lemma halts_dimensions n : halts (dimensions F named canonical n).
Proof.
  unfold dimensions. do 2 (apply halts_then; [apply halts_defined|]; intro).
  apply halts_then; [unfold dimension_strings; destruct (sd_get _ _) as [[? ?]|]; discriminate|]. intro.
  do 2 (apply halts_then; [apply halts_expr|]; intro). discriminate.
Qed.
Lemma halts_resolve_system n s : halts (resolve_system F named canonical n s).
Proof.
  unfold resolve_system. destruct s; [discriminate|]. do 2 (apply halts_then; [apply halts_fundamental|]; intro).
  destruct (_ && _); [discriminate|]. destruct (_ && _); [discriminate|]. apply halts_then; [apply halts_dimensions|].
  intro. destruct (expr_eqb _ _ _); discriminate.
Qed.
Lemma halts_term_new c b e : halts (term_new c b e).
Proof. unfold term_new. destruct (valid_base b); discriminate. Qed.
Lemma halts_reduce_named n s : halts (reduce_named F named canonical bases qs n s).
Proof.
  unfold reduce_named. apply halts_then; [apply halts_resolve_system|]. intro s'.
  apply halts_then; [apply halts_defined|]. intros [|]; [|discriminate]. cbn [negb].
  apply halts_then; [apply halts_dimensions|]. intro ds.
  assert (halts (do ts <- base_terms bases qs s' (pick s' ds); do e <- expression_of_terms F ts;
                 Ok (Some (mkReduction (unit_terms e) (n_scale n) s')))) as B.
  { apply halts_then.
    - unfold base_terms. apply halts_map. intro t. destruct (sd_get bases (base t)) as [q|]; [|discriminate].
      destruct (sd_get qs q) as [[? ?|?]|]; try discriminate. apply halts_term_new.
    - intro. apply halts_then; [apply halts_terms|]. discriminate. }
  destruct (pick s' ds) as [|t [|? ?]]; auto.
  apply halts_then; [apply halts_canonical|]. intro c. destruct (str_eqb _ _).
  - apply halts_then; [apply halts_term_new|]. intro. apply halts_then; [apply halts_terms|]. discriminate.
  - apply halts_then; [apply halts_term_new|]. intro. destruct (named c); [|discriminate].
    apply halts_then; [apply ratio_no_fuel|]. intro. apply halts_then; [apply halts_terms|]. discriminate.
Qed.

Lemma halts_strings ch u0 u1 : halts (fst (convert_strings named conns nodes (search_fuel nodes) ch u0 u1)).
Proof. now apply conv_halts_fuel. Qed.

Lemma halts_like u0 e L : forall ch, halts (fst (try_like F named conns nodes ch u0 e L)).
Proof.
  induction L as [|t L IH]; intro ch; [discriminate|]. cbn [try_like]. assert (H := halts_strings ch u0 (base t)).
  destruct (convert_strings named conns nodes (search_fuel nodes) ch u0 (base t)) as [[[c|]|x] c2]; auto.
  - cbn [fst]. apply halts_then; [apply halts_frac_pow|]. discriminate.
  - intro E. apply H. cbn [fst] in *. congruence.
Qed.
Lemma halts_match ch t L : halts (fst (match_terms F named canonical conns nodes ch t L)).
Proof.
  unfold match_terms. assert (H := halts_like (base t) (expo t) (filter (fun t0 => negb (term_eqb F t0 t) && Qc_eqb (expo t0) (- expo t)%Qc) L) ch).
  destruct (try_like F named conns nodes ch (base t) (expo t) _) as [[[c|]|x] c2]; auto.
  cbn [fst]. destruct (named (base t)); [|discriminate]. apply halts_then; [apply halts_dimensions|]. intro.
  apply halts_then; [apply halts_expr|]. discriminate.
Qed.
Lemma halts_go L : forall ch m u f, halts (fst (resolve_go F named canonical conns nodes ch L m u f)).
Proof.
  induction L as [|t L IH]; intros ch m u f; [discriminate|]. cbn [resolve_go]. destruct (existsb _ _); auto.
  assert (H := halts_match ch t u).
  destruct (match_terms F named canonical conns nodes ch t u) as [[[[v x]|]|e] c2]; auto.
  - destruct (term_eqb F x t); auto.
  - intro E. apply H. cbn [fst] in *. congruence.
Qed.
Lemma halts_resolve ch ts : halts (fst (resolve_terms F named canonical conns nodes ch ts)).
Proof.
  unfold resolve_terms. destruct (Nat.leb _ _); [discriminate|]. assert (H := halts_go ts ch [] ts 1%Qc).
  destruct (resolve_go F named canonical conns nodes ch ts [] ts 1%Qc) as [[[f [|x r]]|e] c2]; try discriminate.
  intro E. apply H. cbn [fst] in *. congruence.
Qed.
Lemma halts_by_dimensions ch ts : halts (fst (convert_by_dimensions F named canonical bases qs conns nodes ch ts)).
Proof.
  unfold convert_by_dimensions.
  assert (halts (do ts0 <- dimension_terms F named canonical bases qs ts; do e <- expression_of_terms F ts0;
      do one <- expression_of_str F false (lit "1"); Ok (ts0, expr_eqb F e one))) as H.
  { apply halts_then.
    - unfold dimension_terms. apply halts_then; [|discriminate]. apply halts_map. intro t.
      destruct (named (base t)); [|discriminate]. apply halts_then; [apply halts_reduce_named|]. intros [r|]; [|discriminate].
      apply halts_map. intro. apply halts_then; [apply halts_frac_pow|]. intro. apply halts_term_new.
    - intro. apply halts_then; [apply halts_terms|]. intro. apply halts_then; [apply halts_expr|]. discriminate. }
  destruct (bind (dimension_terms F named canonical bases qs ts) _) as [[x [|]]|e]; [discriminate|apply halts_resolve|].
  intro E. apply H. cbn [fst] in *. congruence.
Qed.
Lemma convert_halts u0 u1 : halts (convert F named canonical bases qs conns nodes u0 u1).
Proof.
  unfold convert. apply halts_then; [apply halts_strings|]. intros [f|]; [discriminate|].
  unfold convert_expressions. do 2 (apply halts_then; [apply halts_expr|]; intro).
  destruct (expr_eqb _ _ _); [discriminate|]. apply halts_then; [apply halts_div|]. intro q.
  set (ts := filter _ q). assert (H := halts_resolve [] ts).
  destruct (resolve_terms F named canonical conns nodes [] ts) as [r ch]. cbn [fst] in H.
  apply halts_then; auto. intro x. destruct (truthy_q x); [discriminate|].
  apply halts_then; [apply halts_by_dimensions|]. intro y. destruct (truthy_q y); discriminate.
Qed.
End Halts.
