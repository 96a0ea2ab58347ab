(** Properties of the text of objects and of collections of values. *)

From Coq Require Import String Ascii List Bool ZArith Lia Permutation.
From Verif Require Import Py PyFacts PyDict MetricModel AliasedSpec DisplayModel DisplaySpec DisplayProofs.
Import ListNotations.
Open Scope list_scope.
Open Scope nat_scope.
Open Scope py_scope.

Ltac texts := repeat match goal with H : _ = Some _ |- _ => progress (cbn in H) end.
Ltac shown := texts; cbn; repeat (match goal with H : _ = Some _ |- _ => rewrite H end; cbn); rewrite <- ?app_assoc; cbn; reflexivity.

(** ** C200 The text of a quantity shows its value, its unit and its name *)

(** Whatever the texts of the attributes are; [class] is the text before the
    parenthesis. *)
Theorem C200_unnamed : forall class attrs data unit names,
  attrs (lit "data") = Some data -> attrs (lit "unit") = Some unit -> names = [lit ""] ->
  show measurable_display attrs = Ok (data ++ lit " [" ++ unit ++ lit "]")
  /\ show (physical_display names) attrs = Ok (data ++ lit " [" ++ unit ++ lit "]")
  /\ show_repr class (physical_display names) attrs = Ok (class ++ lit "(" ++ data ++ lit ", unit='" ++ unit ++ lit "')").
Proof.
  intros class attrs data unit names D U ->. split; [|split].
  - shown.
  - shown.
  - texts. unfold show_repr, format_map. cbn. rewrite D. cbn. rewrite U. cbn. destruct data; cbn; do 4 (rewrite <- ?app_assoc; cbn); reflexivity.
Qed.
Print Assumptions C200_unnamed.

(** [name] is the text of the name, which lists the names in quotes. *)
Theorem C200_named : forall class mkset attrs data unit names,
  attrs (lit "data") = Some data -> attrs (lit "unit") = Some unit ->
  attrs (lit "name") = Some (group_text mkset names) -> (forall n, names = [n] -> n <> []) ->
  let name := group_text mkset names in
  show (physical_display names) attrs = Ok (lit "'" ++ name ++ lit "': " ++ data ++ lit " [" ++ unit ++ lit "]")
  /\ show_repr class (physical_display names) attrs
     = Ok (class ++ lit "(" ++ data ++ lit ", unit='" ++ unit ++ lit "', name='" ++ name ++ lit "')").
Proof.
  intros class mkset attrs data unit names D U M N name. fold name in M.
  assert (H : has_name names = true).
  { unfold has_name. destruct names as [|n [|? ?]]; auto. destruct (str_eqb_spec n []) as [E|E]; [|reflexivity]. destruct (N n eq_refl E). }
  unfold physical_display. rewrite H. clearbody name. clear H N. split.
  - shown.
  - texts. unfold show_repr, format_map.
    match goal with |- context [ds_text (d_repr ?d)] =>
      change (ds_text (d_repr d)) with (lit "{data}, unit='{unit}', name='{name}'") end.
    cbn. rewrite D. cbn. rewrite U. cbn. rewrite M. cbn. destruct data; cbn; do 4 (rewrite <- ?app_assoc; cbn); reflexivity.
Qed.
Print Assumptions C200_named.

Theorem C200_name : forall mkset names, set_order mkset ->
  exists l, group_text mkset names = join (lit " = ") l /\ NoDup l
  /\ forall t, In t l <-> exists n, In n names /\ t = lit "'" ++ n ++ lit "'".
Proof.
  intros mkset names o. exists (mkset (map quoted names)). destruct (o (map quoted names)) as (N & I).
  split; [reflexivity|]. split; [exact N|]. intro t. rewrite I, in_map_iff. split; intros (n & A & B); exists n; auto.
Qed.
Print Assumptions C200_name.

(** An array shows the type of its data in place of the data. *)
Theorem C200_array : forall mkset attrs kind unit names,
  attrs (lit "_get_data_type") = Some kind -> attrs (lit "unit") = Some unit ->
  attrs (lit "name") = Some (group_text mkset names) -> (forall n, names = [n] -> n <> []) ->
  show (array_display names) attrs
  = Ok (lit "'" ++ group_text mkset names ++ lit "': " ++ kind ++ lit " [" ++ unit ++ lit "]").
Proof.
  intros mkset attrs kind unit names D U M N.
  assert (H : has_name names = true).
  { unfold has_name. destruct names as [|n [|? ?]]; auto. destruct (str_eqb_spec n []) as [E|E]; [|reflexivity]. destruct (N n eq_refl E). }
  revert M. generalize (group_text mkset names). intros name M. unfold array_display, physical_display. rewrite H. shown.
Qed.
Print Assumptions C200_array.

Definition sample (s : str) : option str :=
  if str_eqb s (lit "data") then Some (lit "3.0") else if str_eqb s (lit "unit") then Some (lit "{m}")
  else if str_eqb s (lit "name") then Some (group_text (fun l => l) [lit "V"; lit "Vr"])
  else if str_eqb s (lit "value") then Some (lit "on") else None.
Example C200_example : show (physical_display [lit "V"; lit "Vr"]) sample = Ok (lit "''V' = 'Vr'': 3.0 [{m}]")
  /\ show_repr (lit "core.physical.Scalar") (physical_display [lit ""]) sample = Ok (lit "core.physical.Scalar(3.0, unit='{m}')").
Proof. split; reflexivity. Qed.

(** ** C201 The text of an option shows its value, and its name if it has one *)

Theorem C201_named_partial : forall class mkset attrs value names,
  attrs (lit "value") = Some value -> attrs (lit "name") = Some (group_text mkset names) -> names <> [] ->
  show (option_display names) attrs = Ok (lit "'" ++ group_text mkset names ++ lit "':  " ++ value)
  /\ (value <> [] -> show_repr class (option_display names) attrs
     = Ok (class ++ lit "(" ++ value ++ lit ", '" ++ group_text mkset names ++ lit "')")).
Proof.
  intros class mkset attrs value names V M N. revert M. generalize (group_text mkset names). intros name M.
  destruct names as [|n names]; [congruence|]. cbn [option_display]. split.
  - texts. cbn. rewrite M. cbn. rewrite V. cbn. rewrite <- ?app_assoc. cbn. rewrite ?app_nil_r. reflexivity.
  - intro NV. texts. unfold show_repr, format_map.
    match goal with |- context [ds_text (d_repr ?d)] => change (ds_text (d_repr d)) with (lit "{value}, '{name}'") end.
    cbn. rewrite V. cbn. rewrite M. cbn. destruct value; [congruence|]. cbn. rewrite <- ?app_assoc. cbn. rewrite <- ?app_assoc. reflexivity.
Qed.
Print Assumptions C201_named_partial.

(** An option created without a name has the names [''] (constant.py 62). *)
Theorem C201_refuted : forall attrs value, attrs (lit "value") = Some value ->
  attrs (lit "name") = Some (group_text (fun l => l) [lit ""]) ->
  show (option_display [lit ""]) attrs = Ok (lit "'''':  " ++ value).
Proof. intros attrs value V M. texts. cbn. rewrite M. cbn. rewrite V. cbn. rewrite ?app_nil_r. reflexivity. Qed.
Print Assumptions C201_refuted.

Example C201_example : show (option_display [lit "mode"]) sample = Ok (lit "''V' = 'Vr'':  on").
Proof. reflexivity. Qed.

(** ** C202 Parts of a display are edited like a list *)

Theorem C202_parts_partial : forall d l x r, plain_separator (ds_sep d) ->
  parts (ds_sep d) (l ++ x :: r) (ds_text d) -> ds_get d (Z.of_nat (length l)) = Ok x.
Proof. intros d l x r P H. unfold ds_get. rewrite (split_parts _ _ _ P H). apply at_index_app. Qed.
Print Assumptions C202_parts_partial.

(** Negative positions count from the end; there is nothing beyond the ends. *)
Theorem C202_positions_partial : forall d l x r i, plain_separator (ds_sep d) ->
  parts (ds_sep d) (l ++ x :: r) (ds_text d) ->
  ds_get d (- Z.of_nat (S (length r))) = Ok x
  /\ ((i < - Z.of_nat (length (l ++ x :: r)) \/ Z.of_nat (length (l ++ x :: r)) <= i)%Z -> ds_get d i = Err IndexError).
Proof.
  intros d l x r i P H. unfold ds_get. rewrite (split_parts _ _ _ P H). split; [apply at_index_end|apply at_index_out].
Qed.
Print Assumptions C202_positions_partial.

Theorem C202_insert_partial : forall d l r x, plain_separator (ds_sep d) ->
  parts (ds_sep d) (l ++ r) (ds_text d) -> ~ occurs (ds_sep d) x ->
  let d' := ds_insert d (Z.of_nat (length l)) x in
  ds_sep d' = ds_sep d /\ parts (ds_sep d) (l ++ x :: r) (ds_text d').
Proof.
  intros d l r x P H N d'. split; [reflexivity|]. unfold d', ds_insert. cbn [ds_text].
  rewrite (split_parts _ _ _ P H), insert_at_app. apply join_parts; [now destruct l|].
  apply parts_join in H as (_ & F & _). apply Forall_app in F as (F1 & F2). apply Forall_app. split; [exact F1|]. now constructor.
Qed.
Print Assumptions C202_insert_partial.

Theorem C202_insert_end_partial : forall d l r x, plain_separator (ds_sep d) -> r <> [] ->
  parts (ds_sep d) (l ++ r) (ds_text d) -> ~ occurs (ds_sep d) x ->
  parts (ds_sep d) (l ++ x :: r) (ds_text (ds_insert d (- Z.of_nat (length r)) x)).
Proof.
  intros d l r x P R H N. unfold ds_insert. cbn [ds_text].
  rewrite (split_parts _ _ _ P H), insert_at_end by exact R. apply join_parts; [now destruct l|].
  apply parts_join in H as (_ & F & _). apply Forall_app in F as (F1 & F2). apply Forall_app. split; [exact F1|]. now constructor.
Qed.
Print Assumptions C202_insert_end_partial.

Theorem C202_append_partial : forall d l x, plain_separator (ds_sep d) ->
  parts (ds_sep d) l (ds_text d) -> ~ occurs (ds_sep d) x ->
  ds_sep (ds_append d x) = ds_sep d /\ parts (ds_sep d) (l ++ [x]) (ds_text (ds_append d x)).
Proof.
  intros d l x P H N. split; [reflexivity|]. unfold ds_append. cbn [ds_text]. rewrite (split_parts _ _ _ P H).
  apply join_parts; [now destruct l|]. apply parts_join in H as (_ & F & _). apply Forall_app. split; [exact F|]. now constructor.
Qed.
Print Assumptions C202_append_partial.

(** The separators used by quantities; every text has parts. *)
Theorem C202_separators : plain_separator (lit " ") /\ plain_separator (lit ", ")
  /\ forall sep l, l <> [] -> Forall (fun p => ~ occurs sep p) l -> parts sep l (join sep l).
Proof.
  assert (G : forall sep : str, match sep with [a] => True | [a; b] => a <> b | _ => False end -> plain_separator sep).
  { intros [|a [|b [|? ?]]] S; try contradiction.
    - split; [discriminate|]. intros [|x u] v w E E'; [now left|]. right. injection E as _ E. symmetry in E. now apply app_eq_nil in E.
    - split; [discriminate|]. intros [|x [|y u]] v w E E'; [now left| |right; injection E as _ _ E; symmetry in E; now apply app_eq_nil in E].
      injection E as <- E. destruct w as [|p [|q w]]; cbn [app] in E'; [discriminate| |injection E' as _ _ E'; destruct w; discriminate].
      injection E' as _ E'. congruence. }
  split; [apply G; exact I|]. split; [apply G; discriminate|]. intros sep l. apply join_parts.
Qed.
Print Assumptions C202_separators.

(** An empty display counts as one empty part, and a part that contains the
    separator becomes two. *)
Theorem C202_refuted :
  ds_text (ds_append (ds_new []) (lit "{data}")) = lit " {data}"
  /\ ds_get (ds_insert (ds_new (lit "{value}")) 0 (lit "'{name}': ")) 1 = Ok [].
Proof. split; reflexivity. Qed.
Print Assumptions C202_refuted.

Example C202_example : parts (lit " ") ([] ++ [lit "{data}"; lit "[{unit}]"]) (ds_text (d_str measurable_display))
  /\ ~ occurs (lit " ") (lit "'{name}':").
Proof.
  assert (O : forall c t, ~ In c t -> ~ occurs [c] t).
  { intros c t N (a & b & ->). apply N, in_or_app. right. now left. }
  split.
  - change (ds_text (d_str measurable_display)) with (lit "{data}" ++ lit " " ++ lit "[{unit}]"). constructor; [|constructor];
    apply O; cbn; intuition discriminate.
  - apply O. cbn. intuition discriminate.
Qed.

(** ** C203 Collections of independent members are compared without their order *)

(** For every total order [leb] of values and the equality [eqb]. *)
Theorem C203_equality : forall X (leb eqb : X -> X -> bool),
  (forall x y, leb x y = true \/ leb y x = true) ->
  (forall x y z, leb x y = true -> leb y z = true -> leb x z = true) ->
  (forall x y, leb x y = true -> leb y x = true -> x = y) ->
  (forall x y, eqb x y = true <-> x = y) ->
  forall l l', exists b, whole_eq leb eqb l (AIter l') = Some b /\ (b = true <-> Permutation l l').
Proof. exact (fun X leb eqb T R A E l l' => whole_eq_spec leb T R A eqb E l l'). Qed.
Print Assumptions C203_equality.

(** A single string or object counts as one member, and nothing as none. *)
Theorem C203_single : forall X (leb eqb : X -> X -> bool),
  (forall x y, leb x y = true \/ leb y x = true) ->
  (forall x y z, leb x y = true -> leb y z = true -> leb x z = true) ->
  (forall x y, leb x y = true -> leb y x = true -> x = y) ->
  (forall x y, eqb x y = true <-> x = y) ->
  forall a l, exists b, whole_eq leb eqb (whole a) (AIter l) = Some b
  /\ (b = true <-> match a with ANone => l = [] | AStr x | AOne x => l = [x] | AIter m => Permutation m l end).
Proof.
  intros X leb eqb T R A E a l. destruct (whole_eq_spec leb T R A eqb E (whole a) l) as (b & H & I).
  exists b. split; [exact H|]. rewrite I. destruct a; cbn; [| | |reflexivity].
  - split; [apply Permutation_nil|now intros ->].
  - split; [apply Permutation_length_1_inv|now intros ->].
  - split; [apply Permutation_length_1_inv|now intros ->].
Qed.
Print Assumptions C203_single.

Example C203_example : whole_eq Nat.leb Nat.eqb [2; 1; 2] (AIter [1; 2; 2]) = Some true
  /\ whole_eq Nat.leb Nat.eqb [2; 1] (AIter [1; 2; 2]) = Some false.
Proof. split; reflexivity. Qed.

(** ** C204 Replacing several characters replaces each character of the text once *)

Theorem C204_disjoint_partial : forall l : list (ascii * str),
  Forall (fun p => is_space (fst p) = false) l -> NoDup (map fst l) ->
  (forall p c, In p l -> In c (snd p) -> ~ In c (map fst l)) ->
  forall s, substituted (fun c => match find (fun p => Ascii.eqb (fst p) c) l with Some p => snd p | None => [c] end)
              s (batch_replace s (map (fun p => ([fst p], snd p)) l)).
Proof.
  intros l F N D s. pose proof (batch_chars l F N D s) as E. unfold as_texts in E. rewrite E. clear E.
  induction s as [|c s IH]; [reflexivity|]. cbn [map concat substituted]. eexists. split; [reflexivity|exact IH].
Qed.
Print Assumptions C204_disjoint_partial.

(** Otherwise a replacement may be replaced again. *)
Theorem C204_refuted : batch_replace (lit "ab") [(lit "a", lit "b"); (lit "b", lit "a")] = lit "aa".
Proof. reflexivity. Qed.
Print Assumptions C204_refuted.

Example C204_example : batch_replace (lit "km/s^2") [(lit "/", lit "_per_"); (lit "^", lit "**")] = lit "km_per_s**2".
Proof. reflexivity. Qed.

(** ** C205 Values of a class attribute are collected once per class that defines it *)

Theorem C205_all_define_partial : forall X (own : str -> option (list X)) mro c,
  (forall d, In d (mro c) -> exists l, mro d = d :: l /\ (own d = None -> forall e, In e l -> own e = None)) ->
  class_attribute own mro c
  = concat (map (fun d => match own d with Some v => v | None => [] end) (rev (mro c))).
Proof.
  intros X own mro c H. unfold class_attribute. f_equal. apply map_ext_in. intros d I. apply in_rev in I.
  destruct (H d I) as (l & E & N). unfold getattr_class. rewrite E. destruct (own d) as [v|] eqn:O.
  - now rewrite (first_own_head own d l v O).
  - cbn [first_own]. rewrite O. now rewrite first_own_none by auto.
Qed.
Print Assumptions C205_all_define_partial.

(** A class that does not define it repeats the values it inherits. *)
Theorem C205_refuted : exists (own : str -> option (list nat)) mro c,
  class_attribute own mro c = [1; 1] /\ (forall d, In d (mro c) -> own d = Some [1] \/ own d = None)
  /\ length (filter (fun d => match own d with Some _ => true | None => false end) (mro c)) = 1.
Proof.
  exists (fun d => if str_eqb d (lit "A") then Some [1] else None),
    (fun d => if str_eqb d (lit "A") then [lit "A"] else [lit "B"; lit "A"]), (lit "B").
  split; [reflexivity|]. split; [|reflexivity]. intros d [<-|[<-|[]]]; [now right|now left].
Qed.
Print Assumptions C205_refuted.

Example C205_example : class_attribute (fun d => if str_eqb d (lit "A") then Some [1; 2] else Some [3])
  (fun d => if str_eqb d (lit "A") then [lit "A"] else [lit "B"; lit "A"]) (lit "B") = [1; 2; 3].
Proof. reflexivity. Qed.

(** ** C319 Texts of objects are templates with the attributes filled in *)

(** What a segment of the template shows: a field shows the text of the
    attribute that is registered under its name. *)
Definition shows (d : display) (attrs : str -> option str) (x : segment) (v : str) : Prop :=
  match x with
  | Char c => v = [c]
  | Field n => exists a, d_get str_eqb (d_attrs d) n = Some a /\ attrs a = Some v
  end.
Lemma shows_fills d attrs l vs : Forall2 (shows d attrs) l vs -> Forall2 (fills (display_get d attrs)) l vs.
Proof.
  induction 1 as [|x v l vs H F IH]; constructor; [|exact IH]. destruct x as [c|n]; [exact H|].
  destruct H as (a & A & B). cbn. unfold display_get. now rewrite A, B.
Qed.

Theorem C319_text : forall class d attrs l vs, template (ds_text (d_str d)) l -> Forall2 (shows d attrs) l vs ->
  show d attrs = Ok (concat vs)
  /\ forall l' vs', template (ds_text (d_repr d)) l' -> Forall2 (shows d attrs) l' vs' ->
     show_repr class d attrs = Ok (class ++ lit "(" ++ (if str_eqb (concat vs') [] then concat vs else concat vs') ++ lit ")").
Proof.
  intros class d attrs l vs T F.
  assert (S : show d attrs = Ok (concat vs)).
  { unfold show. rewrite <- (app_nil_r (ds_text _)), (format_prefix _ _ _ T vs [] (shows_fills _ _ _ _ F)). cbn. now rewrite app_nil_r. }
  split; [exact S|]. intros l' vs' T' F'. unfold show_repr.
  rewrite <- (app_nil_r (ds_text (d_repr d))), (format_prefix _ _ _ T' vs' [] (shows_fills _ _ _ _ F')). cbn [bind format_map format_go length].
  rewrite app_nil_r. rewrite S. destruct (concat vs') as [|c t]; reflexivity.
Qed.
Print Assumptions C319_text.

(** The first field that cannot be shown decides: a name that is not
    registered raises KeyError, an attribute that the object does not have
    raises AttributeError, and braces that do not match raise ValueError,
    whatever follows. *)
Theorem C319_errors : forall d attrs p q l vs, template p l -> Forall2 (shows d attrs) l vs ->
  (forall n, no_braces n -> ds_text (d_str d) = p ++ lbrace :: n ++ rbrace :: q ->
     (~ In n (map fst (d_attrs d)) -> show d attrs = Err KeyError)
     /\ (forall a, d_get str_eqb (d_attrs d) n = Some a -> attrs a = None -> show d attrs = Err AttributeError))
  /\ (ds_text (d_str d) = p ++ q -> malformed q -> show d attrs = Err ValueError).
Proof.
  intros d attrs p q l vs T F. apply shows_fills in F. unfold show. split.
  - intros n B E. rewrite E, (format_prefix _ _ _ T vs _ F). unfold format_map at 1 2.
    split; [intros N|intros a A N]; rewrite field_step by exact B.
    + unfold display_get at 1. now rewrite (proj2 (d_get_none str_eqb str_eqb_spec _ n) N).
    + unfold display_get at 1. now rewrite A, N.
  - intros E M. rewrite E, (format_prefix _ _ _ T vs q F). now rewrite (malformed_value _ q M).
Qed.
Print Assumptions C319_errors.

Example C319_example :
  let d := register (set_str empty_display (lit "{{{data}}} x")) (lit "data") (lit "value") in
  template (ds_text (d_str d)) [Char lbrace; Field (lit "data"); Char rbrace; Char " "%char; Char "x"%char]
  /\ show d (fun a => if str_eqb a (lit "value") then Some (lit "5") else None) = Ok (lit "{5} x")
  /\ show d (fun _ => None) = Err AttributeError
  /\ show (set_str d (lit "{other}")) (fun _ => None) = Err KeyError
  /\ show (set_str d (lit "a}")) (fun _ => None) = Err ValueError
  /\ malformed (lit "{da{ta}}").
Proof.
  cbv zeta. repeat split; try reflexivity.
  - apply T_open. apply (T_field (lit "data") (lit "}} x")); [split; cbn; intuition discriminate|]. apply T_close.
    apply T_char; [discriminate|discriminate|]. apply T_char; [discriminate|discriminate|]. apply T_end.
  - apply (M_nested (lit "da") (lit "ta}}")); [split; cbn; intuition discriminate|discriminate].
Qed.
