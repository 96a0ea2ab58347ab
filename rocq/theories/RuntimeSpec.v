(** Specification side of the properties of runtime parameters. *)

From Coq Require Import String Ascii List Bool ZArith QArith Qcanon Lia.
From Verif Require Import Py PyDict SymbolicModel SymbolicSpec RuntimeModel.
Import ListNotations.
Open Scope list_scope.
Open Scope nat_scope.

(** * Configuration files *)

(** A line of a configuration file as a user writes it: nothing, a comment,
    or a key and a value with blanks around the value and possibly a comment
    at the end. *)
Inductive line : Type :=
| Blank
| Comment (sign : ascii) (text : str)
| Entry (key before value after : str) (note : option (ascii * str)).
Definition line_text (l : line) : str :=
  match l with
  | Blank => []
  | Comment c t => c :: t
  | Entry k b v a n => k ++ "="%char :: b ++ v ++ a ++ match n with Some (c, t) => c :: t | None => [] end
  end.
(** The text of a file: each line ended by a newline. *)
Definition file_text (ls : list line) : str := concat (map (fun l => line_text l ++ [newline]) ls).
Definition without (c : ascii) (s : str) : Prop := ~ In c s.
Definition blanks (s : str) : Prop := Forall (fun c => is_space c = true /\ c <> newline) s.
Definition trimmed (s : str) : Prop :=
  match s with [] => True | c :: _ => is_space c = false end /\
  match rev s with [] => True | c :: _ => is_space c = false end.
Definition line_ok (signs : list ascii) (l : line) : Prop :=
  match l with
  | Blank => True
  | Comment c t => In c signs /\ without newline t
  | Entry k b v a n =>
      match k with [] => False | c :: _ => ~ In c signs end /\
      without "="%char k /\ without newline k /\
      blanks b /\ blanks a /\ trimmed v /\ without "="%char v /\ without newline v /\
      (forall c, In c signs -> without c b /\ without c v /\ without c a) /\
      match n with Some (c, t) => In c signs /\ c <> "="%char /\ c <> newline /\ without "="%char t /\ without newline t | None => True end
  end.
(** The keys and values of a file, in order. *)
Definition entries (ls : list line) : list (str * str) :=
  flat_map (fun l => match l with Entry k _ v _ _ => [(k, v)] | _ => [] end) ls.

(** * Definitions of parameters *)

(** What a definition may be made of: a numeral, the name of a parameter or
    constant, a member of the configuration, or a product of these. *)
Inductive atom : Type :=
| ANumber (numeral : str)
| AName (name : str)
| AMember (name : str)
| AProduct (x0 : written) (l : list (option operator * written)).
(** A definition: an atom, a difference, or a sum of such. *)
Inductive side : Type := SAtom (a : atom) | SDifference (a b : atom).
Inductive formula : Type := FSide (s : side) | FSum (s t : side).

Definition atom_text (a : atom) : str :=
  match a with
  | ANumber s => s
  | AName n => n
  | AMember n => lit "config." ++ n
  | AProduct x0 l => chain_text x0 l
  end.
Definition side_text (s : side) : str :=
  match s with SAtom a => atom_text a | SDifference a b => atom_text a ++ lit " - " ++ atom_text b end.
Definition formula_text (f : formula) : str :=
  match f with FSide s => side_text s | FSum s t => side_text s ++ lit " + " ++ side_text t end.

(** The value of a definition when the names have values [rho]. *)
Definition atom_value (rho : str -> Qc) (a : atom) : Qc :=
  match a with
  | ANumber s => match cast s with Some q => q | None => 0%Qc end
  | AName n | AMember n => rho n
  | AProduct x0 l => value (fun b => if str_eqb b (lit "1") then 1%Qc else rho b) (chain_denote x0 l)
  end.
Definition side_value (rho : str -> Qc) (s : side) : Qc :=
  match s with SAtom a => atom_value rho a | SDifference a b => (atom_value rho a - atom_value rho b)%Qc end.
Definition formula_value (rho : str -> Qc) (f : formula) : Qc :=
  match f with FSide s => side_value rho s | FSum s t => (side_value rho s + side_value rho t)%Qc end.

(** The names that a definition refers to. *)
Definition atom_names (a : atom) : list str :=
  match a with
  | ANumber _ => []
  | AName n | AMember n => [n]
  | AProduct x0 l => filter (fun b => negb (str_eqb b (lit "1"))) (map base (chain_denote x0 l))
  end.
Definition side_names (s : side) : list str :=
  match s with SAtom a => atom_names a | SDifference a b => atom_names a ++ atom_names b end.
Definition formula_names (f : formula) : list str :=
  match f with FSide s => side_names s | FSum s t => side_names s ++ side_names t end.

(** Letters, digits and underscores. *)
Definition is_among (l : str) (c : ascii) : bool := existsb (Ascii.eqb c) l.
Definition word_letter : ascii -> bool :=
  is_among (lit "ABCDEFGHIJKLMNOPQRSTUVWXYZabcdefghijklmnopqrstuvwxyz0123456789_").
(** A name as users write it: letters, digits and underscores, not starting
    with a digit. *)
Definition proper_name (n : str) : Prop :=
  match n with [] => False | c :: _ => is_digit c = false end /\ Forall (fun c => word_letter c = true) n /\
  n <> lit "N_PROCS" /\ n <> lit "third".
(** A product that can be read: legal, with integral exponents, and with
    factors that are not zero. *)
Definition product_ok (F : flops) (rho : str -> Qc) (x0 : written) (l : list (option operator * written)) : Prop :=
  legal_chain F x0 l /\ integral (chain_denote x0 l) /\
  Forall (fun t => base t = lit "1" \/ rho (base t) <> 0%Qc) (chain_denote x0 l) /\
  (In "*"%char (chain_text x0 l) \/ In "/"%char (chain_text x0 l)).
(** The restrictions on definitions: numerals and differences are not zero,
    and there are no other signs than those of the definition (so products
    have no negative exponents or numbers). *)
Definition atom_ok (F : flops) (rho : str -> Qc) (a : atom) : Prop :=
  trimmed (atom_text a) /\ without "+"%char (atom_text a) /\ without "-"%char (atom_text a) /\
  match a with
  | ANumber s => exists q, cast s = Some q /\ q <> 0%Qc
  | AName n | AMember n => True
  | AProduct x0 l => product_ok F rho x0 l
  end.
Definition side_ok (F : flops) (rho : str -> Qc) (s : side) : Prop :=
  match s with
  | SAtom a => atom_ok F rho a
  | SDifference a b => atom_ok F rho a /\ atom_ok F rho b /\ side_value rho s <> 0%Qc
  end.
Definition formula_ok (F : flops) (rho : str -> Qc) (f : formula) : Prop :=
  match f with
  | FSide s => side_ok F rho s
  | FSum s t => side_ok F rho s /\ side_ok F rho t /\ formula_value rho f <> 0%Qc
  end.

(** A numeral of the given type. *)
Definition numeral (t : rtype) (s : str) (q : Qc) : Prop :=
  match t with TInt => read_int s = Some q | TFloat => read_float s = Some q | _ => False end.

(** The values [rho] satisfy the definitions of a run for the names in
    question.  References go from higher to lower ranks. *)
Record solves (F : flops) (r : run) (rho : str -> Qc) (rank : str -> nat) (known : str -> Prop) : Prop := mkSolves
  { (* all parameters and constants have proper names *)
    solves_keys : forall n, In n (map fst (r_reference r)) \/ In n (map fst (r_constants r)) -> proper_name n;
    (* a known parameter is defined by the user, or else by default, by a
       numeral or by a formula in known names of lower rank *)
    solves_parameter : forall n t default, known n -> d_get str_eqb (r_reference r) n = Some (t, default) ->
      let text := match d_get str_eqb (r_user r) n with Some (c :: s) => c :: s | _ => default end in
      numeral t text (rho n) \/
      (exists f, text = formula_text f /\ (t = TInt \/ t = TFloat) /\ (forall q, ~ numeral t text q) /\
         formula_ok F rho f /\ rho n = formula_value rho f /\
         forall m, In m (formula_names f) -> known m /\ rank m < rank n);
    (* a known name that is not a parameter is a constant, defined by a
       numeral or by a product of constants of lower rank *)
    solves_constant : forall n, known n -> d_get str_eqb (r_reference r) n = None ->
      exists text t, d_get str_eqb (r_constants r) n = Some text /\ d_get str_eqb (r_types r) n = Some t /\
      (numeral t text (rho n) \/
       (exists x0 l, text = chain_text x0 l /\ product_ok F rho x0 l /\
          rho n = atom_value rho (AProduct x0 l) /\
          forall m, In m (atom_names (AProduct x0 l)) ->
            known m /\ d_get str_eqb (r_reference r) m = None /\ rank m < rank n)) }.

(** * Comparing files *)

(** A line that cannot be read: not empty, no comment, and without exactly one
    equals sign. *)
Definition bad_line (signs : list ascii) (s : str) : Prop :=
  match s with [] => False | c :: _ => ~ In c signs /\ count_occ ascii_dec s "="%char <> 1 end.
(** The lines of a text: the longest parts without the character that ends a
    line. *)
Definition line_of (contents l : str) : Prop :=
  exists before after, contents = before ++ l ++ after /\ without (ascii_of_nat 10) l /\
    (before = [] \/ exists b, before = b ++ [ascii_of_nat 10]) /\ (after = [] \/ exists a, after = ascii_of_nat 10 :: a).
