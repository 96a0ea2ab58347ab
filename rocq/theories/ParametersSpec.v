(** Vocabulary of the properties of operational parameters. *)

From Coq Require Import String Ascii List Bool ZArith QArith Qcanon.
From Verif Require Import Py ParametersModel.
From Verif Require SymbolicModel.
Import ListNotations.
Open Scope list_scope.
Open Scope nat_scope.

(** The values in what a user gives. *)
Definition values (g : given) : list item := match g with One i => [i] | Several l => l end.
(** The numbers that values stand for. *)
Definition numbers (l : list item) (qs : list Qc) : Prop :=
  Forall2 (fun i q => match i with
                      | IInt z => q = Qc_of_Z z | IReal r => q = r | IBool true => q = 1%Qc | IBool false => q = 0%Qc
                      | IText _ => False end) l qs.
Definition is_text (i : item) : bool := match i with IText _ => true | _ => false end.

(** Two values are the same text or the same number. *)
Definition same_item (i j : item) : Prop :=
  match i, j with
  | IText s, IText t => s = t
  | _, _ => exists q, numbers [i] [q] /\ numbers [j] [q]
  end.

(** ** Sizes of units in kilograms, metres, seconds and kelvins *)
Definition sizes : list (str * Z) :=
  [(lit "J", 0); (lit "W", 0); (lit "kg", 0); (lit "m", 0); (lit "s", 0); (lit "K", 0); (lit "1", 0);
   (lit "erg", -7); (lit "g", -3); (lit "cm", -2); (lit "dyn", -5)]%Z.
(** The power of ten by which a product of units exceeds the mks unit; [None]
    for other units. *)
Fixpoint power_of_ten (l : list SymbolicModel.term) : option Z :=
  match l with
  | [] => Some 0%Z
  | t :: l' =>
      match find (fun p => str_eqb (fst p) (SymbolicModel.base t)) sizes, power_of_ten l' with
      | Some p, Some n => if Qc_eqb (SymbolicModel.coef t) 1 && Qc_eqb (Qc_of_Z (Qc_num (SymbolicModel.expo t))) (SymbolicModel.expo t)
                          then Some (snd p * Qc_num (SymbolicModel.expo t) + n)%Z else None
      | _, _ => None
      end
  end.
Definition size_of_unit (u : str) : option Qc :=
  match SymbolicModel.expression_of_str SymbolicModel.F64 false u with
  | Ok l => option_map (dec 1) (power_of_ten l)
  | Err _ => None
  end.
(** Two values with units are the same amount. *)
Definition same_amount (a b : Qc * str) : Prop :=
  exists s t, size_of_unit (snd a) = Some s /\ size_of_unit (snd b) = Some t /\ (fst a * s = fst b * t)%Qc.

(** The same letter, small or capital. *)
Definition same_letter (c d : ascii) : Prop :=
  c = d \/ exists n, n < 26 /\ c = ascii_of_nat (65 + n) /\ d = ascii_of_nat (97 + n).
(** A text is a word of small letters, written in small or capital letters. *)
Definition spells (s word : str) : Prop := Forall2 same_letter s word.

(** ** Paths *)
Definition is_prefix_of (p q : path) : Prop := exists r, q = p ++ r.
(** The directory that contains all paths and no smaller one. *)
Definition common_ancestor (c : path) (these : list path) : Prop :=
  (forall p, In p these -> is_prefix_of c p) /\ forall d, (forall p, In p these -> is_prefix_of d p) -> is_prefix_of d c.
