(** What it means for a species to be described by its symbol, its mass and
    its charge. *)

From Coq Require Import String Ascii List Bool ZArith QArith Qcanon.
From Verif Require Import Py SpeciesModel.
Import ListNotations.
Open Scope list_scope.
Open Scope nat_scope.

(** The signs of charge. *)
Definition signs_only (s : str) : Prop := forall c, In c s -> c = "+"%char \/ c = "-"%char.
Definition no_signs (s : str) : Prop := forall c, In c s -> c <> "+"%char /\ c <> "-"%char.
(** The number of plus signs minus the number of minus signs. *)
Definition tally (s : str) : Z :=
  (Z.of_nat (count_occ ascii_dec s "+"%char) - Z.of_nat (count_occ ascii_dec s "-"%char))%Z.
(** [x] is the symbol or the name of the element in a row. *)
Definition called (r : row) (x : str) : Prop := x = fst (fst r) \/ x = snd (fst r).

(** Asking for the properties of one instance, in any order and number. *)
Inductive ask : Type := Symbol | Mass | Charge.
Inductive reply : Type := RSymbol (r : res str) | RAmount (r : res amount).
Definition read (rows : list row) (s : species) (a : ask) : reply * species :=
  match a with
  | Symbol => let (r, s') := symbol_of rows s in (RSymbol r, s')
  | Mass => let (r, s') := mass_of rows s in (RAmount r, s')
  | Charge => let (r, s') := charge_in s in (RAmount r, s')
  end.
Fixpoint reads (rows : list row) (s : species) (l : list ask) : list reply :=
  match l with
  | [] => []
  | a :: l' => let (r, s') := read rows s a in r :: reads rows s' l'
  end.
