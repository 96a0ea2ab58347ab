(** Vocabulary of the properties of observers. *)

From Coq Require Import String Ascii List Bool ZArith QArith Qcanon.
From Verif Require Import Py SymbolicModel SymbolicSpec ObserverModel.
Import ListNotations.
Open Scope list_scope.
Open Scope nat_scope.

(** A name of an observable quantity: in a group none of whose names is
    excluded. *)
Definition available_name (observable : list (list str)) (unobservable : list str) (n : str) : Prop :=
  exists g, In g observable /\ In n g /\ forall u, In u unobservable -> ~ In u g.

(** A name that can be used in expressions. *)
Definition plain_name (n : str) : Prop := legal_base n /\ ~ starts_with (lit "sqrt") n.
(** A name in the table of names. *)
Definition in_reference (n : str) : Prop := exists g, In g reference /\ In n g.

(** Two names of the same quantity. *)
Definition same_name (n m : str) : Prop := n = m \/ exists g, In g reference /\ In n g /\ In m g.
(** A text with a sign of quotients or products. *)
Definition composed (n : str) : Prop := In "/"%char n \/ In "*"%char n.
(** A name of none of these quantities, and no expression. *)
Definition unknown_name (names : list str) (n : str) : Prop :=
  ~ composed n /\ forall k, In k names -> ~ same_name k n.
(** What an observer answers to one name after the other. *)
Definition accesses {O I} (get : O -> str -> res I * O) : O -> list str -> list (res I) :=
  fix go o l := match l with
                | [] => []
                | k :: l' => let (r, o') := get o k in r :: go o' l'
                end.

(** The exponent of some base unit in a product of powers, where [d] is its
    exponent in an attribute. *)
Definition exponent_in {A} (get : str -> option A) (d : A -> Qc) (l : list (str * Qc)) : Qc :=
  fold_right (fun t q => (match get (fst t) with Some a => snd t * d a | None => 0 end + q)%Qc) 0%Qc l.

(** The latest of some optional settings; empty strings set nothing. *)
Definition latest {A} (x : A) (l : list A) : A := last l x.
Definition settings (l : list (option str)) : list str :=
  concat (map (fun o => match o with Some (c :: s) => [c :: s] | _ => [] end) l).

(** A history of updates, whether they fail or not. *)
Definition history find_data bare parent join exists_ resolve (s : sources) (l : list (option str * option str)) : sources :=
  fold_left (fun s u => snd (update find_data bare parent join exists_ resolve s (fst u) (snd u))) l s.
(** The file for a configuration, beside the data or at its own path. *)
Definition configuration bare (parent : str -> str) join exists_ (resolve : str -> str) (data c : str) : option str :=
  if bare c && exists_ (join (parent data) c) then Some (join (parent data) c)
  else if exists_ (resolve c) then Some (resolve c) else None.
