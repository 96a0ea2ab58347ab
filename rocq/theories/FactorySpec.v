(** Vocabulary for the properties of operands, operations and names. *)

From Coq Require Import List Bool.
From Verif Require Import Py AliasedSpec MetadataModel FactoryModel.
Import ListNotations.
Open Scope list_scope.

Section Spec.
Context {cls val : Type}.
Notation rows := (list (str * (option (method val) * option (list str)))).

(** All names of an operation. *)
Definition names_of (p : str * (option (method val) * option (list str))) : list str :=
  fst p :: match snd (snd p) with Some l => l | None => [] end.

(** A table of operations in which no name stands for two of them. *)
Definition unambiguous (table : rows) : Prop := table <> [] /\ disjoint (map names_of table).

Definition known (table : rows) (a : str) : Prop := exists p, In p table /\ In a (names_of p).
(** Two names of one operation. *)
Definition same_op (table : rows) (a b : str) : Prop :=
  exists p, In p table /\ In a (names_of p) /\ In b (names_of p).
Definition same_opb (table : rows) (a b : str) : bool :=
  existsb (fun p => existsb (str_eqb a) (names_of p) && existsb (str_eqb b) (names_of p)) table.

(** The changes to the rules of an operation in a history, by any of its
    names. *)
Definition addressed (table : rows) (k : str) (h : list (act cls)) : list (call cls) :=
  flat_map (fun a => match a with
                     | ASuppress _ k' types sym => if same_opb table k k' then [Suppress types sym] else []
                     | ASupport _ k' types sym => if same_opb table k k' then [Support types sym] else []
                     | _ => []
                     end) h.
(** The attributes announced in a history for an operation: registered for
    all of them, or added to this one by any of its names. *)
Definition announced (table : rows) (k : str) (h : list (act cls)) : list str :=
  flat_map (fun a => match a with
                     | AUpdate _ k' names => if same_opb table k k' then names else []
                     | ARegister _ names => names
                     | _ => []
                     end) h.
Definition registered (h : list (act cls)) : list str :=
  flat_map (fun a => match a with ARegister _ names => names | _ => [] end) h.

(** The value that an operand contributes: its attribute, or itself. *)
Definition contributes (p : str) (o : operand cls val) : val :=
  match o_attr o p with Some v => v | None => o_self o end.
Definition has (p : str) (o : operand cls val) : Prop := o_attr o p <> None.

(** The result [r] that an attribute [p] of the operands should have under a
    function. *)
Definition should_be (f : method val) (args : list (operand cls val)) (p : str) (r : res val) : Prop :=
  match f (map (contributes p) args) with
  | Err TypeError =>
      match args with
      | [a] => r = Ok (contributes p a)
      | _ => (Forall (has p) args /\ r = Err MetadataError) \/ (~ Forall (has p) args /\ r = Err TypeError)
      end
  | x => r = x
  end.

(** A result that gives every attribute in [attrs], and nothing else, once and
    with the value it should have, or an exception that one of them should
    raise. *)
Definition answers (f : method val) (args : list (operand cls val)) (attrs : list str)
  (r : res (option (list (str * val)))) : Prop :=
  match r with
  | Ok (Some d) => NoDup (map fst d) /\ (forall p, In p (map fst d) <-> In p attrs)
                   /\ (forall p v, In (p, v) d -> should_be f args p (Ok v))
  | Ok None => False
  | Err e => exists p, In p attrs /\ should_be f args p (Err e)
  end.

End Spec.

(** The names given since the last effective reset. *)
Fixpoint given (name : list str) (h : list (list str * bool)) : list str :=
  match h with
  | [] => name
  | (updates, reset) :: h' => given (if reset then match updates with [] => name | _ => updates end else name ++ updates) h'
  end.
