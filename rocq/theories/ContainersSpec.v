(** Vocabulary for the properties of further containers. *)

From Coq Require Import String Ascii List Bool ZArith NArith.
From Verif Require Import Py PyDict IterablesModel IterablesSpec ContainersModel.
Import ListNotations.
Open Scope list_scope.

(** Every class has at most one parent. *)
Definition single_inheritance {C} (mro : C -> list C) : Prop :=
  forall c, mro c = [c] \/ exists parent, mro c = c :: mro parent.

(** The name given to the last [collect], and the value of an attribute, in
    histories that are listed backwards. *)
Fixpoint last_collected {A} (h : list (caction A)) : option str :=
  match h with
  | [] => None
  | Collect n :: _ => Some n
  | _ :: h' => last_collected h'
  end.
Fixpoint last_value {A} (h : list (caction A)) (n : str) : list A :=
  match h with
  | [] => []
  | SetAttr m l :: h' => if str_eqb m n then l else last_value h' n
  | DelAttr m :: h' => if str_eqb m n then [] else last_value h' n
  | Collect _ :: h' => last_value h' n
  end.

(** The entries after a history of a table, listed backwards. *)
Fixpoint last_entries {V} (es : list (@entry V)) (h : list (taction V)) : list (@entry V) :=
  match h with
  | [] => es
  | TChange es' :: _ => es'
  | _ :: h' => last_entries es h'
  end.

(** Following a path of keys. *)
Inductive path_to {V} : nested V -> list str -> nested V -> Prop :=
| path_here : forall m, path_to m [] m
| path_down : forall l k n p m, NoDup (map fst l) -> In (k, n) l -> path_to n p m -> path_to (Node l) (k :: p) m.

(** The action of a registry's user that changes a dictionary in place. *)
Definition in_place {X} (a : gaction X) : Prop := exists i k n x, a = GAnnotate i k n x.
(** The registry that an action is about. *)
Definition acts_on {X} (a : gaction X) (j : nat) : Prop :=
  match a with GNew _ _ | GCopy _ => False | GRegister i _ _ _ _ => i = j | GReset i => i = j | GAnnotate i _ _ _ => i = j end.
