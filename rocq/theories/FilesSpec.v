(** Vocabulary of the properties of files and datasets. *)

From Coq Require Import String List Bool.
From Verif Require Import Py.
From Verif Require ObserverSpec.
Import ListNotations.
Open Scope list_scope.

(** The text [s] begins with [c]. *)
Definition begins (c s : str) : Prop := exists t, s = c ++ t.
(** The text [c] is somewhere in [s]. *)
Definition occurs (c s : str) : Prop := exists u v, s = u ++ c ++ v.
(** Some sign starts here. *)
Definition sign_here (signs : list str) (s : str) : Prop := exists c, In c signs /\ begins c s.
(** [t] is the part of [s] before the first position at which a sign starts. *)
Definition before_signs (signs : list str) (s t : str) : Prop :=
  exists rest, s = t ++ rest /\ (rest = [] \/ sign_here signs rest)
    /\ forall u v, t = u ++ v -> v <> [] -> ~ sign_here signs (v ++ rest).
(** No sign ends with the beginning of, or with all of, another one. *)
Definition apart (signs : list str) : Prop :=
  forall c d d1 d2, In c signs -> In d signs -> c <> d -> d = d1 ++ d2 -> d1 <> [] -> d2 <> [] ->
    ~ begins c d2 /\ ~ begins d2 c.

(** The first member of a list with a property, if there is one. *)
Definition first_such {A} (P : A -> Prop) (l : list A) (r : option A) : Prop :=
  match r with
  | Some x => exists l1 l2, l = l1 ++ x :: l2 /\ P x /\ forall y, In y l1 -> ~ P y
  | None => forall y, In y l -> ~ P y
  end.
(** The path [p] is a directory that has the file. *)
Definition has_file (exists_ is_dir : str -> bool) (resolve : str -> str) (join : str -> str -> str) (file p : str) : Prop :=
  is_dir (resolve p) = true /\ exists_ (join (resolve p) file) = true.

(** No two of the names stand for one quantity. *)
Definition unambiguous (names : list str) : Prop :=
  forall a b, In a names -> In b names -> ObserverSpec.same_name a b -> a = b.
