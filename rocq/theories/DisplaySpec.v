(** Vocabulary of the properties of texts and collections. *)

From Coq Require Import Ascii List.
From Verif Require Import Py.
Import ListNotations.
Open Scope list_scope.

(** The text [s] occurs in [t]. *)
Definition occurs (s t : str) : Prop := exists a b, t = a ++ s ++ b.

(** A separator that cannot overlap itself, such as ' ' and ', '. *)
Definition plain_separator (sep : str) : Prop :=
  sep <> [] /\ forall u v w, sep = u ++ v -> sep = w ++ u -> u = [] \/ v = [].

(** The parts of a text between separators. *)
Inductive parts (sep : str) : list str -> str -> Prop :=
| parts_one p : ~ occurs sep p -> parts sep [p] p
| parts_more p l t : ~ occurs sep p -> parts sep l t -> parts sep (p :: l) (p ++ sep ++ t).

(** [t] is [s] with each occurrence of the character [c] replaced by [r c]. *)
Fixpoint substituted {C} (r : C -> list C) (s t : list C) : Prop :=
  match s with
  | [] => t = []
  | c :: s' => exists t', t = r c ++ t' /\ substituted r s' t'
  end.

(** The parts of a template: characters and fields. *)
Inductive segment : Type := Char (c : Ascii.ascii) | Field (name : str).
Definition lbrace : Ascii.ascii := "{"%char.
Definition rbrace : Ascii.ascii := "}"%char.
Definition no_braces (s : str) : Prop := ~ In lbrace s /\ ~ In rbrace s.
(** Doubled braces stand for braces, a name in braces for a field, and all other
    characters for themselves. *)
Inductive template : str -> list segment -> Prop :=
| T_end : template [] []
| T_open s l : template s l -> template (lbrace :: lbrace :: s) (Char lbrace :: l)
| T_close s l : template s l -> template (rbrace :: rbrace :: s) (Char rbrace :: l)
| T_field name s l : no_braces name -> template s l -> template (lbrace :: name ++ rbrace :: s) (Field name :: l)
| T_char c s l : c <> lbrace -> c <> rbrace -> template s l -> template (c :: s) (Char c :: l).
(** A text that does not begin with a segment: a single closing brace, or an
    opening brace without its closing brace. *)
Inductive malformed : str -> Prop :=
| M_close s : hd_error s <> Some rbrace -> malformed (rbrace :: s)
| M_open s : ~ In rbrace s -> hd_error s <> Some lbrace -> malformed (lbrace :: s)
| M_nested name s : no_braces name -> name <> [] -> malformed (lbrace :: name ++ lbrace :: s).
