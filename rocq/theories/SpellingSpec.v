(** Vocabulary of the properties of the spell checker. *)

From Coq Require Import String Ascii List Bool NArith.
From Verif Require Import Py.
Import ListNotations.
Open Scope list_scope.

(** An ASCII letter. *)
Definition letter (c : ascii) : Prop := (65 <= code c <= 90 \/ 97 <= code c <= 122)%N.

(** One edit: deleting a character, exchanging two neighbours, replacing a
    character by a letter or inserting a letter anywhere. *)
Inductive edit : str -> str -> Prop :=
| e_delete l c r : edit (l ++ c :: r) (l ++ r)
| e_transpose l a b r : edit (l ++ a :: b :: r) (l ++ b :: a :: r)
| e_replace l c d r : letter d -> edit (l ++ c :: r) (l ++ d :: r)
| e_insert l d r : letter d -> edit (l ++ r) (l ++ d :: r).

(** The same, where a letter is only inserted before an existing character. *)
Inductive inner_edit : str -> str -> Prop :=
| i_delete l c r : inner_edit (l ++ c :: r) (l ++ r)
| i_transpose l a b r : inner_edit (l ++ a :: b :: r) (l ++ b :: a :: r)
| i_replace l c d r : letter d -> inner_edit (l ++ c :: r) (l ++ d :: r)
| i_insert l d c r : letter d -> inner_edit (l ++ c :: r) (l ++ d :: c :: r).

Definition inner_edit2 (v w : str) : Prop := exists u, inner_edit v u /\ inner_edit u w.
