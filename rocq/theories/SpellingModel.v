(** Model of /repo/src/goats/core/spelling.py. *)

From Coq Require Import String Ascii List Bool Arith.
From Verif Require Import Py.
Import ListNotations.
Open Scope nat_scope.
Open Scope list_scope.

(** spelling.py 34-35: the letters. *)
Definition letters : list ascii :=
  lit "abcdefghijklmnopqrstuvwxyz" ++ lit "ABCDEFGHIJKLMNOPQRSTUVWXYZ".

(** spelling.py 33, [set(words)].  Simplification: the set is a list without
    repetition, in the order of the first occurrences; the properties do not
    depend on the order. *)
Definition make_checker (words : list str) : list str := nodup str_eq_dec words.

(** spelling.py 78-83, [splits]. *)
Definition splits (word : str) : list (str * str) :=
  map (fun i => (firstn i word, skipn i word)) (seq 0 (length word)).

(** spelling.py 85-90, [deletes]. *)
Definition deletes (word : str) : list str :=
  flat_map (fun lr => match snd lr with [] => [] | _ :: r => [fst lr ++ r] end) (splits word).
(** spelling.py 92-97, [transposes]. *)
Definition transposes (word : str) : list str :=
  flat_map (fun lr => match snd lr with a :: b :: r => [fst lr ++ b :: a :: r] | _ => [] end) (splits word).
(** spelling.py 99-104, [replaces]. *)
Definition replaces (word : str) : list str :=
  flat_map (fun lr => match snd lr with [] => [] | _ :: r => map (fun c => fst lr ++ c :: r) letters end) (splits word).
(** spelling.py 106-111, [inserts]. *)
Definition inserts (word : str) : list str :=
  flat_map (fun lr => map (fun c => fst lr ++ c :: snd lr) letters) (splits word).
(** spelling.py 69-76, [edits].  Simplification: the set is a list. *)
Definition edits (word : str) : list str :=
  deletes word ++ transposes word ++ replaces word ++ inserts word.

(** [name in words].  Used for spelling.py 61-63. *)
Definition member (w : str) (ws : list str) : bool := existsb (str_eqb w) ws.

(** spelling.py 61-63, [get_suggestions]. *)
Definition get_suggestions (words edits : list str) : list str :=
  filter (fun n => member n edits) words.

(** spelling.py 65-67, [known]. *)
Definition known (words candidates : list str) : list str :=
  nodup str_eq_dec (filter (fun w => member w words) candidates).

(** spelling.py 50-59, [_check]. *)
Definition suggestions_for (words : list str) (name : str) : list str :=
  if member name words then []
  else
    let e := edits name in
    match get_suggestions words e with
    | [] => get_suggestions words (flat_map edits e)
    | s => s
    end.

(** spelling.py 37-48, [check]: the modes, and what it returns or raises. *)
Inductive mode : Type := MSuggest | MTruth | MOther (m : str) | MNone.
Inductive outcome : Type :=
| Suggestions (l : list str)
| Truth (b : bool)
| Nothing
| RaiseValueError
| RaiseSpelling (name : str) (l : list str).
Definition check (words : list str) (name : str) (m : mode) : outcome :=
  let s := suggestions_for words name in
  match m with
  | MSuggest => Suggestions s
  | MTruth => Truth (match s with [] => true | _ => false end)
  | MOther _ => RaiseValueError
  | MNone => match s with [] => Nothing | _ => RaiseSpelling name s end
  end.

(** spelling.py 16-23, the [suggestion] of the error: how many words it
    names. *)
Inductive suggestion : Type := DidYouMean (w : str) | DidYouMeanOneOf (l : list str).
Definition suggest (l : list str) : suggestion :=
  match l with [w] => DidYouMean w | _ => DidYouMeanOneOf l end.
