(** What it means for a text to be a list of numbers. *)

From Coq Require Import String Ascii List Qcanon.
From Verif Require Import Py PackageSpec.
Import ListNotations.
Open Scope list_scope.

(** A member: a numeral with the characters before and after it.  Next to the
    numeral these may be any white space, and further out only blanks and
    single quotes. *)
Definition member_text (m : str * decimal * str) : str := fst (fst m) ++ decimal_text (snd (fst m)) ++ snd m.
Definition member_ok (m : str * decimal * str) : Prop :=
  decimal_ok (snd (fst m))
  /\ (exists quotes blank, fst (fst m) = quotes ++ blank /\ padding quotes /\ spaces blank)
  /\ (exists blank quotes, snd m = blank ++ quotes /\ spaces blank /\ padding quotes).
Definition member_value (m : str * decimal * str) : Qc := decimal_value (snd (fst m)).
Definition brackets (s : str) : Prop := Forall (fun c => c = "["%char \/ c = "]"%char) s.
