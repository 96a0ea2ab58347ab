(** Vocabulary of the properties of metadata. *)

From Coq Require Import String Ascii List Bool ZArith QArith Qcanon.
From Verif Require Import Py MetadataModel.
Import ListNotations.
Open Scope list_scope.

(** * Rules on types *)

Section Rules.
Variable cls : Type.
Variable issub : cls -> cls -> bool.

(** A class fits a type if it is a subclass, and a tuple of types if it is a
    subclass of one of them. *)
Definition fits (c : cls) (t : tyspec cls) : Prop :=
  match t with
  | Ty d => issub c d = true
  | Tup l => exists d, In d l /\ issub c d = true
  end.
(** As many types as the rule has, each of which fits. *)
Definition matches (types : list cls) (r : list (tyspec cls)) : Prop := Forall2 fits types r.

(** The rules that a call adds, according to the docstrings (metadata.py
    238-243 and 261-266): ungrouped types are one rule, groups are one rule
    each. *)
Definition documented (ts : list (tyspec cls)) : list (list (tyspec cls)) :=
  if forallb (fun t => match t with Ty _ => true | Tup _ => false end) ts then [ts]
  else flat_map (fun t => match t with Tup l => [map Ty l] | Ty _ => [] end) ts.
Definition both_ways (symmetric : bool) (r : list (tyspec cls)) : list (list (tyspec cls)) :=
  if symmetric then [r; rev r] else [r].
Definition suppressed_by (l : list (call cls)) : list (list (tyspec cls)) :=
  flat_map (fun c => match c with
                     | Suppress ts s => flat_map (both_ways s) (documented ts)
                     | Support _ _ => [] end) l.
Definition supported_by (l : list (call cls)) : list (list (tyspec cls)) :=
  flat_map (fun c => match c with
                     | Support ts s => flat_map (both_ways s) (documented ts)
                     | Suppress _ _ => [] end) l.
End Rules.
Arguments fits {cls}. Arguments matches {cls}. Arguments documented {cls}.
Arguments both_ways {cls}. Arguments suppressed_by {cls}. Arguments supported_by {cls}.

(** * Names *)

(** [l] has exactly the members [x op y] with [x] in [left] and [y] in [right]. *)
Definition spelled (op : str) (left right l : list str) : Prop :=
  forall s, In s l <-> exists x y, In x left /\ In y right /\ s = x ++ op ++ y.

(** [s] occurs in [t]. *)
Definition infix (s t : str) : Prop := exists u v, t = u ++ s ++ v.

(** The same names, in any order. *)
Definition same_names (a b : list str) : Prop := forall s, In s a <-> In s b.

(** * Dimensions *)

(** [r] lists [a], then the members of [b] that are not in [a], in their
    order. *)
Definition followed_by_new (a b r : list str) : Prop :=
  r = a ++ filter (fun x => negb (if in_dec str_eq_dec x a then true else false)) b.

(** An operand that is something: no blank name or text, zero, or empty list. *)
Definition something (o : other) : Prop :=
  o <> OName [[]] /\ o <> OText [] /\ (forall f, o <> ONumber 0 f) /\ o <> OList [].
