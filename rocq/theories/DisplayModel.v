(** Model of the text of objects: /repo/src/goats/core/iterables.py (display
    strings, [batch_replace], [whole], [class_attribute]) and the displays of
    quantities in measurable.py, physical.py and constant.py. *)

From Coq Require Import String Ascii List Bool ZArith Lia.
From Verif Require Import Py PyDict MetricModel.
Import ListNotations.
Open Scope list_scope.
Open Scope nat_scope.
Open Scope py_scope.

(** * Display strings *)

(** [str.split(sep)], [sep] not empty: [cur] holds the current part reversed,
    [skip] counts characters of a separator that was just found.
    Used for iterables.py 266-269. *)
Fixpoint split_go (sep : str) (skip : nat) (cur : str) (s : str) : list str :=
  match s with
  | [] => [rev cur]
  | c :: s' =>
      match skip with
      | S k => split_go sep k cur s'
      | O => if is_prefix sep s then rev cur :: split_go sep (pred (length sep)) [] s'
             else split_go sep O (c :: cur) s'
      end
  end.
Definition split_text (sep s : str) : list str := split_go sep O [] s.

(** iterables.py 259-264, [DisplayString.__init__]. *)
Record dstring : Type := mkDS { ds_text : str; ds_sep : str }.
Definition ds_new (s : str) : dstring := mkDS s (lit " ").

(** [list[i]].  Used for iterables.py 266-269. *)
Definition at_index {A} (l : list A) (i : Z) : res A :=
  let n := Z.of_nat (length l) in
  if ((- n <=? i) && (i <? n))%Z
  then match nth_error l (Z.to_nat (if (i <? 0)%Z then n + i else i)) with Some x => Ok x | None => Err IndexError end
  else Err IndexError.
(** [list.insert(i, x)].  Used for iterables.py 277-281. *)
Definition insert_at {A} (l : list A) (i : Z) (x : A) : list A :=
  let n := Z.of_nat (length l) in
  let k := Z.to_nat (if (i <? 0)%Z then Z.max 0 (n + i) else Z.min i n) in
  firstn k l ++ x :: skipn k l.

(** iterables.py 266-269, [DisplayString.__getitem__]. *)
Definition ds_get (d : dstring) (i : Z) : res str := at_index (split_text (ds_sep d) (ds_text d)) i.

(** iterables.py 271-275, [DisplayString.append]. *)
Definition ds_append (d : dstring) (x : str) : dstring :=
  mkDS (join (ds_sep d) (split_text (ds_sep d) (ds_text d) ++ [x])) (ds_sep d).

(** iterables.py 277-281, [DisplayString.insert]. *)
Definition ds_insert (d : dstring) (i : Z) (x : str) : dstring :=
  mkDS (join (ds_sep d) (insert_at (split_text (ds_sep d) (ds_text d)) i x)) (ds_sep d).

(** [str.format_map]: [get] gives the text of a field.  Conversions, format
    specifications, attributes and subscripts of fields are not modelled.
    Used for iterables.py 342-344. *)
Fixpoint until_close (s : str) : option (str * str) :=
  match s with
  | [] => None
  | c :: s' =>
      if Ascii.eqb c "}"%char then Some ([], s')
      else if Ascii.eqb c "{"%char then None
      else match until_close s' with Some (a, b) => Some (c :: a, b) | None => None end
  end.
Fixpoint format_go (fuel : nat) (get : str -> res str) (s : str) : res str :=
  match fuel with
  | O => Err OutOfFuel
  | S fuel' =>
      match s with
      | [] => Ok []
      | c :: s' =>
          if Ascii.eqb c "{"%char then
            match s' with
            | d :: s'' =>
                if Ascii.eqb d "{"%char then do r <- format_go fuel' get s''; Ok (c :: r)
                else match until_close s' with
                     | None => Err ValueError
                     | Some (name, rest) =>
                         do v <- get name; do r <- format_go fuel' get rest; Ok (v ++ r)
                     end
            | [] => Err ValueError
            end
          else if Ascii.eqb c "}"%char then
            match s' with
            | d :: s'' => if Ascii.eqb d "}"%char then do r <- format_go fuel' get s''; Ok (c :: r)
                          else Err ValueError
            | [] => Err ValueError
            end
          else do r <- format_go fuel' get s'; Ok (c :: r)
      end
  end.
(** Each step uses a character, so the length suffices.
    Used for iterables.py 342-344. *)
Definition format_map (get : str -> res str) (s : str) : res str := format_go (S (length s)) get s.

(** * Displays *)

(** iterables.py 287-324, [Display]: the texts of [str] and [repr] and the
    attributes by name.  Registering '__str__' or '__repr__' as an attribute is
    not modelled. *)
Record display : Type := mkDisplay {
  d_str : dstring; d_repr : dstring; d_attrs : list (str * str)
}.
Definition empty_display : display := mkDisplay (ds_new []) (ds_new []) [].

(** iterables.py 311-327, [Display.register] of one pair. *)
Definition register (d : display) (name attr : str) : display :=
  mkDisplay (d_str d) (d_repr d) (d_set str_eqb (d_attrs d) name attr).
(** iterables.py 306-309, [Display.__setitem__]. *)
Definition set_str (d : display) (s : str) : display := mkDisplay (ds_new s) (d_repr d) (d_attrs d).
Definition set_repr (d : display) (s : str) : display := mkDisplay (d_str d) (ds_new s) (d_attrs d).
Definition repr_separator (d : display) (sep : str) : display :=
  mkDisplay (d_str d) (mkDS (ds_text (d_repr d)) sep) (d_attrs d).
Definition str_insert (d : display) (i : Z) (x : str) : display :=
  mkDisplay (ds_insert (d_str d) i x) (d_repr d) (d_attrs d).
Definition repr_insert (d : display) (i : Z) (x : str) : display :=
  mkDisplay (d_str d) (ds_insert (d_repr d) i x) (d_attrs d).

(** iterables.py 246-256, [DisplayMap.__getitem__]; [attrs] are the texts of
    the attributes of the object (called if necessary). *)
Definition display_get (d : display) (attrs : str -> option str) (name : str) : res str :=
  match d_get str_eqb (d_attrs d) name with
  | None => Err KeyError
  | Some a => match attrs a with Some t => Ok t | None => Err AttributeError end
  end.

(** iterables.py 342-344 and 353-356, [ReprStrMixin.__str__]. *)
Definition show (d : display) (attrs : str -> option str) : res str :=
  format_map (display_get d attrs) (ds_text (d_str d)).
(** iterables.py 346-351, [ReprStrMixin.__repr__]; [class] is the module and
    the name of the class. *)
Definition show_repr (class : str) (d : display) (attrs : str -> option str) : res str :=
  do s <- format_map (display_get d attrs) (ds_text (d_repr d));
  do t <- (match s with [] => show d attrs | _ => Ok s end);
  Ok (class ++ lit "(" ++ t ++ lit ")").

(** measurable.py 181-184, [Quantity.__init__]. *)
Definition measurable_display : display :=
  let d := register (register empty_display (lit "data") (lit "data")) (lit "unit") (lit "unit") in
  repr_separator (set_repr (set_str d (lit "{data} [{unit}]")) (lit "{data}, unit='{unit}'")) (lit ", ").

(** metadata.py 744-753, [Name.__bool__]; [names] are the aliases. *)
Definition has_name (names : list str) : bool :=
  match names with [n] => negb (str_eqb n []) | _ => true end.

(** physical.py 40-47, [Quantity.__init__]. *)
Definition physical_display (names : list str) : display :=
  if has_name names
  then repr_insert (str_insert (register measurable_display (lit "name") (lit "name")) 0 (lit "'{name}':"))
         2 (lit "name='{name}'")
  else measurable_display.

(** physical.py 240-247, [Array.__init__]. *)
Definition array_display (names : list str) : display :=
  register (physical_display names) (lit "data") (lit "_get_data_type").

(** constant.py 55-70, [Option.__init__]; a group of names is true
    (aliased.py 55-60). *)
Definition option_display (names : list str) : display :=
  let d := register empty_display (lit "value") (lit "value") in
  let d := repr_separator (set_repr (set_str d (lit "{value}")) (lit "{value}")) (lit ", ") in
  match names with
  | [] => d
  | _ => repr_insert (str_insert (register d (lit "name") (lit "name")) 0 (lit "'{name}': ")) 1 (lit "'{name}'")
  end.

(** aliased.py 80-95, [Group.__str__]; [mkset] orders the set of
    representations.  The representation of a name is the name in quotes:
    names with quotes, backslashes or unprintable characters are not
    modelled. *)
Definition quoted (s : str) : str := lit "'" ++ s ++ lit "'".
Definition group_text (mkset : list str -> list str) (names : list str) : str :=
  join (lit " = ") (mkset (map quoted names)).

(** * Texts *)

(** iterables.py 1422-1426, [batch_replace]; no key is blank. *)
Definition batch_replace (s : str) (l : list (str * str)) : str :=
  fold_left (fun s p => replace (strip (fst p)) (snd p) s) l s.

(** * Collections of independent members *)

(** What [whole] may be given: nothing, a string, another single object or the
    members of an iterable.  Used for iterables.py 1333-1361. *)
Inductive arg (X : Type) : Type :=
| ANone
| AStr (s : X)
| AOne (x : X)
| AIter (l : list X).
Arguments ANone {X}. Arguments AStr {X}. Arguments AOne {X}. Arguments AIter {X}.

(** iterables.py 1333-1361, [whole.parse]. *)
Definition whole {X} (a : arg X) : list X :=
  match a with ANone => [] | AStr s => [s] | AOne x => [x] | AIter l => l end.

(** [sorted], a stable insertion sort by [leb].
    Used for iterables.py 1369-1373. *)
Fixpoint insert_sorted {X} (leb : X -> X -> bool) (x : X) (l : list X) : list X :=
  match l with
  | [] => [x]
  | y :: l' => if leb x y then x :: l else y :: insert_sorted leb x l'
  end.
Fixpoint sorted {X} (leb : X -> X -> bool) (l : list X) : list X :=
  match l with [] => [] | x :: l' => insert_sorted leb x (sorted leb l') end.

(** iterables.py 1369-1373, [whole.__eq__], and 1292-1300: every iterable that
    is not a string is an instance of [whole]. *)
Definition whole_eq {X} (leb eqb : X -> X -> bool) (l : list X) (other : arg X) : option bool :=
  match other with
  | AIter l' =>
      let a := sorted leb l in
      let b := sorted leb l' in
      Some (Nat.eqb (length a) (length b) && forallb (fun p => eqb (fst p) (snd p)) (combine a b))
  | _ => None
  end.

(** iterables.py 1458-1478, [class_attribute].  A class is the list of the
    values it defines itself, if it does; [bases] are the ancestors of a class
    in its own resolution order, beginning with itself ([getattr] looks in
    these). *)
Section Classes.
Context {X : Type}.
Variable own : str -> option (list X).
Variable mro : str -> list str.
Fixpoint first_own (l : list str) : option (list X) :=
  match l with
  | [] => None
  | c :: l' => match own c with Some v => Some v | None => first_own l' end
  end.
Definition getattr_class (c : str) : list X := match first_own (mro c) with Some v => v | None => [] end.
Definition class_attribute (c : str) : list X := concat (map getattr_class (rev (mro c))).
End Classes.
