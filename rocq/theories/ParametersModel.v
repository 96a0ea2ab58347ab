(** Model of operational parameters (core/operational.py, core/constant.py,
    core/physical.py 20-215, core/fundamental.py) and of their comparison
    (eprem/runtime.py 1532-1626). *)

From Coq Require Import String Ascii List Bool ZArith QArith Qcanon Lia.
From Verif Require Import Py PyDict.
From Verif Require AliasedModel.
Import ListNotations.
Open Scope list_scope.
Open Scope nat_scope.
Open Scope py_scope.

(** * Arguments: core/operational.py *)

(** One value: text, an integer, a truth value or a real number.
    Used for operational.py 88-117. *)
Inductive item : Type := IText (s : str) | IInt (z : Z) | IBool (b : bool) | IReal (q : Qc).
(** What a user gives: one value or a sequence.
    Used for operational.py 88-117. *)
Inductive given : Type := One (i : item) | Several (l : list item).
(** [_data]: an array of numbers, or one value or sequence as given.
    Used for operational.py 88-117. *)
Inductive stored : Type := SArray (l : list Qc) | SGiven (g : given).
Section Arguments.
(** Units; [unit_eqb] is [==] of two units and [none_eqb] that of [None] and a
    unit.  [None] stands for every false unit.
    Used for operational.py 88-117. *)
Context {U : Type} (unit_eqb : U -> U -> bool) (none_eqb : U -> bool).
Record argument : Type := mkArgument { a_data : stored; a_unit : option U }.

(** The number that [numpy.array] makes of a value; text is not modelled in
    arrays.  Used for operational.py 88-117. *)
Definition number (i : item) : res Qc :=
  match i with
  | IInt z => Ok (Qc_of_Z z) | IReal q => Ok q | IBool b => Ok (if b then 1%Qc else 0%Qc) | IText _ => Err TypeError
  end.
(** operational.py 57-66, [__new__] with one argument and no keywords: no types
    of sequences are given to [hastype]. *)
Definition allowed_alone (g : given) : bool :=
  match g with One (IText _) | One (IInt _) | One (IBool _) => true | _ => false end.
(** operational.py 88-117, [__init__] and [_init_from], with data and unit. *)
Definition argument_of (g : given) (u : option U) : res argument :=
  match u with
  | Some _ => do l <- match g with One i => rmap (fun q => [q]) (number i) | Several l => mapM number l end;
              Ok (mkArgument (SArray l) u)
  | None => Ok (mkArgument (SGiven (match g with One (IText s) => Several [IText s] | _ => g end)) None)
  end.
(** [Argument(data)] without a unit.  Models operational.py 89-115. *)
Definition argument_alone (g : given) : res argument :=
  if allowed_alone g then argument_of g None else Err TypeError.

(** operational.py 200-209, [data]: an array or a sequence with one element is
    this element. *)
Inductive shown : Type := ShowOne (i : item) | ShowItems (l : list item) | ShowArray (l : list Qc).
Definition data (a : argument) : shown :=
  match a_data a with
  | SArray [q] => ShowOne (IReal q)
  | SArray l => ShowArray l
  | SGiven (One i) => ShowOne i
  | SGiven (Several [i]) => ShowOne i
  | SGiven (Several l) => ShowItems l
  end.
(** [len(data)] or TypeError ([None]).  Used for operational.py 169-181. *)
Definition data_len (d : shown) : option nat :=
  match d with
  | ShowOne (IText s) => Some (length s)
  | ShowOne _ => None
  | ShowItems l => Some (length l)
  | ShowArray l => Some (length l)
  end.
(** operational.py 117-139, [__bool__]; the truth of an array with several
    values raises ValueError. *)
Definition truth (a : argument) : res bool :=
  match data a with
  | ShowOne (IBool b) => Ok b
  | ShowOne (IInt _) | ShowOne (IReal _) => Ok true
  | ShowOne (IText s) => Ok (negb (str_eqb (strip s) []))
  | ShowItems l => Ok (match l with [] => false | _ => true end)
  | ShowArray l => match l with [] => Ok false | _ => Err ValueError end
  end.
(** [int(s)] of one character, and of a value.
    Used for operational.py 145-173. *)
Definition int_of_char (c : ascii) : res Z :=
  if is_digit c then Ok (Z.of_nat (nat_of_ascii c - 48)) else Err ValueError.
Definition int_of_item (i : item) : res Z :=
  match i with
  | IText _ => Err ValueError
  | IInt z => Ok z
  | IBool b => Ok (if b then 1%Z else 0%Z)
  | IReal q => Ok (Qc_trunc q)
  end.
(** operational.py 145-173, [__int__] and [_cast_to]. *)
Definition to_int (a : argument) : res Z :=
  match data a with
  | ShowOne (IText [c]) => int_of_char c
  | ShowOne (IText []) => Err ValueError
  | ShowOne (IText _) => Err NumericCastError
  | ShowOne i => int_of_item i
  | ShowItems l => if Nat.ltb 1 (length l) then Err NumericCastError else Err TypeError
  | ShowArray l => if Nat.ltb 1 (length l) then Err NumericCastError else Err TypeError
  end.
(** [__float__]: without a unit the result is not a number and Python raises
    TypeError.  Models operational.py 141-145. *)
Definition to_float (a : argument) : res Qc :=
  match a_unit a with
  | None => Err TypeError
  | Some _ =>
      match data a with
      | ShowOne i => number i
      | ShowItems l => if Nat.ltb 1 (length l) then Err NumericCastError else Err TypeError
      | ShowArray l => if Nat.ltb 1 (length l) then Err NumericCastError else Err TypeError
      end
  end.
(** operational.py 169-181, [__iter__] and [__len__]. *)
Definition iterate (a : argument) : list item :=
  match data a with
  | ShowOne (IText s) => map (fun c => IText [c]) s
  | ShowOne i => [i]
  | ShowItems l => l
  | ShowArray l => map IReal l
  end.
Definition length_of (a : argument) : nat :=
  match data_len (data a) with Some n => n | None => 1 end.
(** operational.py 183-198, [__getitem__] with an integer, of arguments with
    units: an array scalar has no elements. *)
Definition getitem (a : argument) (i : Z) : res (Qc * option U) :=
  let j := if (i <? 0)%Z then (i + Z.of_nat (length_of a))%Z else i in
  match data a with
  | ShowArray l => rmap (fun q => (q, a_unit a)) (py_index l j)
  | ShowOne (IReal _) => Err IndexError
  | ShowOne _ => Err TypeError
  | ShowItems _ => Err TypeError
  end.
(** operational.py 216-223, [__eq__] with another argument.  The comparison of
    arrays gives an array, whose truth raises ValueError unless it has one
    element; arrays of different lengths are unequal. *)
Definition item_eqb (a b : item) : bool :=
  match a, b with
  | IText s, IText t => str_eqb s t
  | IText _, _ | _, IText _ => false
  | _, _ => match number a, number b with Ok x, Ok y => Qc_eqb x y | _, _ => false end
  end.
Fixpoint items_eqb (l m : list item) : bool :=
  match l, m with
  | [], [] => true
  | a :: l', b :: m' => item_eqb a b && items_eqb l' m'
  | _, _ => false
  end.
Definition same_data (x y : shown) : res bool :=
  match x, y with
  | ShowOne a, ShowOne b => Ok (item_eqb a b)
  | ShowItems l, ShowItems m => Ok (items_eqb l m)
  | ShowArray l, ShowArray m => if Nat.eqb (length l) (length m) then match l with [] => Ok false | _ => Err ValueError end else Ok false
  | ShowArray l, ShowItems m | ShowItems m, ShowArray l =>
      if Nat.eqb (length l) (length m) then match l with [] => Ok false | _ => Err ValueError end else Ok false
  | ShowOne (IText _), ShowArray _ | ShowArray _, ShowOne (IText _) => Ok false
  | ShowOne _, ShowArray l | ShowArray l, ShowOne _ => match l with [] => Ok false | _ => Err ValueError end
  | ShowOne _, ShowItems _ | ShowItems _, ShowOne _ => Ok false
  end.
Definition units_eqb (other self : option U) : bool :=
  match other, self with
  | Some u, Some v => unit_eqb u v
  | None, Some v => none_eqb v
  | _, None => true
  end.
Definition equal (self other : argument) : res bool :=
  do b <- same_data (data other) (data self);
  Ok (b && units_eqb (a_unit other) (a_unit self)).
End Arguments.
Arguments argument : clear implicits.

(** * Named quantities: core/physical.py, core/constant.py *)

Section Quantities.
Context {U : Type} (unit_eqb : U -> U -> bool).
(** [convert u v]: [v // u] when the units are consistent. *)
Context (convert : U -> U -> res Qc).
(** physical.py 20-45 and 120-176: the values, the unit and the name of a scalar
    or a vector. *)
Record quantity : Type := mkQuantity { q_values : list Qc; q_unit : U; q_name : list str }.
(** measurable.py 197-236, [__getitem__] with a unit, and [apply_unit], which
    physical.py does not replace for scalars and vectors. *)
Definition in_unit (q : quantity) (u : U) : res quantity :=
  if unit_eqb u (q_unit q) then Ok q
  else do f <- convert (q_unit q) u; Ok (mkQuantity (map (fun x => (x * f)%Qc) (q_values q)) u []).
(** physical.py 178-190, [Vector.__getitem__] with an integer. *)
Definition vector_item (q : quantity) (i : Z) : res quantity :=
  let j := if (i <? 0)%Z then (i + Z.of_nat (length (q_values q)))%Z else i in
  do v <- py_index (q_values q) j; Ok (mkQuantity [v] (q_unit q) []).
(** constant.py 17-30, [Assumption.__getitem__] with an integer. *)
Definition assumption_item (q : quantity) (i : Z) : res quantity :=
  do v <- vector_item q i; Ok (mkQuantity (q_values v) (q_unit q) (q_name q)).
(** constant.py 43-49, [_cast_to]. *)
Definition assumption_float (q : quantity) : res Qc :=
  match q_values q with [v] => Ok v | _ => Err TypeError end.
Definition assumption_int (q : quantity) : res Z :=
  match q_values q with [v] => Ok (Qc_trunc v) | _ => Err TypeError end.

(** ** Parameters under several names: constant.py 79-93 *)
Inductive parameter : Type := Assumption (q : quantity) | Option (value : list item) (name : list str).
(** The definition of a parameter; [None] stands for every false unit.
    Models core/constant.py 79-93. *)
Record entry : Type := mkEntry { e_value : list item; e_unit : option U }.
Context (mkset : list str -> list str).
(** [alias(key, include=True)] and [Interface.__getitem__]; values of
    assumptions are numbers.  Models core/constant.py 82-93. *)
Definition parameter_of (m : AliasedModel.amap entry) (k : str) : res parameter :=
  match AliasedModel.getitem m k with
  | Err _ => Err KeyError
  | Ok this =>
      do aliases <- AliasedModel.alias_get mkset m k true;
      let name := match aliases with Some g => g | None => [] end in
      match e_unit this with
      | Some u => do l <- mapM number (e_value this); Ok (Assumption (mkQuantity l u name))
      | None => Ok (Option (e_value this) name)
      end
  end.
End Quantities.
Arguments quantity : clear implicits.
Arguments parameter : clear implicits.
Arguments entry : clear implicits.

(** * Constants: core/fundamental.py 10-160, core/physical.py 78-117 *)

(** [m] times ten to the power [e].  Models core/fundamental.py 10-159. *)
Definition dec (m e : Z) : Qc :=
  (Qc_of_Z m * (if (e <? 0)%Z then / Qc_of_Z (10 ^ (- e)) else Qc_of_Z (10 ^ e)))%Qc.
(** [numpy.pi].  Models core/fundamental.py 10-159. *)
Definition pi64 : Qc := (Qc_of_Z 884279719003555 / Qc_of_Z 281474976710656)%Qc.
(** [_normalize(_constants)]: the value and the unit in both systems.  Numbers
    are those written in the code, without rounding to binary64.
    Models core/fundamental.py 10-159. *)
Local Open Scope Qc_scope.
Definition constants : list (str * ((Qc * str) * (Qc * str))) := [
  (lit "pi", ((pi64, lit "1"), (pi64, lit "1")));
  (lit "k", (((dec 13807 (-27)), lit "J / K"), ((dec 13807 (-20)), lit "erg / K")));
  (lit "e", (((dec 16022 (-23)), lit "C"), ((dec 48032 (-14)), lit "statC")));
  (lit "me", (((dec 91094 (-35)), lit "kg"), ((dec 91094 (-32)), lit "g")));
  (lit "mp", (((dec 16726 (-31)), lit "kg"), ((dec 16726 (-28)), lit "g")));
  (lit "G", (((dec 66726 (-15)), lit "m^3 / (s^2 * kg)"), ((dec 66726 (-12)), lit "dyn * cm^2 / g^2")));
  (lit "g", (((dec 98067 (-4)), lit "m / s^2"), ((dec 98067 (-2)), lit "cm / s^2")));
  (lit "h", (((dec 66261 (-38)), lit "J * s"), ((dec 66261 (-31)), lit "erg * s")));
  (lit "c", (((dec 29979 (4)), lit "m / s"), ((dec 29979 (6)), lit "cm / s")));
  (lit "epsilon0", (((dec 88542 (-16)), lit "F / m"), ((dec 10 (-1)), lit "1")));
  (lit "mu0", (((Qc_of_Z 4 * pi64 * dec 1 (-7)), lit "H / m"), ((dec 10 (-1)), lit "1")));
  (lit "Rinfinity", (((dec 10974 (3)), lit "1 / m"), ((dec 10974 (1)), lit "1 / cm")));
  (lit "a0", (((dec 52918 (-15)), lit "m"), ((dec 52918 (-13)), lit "cm")));
  (lit "re", (((dec 28179 (-19)), lit "m"), ((dec 28179 (-17)), lit "cm")));
  (lit "alpha", (((dec 72974 (-7)), lit "1"), ((dec 72974 (-7)), lit "1")));
  (lit "c1", (((dec 37418 (-20)), lit "W * m^2"), ((dec 37418 (-20)), lit "erg * cm^2 / s")));
  (lit "c2", (((dec 14388 (-6)), lit "m * K"), ((dec 14388 (-4)), lit "cm * K")));
  (lit "sigma", (((dec 56705 (-12)), lit "W / (m^2 * K^4)"), ((dec 56705 (-9)), lit "(erg / s) / (cm^2 * K^4)")));
  (lit "eV", (((dec 16022 (-23)), lit "J"), ((dec 16022 (-16)), lit "erg")));
  (lit "amu", (((dec 16605 (-31)), lit "kg"), ((dec 16605 (-28)), lit "g")));
  (lit "au", (((dec 1495978707 (2)), lit "m"), ((dec 1495978707 (4)), lit "cm")));
  (lit "H+", (((dec 136 (-1) * (dec 16022 (-23))), lit "J"), ((dec 136 (-1) * (dec 16022 (-16))), lit "erg")))].
Local Close Scope Qc_scope.
Definition lower_char (c : ascii) : ascii :=
  let n := nat_of_ascii c in if Nat.leb 65 n && Nat.leb n 90 then ascii_of_nat (n + 32) else c.
Definition lower (s : str) : str := map lower_char s.
(** [Constants(system)[name]]: the other keys of a definition are ['info'] and
    ['quantity'], whose values are strings.  Models core/physical.py 84-127. *)
Definition constant (system name : str) : res (Qc * str) :=
  match d_get str_eqb constants name with
  | None => Err KeyError
  | Some (mks, cgs) =>
      if str_eqb (lower system) (lit "mks") then Ok mks
      else if str_eqb (lower system) (lit "cgs") then Ok cgs
      else if str_eqb (lower system) (lit "info") || str_eqb (lower system) (lit "quantity") then Err TypeError
      else Err ValueError
  end.

(** * Comparison of files: eprem/runtime.py *)

(** Full paths as lists of parts.  Used for runtime.py 1608-1614. *)
Definition path : Type := list str.
Fixpoint common2 (p q : path) : path :=
  match p, q with
  | a :: p', b :: q' => if str_eqb a b then a :: common2 p' q' else []
  | _, _ => []
  end.
(** [os.path.commonpath].  Used for runtime.py 1608-1614. *)
Definition common (l : list path) : path :=
  match l with [] => [] | p :: l' => fold_left common2 l' p end.
(** [os.path.relpath] of a path under [start]; [[]] is ["."].
    Used for runtime.py 1608-1614. *)
Definition relative (start p : path) : path := skipn (length start) p.
(** runtime.py 1608-1614, [_get_relative_paths]: [these] is a set, whose order
    is not modelled. *)
Definition relative_paths (these : list path) : list path := map (relative (common these)) these.
(** The file that is opened for a relative path (runtime.py 850 and iotools.py
    172-196): it is sought from the current directory. *)
Definition opened (cwd rel : path) : path := cwd ++ rel.

Section Compare.
(** [shown f k]: what is shown of the parameter [k] in the file [f], and
    [default k].  Used for runtime.py 1583-1606. *)
Context {V : Type} (veqb : V -> V -> bool) (shown_in : path -> str -> V) (default : str -> V).
Inductive compare_mode : Type := Show | Diff.
(** runtime.py 1583-1606, [_build_arg_dict]: the default and the values in all
    files; a parameter has none when all values are equal. *)
Definition build_args (mode : compare_mode) (targets : list path) (keys : list str) : list (str * option (V * list (path * V))) :=
  let built := map (fun k =>
      let current := map (fun f => (f, shown_in f k)) targets in
      (k, match mode, current with
          | Show, _ => Some (default k, current)
          | Diff, [] => None
          | Diff, (_, v0) :: _ => if existsb (fun p => negb (veqb (snd p) v0)) current then Some (default k, current) else None
          end)) keys in
  match mode with Show => built | Diff => filter (fun p => match snd p with Some _ => true | None => false end) built end.
(** runtime.py 1532-1581, [compare_arguments]: [next] raises when nothing is
    left. *)
Definition compare (mode : compare_mode) (targets : list path) (keys : list str) : res (list (str * (V * list (path * V)))) :=
  match concat (map (fun p => match snd p with Some x => [(fst p, x)] | None => [] end) (build_args mode targets keys)) with
  | [] => Err StopIteration
  | l => Ok l
  end.
(** runtime.py 1627-1648, [generate_defaults]: what is written. *)
Definition generated {A} (append : bool) (obj old : list (str * A)) : list (str * A) :=
  if append then d_update str_eqb obj old else obj.
End Compare.
