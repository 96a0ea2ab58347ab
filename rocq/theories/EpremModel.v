(** Model of parts of the EPREM interface: unit strings, species symbols and the
    dimensions and units of computed quantities (eprem/__init__.py,
    core/fundamental.py, core/computed.py). *)

From Coq Require Import String Ascii List Bool ZArith QArith Qcanon Lia.
From Verif Require Import Py PyDict.
Import ListNotations.
Open Scope list_scope.
Open Scope nat_scope.
Open Scope py_scope.

(** * Unit strings *)

(** eprem/__init__.py 64-70, [_UNIT_MAP]. *)
Definition unit_map : list (str * str) :=
  [(lit "julian date", lit "day"); (lit "shell", lit "1"); (lit "cos(mu)", lit "1"); (lit "e-", lit "e");
   (lit "# / cm^2 s sr MeV", lit "# / cm^2 s sr MeV/nuc")].
(** [s.split('/', maxsplit=1)]; [None] if there is no slash.
    Used for eprem/__init__.py 78-89. *)
Fixpoint split_slash (s : str) : option (str * str) :=
  match s with
  | [] => None
  | c :: s' => if Ascii.eqb c "/" then Some ([], s')
               else match split_slash s' with Some (a, b) => Some (c :: a, b) | None => None end
  end.
(** eprem/__init__.py 78-89, [standardize]. *)
Definition standardize (unit : str) : str :=
  let unit := match d_get str_eqb unit_map unit with Some u => u | None => unit end in
  match split_slash unit with
  | Some (num, den) => strip num ++ lit " / (" ++ strip den ++ lit ")"
  | None => unit
  end.

(** * Species symbols *)

(** core/fundamental.py 162-272, [_elements]: symbols and masses. *)
Definition elements_table : list (str * Qc) := [
  (lit "H", Q2Qc (100797 # 100000));
  (lit "He", Q2Qc (20013 # 5000));
  (lit "Li", Q2Qc (6941 # 1000));
  (lit "Be", Q2Qc (450609 # 50000));
  (lit "B", Q2Qc (1081 # 100));
  (lit "C", Q2Qc (12011 # 1000));
  (lit "N", Q2Qc (140067 # 10000));
  (lit "O", Q2Qc (79997 # 5000));
  (lit "F", Q2Qc (18998403 # 1000000));
  (lit "Ne", Q2Qc (20179 # 1000));
  (lit "Na", Q2Qc (2298977 # 100000));
  (lit "Mg", Q2Qc (4861 # 200));
  (lit "Al", Q2Qc (1349077 # 50000));
  (lit "Si", Q2Qc (56171 # 2000));
  (lit "P", Q2Qc (96793 # 3125));
  (lit "S", Q2Qc (1603 # 50));
  (lit "Cl", Q2Qc (35453 # 1000));
  (lit "K", Q2Qc (390983 # 10000));
  (lit "Ar", Q2Qc (9987 # 250));
  (lit "Ca", Q2Qc (1002 # 25));
  (lit "Sc", Q2Qc (449559 # 10000));
  (lit "Ti", Q2Qc (479 # 10));
  (lit "V", Q2Qc (101883 # 2000));
  (lit "Cr", Q2Qc (12999 # 250));
  (lit "Mn", Q2Qc (27469 # 500));
  (lit "Fe", Q2Qc (55847 # 1000));
  (lit "Ni", Q2Qc (587 # 10));
  (lit "Co", Q2Qc (147333 # 2500));
  (lit "Cu", Q2Qc (31773 # 500));
  (lit "Zn", Q2Qc (3269 # 50));
  (lit "Ga", Q2Qc (1743 # 25));
  (lit "Ge", Q2Qc (7259 # 100));
  (lit "As", Q2Qc (46826 # 625));
  (lit "Se", Q2Qc (1974 # 25));
  (lit "Br", Q2Qc (9988 # 125));
  (lit "Kr", Q2Qc (419 # 5));
  (lit "Rb", Q2Qc (427339 # 5000));
  (lit "Sr", Q2Qc (4381 # 50));
  (lit "Y", Q2Qc (889059 # 10000));
  (lit "Zr", Q2Qc (4561 # 50));
  (lit "Nb", Q2Qc (116133 # 1250));
  (lit "Mo", Q2Qc (4797 # 50));
  (lit "Tc", Q2Qc (98 # 1));
  (lit "Ru", Q2Qc (10107 # 100));
  (lit "Rh", Q2Qc (205811 # 2000));
  (lit "Pd", Q2Qc (532 # 5));
  (lit "Ag", Q2Qc (26967 # 250));
  (lit "Cd", Q2Qc (11241 # 100));
  (lit "In", Q2Qc (5741 # 50));
  (lit "Sn", Q2Qc (11869 # 100));
  (lit "Sb", Q2Qc (487 # 4));
  (lit "I", Q2Qc (253809 # 2000));
  (lit "Te", Q2Qc (638 # 5));
  (lit "Xe", Q2Qc (1313 # 10));
  (lit "Cs", Q2Qc (664527 # 5000));
  (lit "Ba", Q2Qc (13733 # 100));
  (lit "La", Q2Qc (277811 # 2000));
  (lit "Ce", Q2Qc (3503 # 25));
  (lit "Pr", Q2Qc (1409077 # 10000));
  (lit "Nd", Q2Qc (3606 # 25));
  (lit "Pm", Q2Qc (145 # 1));
  (lit "Sm", Q2Qc (752 # 5));
  (lit "Eu", Q2Qc (3799 # 25));
  (lit "Gd", Q2Qc (629 # 4));
  (lit "Tb", Q2Qc (794627 # 5000));
  (lit "Dy", Q2Qc (325 # 2));
  (lit "Ho", Q2Qc (206163 # 1250));
  (lit "Er", Q2Qc (8363 # 50));
  (lit "Tm", Q2Qc (844671 # 5000));
  (lit "Yb", Q2Qc (4326 # 25));
  (lit "Lu", Q2Qc (174967 # 1000));
  (lit "Hf", Q2Qc (17849 # 100));
  (lit "Ta", Q2Qc (1809479 # 10000));
  (lit "W", Q2Qc (3677 # 20));
  (lit "Re", Q2Qc (186207 # 1000));
  (lit "Os", Q2Qc (951 # 5));
  (lit "Ir", Q2Qc (9611 # 50));
  (lit "Pt", Q2Qc (19509 # 100));
  (lit "Au", Q2Qc (393933 # 2000));
  (lit "Hg", Q2Qc (20059 # 100));
  (lit "Tl", Q2Qc (20437 # 100));
  (lit "Pb", Q2Qc (1036 # 5));
  (lit "Bi", Q2Qc (522451 # 2500));
  (lit "Po", Q2Qc (209 # 1));
  (lit "At", Q2Qc (210 # 1));
  (lit "Rn", Q2Qc (222 # 1));
  (lit "Fr", Q2Qc (223 # 1));
  (lit "Ra", Q2Qc (1130127 # 5000));
  (lit "Ac", Q2Qc (1135139 # 5000));
  (lit "Pa", Q2Qc (2310359 # 10000));
  (lit "Th", Q2Qc (2320381 # 10000));
  (lit "Np", Q2Qc (1185241 # 5000));
  (lit "U", Q2Qc (238029 # 1000));
  (lit "Pu", Q2Qc (242 # 1));
  (lit "Am", Q2Qc (243 # 1));
  (lit "Bk", Q2Qc (247 # 1));
  (lit "Cm", Q2Qc (247 # 1));
  (lit "No", Q2Qc (250 # 1));
  (lit "Cf", Q2Qc (251 # 1));
  (lit "Es", Q2Qc (252 # 1));
  (lit "Hs", Q2Qc (255 # 1));
  (lit "Mt", Q2Qc (256 # 1));
  (lit "Fm", Q2Qc (257 # 1));
  (lit "Md", Q2Qc (258 # 1));
  (lit "Lr", Q2Qc (260 # 1));
  (lit "Rf", Q2Qc (261 # 1));
  (lit "Bh", Q2Qc (262 # 1));
  (lit "Db", Q2Qc (262 # 1));
  (lit "Sg", Q2Qc (263 # 1))
].
(** Python's [round(q)]: to the nearest integer, ties to even.
    Used for core/fundamental.py 276-279. *)
Definition py_round (q : Qc) : Z :=
  let a := Qc_num q in let d := Zpos (Qc_den q) in
  let f := (a / d)%Z in let r := (a mod d)%Z in
  if (2 * r <? d)%Z then f else if (d <? 2 * r)%Z then (f + 1)%Z else if Z.even f then f else (f + 1)%Z.
(** core/fundamental.py 276-279, [_nucleons], of a table of elements. *)
Definition nucleons (table : list (str * Qc)) : list (str * Z) :=
  d_of str_eqb (map (fun e => (fst e, py_round (snd e))) table).
(** core/fundamental.py 309-321, [get_mass_indices]: [list.index]. *)
Fixpoint index_of (z : Z) (l : list Z) : option nat :=
  match l with
  | [] => None
  | x :: l' => if (x =? z)%Z then Some 0 else option_map S (index_of z l')
  end.
Definition get_mass_indices (n : list (str * Z)) (targets : list Qc) : res (list nat) :=
  mapM (fun t => match index_of (py_round t) (map snd n) with Some i => Ok i | None => Err MassValueError end) targets.
(** core/fundamental.py 293: the signs of a charge. *)
Definition signs (charge : Qc) : str :=
  repeat (if Qc_ltb 0 charge then "+"%char else "-"%char) (Z.abs_nat (Qc_trunc charge)).
(** core/fundamental.py 281-294, [elements], of arrays. *)
Definition elements (table : list (str * Qc)) (mass charge : list Qc) : res (list str) :=
  if Nat.eqb (length mass) (length charge) then
    let n := nucleons table in
    do idx <- get_mass_indices n mass;
    do bases <- mapM (fun i => match nth_error (map fst n) i with Some b => Ok b | None => Err IndexError end) idx;
    Ok (map (fun p => fst p ++ signs (snd p)) (combine bases charge))
  else Err TypeError.

(** * Dimensions *)
(** Used for eprem/__init__.py 131-145. *)

Inductive mode : Type := Strict | Append | OtherMode.
Definition inb (x : str) (l : list str) : bool := existsb (str_eqb x) l.
(** eprem/__init__.py 131-145, [Axes.resolve]; [names] are the axes of the
    dataset.  Sets are lists without repetition, in the order in which Python
    happens to list them. *)
Definition resolve (names : list str) (given : list str) (m : mode) : res (list str) :=
  let ordered := filter (fun n => inb n given) names in
  match m with
  | Strict => Ok ordered
  | _ =>
      let extra := filter (fun n => negb (inb n ordered)) given in
      match extra, m with
      | [], _ => Ok ordered
      | _, Append => Ok (ordered ++ extra)
      | _, _ => Err ValueError
      end
  end.

(** A registered function: its parameters and the dimensions that it removes
    and adds (core/computed.py 408-476, [Method], and the registrations of 30-370). *)
Record fn : Type := mkFn { f_params : list str; f_removed : list str; f_added : list str }.

Section Dimensions.
(** The axes of the dataset, the dimensions of its variables and the
    registered functions, each under every alias; [listing] is the order in
    which Python lists a set. *)
Context (names : list str) (variables : str -> option (list str)) (functions : str -> option fn)
        (listing : list str -> list str).

(** [set(accumulated) - set(removed) | set(added)], as a list.
    Used for eprem/__init__.py 323-333. *)
Definition unique (accumulated removed added : list str) : list str :=
  listing (nodup (list_eq_dec ascii_dec) (filter (fun d => negb (inb d removed)) accumulated ++ added)).

(** [self._removed], [self._added], [self._accumulated].
    Used for eprem/__init__.py 323-333. *)
Record gathering : Type := mkGathering { g_removed : list str; g_added : list str; g_accumulated : list str }.

(** eprem/__init__.py 323-333, [Functions._gather_dimensions]; deeper
    recursion than [fuel] is RuntimeError (RecursionError). *)
Fixpoint gather (fuel : nat) (target : fn) (g : gathering) : res (gathering * list str) :=
  match fuel with
  | O => Err RuntimeError
  | S fuel' =>
      do g <- (fix go (l : list str) (g : gathering) : res gathering :=
        match l with
        | [] => Ok g
        | p :: l' =>
            match variables p with
            | Some dims => go l' (mkGathering (g_removed g) (g_added g) (g_accumulated g ++ dims))
            | None =>
                match functions p with
                | Some f =>
                    do r <- gather fuel' f (mkGathering (g_removed g ++ f_removed f) (g_added g ++ f_added f) (g_accumulated g));
                    go l' (mkGathering (g_removed (fst r)) (g_added (fst r)) (g_accumulated (fst r) ++ snd r))
                | None => go l' g
                end
            end
        end) (f_params target) g;
      do d <- resolve names (unique (g_accumulated g) (g_removed g) (g_added g)) Append;
      Ok (g, d)
  end.

(** eprem/__init__.py 310-322, [Functions.get_dimensions], without the cache. *)
Definition get_dimensions (fuel : nat) (key : str) : res (list str) :=
  match functions key with
  | None => Err AttributeError
  | Some f => do r <- gather fuel f (mkGathering (f_removed f) (f_added f) []); Ok (snd r)
  end.
End Dimensions.

(** * Computed quantities *)

(** core/computed.py 479-535, [Quantity], and the cache of
    eprem/__init__.py 277-289, [Functions.__getitem__]: the units of the cached
    quantities, by name.  Two names have two objects even if they are aliases.
    [default] is the unit of the metric system and [result] the number that the
    method computes (in that system). *)
Section Quantities.
Context (default : str -> str) (result : str -> Qc).
(** [functions[k].unit]: the quantity is cached with its unit.
    Used for core/computed.py 510-519. *)
Definition get_quantity (cache : list (str * str)) (k : str) : list (str * str) * str :=
  match d_get str_eqb cache k with
  | Some u => (cache, u)
  | None => (d_set str_eqb cache k (default k), default k)
  end.
(** core/computed.py 510-519, [Quantity.__getitem__]: [functions[k][unit]]
    changes the unit of the quantity itself. *)
Definition set_unit (cache : list (str * str)) (k : str) (unit : str) : list (str * str) :=
  d_set str_eqb (fst (get_quantity cache k)) k unit.
(** core/computed.py 521-527, [Quantity.__call__]: number and unit. *)
Definition call (cache : list (str * str)) (k : str) : Qc * str := (result k, snd (get_quantity cache k)).
End Quantities.
