(** Model of the species of a plasma (core/plasma.py) over the table of
    elements (core/fundamental.py).

    Simplifications: masses and charges are exact rational numbers, and a
    given mass or charge is a number.  The alternative names [m] and [q] of the
    properties are the properties. *)

From Coq Require Import String Ascii List Bool ZArith QArith Qcanon Lia.
From Verif Require Import Py PyDict IterablesModel RuntimeModel EpremModel.
Import ListNotations.
Open Scope list_scope.
Open Scope nat_scope.
Open Scope py_scope.

(** core/fundamental.py 162-272, [_elements]: the names, in the order of
    [elements_table]. *)
Definition element_names : list str := [
  lit "Hydrogen";
  lit "Helium";
  lit "Lithium";
  lit "Beryllium";
  lit "Boron";
  lit "Carbon";
  lit "Nitrogen";
  lit "Oxygen";
  lit "Fluorine";
  lit "Neon";
  lit "Sodium";
  lit "Magnesium";
  lit "Aluminum";
  lit "Silicon";
  lit "Phosphorus";
  lit "Sulfur";
  lit "Chlorine";
  lit "Potassium";
  lit "Argon";
  lit "Calcium";
  lit "Scandium";
  lit "Titanium";
  lit "Vanadium";
  lit "Chromium";
  lit "Manganese";
  lit "Iron";
  lit "Nickel";
  lit "Cobalt";
  lit "Copper";
  lit "Zinc";
  lit "Gallium";
  lit "Germanium";
  lit "Arsenic";
  lit "Selenium";
  lit "Bromine";
  lit "Krypton";
  lit "Rubidium";
  lit "Strontium";
  lit "Yttrium";
  lit "Zirconium";
  lit "Niobium";
  lit "Molybdenum";
  lit "Technetium";
  lit "Ruthenium";
  lit "Rhodium";
  lit "Palladium";
  lit "Silver";
  lit "Cadmium";
  lit "Indium";
  lit "Tin";
  lit "Antimony";
  lit "Iodine";
  lit "Tellurium";
  lit "Xenon";
  lit "Cesium";
  lit "Barium";
  lit "Lanthanum";
  lit "Cerium";
  lit "Praseodymium";
  lit "Neodymium";
  lit "Promethium";
  lit "Samarium";
  lit "Europium";
  lit "Gadolinium";
  lit "Terbium";
  lit "Dysprosium";
  lit "Holmium";
  lit "Erbium";
  lit "Thulium";
  lit "Ytterbium";
  lit "Lutetium";
  lit "Hafnium";
  lit "Tantalum";
  lit "Tungsten";
  lit "Rhenium";
  lit "Osmium";
  lit "Iridium";
  lit "Platinum";
  lit "Gold";
  lit "Mercury";
  lit "Thallium";
  lit "Lead";
  lit "Bismuth";
  lit "Polonium";
  lit "Astatine";
  lit "Radon";
  lit "Francium";
  lit "Radium";
  lit "Actinium";
  lit "Protactinium";
  lit "Thorium";
  lit "Neptunium";
  lit "Uranium";
  lit "Plutonium";
  lit "Americium";
  lit "Berkelium";
  lit "Curium";
  lit "Nobelium";
  lit "Californium";
  lit "Einsteinium";
  lit "Hassium";
  lit "Meitnerium";
  lit "Fermium";
  lit "Mendelevium";
  lit "Lawrencium";
  lit "Rutherfordium";
  lit "Bohrium";
  lit "Dubnium";
  lit "Seaborgium"].
(** core/fundamental.py 162-274: an element is its symbol, its name and its
    mass; [ELEMENTS] is the table of all of them. *)
Definition row : Type := str * str * Qc.
Definition element_rows : list row :=
  map (fun p => (fst (fst p), snd p, snd (fst p))) (combine elements_table element_names).
Inductive cell : Type := CText (s : str) | CNumber (q : Qc).
Definition cell_eqb (a b : cell) : bool :=
  match a, b with
  | CText s, CText t => str_eqb s t
  | CNumber p, CNumber q => Qc_eqb p q
  | _, _ => false
  end.
Definition entry_of (r : row) : entry (V := cell) :=
  [(lit "symbol", CText (fst (fst r))); (lit "name", CText (snd (fst r))); (lit "mass", CNumber (snd r))].
(** [ELEMENTS.find(base, unique=True)['mass']] (core/plasma.py 37-38). *)
Definition find_mass (rows : list row) (base : str) : res Qc :=
  do r <- table_find cell_eqb (map entry_of rows) (CText base) true;
  match r with
  | inr e => match sd_get e (lit "mass") with Some (CNumber q) => Ok q | _ => Err KeyError end
  | inl _ => Err TypeError
  end.

(** A number, or a [physical.Scalar] with its unit and its names.
    Used for core/plasma.py 22-28. *)
Inductive amount : Type := Plain (q : Qc) | Measured (q : Qc) (unit : str) (names : list str).
Definition number_of (a : amount) : Qc := match a with Plain q => q | Measured q _ _ => q end.
(** core/plasma.py 9-20, the attributes and the constructor. *)
Record species : Type := mkSpecies { sp_symbol : option str; sp_mass : option amount; sp_charge : option amount }.
Definition new_species (symbol : option str) (mass charge : option Qc) : res species :=
  match symbol, mass, charge with
  | None, None, None => Err ValueError
  | _, _, _ => Ok (mkSpecies symbol (option_map Plain mass) (option_map Plain charge))
  end.

(** [s.rstrip('+-')] and [s.lstrip(chars)].  Used for core/plasma.py 48-59. *)
Definition is_sign (c : ascii) : bool := Ascii.eqb c "+" || Ascii.eqb c "-".
Definition base_of (s : str) : str := rev (lstrip_of is_sign (rev s)).
Definition sign_of (s : str) : str := lstrip_of (fun c => existsb (Ascii.eqb c) (base_of s)) s.
(** core/plasma.py 54, [sum(float(f"{s}1.0") for s in sign)]; a character that
    is not a sign makes [float] raise or read another number, but does not
    occur ([sign_of_signs]); a digit d would be read as d1.0. *)
Fixpoint charge_of (sign : str) : res Qc :=
  match sign with
  | [] => Ok 0%Qc
  | c :: sign' =>
      do v <- if Ascii.eqb c "+" then Ok 1%Qc else if Ascii.eqb c "-" then Ok (- (1))%Qc else Err ValueError;
      do w <- charge_of sign'; Ok (v + w)%Qc
  end.

(** core/plasma.py 22-28 with core/fundamental.py 281-294, the property
    [symbol].  [round(None)] and [None > 0] raise TypeError; the masses are
    looked up first. *)
Definition symbol_of (rows : list row) (s : species) : res str * species :=
  match sp_symbol s with
  | Some x => (Ok x, s)
  | None =>
      let table := map (fun r => (fst (fst r), snd r)) rows in
      let r :=
        match sp_mass s with
        | None => Err TypeError
        | Some m =>
            match sp_charge s with
            | None => do _ <- get_mass_indices (nucleons table) [number_of m]; Err TypeError
            | Some q => do l <- elements table [number_of m] [number_of q];
                        match l with x :: _ => Ok x | [] => Err IndexError end
            end
        end in
      match r with
      | Ok x => (Ok x, mkSpecies (Some x) (sp_mass s) (sp_charge s))
      | Err e => (Err e, s)
      end
  end.
(** core/plasma.py 30-41, the property [mass]; [None.rstrip] is
    AttributeError. *)
Definition mass_of (rows : list row) (s : species) : res amount * species :=
  match sp_mass s with
  | Some m => (Ok m, s)
  | None =>
      match sp_symbol s with
      | None => (Err AttributeError, s)
      | Some x =>
          match find_mass rows (base_of x) with
          | Ok q => let m := Measured q (lit "nucleon") [lit "m"; lit "mass"] in
                    (Ok m, mkSpecies (sp_symbol s) (Some m) (sp_charge s))
          | Err e => (Err e, s)
          end
      end
  end.
(** core/plasma.py 48-59, the property [charge]. *)
Definition charge_in (s : species) : res amount * species :=
  match sp_charge s with
  | Some q => (Ok q, s)
  | None =>
      match sp_symbol s with
      | None => (Err AttributeError, s)
      | Some x =>
          match charge_of (sign_of x) with
          | Ok v => let q := Measured v (lit "e") [lit "q"; lit "charge"] in
                    (Ok q, mkSpecies (sp_symbol s) (sp_mass s) (Some q))
          | Err e => (Err e, s)
          end
      end
  end.
