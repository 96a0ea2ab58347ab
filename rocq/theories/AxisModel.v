(** Model of the axes of datasets: core/axis.py, core/index.py and the axes of
    EPREM datasets (eprem/__init__.py 92-262).

    Simplifications: numbers are exact; units are names with the conversion
    factors between them as a parameter; unit strings among the targets come
    last (the other forms that [measurable.measure] accepts are modelled in
    MeasurableModel.v). *)

From Coq Require Import String Ascii List Bool ZArith QArith Qcanon Lia.
From Verif Require Import Py PyDict IterablesModel IterablesSpec NumericalModel RuntimeModel.
Import ListNotations.
Open Scope list_scope.
Open Scope nat_scope.
Open Scope py_scope.

(** * Targets and indices *)

(** What users pass to an axis.  Used for core/axis.py 40-48. *)
Inductive target : Type :=
| PInt (z : Z)
| PReal (q : Qc)
| PStr (s : str)
| POther
| PSlice (s : slice)
| PRange (r : range).

(** core/axis.py 40-48, [Indexer.normalize].  [range(n)] and ranges are listed
    ([range_list], Python's [range]). *)
Definition normalize (size : Z) (user : list target) : res (list target) :=
  match user with
  | [] => Ok (map PInt (range_list (mkRange 0 size 1)))
  | PSlice s :: _ => do r <- slice_to_range s (Some size); Ok (map PInt (range_list r))
  | PRange r :: _ => Ok (map PInt (range_list r))
  | _ => Ok user
  end.

(** core/index.py 13-31, [Data]: points and the values that go with them
    (if missing, the points themselves). *)
Record data (V : Type) : Type := mkData { d_points : list Z; d_values : list V }.
Arguments mkData {V}. Arguments d_points {V}. Arguments d_values {V}.
(** core/index.py 16-20: all points must be integers. *)
Fixpoint integral_points (l : list target) : res (list Z) :=
  match l with
  | [] => Ok []
  | PInt z :: l' => do r <- integral_points l'; Ok (z :: r)
  | _ => Err ValueError
  end.
(** core/index.py 43-55, [Quantity.__init__]: the first value is looked up.  An
    empty tuple or array raises IndexError. *)
Definition quantity {V} (d : data V) : res (data V) :=
  match d_values d with [] => Err IndexError | _ => Ok d end.

(** [int(arg)].  Used for core/axis.py 58-74. *)
Definition to_int (t : target) : res Z :=
  match t with
  | PInt z => Ok z
  | PReal q => Ok (Qc_trunc q)
  | PStr s => match read_int s with Some q => Ok (Qc_num q) | None => Err ValueError end
  | _ => Err TypeError
  end.
(** core/axis.py 58-74, [indexer]. *)
Definition default_method (n : Z) (targets : list target) : res (data Z) :=
  match mapM to_int targets with
  | Ok l => if forallb (fun i => (0 <=? i)%Z && (i <? n)%Z) l then Ok (mkData l l) else Err ValueError
  | Err TypeError => Err IndexTypeError
  | Err e => Err e
  end.

(** core/axis.py 118-126, [Quantity.index]. *)
Definition axis_index {V} (size : Z) (method : list target -> res (data V)) (user : list target) : res (data V) :=
  do targets <- normalize size user;
  do d <- method targets;
  quantity d.

(** * Axes of EPREM datasets *)

(** eprem/__init__.py 157-167, [shell]. *)
Definition shell_method (targets : list target) : res (data Z) :=
  do l <- integral_points targets; Ok (mkData l l).

(** eprem/__init__.py 208-223, [species]: a symbol stands for its first
    position. *)
Fixpoint position (s : str) (l : list str) : option Z :=
  match l with
  | [] => None
  | x :: l' => if str_eqb x s then Some 0%Z else match position s l' with Some i => Some (i + 1)%Z | None => None end
  end.
Definition species_method (symbols : list str) (targets : list target) : res (data str) :=
  do l <- mapM (fun t => match t with
                         | PStr s => match position s symbols with Some i => Ok i | None => Err ValueError end
                         | _ => to_int t
                         end) targets;
  Ok (mkData l symbols).

Section Coordinates.
(** [factor u v]: a quantity of [x] in unit [u] is [factor * x] in unit [v];
    [None] if the units are inconsistent. *)
Context (factor : str -> str -> option Qc).

(** The numbers and the unit of targets: [measurable.measure(targets)].
    Used for eprem/__init__.py 225-262. *)
Fixpoint measured (targets : list target) : res (list Qc * option str) :=
  match targets with
  | [] => Ok ([], None)
  | [PStr u] => Ok ([], Some u)
  | PInt z :: l => do r <- measured l; Ok (Qc_of_Z z :: fst r, snd r)
  | PReal q :: l => do r <- measured l; Ok (q :: fst r, snd r)
  | _ => Err TypeError
  end.
Definition is_index (t : target) : bool := match t with PInt _ => true | _ => false end.
(** [array[unit]] for values in the given unit.
    Used for eprem/__init__.py 225-262. *)
Definition in_unit (values : list Qc) (old new : str) : res (list Qc) :=
  match factor old new with Some f => Ok (map (Qcmult f) values) | None => Err ValueError end.

(** eprem/__init__.py 225-262, [_build_coordinate]: [this] has the given
    values and unit. *)
Definition coordinate_method (values : list Qc) (own : str) (unit : str) (targets : list target) : res (data Qc) :=
  do converted <- in_unit values own unit;
  match targets with
  | [] => Ok (mkData (range_list (mkRange 0 (Z.of_nat (length converted)) 1)) converted)
  | _ =>
      if forallb is_index targets then
        do l <- integral_points targets; Ok (mkData l converted)
      else
        do m <- measured targets;
        let u := match snd m with Some u => if str_eqb u (lit "1") then unit else u | None => unit end in
        let array := match factor u unit with Some f => map (Qcmult f) (fst m) | None => fst m end in
        do l <- mapM (fun v => do r <- find_nearest converted v BNone; Ok (fst r)) array;
        Ok (mkData l array)
  end.

(** eprem/__init__.py 186-206, [energy], for energies of each species: the
    row of the given species, with numpy's indices.  Simplification: the
    targets are not an array with two axes. *)
Definition energy_method (symbols : list str) (rows : list (list Qc)) (own : str) (species : target) (unit : str) (targets : list target) : res (data Qc) :=
  do s <- species_method symbols [species];
  do i <- match d_points s with [i] => Ok i | _ => Err IndexError end;
  do row <- py_index rows i;
  coordinate_method row own unit targets.
End Coordinates.

(** * Units of axes *)

Section Units.
Context (factor : str -> str -> option Qc).

(** core/axis.py 130-163, [Quantity.__getitem__]: the unit of the new axis.
    Simplification: names of metric systems are not modelled. *)
Definition axis_unit (own : option str) (new : str) : res str :=
  match own with
  | None => Err TypeError
  | Some u => if str_eqb new u then Ok u
              else match factor u new with Some _ => Ok new | None => Err ValueError end
  end.

(** core/index.py 147-186, [Array.__getitem__] of a unit, for an array of
    values.  Simplification: as for [axis_unit]. *)
Definition array_unit (d : data Qc) (own : option str) (new : str) : res (data Qc * str) :=
  match own with
  | None => Err TypeError
  | Some u => if str_eqb new u then Ok (d, u)
              else match factor u new with
                   | Some f => Ok (mkData (d_points d) (map (Qcmult f) (d_values d)), new)
                   | None => Err ValueError
                   end
  end.
(** core/axis.py 111-116, [Quantity.reference], for a coordinate: the whole
    axis as an array. *)
Definition coordinate_reference (values : list Qc) (own unit : str) : res (data Qc) :=
  axis_index (Z.of_nat (length values)) (coordinate_method factor values own unit) [].
End Units.
