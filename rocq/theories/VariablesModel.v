(** Model of the interfaces to the variables of a dataset (core/variable.py
    650-705, eprem/__init__.py 40-61).

    Simplifications: units and arrays are as in ArrayModel.v, and reading a
    unit as in ObservablesModel.v; the variables of a dataset under all their
    names are given by a look-up (FilesModel.v models it).  An instance in the
    cache is given as it was when it was built: what is read from it later
    does not change its meaning (C43). *)

From Coq Require Import String Ascii List Bool ZArith QArith Qcanon Lia.
From Verif Require Import Py PyDict SymbolicModel IterablesModel MetricTables MetricModel SystemModel
  MeasurableModel EpremModel ArrayModel ObservablesModel.
Import ListNotations.
Open Scope list_scope.
Open Scope nat_scope.

Section Variables.
(** As in ArrayModel.v and ObservablesModel.v. *)
Context {D U : Type} (asarray : D -> arr) (get : D -> nindex -> res arr) (has_shape : D -> bool)
        (ueq uor : U -> U -> res bool) (ufactor : U -> U -> res Qc)
        (uread : str -> res U) (norms : U -> res (list (str * U))).
(** The attributes [unit] and [dimensions] of a data object, if it has them.
    Used for variable.py 481-507. *)
Context (unit_attr : D -> option str) (dims_attr : D -> option (list str)).

Definition attr_of {A} (f : D -> option A) (d : data D) : option A :=
  match d with Source d => f d | Memory _ => None end.

(** variable.py 481-507, [Quantity.__init__] with data, dimensions and unit,
    where attributes of the data replace the arguments (490, 494-498). *)
Definition construct (d : data D) (dims : list str) (unit : res U) : res (object D U) :=
  do u <- match attr_of unit_attr d with Some t => uread t | None => unit end;
  let (s, o) := get_shape asarray get has_shape (mkObject d None 1%Qc u dims) in
  let dims := match attr_of dims_attr d with
              | Some l => l
              | None => match dims with [] => default_dims (length s) | _ => dims end
              end in
  if Nat.eqb (length dims) (length s)
  then Ok (mkObject (o_data o) (o_full o) (o_scale o) (o_unit o) dims)
  else Err ValueError.

(** variable.py 571-600, [_update_unit], and 413-420. *)
Definition convert_unit (o : object D U) (u : U) : res (object D U) :=
  do e <- ueq u (o_unit o);
  if e then Ok o
  else
    do c <- uor (o_unit o) u;
    if negb c then Err ValueError
    else
      do n <- construct (o_data o) (o_dims o) (Ok u);
      do f <- ufactor (o_unit o) u;
      Ok (mkObject (o_data n) (o_full n) (o_scale o * f)%Qc (o_unit n) (o_dims n)).
(** The same for text (581-584). *)
Definition convert_text (o : object D U) (x : str) : res (object D U) :=
  do u <- if is_system x then norm_in norms (o_unit o) x else uread x;
  convert_unit o u.

(** core/datafile.py 39-45. *)
Record raw_variable : Type := mkRawVariable
  { rv_data : D; rv_unit : option str; rv_dims : list str; rv_name : str }.
(** core/datafile.py 83-102: the variable called [name] whose array on disk is
    [d], which may have an attribute [units]. *)
Definition view_variable (units_attr : D -> option str) (name : str) (d : D) : raw_variable :=
  mkRawVariable d (match unit_attr d with Some u => Some u | None => units_attr d end)
    (match dims_attr d with Some l => l | None => [] end) name.

(** eprem/__init__.py 50-61, [Variables.build], for the metric system [sys];
    [mass_unit s]: [s['mass'].unit].  Without a unit, [standardize] tests
    [ '/' in None ] (TypeError); an empty unit counts as 1 (variable.py 490);
    without a system, [None['mass']] is TypeError and [str(None)] is taken for
    a unit. *)
Context (mass_unit : system -> res U).
Definition or_one (t : str) : str := match t with [] => lit "1" | _ => t end.
Definition eprem_build (sys : option system) (v : raw_variable) : res (object D U) :=
  do t <- match rv_unit v with Some t => Ok (standardize t) | None => Err TypeError end;
  do o <- construct (Source (rv_data v)) (rv_dims v) (uread (or_one t));
  if existsb (str_eqb (rv_name v)) [lit "mass"; lit "m"]
  then match sys with
       | Some s => do u <- mass_unit s; convert_unit o u
       | None => Err TypeError
       end
  else convert_text o (match sys with Some s => system_name s | None => lit "None" end).

(** variable.py 678-699, [Interface.build]: the variables of a dataset have no
    attribute [axes]. *)
Definition base_build (v : raw_variable) : res (object D U) := Err AttributeError.

(** variable.py 665-680, [Interface.__getitem__]: the result, and the cache
    afterwards.  A quantity always counts as true (core/algebraic.py 254-256).
    Only KeyErrors are replaced. *)
Context (find : str -> res raw_variable) (build : raw_variable -> res (object D U)).
Definition retrieve (cache : list (str * object D U)) (k : str) : res (object D U) * list (str * object D U) :=
  match d_get str_eqb cache k with
  | Some o => (Ok o, cache)
  | None =>
      match (do v <- find k; build v) with
      | Ok o => (Ok o, d_set str_eqb cache k o)
      | Err e => (Err e, cache)
      end
  end.
(** A history of requests: the answers.
    For histories and uses of variable.py 665-680. *)
Fixpoint requests (cache : list (str * object D U)) (ks : list str) : list (res (object D U)) :=
  match ks with
  | [] => []
  | k :: ks' => let (r, cache') := retrieve cache k in r :: requests cache' ks'
  end.
End Variables.
Arguments raw_variable : clear implicits.

(** * The module's own units *)

(** Units are unit expressions, with the module's tables; [limit] bounds the
    depth of looking up quantities (SystemModel.v).
    Used for core/metric.py 2660-2667. *)
Section Module.
Context {D : Type} (asarray : D -> arr) (get : D -> nindex -> res arr) (has_shape : D -> bool)
        (unit_attr : D -> option str) (dims_attr : D -> option (list str)) (limit : nat).
Definition m_read (t : str) : res expression := expression_of_str F64 false t.
Definition m_or : expression -> expression -> res bool :=
  unit_or F64 identified the_canonical base_quantities quantities mks_first the_connections the_nodes.
Definition m_factor (old new : expression) : res Qc := m_convert (expr_format F64 old) (expr_format F64 new).
Definition m_norms (u : expression) : res (list (str * expression)) :=
  do r <- m_norm limit u; Ok [(lit "mks", fst r); (lit "cgs", snd r)].
(** core/metric.py 2660-2667: [System(s)['mass'].unit]. *)
Definition m_mass_unit (s : system) : res expression := do p <- m_get limit s (lit "mass"); Ok (p_unit p).
Definition m_variable : option system -> raw_variable D -> res (object D expression) :=
  eprem_build asarray get has_shape (m_unit_eqb mks_first) m_or m_factor m_read m_norms unit_attr dims_attr m_mass_unit.
End Module.
