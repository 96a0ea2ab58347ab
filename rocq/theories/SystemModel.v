(** Model of metric systems: src/goats/core/metric.py 2005-2039 ([Unit.norm] and
    [Unit.quantity]), 2390-2401 ([Dimension.quantities]) and 2474-2788
    ([Properties], [Quantity] and [System]).  The tables and the properties of
    units are those of MetricModel.v. *)

From Coq Require Import String Ascii List Bool ZArith QArith Qcanon.
From Verif Require Import Py PyDict SymbolicModel ParametersModel IterablesModel MetricTables MetricModel.
Import ListNotations.
Open Scope list_scope.
Open Scope py_scope.

Section System.

Variable F : flops.
Variable named : str -> option named_unit.
Variable canonical : list canonical_row.
(** [_QUANTITIES]. *)
Variable qs : list (str * qdef).
(** The number of nested look-ups that Python's recursion limit allows;
    [OutOfFuel] stands for its RecursionError. *)
Variable limit : nat.

(** * Units *)

(** metric.py 2027-2039, [Unit.quantity]: the product of the quantities of the
    named units, with blanks replaced by '_'. *)
Definition unit_quantity (x : expression) : res expression :=
  do ts <- mapM (fun t =>
      match named (base t) with
      | None => Err UnitParsingError
      | Some n => term_pow F (init 1 (replace (lit " ") (lit "_") (n_quantity n)) 1) (expo t)
      end) x;
  expression_of_terms F ts.

(** symbolic.py 1438-1442 and 1301-1332, [Expression(expressions)]: the texts
    of the parts, in brackets, joined by ' * '. *)
Definition expression_of_parts (l : list expression) : res expression :=
  do us <- parse F false (join (lit " * ") (map (fun e => lit "(" ++ expr_format F e ++ lit ")") l));
  reduce us.

(** metric.py 2010-2025, [Unit.norm] in one system; [symbolic.power] is
    symbolic.py 1738-1740. *)
Definition norm_in (s : system) (q : expression) : res expression :=
  do l <- mapM (fun t =>
      do u <- prop_get F qs false limit (base t);
      do e <- expression_of_str F false (pick s u);
      expr_pow F e (expo t)) q;
  expression_of_parts l.
(** metric.py 2010-2025: both systems are computed on first use, so that a
    failure in one hides the other. *)
Definition norm (x : expression) : res (expression * expression) :=
  do q <- unit_quantity x;
  do m <- norm_in Mks q; do c <- norm_in Cgs q; Ok (m, c).

(** metric.py 2394-2401, [Dimension.quantities(system)]; the names of the set,
    in the order of the table.  The name of the system is used as it is. *)
Fixpoint quantities_with (s : system) (d : expression) (l : list canonical_row) : res (list str) :=
  match l with
  | [] => Ok []
  | (q, (_, ds)) :: l' =>
      do e <- expression_of_str F false (pick s ds);
      do r <- quantities_with s d l';
      Ok (if expr_eqb F d e then q :: r else r)
  end.
Definition exact_name (name : str) : option system :=
  if str_eqb name (lit "mks") then Some Mks else if str_eqb name (lit "cgs") then Some Cgs else None.
Definition dimension_quantities (d : expression) (name : str) : res (list str) :=
  match exact_name name with
  | Some s => quantities_with s d canonical
  | None => Err KeyError
  end.

(** * Quantities *)

(** metric.py 2474-2492, [Properties]: the system and the unit; the dimension
    is that of the unit in the system. *)
Record properties : Type := mkProperties { p_system : system; p_unit : expression }.
Definition p_dimension (p : properties) : res (option expression) :=
  do d <- dimensions_of F named canonical (p_unit p); Ok (pick (p_system p) d).

(** metric.py 2533-2556, [Quantity(name)]: instances are shared by lower-case
    name, so that an instance is its name, units and dimensions. *)
Record quantity : Type := mkQuantity { q_name : str; q_units : str * str; q_dims : str * str }.
Definition new_quantity (arg : str) : res quantity :=
  let name := lower arg in
  do u <- prop_get F qs false limit name;
  do d <- prop_get F qs true limit name;
  Ok (mkQuantity name u d).

(** metric.py 2558-2567, [Quantity[system]]. *)
Definition quantity_in (q : quantity) (name : str) : res properties :=
  match exact_name (lower name) with
  | Some s => do e <- expression_of_str F false (pick s (q_units q)); Ok (mkProperties s e)
  | None => Err QuantityError
  end.

(** metric.py 2577-2591, [Quantity == str] and, by identity of the shared
    instances, [Quantity == Quantity]. *)
Definition quantity_is (q : quantity) (s : str) : bool := str_eqb (lower s) (q_name q).
Definition same_quantity (q r : quantity) : bool := str_eqb (q_name q) (q_name r).

(** metric.py 2593-2611, [Quantity | Quantity]: systems in the order of
    [SYSTEMS], here mks before cgs; a dimension may be [None]. *)
Definition same_dimension (a b : option expression) : bool :=
  match a, b with
  | Some x, Some y => expr_eqb F x y
  | None, None => true
  | _, _ => false
  end.
Definition equivalent_in (q r : quantity) (name : str) : res bool :=
  do p <- quantity_in q name; do d <- p_dimension p;
  do p' <- quantity_in r name; do d' <- p_dimension p';
  Ok (same_dimension d d').
Definition equivalent (q r : quantity) : res bool :=
  do m <- equivalent_in q r (lit "mks");
  if m then equivalent_in q r (lit "cgs") else Ok false.

(** * Systems *)

(** metric.py 2630-2650, [System(name)]. *)
Definition new_system (arg : str) : res system :=
  match exact_name (lower arg) with Some s => Ok s | None => Err KeyError end.
Definition system_name (s : system) : str := match s with Mks => lit "mks" | Cgs => lit "cgs" end.

(** metric.py 2660-2667, [System[key]] for text.  The subclasses of
    [ValueError] in symbolic.py count as such. *)
Definition system_get (s : system) (key : str) : res properties :=
  match new_quantity key with
  | Ok q => quantity_in q (system_name s)
  | Err ValueError | Err OperandValueError | Err ParsingValueError => Err KeyError
  | Err e => Err e
  end.
(** metric.py 2652-2658: [len] and [iter]. *)
Definition system_keys : list str := map fst qs.

(** Arguments of [get_unit]: text or an expression (a [Unit] or a
    [Dimension]).  An expression that [reduce] made has at least one term
    (symbolic.py 1440-1442), so it is never false as a condition.  Used for
    metric.py 2669-2731. *)
Inductive target : Type := Text (s : str) | Expr (e : expression).
Definition truthy (t : target) : bool :=
  match t with Text [] => false | _ => true end.
Definition target_text (t : target) : str :=
  match t with Text s => s | Expr e => expr_format F e end.

(** metric.py 2742-2748. *)
Definition from_unit (s : system) (t : target) : res (option expression) :=
  do x <- match t with Text u => expression_of_str F false u | Expr e => Ok e end;
  do r <- norm x; Ok (Some (pick s r)).

(** metric.py 2750-2757: the stored text is compared with the target; text
    compares literally and a [Dimension] by its terms. *)
Fixpoint from_dimension_go (s : system) (t : target) (l : list canonical_row) : res (option expression) :=
  match l with
  | [] => Ok None
  | (_, (us, ds)) :: l' =>
      do same <- match t with
                 | Text d => Ok (str_eqb (pick s ds) d)
                 | Expr d => do e <- expression_of_str F false (pick s ds); Ok (expr_eqb F d e)
                 end;
      if same then do u <- expression_of_str F false (pick s us); Ok (Some u)
      else from_dimension_go s t l'
  end.
Definition from_dimension (s : system) (t : target) : res (option expression) :=
  from_dimension_go s t canonical.

(** metric.py 2759-2764; the quantity is given by its name. *)
Definition from_quantity (s : system) (t : target) : res (option expression) :=
  do p <- system_get s (target_text t); Ok (Some (p_unit p)).

(** metric.py 2669-2731, [get_unit] and [_get_unit]. *)
Fixpoint first_unit (s : system)
  (l : list ((system -> target -> res (option expression)) * option target)) : res expression :=
  match l with
  | [] => Err SearchError
  | (f, Some t) :: l' =>
      if truthy t then
        if str_eqb (target_text t) (lit "1")
        then do p <- system_get s (lit "identity"); Ok (p_unit p)
        else do r <- f s t;
             match r with Some u => Ok u | None => first_unit s l' end
      else first_unit s l'
  | (_, None) :: l' => first_unit s l'
  end.
Definition get_unit (s : system) (unit dimension quantity : option target) : res expression :=
  first_unit s [(from_unit, unit); (from_dimension, dimension); (from_quantity, quantity)].

End System.

(** The functions on the module's tables.
    For histories and uses of metric.py 2669-2731. *)
Definition m_prop (dims : bool) := prop_get F64 quantities dims.
Definition m_quantity := unit_quantity F64 identified.
Definition m_norm := norm F64 identified quantities.
Definition m_new := new_quantity F64 quantities.
Definition m_in := quantity_in F64.
Definition m_get := system_get F64 quantities.
Definition m_get_unit := get_unit F64 identified the_canonical quantities.
Definition m_dimension := p_dimension F64 identified the_canonical.
Definition m_quantities := dimension_quantities F64 the_canonical.
Definition m_equivalent := equivalent F64 identified the_canonical.
