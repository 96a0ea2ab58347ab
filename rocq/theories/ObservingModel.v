(** Model of the observing context (core/observing.py, eprem/__init__.py
    349-633): constraints, caches, and the evaluation of observations.

    Simplifications: the arrays of quantities, axis-indexing objects and
    scalars are of arbitrary types, and the operations on them are arbitrary
    functions; units are left out (see MeasurableModel.v and ArrayModel.v).
    The mappings of variables and functions are fixed, so that their own
    caches (variable.py 674-704, eprem/__init__.py 277-288) are left out. *)

From Coq Require Import String Ascii List Bool ZArith QArith Qcanon Lia.
From Verif Require Import Py PyDict.
Import ListNotations.
Open Scope list_scope.
Open Scope nat_scope.

(** * Parameters *)

(** observing.py 32-39, [Parameters._init]: iterables.unique. *)
Fixpoint unique_names (l : list str) : list str :=
  match l with
  | [] => []
  | x :: l' => x :: filter (fun y => negb (str_eqb x y)) (unique_names l')
  end.
(** observing.py 53-59, [merge], for two instances: the order is that of a
    set, [mkset]. *)
Definition merge_parameters (mkset : list str -> list str) (a b : list str) : list str :=
  unique_names (mkset (a ++ b)).

Section Contexts.
(** [V]: the values of constraints; [IX]: axis-indexing objects; [SC]:
    scalars; [D]: arrays. *)
Context {V IX SC D : Type}.

(** * The state of a context *)

(** observing.py 272-299 and eprem/__init__.py 352-373.  The two parts of
    [_cache] are two dictionaries. *)
Record context : Type := mkContext
  { c_user : list (str * V);
    c_constraints : option (list (str * V));
    c_indices : list (str * IX);
    c_values : list (str * SC);
    c_keys : option (list str);
    c_available : option (list (list str));
    c_observable : option (list (list str)) }.
Definition new_context : context := mkContext [] None [] [] None None None.

(** [defaults]: the default constraints; [find key]: the tuple
    [reference.ALIASES.find(key, [key])]; [names]: the keys of the mappings. *)
Context (defaults : list (str * V)) (find : str -> list str) (names : list str).

(** observing.py 305-331, [constrain]. *)
Definition constrain (c : context) (new : list (str * V)) (append : bool) : context :=
  mkContext (if append then d_update str_eqb (c_user c) new else d_of str_eqb new)
    None [] [] (c_keys c) (c_available c) (c_observable c).

(** observing.py 360-366, [constraints]. *)
Definition constraints (c : context) : list (str * V) * context :=
  match c_constraints c with
  | Some d => (d, c)
  | None =>
      let d := d_update str_eqb defaults (c_user c) in
      (d, mkContext (c_user c) (Some d) (c_indices c) (c_values c) (c_keys c) (c_available c) (c_observable c))
  end.
(** observing.py 368-373 and 375-383, [observable].  Simplification: a list
    in place of a set of tuples. *)
Definition observable (c : context) : list (list str) * context :=
  match c_observable c with
  | Some l => (l, c)
  | None => let l := map find names in
            (l, mkContext (c_user c) (c_constraints c) (c_indices c) (c_values c) (c_keys c) (c_available c) (Some l))
  end.
(** observing.py 352-358, [available]. *)
Definition available (c : context) : list (list str) * context :=
  match c_available c with
  | Some l => (l, c)
  | None =>
      let (d, c1) := constraints c in
      let (o, c2) := observable c1 in
      let l := o ++ map find (map fst d) in
      (l, mkContext (c_user c2) (c_constraints c2) (c_indices c2) (c_values c2) (c_keys c2) (Some l) (c_observable c2))
  end.
(** observing.py 345-350, [keys]; 333-335, [__contains__]. *)
Definition keys (c : context) : list str * context :=
  match c_keys c with
  | Some l => (l, c)
  | None =>
      let (a, c1) := available c in
      let l := concat a in
      (l, mkContext (c_user c1) (c_constraints c1) (c_indices c1) (c_values c1) (Some l) (c_available c1) (c_observable c1))
  end.
Definition contains (c : context) (x : str) : bool * context :=
  let (l, c') := keys c in (existsb (str_eqb x) l, c').

(** * Axis indices and parameter values *)

(** [in_axes]: the name of an axis; [axis_all key]: [axes[key].index()];
    [axis_at key v]: [axes[key].index( *whole(v))]; [as_index v]: [v] itself,
    if it is an axis-indexing object; [constants]: the constants of the
    context; [scalar v]: the scalar in the context's metric system. *)
Context (in_axes : str -> bool) (axis_all : str -> res IX) (axis_at : str -> V -> res IX)
        (as_index : V -> option IX) (constants : list (str * V)) (scalar : V -> res SC).

(** eprem/__init__.py 568-577, [compute_index]; [None] for ContextKeyError. *)
Definition compute_index (c : context) (key : str) : res (option IX) * context :=
  if negb (in_axes key) then (Ok None, c)
  else
    let (d, c') := constraints c in
    (match d_get str_eqb d key with
     | None => rmap Some (axis_all key)
     | Some v => match as_index v with
                 | Some i => Ok (Some i)
                 | None => rmap Some (axis_at key v)
                 end
     end, c').
(** eprem/__init__.py 556-566, [get_index], without a default. *)
Definition get_index (c : context) (key : str) : res (option IX) * context :=
  match d_get str_eqb (c_indices c) key with
  | Some i => (Ok (Some i), c)
  | None =>
      let (r, c') := compute_index c key in
      (r, match r with
          | Ok (Some i) => mkContext (c_user c') (c_constraints c') (d_set str_eqb (c_indices c') key i) (c_values c')
                             (c_keys c') (c_available c') (c_observable c')
          | _ => c'
          end)
  end.
(** eprem/__init__.py 591-606, [compute_value] and [_compute_value]. *)
Definition compute_value (c : context) (key : str) : res (option SC) * context :=
  let (d, c') := constraints c in
  (match d_get str_eqb d key with
   | Some v => rmap Some (scalar v)
   | None => match d_get str_eqb constants key with
             | Some v => rmap Some (scalar v)
             | None => Ok None
             end
   end, c').
(** eprem/__init__.py 579-589, [get_value], without a default. *)
Definition get_value (c : context) (key : str) : res (option SC) * context :=
  match d_get str_eqb (c_values c) key with
  | Some v => (Ok (Some v), c)
  | None =>
      let (r, c') := compute_value c key in
      (r, match r with
          | Ok (Some v) => mkContext (c_user c') (c_constraints c') (c_indices c') (d_set str_eqb (c_values c') key v)
                             (c_keys c') (c_available c') (c_observable c')
          | _ => c'
          end)
  end.

(** * Programs that consult the context *)

(** A computation that may ask the context for an axis index or for a
    parameter value, and whose further course may depend on the answer.
    Used for eprem/__init__.py 413-435. *)
Inductive program (A : Type) : Type :=
| Return (r : res A)
| AskIndex (key : str) (f : option IX -> program A)
| AskValue (key : str) (f : option SC -> program A).
Arguments Return {A}. Arguments AskIndex {A}. Arguments AskValue {A}.

Fixpoint run_program {A} (p : program A) (c : context) : res A * context :=
  match p with
  | Return r => (r, c)
  | AskIndex key f =>
      match get_index c key with
      | (Ok i, c') => run_program (f i) c'
      | (Err e, c') => (Err e, c')
      end
  | AskValue key f =>
      match get_value c key with
      | (Ok v, c') => run_program (f v) c'
      | (Err e, c') => (Err e, c')
      end
  end.

Fixpoint pbind {A B} (p : program A) (f : A -> program B) : program B :=
  match p with
  | Return (Ok a) => f a
  | Return (Err e) => Return (Err e)
  | AskIndex key g => AskIndex key (fun i => pbind (g i) f)
  | AskValue key g => AskValue key (fun v => pbind (g v) f)
  end.
Fixpoint pmap {A B} (f : A -> program B) (l : list A) : program (list B) :=
  match l with
  | [] => Return (Ok [])
  | x :: l' => pbind (f x) (fun y => pbind (pmap f l') (fun ys => Return (Ok (y :: ys))))
  end.

(** * Observations *)

(** observing.py 106-125: a quantity with the names of its axes and of its
    parameters. *)
Record qty : Type := mkQty { q_data : D; q_dims : list str; q_params : list str }.
(** A dependency of a computed quantity: another quantity, or the value of a
    parameter, if there is one.  Used for eprem/__init__.py 40-61. *)
Inductive dependency : Type := DQuantity (q : qty) | DValue (v : option SC).
(** The quantities of the mappings (eprem/__init__.py 40-61 and 265-289): a
    variable, or a function of named parameters. *)
Inductive source : Type :=
| Given (data : D) (dims : list str)
| Derived (params : list str) (call : list (str * dependency) -> res D) (dims : list str).

(** [lookup]: the quantity of a name in the mappings (observing.py 397-402);
    [truth]: an array has a first axis of nonzero size; [power], [times]:
    arithmetic on arrays with the names of their axes; [take]:
    [q[tuple(indices)]] with [None] for [slice(None)]; [resample]: the
    interpolation of an array; [expression]: the bases and exponents of
    [symbolic.Expression(reference.NAMES.get(key, key))]; [coordinate]: a
    name of a coordinate of the dataset; [needs]: the values of an index have
    a unit and are not all among those of the axis; [nonzero]: the truth of a
    scalar. *)
Context (lookup : str -> option source) (truth : D -> bool)
        (power : D * list str -> Qc -> res (D * list str))
        (times : D * list str -> D * list str -> res (D * list str))
        (take : D * list str -> list (option IX) -> res (D * list str))
        (resample : D * list str -> list (str * (IX + SC)) -> res (D * list str))
        (expression : str -> res (list (str * Qc)))
        (coordinate : str -> bool) (needs : str -> IX -> bool) (nonzero : SC -> bool)
        (mkset : list str -> list str).

Definition with_data (q : qty) (r : res (D * list str)) : res qty :=
  match r with Ok (d, dims) => Ok (mkQty d dims (q_params q)) | Err e => Err e end.

(** eprem/__init__.py 413-435: [get_observable], [get_dependency] and
    [compute].  Simplification: constraints are never quantities themselves.
    The fuel bounds the depth of the dependencies; deeper recursion (as in a
    cycle) is RuntimeError. *)
Fixpoint get_observable (fuel : nat) (key : str) : program (option qty) :=
  match fuel with
  | 0 => Return (Err RuntimeError)
  | S fuel' =>
      match lookup key with
      | None => Return (Ok None)
      | Some (Given d dims) => Return (Ok (Some (mkQty d dims [])))
      | Some (Derived ps call dims) =>
          pbind (pmap (fun p =>
                   pbind (get_observable fuel' p) (fun o =>
                     match o with
                     | Some q => if truth (q_data q) then Return (Ok (p, DQuantity q))
                                 else AskValue p (fun v => Return (Ok (p, DValue v)))
                     | None => AskValue p (fun v => Return (Ok (p, DValue v)))
                     end)) ps)
            (fun deps => match call deps with
                         | Ok d => Return (Ok (Some (mkQty d dims
                                     (unique_names (filter (fun p => d_has str_eqb constants p) ps)))))
                         | Err e => Return (Err e)
                         end)
      end
  end.

(** eprem/__init__.py 395-411, [_build]; [None ** n] and [None * q] raise
    TypeError. *)
Definition raise (o : option qty) (e : Qc) : res qty :=
  match o with
  | None => Err TypeError
  | Some q => with_data q (power (q_data q, q_dims q) e)
  end.
Definition multiply (q r : qty) : res qty :=
  match times (q_data q, q_dims q) (q_data r, q_dims r) with
  | Ok (d, dims) => Ok (mkQty d dims (merge_parameters mkset (q_params q) (q_params r)))
  | Err e => Err e
  end.
Fixpoint build_rest (fuel : nat) (q : qty) (l : list (str * Qc)) : program qty :=
  match l with
  | [] => Return (Ok q)
  | (b, e) :: l' =>
      pbind (get_observable fuel b) (fun o =>
      match (do r <- raise o e; multiply q r)%py with
      | Ok q' => build_rest fuel q' l'
      | Err x => Return (Err x)
      end)
  end.
Definition build (fuel : nat) (key : str) : program (option qty) :=
  match expression key with
  | Err x => Return (Err x)
  | Ok [] => Return (Err IndexError)
  | Ok ((b, e) :: l) =>
      pbind (get_observable fuel b) (fun o =>
      match l with
      | [] => if Qc_eqb e 1 then Return (Ok o)
              else match raise o e with Ok q => Return (Ok (Some q)) | Err x => Return (Err x) end
      | _ => match raise o e with
             | Err x => Return (Err x)
             | Ok q => pbind (build_rest fuel q l) (fun q => Return (Ok (Some q)))
             end
      end)
  end.

(** eprem/__init__.py 437-447, [_subscript], for the given axes (all axes if
    there are none). *)
Definition subscript (q : qty) (dimensions : list str) : program qty :=
  pbind (pmap (fun d =>
           if match dimensions with [] => true | _ => existsb (str_eqb d) dimensions end
           then AskIndex d (fun i => Return (Ok i)) else Return (Ok None)) (q_dims q))
    (fun l => Return (with_data q (take (q_data q, q_dims q) l))).

(** eprem/__init__.py 455-492, [_compute_interpolants]. *)
Definition dimension_interpolants (q : qty) : program (list (str * (IX + SC))) :=
  pbind (pmap (fun d => AskIndex d (fun i =>
           Return (Ok match i with
                      | Some i => if needs d i then [(d, inl i)] else []
                      | None => []
                      end))) (q_dims q))
    (fun l => Return (Ok (concat l))).
Fixpoint radius_interpolants (l : list str) (found : list (str * (IX + SC))) : program (list (str * (IX + SC))) :=
  match l with
  | [] => Return (Ok found)
  | k :: l' => AskValue k (fun v =>
      match v with
      | Some v => radius_interpolants l' (if nonzero v then [(lit "radius", inr v)] else found)
      | None => radius_interpolants l' found
      end)
  end.
Definition interpolants (q : qty) : program (list (str * (IX + SC))) :=
  pbind (dimension_interpolants q) (fun l =>
  if existsb (str_eqb (lit "shell")) (q_dims q)
  then pbind (radius_interpolants (find (lit "radius")) []) (fun r => Return (Ok (l ++ r)))
  else Return (Ok l)).

(** eprem/__init__.py 494-517, [interpolate].  Simplification: the axes that
    are left to be subscripted keep their order; if there are none, [_subscript]
    takes all of them, as in the code. *)
Definition interpolate (q : qty) (l : list (str * (IX + SC))) : program qty :=
  match with_data q (resample (q_data q, q_dims q) l) with
  | Err x => Return (Err x)
  | Ok base =>
      let done := map (fun d => if str_eqb d (lit "radius") then lit "shell" else d) (map fst l) in
      subscript base (filter (fun d => negb (existsb (str_eqb d) done)) (q_dims q))
  end.

(** eprem/__init__.py 375-393, [observe] and [_observe]: the quantity, the
    indices of its axes and the values of its parameters.  An unknown name
    gives [None], whose attributes are missing.  [aliases key] is
    [reference.ALIASES.find(key, [])]. *)
Context (aliases : str -> list str).
Record observation : Type := mkObservation
  { ob_quantity : qty; ob_indices : list (str * option IX); ob_assumptions : list (str * option SC) }.
Definition observe_quantity (fuel : nat) (key : str) : program qty :=
  pbind (build fuel key) (fun o =>
  match o with
  | None => Return (Err AttributeError)
  | Some q =>
      if existsb coordinate (aliases key) then subscript q []
      else pbind (interpolants q) (fun l =>
           match l with [] => subscript q [] | _ => interpolate q l end)
  end).
Definition observe (fuel : nat) (key : str) : program observation :=
  pbind (observe_quantity fuel key) (fun q =>
  pbind (pmap (fun d => AskIndex d (fun i => Return (Ok (d, i)))) (q_dims q)) (fun is =>
  pbind (pmap (fun p => AskValue p (fun v => Return (Ok (p, v)))) (q_params q)) (fun vs =>
  Return (Ok (mkObservation q is vs))))).
End Contexts.
Arguments context V IX SC : clear implicits.
Arguments program IX SC A : clear implicits.
Arguments qty D : clear implicits.
Arguments source SC D : clear implicits.
Arguments observation IX SC D : clear implicits.
Arguments Return {IX SC A}.
Arguments AskIndex {IX SC A}.
Arguments AskValue {IX SC A}.
