(** Model of observable quantities and of the results of observing them
    (core/observing.py 128-246 and 430-574).

    Simplifications: the context's [observe] is an arbitrary computation that
    consults the context (ObservingModel.v); its data are the array-like
    quantities of ArrayModel.v.  Units are of an arbitrary type, with a way to
    read them from text and to show them as text.  Units are given as
    non-empty text.  An observation has its own copy of its data object, so
    that the cache of that object is not shared with other observations. *)

From Coq Require Import String Ascii List Bool ZArith QArith Qcanon Lia.
From Verif Require Import Py PyDict ParametersModel ArrayModel ObservingModel.
Import ListNotations.
Open Scope list_scope.
Open Scope nat_scope.

Section Observables.
(** [D]: sources of data; [U]: units; [V]: the values of constraints; [IX]:
    axis-indexing objects; [SC]: scalars; [AX]: the arrays of values along
    axes. *)
Context {D U V IX SC AX : Type}.
(** As in ArrayModel.v. *)
Context (asarray : D -> arr) (get : D -> nindex -> res arr) (has_shape : D -> bool)
        (ueq uor : U -> U -> res bool) (ufactor : U -> U -> res Qc).
(** [uread s]: [metadata.Unit(s)]; [ustr u]: [str(u)]; [norms u]: the
    dictionary [u.norm] of units for the names of metric systems. *)
Context (uread : str -> res U) (ustr : U -> str) (norms : U -> res (list (str * U))).
(** [default_unit], [default_dims], [default_params]: the methods [get_unit],
    [get_dimensions] and [get_parameters] of the context (observing.py
    385-395), which depend on nothing that changes; [observe_name]: its
    method [observe]. *)
Context (default_unit : str -> res U) (default_dims default_params : str -> res (list str))
        (observe_name : str -> program IX SC (observation IX SC (object D U))).
(** As in ObservingModel.v. *)
Context (defaults : list (str * V)) (in_axes : str -> bool) (axis_all : str -> res IX)
        (axis_at : str -> V -> res IX) (as_index : V -> option IX) (constants : list (str * V))
        (scalar : V -> res SC).
(** [axis_truth i]: the truth of an axis-indexing object; [axis_array i]:
    [physical.Array(i.values, unit=i.unit)]. *)
Context (axis_truth : IX -> bool) (axis_array : IX -> AX).

(** The test [str(x).lower() in metric.SYSTEMS], with the look-up [norm[x]]
    (observing.py 517-520, variable.py 581-584; metric.py 46). *)
Definition is_system (s : str) : bool :=
  str_eqb (lower s) (lit "mks") || str_eqb (lower s) (lit "cgs").
Definition norm_in (u : U) (s : str) : res U :=
  do d <- norms u;
  match d_get str_eqb d s with Some n => Ok n | None => Err KeyError end.

(** * The results of observing *)

(** observing.py 135-166, the attributes of [Observation]. *)
Record seen : Type := mkSeen
  { s_data : object D U; s_axes : list (str * AX); s_indices : list (str * option IX);
    s_assumptions : option (list (str * option SC));
    s_array : option arr; s_parameters : option (list str) }.
(** observing.py 142-160: the axes with an index that counts as true. *)
Definition axes_of (indices : list (str * option IX)) : list (str * AX) :=
  flat_map (fun p => match snd p with
                     | Some i => if axis_truth i then [(fst p, axis_array i)] else []
                     | None => []
                     end) indices.
Definition new_seen (d : object D U) (indices : list (str * option IX))
  (assumptions : option (list (str * option SC))) : seen :=
  mkSeen d (axes_of indices) indices assumptions None None.

(** observing.py 168-179, [array]. *)
Definition squeezed (a : arr) : arr := mkArr (filter (fun n => negb (Nat.eqb n 1)) (shape a)) (cells a).
Definition array_of (s : seen) : res arr * seen :=
  match s_array s with
  | Some a => (Ok a, s)
  | None =>
      let (r, d) := get_array asarray get (s_data s) NAll in
      match r with
      | Ok a => (Ok (squeezed a), mkSeen d (s_axes s) (s_indices s) (s_assumptions s) (Some (squeezed a)) (s_parameters s))
      | Err e => (Err e, mkSeen d (s_axes s) (s_indices s) (s_assumptions s) None (s_parameters s))
      end
  end.
(** observing.py 190-195, [parameters]: [list(None)] is TypeError. *)
Definition parameters_of (s : seen) : res (list str) * seen :=
  match s_parameters s with
  | Some l => (Ok l, s)
  | None =>
      match s_assumptions s with
      | Some d => let l := map fst d in
          (Ok l, mkSeen (s_data s) (s_axes s) (s_indices s) (s_assumptions s) (s_array s) (Some l))
      | None => (Err TypeError, s)
      end
  end.

(** variable.py 571-600, [_update_unit], with a unit or the name of a metric
    system. *)
Definition data_in (o : object D U) (x : str) : res (object D U) :=
  do u <- if is_system x then norm_in (o_unit o) x else uread x;
  do r <- update_unit asarray get has_shape ueq uor ufactor o u;
  Ok (snd r).
(** observing.py 207-226, [Observation.__getitem__] for text: an axis, an
    assumption, or a new observation. *)
Inductive found : Type := FAxis (a : AX) | FAssumption (v : option SC) | FSeen (s : seen).
Definition retrieve (s : seen) (x : str) : res found :=
  match d_get str_eqb (s_axes s) x with
  | Some a => Ok (FAxis a)
  | None =>
      match s_assumptions s with
      | None => Err TypeError
      | Some d =>
          match d_get str_eqb d x with
          | Some v => Ok (FAssumption v)
          | None => do o <- data_in (s_data s) x; Ok (FSeen (new_seen o (s_indices s) (s_assumptions s)))
          end
      end
  end.

(** * Observable quantities *)

(** observing.py 461-502, the attributes of [Observable]; the target is its
    name and its unit (430-437). *)
Record observable : Type := mkObservable
  { b_name : str; b_unit : option U; b_target : option (str * U);
    b_dims : option (list str); b_params : option (list str) }.
Definition new_observable (name : str) (u : option U) : observable := mkObservable name u None None None.

(** observing.py 526-545, the properties [unit], [dimensions], [parameters]
    with their caches; the second component is the instance afterwards. *)
Definition unit_of (b : observable) : res U * observable :=
  match b_unit b with
  | Some u => (Ok u, b)
  | None =>
      match default_unit (b_name b) with
      | Ok u => (Ok u, mkObservable (b_name b) (Some u) (b_target b) (b_dims b) (b_params b))
      | Err e => (Err e, b)
      end
  end.
Definition dims_of (b : observable) : res (list str) * observable :=
  match b_dims b with
  | Some l => (Ok l, b)
  | None =>
      match default_dims (b_name b) with
      | Ok l => (Ok l, mkObservable (b_name b) (b_unit b) (b_target b) (Some l) (b_params b))
      | Err e => (Err e, b)
      end
  end.
Definition params_of (b : observable) : res (list str) * observable :=
  match b_params b with
  | Some l => (Ok l, b)
  | None =>
      match default_params (b_name b) with
      | Ok l => (Ok l, mkObservable (b_name b) (b_unit b) (b_target b) (b_dims b) (Some l))
      | Err e => (Err e, b)
      end
  end.
(** observing.py 508-513, [target]. *)
Definition target_of (b : observable) : res (str * U) * observable :=
  match b_target b with
  | Some t => (Ok t, b)
  | None =>
      match unit_of b with
      | (Ok u, b') => let t := (b_name b', u) in
                      (Ok t, mkObservable (b_name b') (b_unit b') (Some t) (b_dims b') (b_params b'))
      | (Err e, b') => (Err e, b')
      end
  end.
(** observing.py 515-524, [Observable.__getitem__]: a new instance, or [None]
    for the instance itself; and the instance afterwards. *)
Definition drop_target (b : observable) : observable :=
  mkObservable (b_name b) (b_unit b) None (b_dims b) (b_params b).
Definition change_unit (b : observable) (u : U) : res (option observable) :=
  match b_unit b with
  | None => Ok (Some (new_observable (b_name b) (Some u)))
  | Some u0 => do e <- ueq u u0;
               if e then Ok None else Ok (Some (new_observable (b_name b) (Some u)))
  end.
Definition index_observable (b : observable) (x : str) : res (option observable) * observable :=
  if is_system x then
    match unit_of b with
    | (Err e, b') => (Err e, b')
    | (Ok u, b') =>
        match norm_in u x with
        | Err e => (Err e, b')
        | Ok n => (change_unit b' n, drop_target b')
        end
    end
  else (do u <- uread x; change_unit b u, drop_target b).

(** observing.py 80-93 and metadata.py 827-841: equality of two instances of
    [Parameters] or of [Dimensions]. *)
Fixpoint same_names (a b : list str) : bool :=
  match a, b with
  | [], [] => true
  | x :: a', y :: b' => str_eqb x y && same_names a' b'
  | _, _ => false
  end.
Definition names_equal (a b : list str) : bool :=
  same_names b a || (Nat.eqb (length b) (length a) && forallb (fun i => existsb (str_eqb i) a) b).
(** observing.py 552-566, [Observable.__eq__] for two observables: their
    units, then their dimensions, then their parameters.  The instances
    afterwards are left out (the attributes are cached as above). *)
Definition equal_observables (a b : observable) : res bool :=
  do u <- fst (unit_of a); do v <- fst (unit_of b);
  do e <- ueq u v;
  if negb e then Ok false
  else
    do k <- fst (dims_of a); do l <- fst (dims_of b);
    if negb (names_equal k l) then Ok false
    else do p <- fst (params_of a); do q <- fst (params_of b); Ok (names_equal p q).

(** observing.py 504-506 with 439-444, [Observable.observe] and
    [Target.apply]: the target, then the constraints, then the observation in
    the unit of the target.  A unit always counts as true. *)
Definition observe_it (b : observable) (c : context V IX SC) (cs : list (str * V)) :
  res found * observable * context V IX SC :=
  match target_of b with
  | (Err e, b') => (Err e, b', c)
  | (Ok (n, u), b') =>
      let (r, c') := run_program defaults in_axes axis_all axis_at as_index constants scalar
                       (observe_name n) (constrain c cs false) in
      (do o <- r;
       retrieve (new_seen (q_data (ob_quantity o)) (ob_indices o) (Some (ob_assumptions o))) (ustr u), b', c')
  end.
End Observables.
Arguments seen D U IX SC AX : clear implicits.
Arguments found D U IX SC AX : clear implicits.
Arguments observable U : clear implicits.
