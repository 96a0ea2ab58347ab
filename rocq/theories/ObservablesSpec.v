(** Specification side of the properties of observable quantities. *)

From Coq Require Import String Ascii List Bool ZArith QArith Qcanon Lia.
From Verif Require Import Py PyDict ParametersModel ParametersSpec ArrayModel ArraySpec ObservingModel ObservingSpec
  ObservablesModel.
Import ListNotations.
Open Scope list_scope.
Open Scope nat_scope.

(** The two metric systems, in small or capital letters. *)
Definition system_name (x : str) : Prop := spells x (lit "mks") \/ spells x (lit "cgs").

(** Two lists of names have the same members. *)
Definition same_members (a b : list str) : bool :=
  forallb (fun x => existsb (str_eqb x) b) a && forallb (fun x => existsb (str_eqb x) a) b.

(** * Programs that use observable quantities *)

(** Create an observable quantity, perhaps with a unit; change a unit;
    ask for unit, axes, parameters; compare; observe; look something up in an
    observation; ask for its array, unit, axes, parameters; use the shared
    context directly.  Observables are numbered in the order of the commands
    that succeeded in giving one, and so are observations. *)
Inductive use (V C : Type) : Type :=
| New (name : str) (unit : option str)
| InUnit (k : nat) (x : str)
| AskUnit (k : nat) | AskDims (k : nat) | AskParams (k : nat)
| Compare (j k : nat)
| Observe (k : nat) (cs : list (str * V))
| Lookup (j : nat) (x : str)
| SeenArray (j : nat) | SeenUnit (j : nat) | SeenDims (j : nat) | SeenParams (j : nat)
| Direct (x : C).
Arguments New {V C}. Arguments InUnit {V C}. Arguments AskUnit {V C}. Arguments AskDims {V C}.
Arguments AskParams {V C}. Arguments Compare {V C}. Arguments Observe {V C}. Arguments Lookup {V C}.
Arguments SeenArray {V C}. Arguments SeenUnit {V C}. Arguments SeenDims {V C}. Arguments SeenParams {V C}.
Arguments Direct {V C}.

(** What the program sees. *)
Inductive answer (U AX SC : Type) : Type :=
| Done (r : res unit)
| AUnit (r : res U) | ANames (r : res (list str)) | AArray (r : res arr) | ABool (r : res bool)
| AnAxis (a : AX) | AnAssumption (v : option SC) | AnObservation | Failed (e : exn).
Arguments Done {U AX SC}. Arguments AUnit {U AX SC}. Arguments ANames {U AX SC}. Arguments AArray {U AX SC}.
Arguments ABool {U AX SC}. Arguments AnAxis {U AX SC}. Arguments AnAssumption {U AX SC}.
Arguments AnObservation {U AX SC}. Arguments Failed {U AX SC}.

Section Machines.
Context {D U V IX SC AX A : Type}.
Context (asarray : D -> arr) (get : D -> nindex -> res arr) (has_shape : D -> bool)
        (ueq uor : U -> U -> res bool) (ufactor : U -> U -> res Qc).
Context (uread : str -> res U) (ustr : U -> str) (norms : U -> res (list (str * U))).
Context (default_unit : str -> res U) (default_dims default_params : str -> res (list str))
        (observe_name : str -> program IX SC (observation IX SC (object D U))).
Context (defaults : list (str * V)) (find : str -> list str) (names : list str)
        (in_axes : str -> bool) (axis_all : str -> res IX)
        (axis_at : str -> V -> res IX) (as_index : V -> option IX) (constants : list (str * V))
        (scalar : V -> res SC).
Context (axis_truth : IX -> bool) (axis_array : IX -> AX).
Notation command := (ObservingSpec.command V IX SC A).
Notation use := (use V command).
Notation answer := (answer U AX SC).

(** ** The program's objects *)

(** The instances of observables, the instance that each variable refers to,
    the observations, and the context. *)
Record state : Type := mkState
  { st_heap : list (observable U); st_vars : list nat; st_seen : list (seen D U IX SC AX);
    st_context : context V IX SC }.
Definition start : state := mkState [] [] [] new_context.
Definition instance (s : state) (k : nat) : option (nat * observable U) :=
  match nth_error (st_vars s) k with
  | None => None
  | Some p => match nth_error (st_heap s) p with Some b => Some (p, b) | None => None end
  end.
Definition put (s : state) (p : nat) (b : observable U) : state :=
  mkState (replace_nth (st_heap s) p b) (st_vars s) (st_seen s) (st_context s).
Definition put_seen (s : state) (j : nat) (x : seen D U IX SC AX) : state :=
  mkState (st_heap s) (st_vars s) (replace_nth (st_seen s) j x) (st_context s).
Definition given (s : state) (r : res (found D U IX SC AX)) : state * answer :=
  match r with
  | Ok (FAxis a) => (s, AnAxis a)
  | Ok (FAssumption v) => (s, AnAssumption v)
  | Ok (FSeen x) => (mkState (st_heap s) (st_vars s) (st_seen s ++ [x]) (st_context s), AnObservation)
  | Err e => (s, Failed e)
  end.
Definition create (s : state) (b : observable U) : state :=
  mkState (st_heap s ++ [b]) (st_vars s ++ [length (st_heap s)]) (st_seen s) (st_context s).
Definition with_instance (s : state) (k : nat) (f : nat -> observable U -> state * answer) : state * answer :=
  match instance s k with Some (p, b) => f p b | None => (s, Failed IndexError) end.
Definition with_seen (s : state) (j : nat) (f : seen D U IX SC AX -> state * answer) : state * answer :=
  match nth_error (st_seen s) j with Some x => f x | None => (s, Failed IndexError) end.
Definition step (s : state) (c : use) : state * answer :=
  match c with
  | New name None => (create s (new_observable name None), Done (Ok tt))
  | New name (Some x) =>
      match uread x with
      | Ok u => (create s (new_observable name (Some u)), Done (Ok tt))
      | Err e => (s, Done (Err e))
      end
  | InUnit k x => with_instance s k (fun p b =>
      let (r, b') := index_observable ueq uread norms default_unit b x in
      let s' := put s p b' in
      match r with
      | Ok (Some n) => (create s' n, Done (Ok tt))
      | Ok None => (mkState (st_heap s') (st_vars s' ++ [p]) (st_seen s') (st_context s'), Done (Ok tt))
      | Err e => (s', Done (Err e))
      end)
  | AskUnit k => with_instance s k (fun p b => let (r, b') := unit_of default_unit b in (put s p b', AUnit r))
  | AskDims k => with_instance s k (fun p b => let (r, b') := dims_of default_dims b in (put s p b', ANames r))
  | AskParams k => with_instance s k (fun p b => let (r, b') := params_of default_params b in (put s p b', ANames r))
  | Compare j k => with_instance s j (fun _ a => with_instance s k (fun _ b =>
      (s, ABool (equal_observables ueq default_unit default_dims default_params a b))))
  | Observe k cs => with_instance s k (fun p b =>
      match observe_it asarray get has_shape ueq uor ufactor uread ustr norms default_unit observe_name
              defaults in_axes axis_all axis_at as_index constants scalar axis_truth axis_array b (st_context s) cs with
      | (r, b', c') => given (mkState (replace_nth (st_heap s) p b') (st_vars s) (st_seen s) c') r
      end)
  | Lookup j x => with_seen s j (fun o =>
      given s (retrieve asarray get has_shape ueq uor ufactor uread norms axis_truth axis_array o x))
  | SeenArray j => with_seen s j (fun o => let (r, o') := array_of asarray get o in (put_seen s j o', AArray r))
  | SeenUnit j => with_seen s j (fun o => (s, AUnit (Ok (o_unit (s_data o)))))
  | SeenDims j => with_seen s j (fun o => (s, ANames (Ok (o_dims (s_data o)))))
  | SeenParams j => with_seen s j (fun o => let (r, o') := parameters_of o in (put_seen s j o', ANames r))
  | Direct x =>
      (mkState (st_heap s) (st_vars s) (st_seen s)
         (perform defaults find names in_axes axis_all axis_at as_index constants scalar (st_context s) x), Done (Ok tt))
  end.
Fixpoint run (s : state) (l : list use) : list answer :=
  match l with
  | [] => []
  | c :: l' => let (s', a) := step s c in a :: run s' l'
  end.

(** ** The same programs on plain values *)

(** An observable is a name and a unit.  An observation is an array with a
    unit and axes, the values along its axes, and the values of its
    parameters.  Nothing is cached and there is no context to change. *)
Record sight : Type := mkSight
  { g_value : value U; g_axes : list (str * AX); g_assumptions : list (str * option SC) }.
(** [system]: is a text the name of a metric system? *)
Context (system : str -> bool).

Definition unit_meant (u : U) (x : str) : res U :=
  if system x then
    do d <- norms u;
    match d_get str_eqb d x with Some n => Ok n | None => Err KeyError end
  else uread x.
(** The value in the unit that is meant. *)
Definition value_in (v : value U) (x : str) : res (value U) :=
  do u <- unit_meant (v_unit v) x;
  do r <- value_convert ueq uor ufactor v u;
  Ok (snd r).
Definition look (g : sight) (x : str) : res (AX + option SC + sight) :=
  match d_get str_eqb (g_axes g) x with
  | Some a => Ok (inl (inl a))
  | None =>
      match d_get str_eqb (g_assumptions g) x with
      | Some v => Ok (inl (inr v))
      | None => do v <- value_in (g_value g) x; Ok (inr (mkSight v (g_axes g) (g_assumptions g)))
      end
  end.
(** The observation of a name under constraints on top of the defaults. *)
Definition sight_of (o : observation IX SC (object D U)) : sight :=
  let d := q_data (ob_quantity o) in
  mkSight (mkValue (meaning asarray d) (o_unit d) (o_dims d))
    (flat_map (fun p => match snd p with
                        | Some i => if axis_truth i then [(fst p, axis_array i)] else []
                        | None => [] end) (ob_indices o))
    (ob_assumptions o).
Definition observed (name : str) (u : res U) (cs : list (str * V)) : res (AX + option SC + sight) :=
  do u <- u;
  do o <- result_for in_axes axis_all axis_at as_index constants scalar (effective defaults [(cs, false)]) (observe_name name);
  look (sight_of o) (ustr u).
Definition compared (a b : str * res U) : res bool :=
  do u <- snd a; do v <- snd b;
  do e <- ueq u v;
  if negb e then Ok false
  else
    do k <- default_dims (fst a); do l <- default_dims (fst b);
    if negb (same_members k l) then Ok false
    else do p <- default_params (fst a); do q <- default_params (fst b); Ok (same_members p q).

Record view : Type := mkView { w_vars : list (str * res U); w_seen : list sight }.
Definition view_given (w : view) (r : res (AX + option SC + sight)) : view * answer :=
  match r with
  | Ok (inl (inl a)) => (w, AnAxis a)
  | Ok (inl (inr v)) => (w, AnAssumption v)
  | Ok (inr g) => (mkView (w_vars w) (w_seen w ++ [g]), AnObservation)
  | Err e => (w, Failed e)
  end.
Definition view_var (w : view) (k : nat) (f : str * res U -> view * answer) : view * answer :=
  match nth_error (w_vars w) k with Some b => f b | None => (w, Failed IndexError) end.
Definition view_sight (w : view) (j : nat) (f : sight -> view * answer) : view * answer :=
  match nth_error (w_seen w) j with Some g => f g | None => (w, Failed IndexError) end.
Definition view_step (w : view) (c : use) : view * answer :=
  match c with
  | New name None => (mkView (w_vars w ++ [(name, default_unit name)]) (w_seen w), Done (Ok tt))
  | New name (Some x) =>
      match uread x with
      | Ok u => (mkView (w_vars w ++ [(name, Ok u)]) (w_seen w), Done (Ok tt))
      | Err e => (w, Done (Err e))
      end
  | InUnit k x => view_var w k (fun b =>
      match (if system x then do u <- snd b; unit_meant u x else uread x) with
      | Ok n => (mkView (w_vars w ++ [(fst b, Ok n)]) (w_seen w), Done (Ok tt))
      | Err e => (w, Done (Err e))
      end)
  | AskUnit k => view_var w k (fun b => (w, AUnit (snd b)))
  | AskDims k => view_var w k (fun b => (w, ANames (default_dims (fst b))))
  | AskParams k => view_var w k (fun b => (w, ANames (default_params (fst b))))
  | Compare j k => view_var w j (fun a => view_var w k (fun b => (w, ABool (compared a b))))
  | Observe k cs => view_var w k (fun b => view_given w (observed (fst b) (snd b) cs))
  | Lookup j x => view_sight w j (fun g => view_given w (look g x))
  | SeenArray j => view_sight w j (fun g =>
      (w, AArray (Ok (mkArr (filter (fun n => negb (Nat.eqb n 1)) (shape (v_array (g_value g)))) (cells (v_array (g_value g)))))))
  | SeenUnit j => view_sight w j (fun g => (w, AUnit (Ok (v_unit (g_value g)))))
  | SeenDims j => view_sight w j (fun g => (w, ANames (Ok (v_dims (g_value g)))))
  | SeenParams j => view_sight w j (fun g => (w, ANames (Ok (map fst (g_assumptions g)))))
  | Direct _ => (w, Done (Ok tt))
  end.
Fixpoint view_run (w : view) (l : list use) : list answer :=
  match l with
  | [] => []
  | c :: l' => let (w', a) := view_step w c in a :: view_run w' l'
  end.

(** ** Assumptions *)

(** Units are compared without failing, and are equal only if they are the
    same. *)
Definition decides (eq : U -> U -> res bool) : Prop :=
  forall u v, exists b, eq u v = Ok b /\ (b = true <-> u = v).
(** What the context observes is the result of subscripting a quantity
    (eprem/__init__.py 437-447 and 375-393: every observation is). *)
Definition subscripted (o : object D U) : Prop :=
  exists q s, shaped asarray q /\ fst (getitem asarray get has_shape q s) = Ok o.
Record sound : Prop := mkSound
  { sound_reads : reads_like asarray get;
    sound_shows : forall u, uread (ustr u) = Ok u /\ ~ system_name (ustr u);
    sound_system : forall x, system x = true <-> system_name x;
    sound_observed : forall d n o,
      result_for in_axes axis_all axis_at as_index constants scalar d (observe_name n) = Ok o ->
      subscripted (q_data (ob_quantity o));
    sound_dims : forall n l, default_dims n = Ok l -> NoDup l;
    sound_params : forall n l, default_params n = Ok l -> NoDup l }.
End Machines.
