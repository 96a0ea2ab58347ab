(** Specification side of the properties of observing contexts. *)

From Coq Require Import String Ascii List Bool ZArith QArith Qcanon Lia.
From Verif Require Import Py PyDict ObservingModel.
Import ListNotations.
Open Scope list_scope.
Open Scope nat_scope.

(** * Constraints *)

(** The value that a sequence of [constrain] calls, the last one first, gives
    to a name: its value in the last call that mentions it, looking back no
    further than the last call that did not append; else the default. *)
Fixpoint effective {V} (defaults : list (str * V)) (calls : list (list (str * V) * bool)) (name : str) : option V :=
  match calls with
  | [] => d_get str_eqb defaults name
  | (new, append) :: earlier =>
      match d_get str_eqb (rev new) name with
      | Some v => Some v
      | None => if append then effective defaults earlier name else d_get str_eqb defaults name
      end
  end.

(** * What a program does with a context *)

Section Histories.
Context {V IX SC A : Type} (defaults : list (str * V)) (find : str -> list str) (names : list str)
        (in_axes : str -> bool) (axis_all : str -> res IX) (axis_at : str -> V -> res IX)
        (as_index : V -> option IX) (constants : list (str * V)) (scalar : V -> res SC).

(** Change the constraints, perform some computation that consults the
    context (such as an observation, which may raise), look at the current
    constraints, or ask for a name. *)
Inductive command : Type :=
| Constrain (new : list (str * V)) (append : bool)
| Perform (p : program IX SC A)
| Look
| AskName (x : str).
Definition perform (c : context V IX SC) (x : command) : context V IX SC :=
  match x with
  | Constrain new append => constrain c new append
  | Perform p => snd (run_program defaults in_axes axis_all axis_at as_index constants scalar p c)
  | Look => snd (constraints defaults c)
  | AskName x => snd (contains defaults find names c x)
  end.
Definition after (h : list command) : context V IX SC := fold_left perform h new_context.
(** The [constrain] calls of a history, the last one first. *)
Definition calls (h : list command) : list (list (str * V) * bool) :=
  rev (flat_map (fun x => match x with Constrain new append => [(new, append)] | _ => [] end) h).

(** The answer to a question for given constraints. *)
Definition index_for (d : str -> option V) (key : str) : res (option IX) :=
  if negb (in_axes key) then Ok None
  else match d key with
       | None => rmap Some (axis_all key)
       | Some v => match as_index v with Some i => Ok (Some i) | None => rmap Some (axis_at key v) end
       end.
Definition value_for (d : str -> option V) (key : str) : res (option SC) :=
  match d key with
  | Some v => rmap Some (scalar v)
  | None => match d_get str_eqb constants key with Some v => rmap Some (scalar v) | None => Ok None end
  end.
(** The result of a computation for given constraints. *)
Fixpoint result_for {B} (d : str -> option V) (p : program IX SC B) : res B :=
  match p with
  | Return r => r
  | AskIndex key f => do i <- index_for d key; result_for d (f i)
  | AskValue key f => do v <- value_for d key; result_for d (f v)
  end.
End Histories.
Arguments command V IX SC A : clear implicits.

(** * Dependencies *)

(** The parameter [p] takes part in computing [name]: it is a parameter of
    the function of that name, or takes part in computing one of its
    parameters. *)
Inductive takes_part {SC D} (lookup : str -> option (source SC D)) (p : str) : str -> Prop :=
| directly name ps call dims : lookup name = Some (Derived ps call dims) -> In p ps -> takes_part lookup p name
| through name ps call dims q : lookup name = Some (Derived ps call dims) -> In q ps ->
    takes_part lookup p q -> takes_part lookup p name.

(** [p] is a constant among the parameters of one of the functions named in an
    expression. *)
Definition parameter_of {V SC D} (lookup : str -> option (source SC D)) (constants : list (str * V))
  (terms : list (str * Qc)) (p : str) : Prop :=
  exists b e ps call dims, In (b, e) terms /\ lookup b = Some (Derived ps call dims) /\ In p ps /\
    d_get str_eqb constants p <> None.

(** The names whose constraints matter to an observation: those of the axes,
    of the radius, and of the parameters that take part in computing the
    quantities of the expression. *)
Definition relevant {SC D} (lookup : str -> option (source SC D)) (axis_name : str -> Prop) (radius_names : list str)
  (terms : list (str * Qc)) (k : str) : Prop :=
  axis_name k \/ In k radius_names \/ exists b e, In (b, e) terms /\ takes_part lookup k b.

(** The axis [a] has been interpolated; radial interpolation is that of the
    axis of shells. *)
Definition interpolated {X} (l : list (str * X)) (a : str) : bool :=
  existsb (fun x => str_eqb a (if str_eqb (fst x) (lit "radius") then lit "shell" else fst x)) l.

(** All axes of quantities have names with a property, which the operations
    on arrays keep. *)
Record axes_named {IX SC D} (lookup : str -> option (source SC D))
  (power : D * list str -> Qc -> res (D * list str)) (times : D * list str -> D * list str -> res (D * list str))
  (take : D * list str -> list (option IX) -> res (D * list str))
  (resample : D * list str -> list (str * (IX + SC)) -> res (D * list str)) (axis_name : str -> Prop) : Prop := mkNamed
  { named_lookup : forall k, match lookup k with
                             | Some (Given _ dims) | Some (Derived _ _ dims) => Forall axis_name dims
                             | None => True end;
    named_power : forall x e y, Forall axis_name (snd x) -> power x e = Ok y -> Forall axis_name (snd y);
    named_times : forall x z y, Forall axis_name (snd x) -> Forall axis_name (snd z) -> times x z = Ok y -> Forall axis_name (snd y);
    named_take : forall x l y, Forall axis_name (snd x) -> take x l = Ok y -> Forall axis_name (snd y);
    named_resample : forall x l y, Forall axis_name (snd x) -> resample x l = Ok y -> Forall axis_name (snd y) }.
