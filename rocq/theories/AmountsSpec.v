(** Specification side of the property that conversions preserve amounts. *)

From Coq Require Import String Ascii List Bool ZArith QArith Qcanon Lia.
From Verif Require Import Py SymbolicModel MetricModel MetricSpec ArrayModel ArraySpec SystemSpec ConverterSpec.
Import ListNotations.
Open Scope list_scope.
Open Scope nat_scope.

(** Two products of units of the package between whose names there are
    conversions both ways. *)
Definition exchangeable (x y : expression) : Prop :=
  product_of_units x /\ product_of_units y
  /\ comparable (expr_format F64 x) (expr_format F64 y) /\ comparable (expr_format F64 y) (expr_format F64 x).

(** Amounts: the array of a quantity in absolute terms, that is, its numbers
    times the size of its unit.  A unit only says how to read the array. *)
Section Amounts.
Context {D : Type} (asarray : D -> arr) (size : str -> Qc) (same : expression -> expression -> res bool).
Definition size_in (u : expression) : Qc := size (expr_format F64 u).
Record amount : Type := mkAmount { am_array : arr; am_unit : expression; am_dims : list str }.
Definition absolute (v : value expression) : amount :=
  mkAmount (scale_arr (size_in (v_unit v)) (v_array v)) (v_unit v) (v_dims v).
Definition reading (a : amount) : value expression :=
  mkValue (scale_arr (/ size_in (am_unit a)) (am_array a)) (am_unit a) (am_dims a).

(** Converting keeps the amount. *)
Definition amount_step (h : list amount) (c : op D expression) : list amount * output :=
  match c with
  | Make d dims u => made h (do v <- value_make (asarray d) dims u; Ok (absolute v))%py
  | Read k x =>
      match nth_error h k with
      | None => (h, Shown (Err KeyError))
      | Some a => (h, Shown (value_read (reading a) x))
      end
  | Convert k u =>
      match nth_error h k with
      | None => (h, Made (Err KeyError))
      | Some a => match same u (am_unit a) with
                  | Ok true => (h, Made (Ok k))
                  | Ok false => made h (Ok (mkAmount (am_array a) u (am_dims a)))
                  | Err e => made h (Err e)
                  end
      end
  | Subset k s =>
      match nth_error h k with
      | None => (h, Made (Err KeyError))
      | Some a => made h (do v <- value_subset (reading a) s; Ok (absolute v))%py
      end
  | Copy k =>
      match nth_error h k with
      | None => (h, Made (Err KeyError))
      | Some a => made h (Ok a)
      end
  end.
Fixpoint amount_run (h : list amount) (l : list (op D expression)) : list output :=
  match l with
  | [] => []
  | c :: l' => let (h', r) := amount_step h c in r :: amount_run h' l'
  end.
(** Every conversion in the history is to a unit of the same kind. *)
Fixpoint sensible (h : list amount) (l : list (op D expression)) : Prop :=
  match l with
  | [] => True
  | c :: l' =>
      match c with
      | Convert k u => match nth_error h k with Some a => exchangeable (am_unit a) u | None => True end
      | _ => True
      end /\ sensible (fst (amount_step h c)) l'
  end.
End Amounts.
