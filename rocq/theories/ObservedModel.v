(** Model of the results of observing in core/observed.py 12-92.

    Simplifications: an observed quantity has its own copy of its data, so
    that the cache of the data is not shared; the data are the array-like
    quantities of ArrayModel.v.  The mappings of indices and assumptions are
    dictionaries.  A key is text, or some other object that is neither a group
    of names nor a unit. *)

From Coq Require Import String Ascii List Bool ZArith QArith Qcanon Lia.
From Verif Require Import Py PyDict ArrayModel.
Import ListNotations.
Open Scope list_scope.
Open Scope nat_scope.

Section Observed.
(** [IX]: axis-indexing objects; [SC]: the values of assumptions. *)
Context {D U IX SC : Type} (asarray : D -> arr) (get : D -> nindex -> res arr).
(** [deq]: equality of data (variable.py). *)
Context (deq : object D U -> object D U -> res bool).

(** observed.py 15-25, the attributes. *)
Record observed : Type := mkObserved
  { v_data : object D U; v_indices : list (str * IX); v_assumptions : option (list (str * SC));
    v_array : option arr; v_parameters : option (list str) }.
Definition new_observed (d : object D U) (indices : list (str * IX))
  (assumptions : option (list (str * SC))) : observed := mkObserved d indices assumptions None None.

(** observed.py 27-38, [array]; [numpy.squeeze] removes the axes of size 1. *)
Definition squeeze_axes (a : arr) : arr :=
  mkArr (filter (fun n => negb (Nat.eqb n 1)) (shape a)) (cells a).
Definition observed_array (v : observed) : res arr * observed :=
  match v_array v with
  | Some a => (Ok a, v)
  | None =>
      match get_array asarray get (v_data v) NAll with
      | (Ok a, d) => (Ok (squeeze_axes a),
                      mkObserved d (v_indices v) (v_assumptions v) (Some (squeeze_axes a)) (v_parameters v))
      | (Err e, d) => (Err e, mkObserved d (v_indices v) (v_assumptions v) None (v_parameters v))
      end
  end.
(** observed.py 49-54, [parameters]: [list(None)] is TypeError. *)
Definition observed_parameters (v : observed) : res (list str) * observed :=
  match v_parameters v with
  | Some l => (Ok l, v)
  | None =>
      match v_assumptions v with
      | Some d => (Ok (map fst d),
                   mkObserved (v_data v) (v_indices v) (v_assumptions v) (v_array v) (Some (map fst d)))
      | None => (Err TypeError, v)
      end
  end.

(** observed.py 56-75, [__getitem__]. *)
Inductive okey : Type := OText (x : str) | OOther.
Inductive oitem : Type := OIndex (i : IX) | OAssumption (s : SC) | OQuantity (v : observed).
Definition observed_item (v : observed) (k : okey) : res oitem :=
  match k with
  | OOther => Err TypeError
  | OText x =>
      match d_get str_eqb (v_indices v) x with
      | Some i => Ok (OIndex i)
      | None =>
          match v_assumptions v with
          | None => Err TypeError
          | Some d =>
              match d_get str_eqb d x with
              | Some s => Ok (OAssumption s)
              | None => Ok (OQuantity (new_observed (v_data v) (v_indices v) (v_assumptions v)))
              end
          end
      end
  end.

(** observed.py 77-84, [__eq__] with another observed quantity: there are no
    attributes [indices] and [assumptions]. *)
Definition observed_eq (v w : observed) : res bool :=
  (do e <- deq (v_data v) (v_data w);
   if e then Err AttributeError else Ok false)%py.
End Observed.
Arguments observed D U IX SC : clear implicits.
