(** Specification side of the properties of core/observed.py. *)

From Coq Require Import List.
From Verif Require Import Py ArrayModel ObservedModel.
Import ListNotations.

(** A new observed quantity after any number of uses of its array, of its
    parameters and of the conversion to another unit. *)
Inductive after {D U IX SC} (asarray : D -> arr) (get : D -> nindex -> res arr)
  (d : object D U) (indices : list (str * IX)) (assumptions : option (list (str * SC))) : observed D U IX SC -> Prop :=
| just_made : after asarray get d indices assumptions (new_observed d indices assumptions)
| after_array v : after asarray get d indices assumptions v ->
    after asarray get d indices assumptions (snd (observed_array asarray get v))
| after_parameters v : after asarray get d indices assumptions v ->
    after asarray get d indices assumptions (snd (observed_parameters v))
| after_item v k w : after asarray get d indices assumptions v -> observed_item v k = Ok (OQuantity w) ->
    after asarray get d indices assumptions w.
