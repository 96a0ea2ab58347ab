(** Vocabulary of the properties of the EPREM interface. *)

From Coq Require Import String Ascii List Bool ZArith QArith Qcanon.
From Verif Require Import Py EpremModel.
Import ListNotations.
Open Scope list_scope.
Open Scope nat_scope.

(** [z] is the integer nearest to [q]; the even one of two. *)
Definition rounds (q : Qc) (z : Z) : Prop :=
  ((Qc_of_Z z - Q2Qc (1 # 2) < q)%Qc /\ (q < Qc_of_Z z + Q2Qc (1 # 2))%Qc)
  \/ ((q = Qc_of_Z z - Q2Qc (1 # 2) \/ q = Qc_of_Z z + Q2Qc (1 # 2))%Qc /\ Z.Even z).

(** The element [(symbol, m)] is the first in the table with the same rounded
    mass as [q]. *)
Definition first_element (table : list (str * Qc)) (q : Qc) (symbol : str) : Prop :=
  exists before after m z, table = before ++ (symbol, m) :: after /\ rounds q z /\ rounds m z
  /\ forall e, In e before -> ~ rounds (snd e) z.
(** No element has that rounded mass. *)
Definition no_element (table : list (str * Qc)) (q : Qc) : Prop :=
  forall z, rounds q z -> forall e, In e table -> ~ rounds (snd e) z.

(** A sign for each unit of charge. *)
Definition charged (z : Z) : str :=
  repeat (if (0 <? z)%Z then "+"%char else "-"%char) (Z.abs_nat z).

(** * Dimensions *)

Section Dimensions.
Context (variables : str -> option (list str)) (functions : str -> option fn).

(** The functions on which [f] depends, directly or not. *)
Inductive below (f : fn) : fn -> Prop :=
| below_param p h : In p (f_params f) -> variables p = None -> functions p = Some h -> below f h
| below_trans p g h : In p (f_params f) -> variables p = None -> functions p = Some g -> below g h -> below f h.
(** The dimension of a variable on which [f] depends, directly or not. *)
Definition uses (f : fn) (d : str) : Prop :=
  exists g p dims, (g = f \/ below f g) /\ In p (f_params g) /\ variables p = Some dims /\ In d dims.

(** What the dimensions of a name should be: those of a variable; those of the
    dependencies of a function except the removed ones, and the added ones. *)
Inductive has_dimension : str -> str -> Prop :=
| of_variable p dims d : variables p = Some dims -> In d dims -> has_dimension p d
| of_added p f d : variables p = None -> functions p = Some f -> In d (f_added f) -> has_dimension p d
| of_dependency p f q d : variables p = None -> functions p = Some f -> In q (f_params f) -> has_dimension q d ->
    ~ In d (f_removed f) -> has_dimension p d.
Definition function_dimension (f : fn) (d : str) : Prop :=
  In d (f_added f) \/ (exists q, In q (f_params f) /\ has_dimension q d) /\ ~ In d (f_removed f).

(** No chain of dependencies is longer than the rank of the name. *)
Definition ranked (rank : str -> nat) : Prop :=
  forall p f q, functions p = Some f -> In q (f_params f) -> variables q = None -> functions q <> None -> rank q < rank p.
End Dimensions.

(** The axes of the dataset come first, in its order. *)
Definition in_dataset_order (names l : list str) : Prop :=
  exists extra, l = filter (fun n => inb n l) names ++ extra /\ forall d, In d extra -> ~ In d names.
