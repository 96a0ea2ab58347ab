(** Specification side of the properties of array-like quantities. *)

From Coq Require Import String Ascii List Bool ZArith QArith Qcanon Lia.
From Verif Require Import Py ArrayModel.
Import ListNotations.
Open Scope list_scope.
Open Scope nat_scope.

(** A multi-index lies inside a shape; an array has one cell per index. *)
Definition inside (s i : list nat) : Prop := Forall2 lt i s.
Definition filled (a : arr) : Prop := length (cells a) = product (shape a).

(** * Data sources *)

(** Reading part of a data source gives the same part of the whole array,
    unless the source cannot be subscripted that way. *)
Definition reads_like {D} (asarray : D -> arr) (get : D -> nindex -> res arr) : Prop :=
  forall d x, missing x = false ->
    match get d x with
    | Ok a => np_get (asarray d) x = Ok a
    | Err TypeError | Err IndexError => True
    | Err e => np_get (asarray d) x = Err e
    end.

(** * The array that a quantity stands for *)

Section Meaning.
Context {D U : Type} (asarray : D -> arr).
Definition unscaled (o : object D U) : arr :=
  match o_full o with Some a => a | None => data_array asarray (o_data o) end.
Definition meaning (o : object D U) : arr := scale_arr (o_scale o) (unscaled o).
(** The cached array, if any, and the names of the axes fit the data. *)
Definition shaped (o : object D U) : Prop :=
  shape (unscaled o) = shape (data_array asarray (o_data o)) /\
  length (o_dims o) = length (shape (data_array asarray (o_data o))).
End Meaning.

(** * Histories *)

(** What a program can do with quantities: create one from data, read (part
    of) its array, change its unit, take a subset of it, copy it.  Quantities
    are numbered in the order of their creation. *)
Inductive op (D U : Type) : Type :=
| Make (d : D) (dims : list str) (u : U)
| Read (k : nat) (x : nindex)
| Convert (k : nat) (u : U)
| Subset (k : nat) (s : subscript)
| Copy (k : nat).
Arguments Make {D U}. Arguments Read {D U}. Arguments Convert {D U}.
Arguments Subset {D U}. Arguments Copy {D U}.
(** What the program sees: an array, a quantity, or an exception. *)
Inductive output : Type := Shown (r : res arr) | Made (r : res nat).

Fixpoint replace_nth {A} (l : list A) (k : nat) (x : A) : list A :=
  match l, k with
  | [], _ => []
  | _ :: l', 0 => x :: l'
  | y :: l', S k' => y :: replace_nth l' k' x
  end.

Section Machines.
Context {D U : Type} (asarray : D -> arr) (get : D -> nindex -> res arr) (has_shape : D -> bool)
        (ueq uor : U -> U -> res bool) (ufactor : U -> U -> res Qc).

(** The program's objects, with their caches. *)
Definition made {A} (h : list A) (r : res A) : list A * output :=
  match r with
  | Ok o => (h ++ [o], Made (Ok (length h)))
  | Err e => (h, Made (Err e))
  end.
Definition step (h : list (object D U)) (c : op D U) : list (object D U) * output :=
  match c with
  | Make d dims u => made h (new_from_data asarray get has_shape (Source d) dims u)
  | Read k x =>
      match nth_error h k with
      | None => (h, Shown (Err KeyError))
      | Some o => let (r, o') := get_array asarray get o x in (replace_nth h k o', Shown r)
      end
  | Convert k u =>
      match nth_error h k with
      | None => (h, Made (Err KeyError))
      | Some o => match update_unit asarray get has_shape ueq uor ufactor o u with
                  | Ok (true, _) => (h, Made (Ok k))
                  | Ok (false, n) => made h (Ok n)
                  | Err e => made h (Err e)
                  end
      end
  | Subset k s =>
      match nth_error h k with
      | None => (h, Made (Err KeyError))
      | Some o => let (r, o') := getitem asarray get has_shape o s in made (replace_nth h k o') r
      end
  | Copy k =>
      match nth_error h k with
      | None => (h, Made (Err KeyError))
      | Some o => let (r, o') := new_from_object asarray get has_shape o in made (replace_nth h k o') r
      end
  end.
Fixpoint run (h : list (object D U)) (l : list (op D U)) : list output :=
  match l with
  | [] => []
  | c :: l' => let (h', r) := step h c in r :: run h' l'
  end.

(** The same commands on plain values: an array, a unit and names of axes
    that never change, with nothing cached and nothing deferred. *)
Record value : Type := mkValue { v_array : arr; v_unit : U; v_dims : list str }.
Definition value_make (a : arr) (dims : list str) (u : U) : res value :=
  let dims := match dims with [] => default_dims (length (shape a)) | _ => dims end in
  if Nat.eqb (length dims) (length (shape a)) then Ok (mkValue a u dims) else Err ValueError.
Definition value_read (v : value) (x : nindex) : res arr :=
  if missing x then Ok (v_array v) else np_get (v_array v) x.
Definition value_convert (v : value) (u : U) : res (bool * value) :=
  do e <- ueq u (v_unit v);
  if e then Ok (true, v)
  else do c <- uor (v_unit v) u;
       if negb c then Err ValueError
       else do f <- ufactor (v_unit v) u;
            Ok (false, mkValue (scale_arr f (v_array v)) u (v_dims v)).
Definition value_subset (v : value) (s : subscript) : res value :=
  do x <- normalize (shape (v_array v)) (unwrap_subscript s);
  do a <- value_read v x;
  do b <- rebuild (shape (v_array v)) x a;
  value_make b (v_dims v) (v_unit v).
Definition value_step (h : list value) (c : op D U) : list value * output :=
  match c with
  | Make d dims u => made h (value_make (asarray d) dims u)
  | Read k x =>
      match nth_error h k with
      | None => (h, Shown (Err KeyError))
      | Some v => (h, Shown (value_read v x))
      end
  | Convert k u =>
      match nth_error h k with
      | None => (h, Made (Err KeyError))
      | Some v => match value_convert v u with
                  | Ok (true, _) => (h, Made (Ok k))
                  | Ok (false, n) => made h (Ok n)
                  | Err e => made h (Err e)
                  end
      end
  | Subset k s =>
      match nth_error h k with
      | None => (h, Made (Err KeyError))
      | Some v => made h (value_subset v s)
      end
  | Copy k =>
      match nth_error h k with
      | None => (h, Made (Err KeyError))
      | Some v => made h (Ok v)
      end
  end.
Fixpoint value_run (h : list value) (l : list (op D U)) : list output :=
  match l with
  | [] => []
  | c :: l' => let (h', r) := value_step h c in r :: value_run h' l'
  end.

(** Histories without copies. *)
Definition no_copies (l : list (op D U)) : Prop := forall k, ~ In (Copy k) l.

(** Histories in which no copy of a converted quantity is converted again.
    For each quantity: was it converted, and is it a copy of a converted
    one? *)
Definition mark : Type := (bool * bool)%type.
Definition mark_step (h : list mark) (c : op D U) (out : output) : list mark :=
  match out with
  | Made (Ok k') =>
      if Nat.ltb k' (length h) then h
      else match c with
           | Convert k _ => h ++ [(true, snd (nth k h (false, false)))]
           | Copy k => let m := nth k h (false, false) in h ++ [(false, fst m || snd m)]
           | _ => h ++ [(false, false)]
           end
  | _ => h
  end.
Definition mark_allows (h : list mark) (c : op D U) (out : output) : Prop :=
  match c, out with
  | Convert k _, Made (Ok k') => length h <= k' -> snd (nth k h (false, false)) = false
  | _, _ => True
  end.
Fixpoint careful (h : list value) (m : list mark) (l : list (op D U)) : Prop :=
  match l with
  | [] => True
  | c :: l' =>
      let (h', r) := value_step h c in
      mark_allows m c r /\ careful h' (mark_step m c r) l'
  end.
End Machines.
Arguments value U : clear implicits.

(** * Subsets *)

(** An index that fixes one position, or a range of positions written with
    bounds inside the axis. *)
Definition plain_index (n : nat) (i : item) : Prop :=
  match i with
  | IInt z => (- Z.of_nat n <= z < Z.of_nat n)%Z
  | ISlice a b c =>
      let x := match a with Some z => z | None => 0%Z end in
      let y := match b with Some z => z | None => Z.of_nat n end in
      (0 <= x < y)%Z /\ (y <= Z.of_nat n)%Z /\ (c = None \/ c = Some 1%Z)
  | _ => False
  end.
(** How many positions it selects along an axis of size [n], and which. *)
Definition extent (n : nat) (i : item) : nat :=
  match i with
  | IInt _ => 1
  | ISlice a b _ =>
      Z.to_nat (match b with Some z => z | None => Z.of_nat n end
                - match a with Some z => z | None => 0 end)
  | _ => 0
  end.
Definition chosen (n : nat) (i : item) (j : nat) : nat :=
  match i with
  | IInt z => Z.to_nat (if Z.ltb z 0 then z + Z.of_nat n else z)
  | ISlice a _ _ => Z.to_nat (match a with Some z => z | None => 0 end) + j
  | _ => 0
  end.
(** The multi-index of the whole array for one of the subset. *)
Fixpoint chosen_all (s : list nat) (l : list item) (j : list nat) : list nat :=
  match s, l, j with
  | n :: s', i :: l', k :: j' => chosen n i k :: chosen_all s' l' j'
  | _, _, _ => []
  end.
(** A list of positions, or the whole axis. *)
Definition cross_index (n : nat) (i : item) : Prop :=
  match i with
  | ISeq l => Forall (fun z => - Z.of_nat n <= z < Z.of_nat n)%Z l
  | ISlice None None None => True
  | _ => False
  end.
Definition cross_extent (n : nat) (i : item) : nat :=
  match i with ISeq l => length l | _ => n end.
Definition cross_chosen (n : nat) (i : item) (j : nat) : nat :=
  match i with
  | ISeq l => let z := nth j l 0%Z in Z.to_nat (if Z.ltb z 0 then z + Z.of_nat n else z)
  | _ => j
  end.
Fixpoint cross_all (s : list nat) (l : list item) (j : list nat) : list nat :=
  match s, l, j with
  | n :: s', i :: l', k :: j' => cross_chosen n i k :: cross_all s' l' j'
  | _, _, _ => []
  end.
Definition map2 {A B C} (f : A -> B -> C) (l : list A) (r : list B) : list C :=
  map (fun p => f (fst p) (snd p)) (combine l r).

(** * Names of axes *)

(** Where a name stands among the names of the axes. *)
Fixpoint where_is (d : str) (l : list str) : nat :=
  match l with
  | [] => 0
  | x :: l' => if str_eqb x d then 0 else S (where_is d l')
  end.
(** The part of a multi-index over [all] that concerns the axes [some]. *)
Definition restrict_to (some all : list str) (i : list nat) : list nat :=
  map (fun d => nth (where_is d all) i 0) some.
(** Two arrays have the same size along every axis that they share. *)
Definition same_sizes (da db : list str) (sa sb : list nat) : Prop :=
  forall d, In d da -> In d db -> nth (where_is d da) sa 0 = nth (where_is d db) sb 0.

(** An index that asks for the whole array: nothing, or an empty tuple. *)
Definition for_all (x : nindex) : Prop :=
  x = NAll \/ x = NStd (Bare INone) \/ x = NStd (Many []) \/ x = NFancy [].

(** * Removing axes *)

(** The multi-index of an array for one of the array without its axes of
    size 1. *)
Fixpoint with_single (s j : list nat) : list nat :=
  match s with
  | [] => []
  | n :: s' => if Nat.eqb n 1 then 0 :: with_single s' j
               else match j with k :: j' => k :: with_single s' j' | [] => [] end
  end.
(** A list without, and with, an element at a position. *)
Definition without {A} (k : nat) (l : list A) : list A := firstn k l ++ skipn (S k) l.
Definition inserted {A} (k : nat) (x : A) (l : list A) : list A := firstn k l ++ x :: skipn k l.
(** The average of some numbers. *)
Definition average (l : list Qc) : Qc := (sumQc l / Qc_of_Z (Z.of_nat (length l)))%Qc.

(** * Ellipsis *)

(** Two attempts at making a quantity give equal quantities, or the same
    exception. *)
Definition same_outcome {D U} (asarray : D -> arr) (a b : res (object D U)) : Prop :=
  match a, b with
  | Ok x, Ok y => meaning asarray x = meaning asarray y /\ o_unit x = o_unit y /\ o_dims x = o_dims y
  | Err e, Err e' => e = e'
  | _, _ => False
  end.
Definition is_slice (i : item) : bool := match i with ISlice _ _ _ => true | _ => false end.
Definition is_seq (i : item) : bool := match i with ISeq _ => true | _ => false end.
