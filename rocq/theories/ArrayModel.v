(** Model of the array-like quantities of /repo/src/goats/core/variable.py
    (classes [Array] and [Quantity]); the array class of
    /repo/src/goats/core/physical.py shares [_load_array], [_read_array],
    [_get_array], [_expand_ellipsis] and the conversion of units with it.

    Numbers are rationals (no rounding).  An in-memory array is its shape and
    the list of its cells in C order, as in numpy.  The numpy functions that
    the code calls are modelled first, from numpy's documentation.  *)

From Coq Require Import String Ascii List Bool ZArith QArith Qcanon Lia.
From Verif Require Import Py PyDict MetadataModel.
Import ListNotations.
Open Scope list_scope.
Open Scope nat_scope.

(** * numpy arrays *)
(** Used for variable.py 392-411. *)

Record arr : Type := mkArr { shape : list nat; cells : list Qc }.

Definition product (s : list nat) : nat := fold_right Nat.mul 1 s.
(** The position of a multi-index in C order.  Used for variable.py 392-411. *)
Fixpoint ravel (s i : list nat) : nat :=
  match s, i with
  | n :: s', k :: i' => k * product s' + ravel s' i'
  | _, _ => 0
  end.
(** All multi-indices of a shape in C order.  Used for variable.py 392-411. *)
Fixpoint all_indices (s : list nat) : list (list nat) :=
  match s with
  | [] => [[]]
  | n :: s' => flat_map (fun k => map (cons k) (all_indices s')) (seq 0 n)
  end.
Definition at_ (a : arr) (i : list nat) : Qc := nth (ravel (shape a) i) (cells a) 0%Qc.
(** The array of the given shape with the given elements.
    Used for variable.py 392-411. *)
Definition build (s : list nat) (f : list nat -> Qc) : arr := mkArr s (map f (all_indices s)).
(** [c * a] for a number [c].  Used for variable.py 336-348. *)
Definition scale_arr (c : Qc) (a : arr) : arr := mkArr (shape a) (map (fun x => c * x)%Qc (cells a)).

(** [numpy.array(a, ndmin=n)].  Used for variable.py 117-130. *)
Definition ndmin (n : nat) (a : arr) : arr :=
  mkArr (repeat 1 (n - length (shape a)) ++ shape a) (cells a).
(** [a.reshape(shape)]: one negative size is inferred.
    Used for variable.py 117-130. *)
Definition reshape (a : arr) (s : list Z) : res arr :=
  let known := fold_right Z.mul 1%Z (filter (fun z => Z.leb 0 z) s) in
  let size := Z.of_nat (length (cells a)) in
  match filter (fun z => Z.ltb z 0) s with
  | [] => if Z.eqb known size then Ok (mkArr (map Z.to_nat s) (cells a)) else Err ValueError
  | [_] => if Z.eqb known 0 then Err ValueError
           else if Z.eqb (size mod known) 0
           then Ok (mkArr (map (fun z => Z.to_nat (if Z.ltb z 0 then size / known else z)) s) (cells a))
           else Err ValueError
  | _ => Err ValueError
  end.

(** * numpy subscripts *)

(** One index: an integer, a slice, [...], [None], or a list of integers.
    Used for variable.py 392-411. *)
Inductive item : Type :=
| IInt (z : Z)
| ISlice (start stop step : option Z)
| IEll
| INone
| ISeq (l : list Z).
Definition is_ell (i : item) : bool := match i with IEll => true | _ => false end.
Definition full_slice : item := ISlice None None None.

(** [slice.indices(n)] and the positions that the slice selects.
    Used for variable.py 392-411. *)
Definition slice_positions (n : nat) (start stop step : option Z) : res (list nat) :=
  let n := Z.of_nat n in
  let st := match step with Some s => s | None => 1%Z end in
  if Z.eqb st 0 then Err ValueError
  else
    let neg := Z.ltb st 0 in
    let lower := if neg then (-1)%Z else 0%Z in
    let upper := if neg then (n - 1)%Z else n in
    let clip x := if Z.ltb x 0 then Z.max (x + n) lower else Z.min x upper in
    let a := match start with Some x => clip x | None => if neg then upper else lower end in
    let b := match stop with Some x => clip x | None => if neg then lower else upper end in
    let count := if neg then (if Z.ltb b a then (a - b - 1) / (- st) + 1 else 0)%Z
                 else (if Z.ltb a b then (b - a - 1) / st + 1 else 0)%Z in
    Ok (map (fun k => Z.to_nat (a + Z.of_nat k * st)) (seq 0 (Z.to_nat count))).

(** An integer index along an axis of size [n].
    Used for variable.py 392-411. *)
Definition position (n : nat) (z : Z) : res nat :=
  let m := Z.of_nat n in
  if Z.leb (- m) z && Z.ltb z m then Ok (Z.to_nat (if Z.ltb z 0 then z + m else z))%Z
  else Err IndexError.

(** What an index does to its axis: fix a position, keep some positions, or
    insert a new axis.  Used for variable.py 392-411. *)
Inductive selection : Type := Fix (k : nat) | Keep (ks : list nat) | New.
Definition consumes (i : item) : bool :=
  match i with IEll | INone => false | _ => true end.

(** Basic indexing: the selections for the remaining axes.
    Used for variable.py 392-411. *)
Fixpoint select (s : list nat) (items : list item) : res (list selection) :=
  match items with
  | [] => Ok (map (fun n => Keep (seq 0 n)) s)
  | INone :: items' => do r <- select s items'; Ok (New :: r)
  | IEll :: items' =>
      let missing := length s - length (filter consumes items') in
      do r <- select (skipn missing s) items';
      Ok (map (fun n => Keep (seq 0 n)) (firstn missing s) ++ r)
  | IInt z :: items' =>
      match s with
      | [] => Err IndexError
      | n :: s' => do k <- position n z; do r <- select s' items'; Ok (Fix k :: r)
      end
  | ISlice a b c :: items' =>
      match s with
      | [] => Err IndexError
      | n :: s' => do ks <- slice_positions n a b c; do r <- select s' items'; Ok (Keep ks :: r)
      end
  | ISeq _ :: _ => Err TypeError
  end.
Definition selected_shape (l : list selection) : list nat :=
  flat_map (fun x => match x with Fix _ => [] | Keep ks => [length ks] | New => [1] end) l.
Fixpoint source (l : list selection) (i : list nat) : list nat :=
  match l, i with
  | Fix k :: l', _ => k :: source l' i
  | Keep ks :: l', k :: i' => nth k ks 0 :: source l' i'
  | New :: l', _ :: i' => source l' i'
  | _, _ => []
  end.
Definition apply_selections (a : arr) (l : list selection) : arr :=
  build (selected_shape l) (fun i => at_ a (source l i)).
Definition basic (a : arr) (items : list item) : res arr :=
  if Nat.ltb 1 (length (filter is_ell items)) then Err IndexError
  else if Nat.ltb (length (shape a)) (length (filter consumes items)) then Err IndexError
  else do l <- select (shape a) items; Ok (apply_selections a l).

(** Broadcasting of shapes and of multi-indices.
    Used for variable.py 392-411. *)
Definition pad (n : nat) (s : list nat) : list nat := repeat 1 (n - length s) ++ s.
Fixpoint bcast2 (a b : list nat) : option (list nat) :=
  match a, b with
  | [], _ | _, [] => Some []
  | x :: a', y :: b' =>
      match bcast2 a' b' with
      | None => None
      | Some r => if Nat.eqb x y then Some (x :: r)
                  else if Nat.eqb x 1 then Some (y :: r)
                  else if Nat.eqb y 1 then Some (x :: r) else None
      end
  end.
Definition broadcast (l : list (list nat)) : option (list nat) :=
  let n := fold_right Nat.max 0 (map (@length nat) l) in
  fold_right (fun s r => match r with Some t => bcast2 (pad n s) t | None => None end)
    (Some (repeat 1 n)) l.
Definition bindex (s i : list nat) : list nat :=
  map (fun p => if Nat.eqb (fst p) 1 then 0 else snd p) (combine s (skipn (length i - length s) i)).

(** Arrays of integers as indices; [numpy.ix_].
    Used for variable.py 392-411. *)
Record iarr : Type := mkI { ishape : list nat; icells : list Z }.
Definition iat (x : iarr) (i : list nat) : Z := nth (ravel (ishape x) i) (icells x) 0%Z.
Definition mesh_one (total k : nat) (l : list Z) : iarr :=
  mkI (repeat 1 k ++ length l :: repeat 1 (total - k - 1)) l.
Fixpoint mesh_from (total k : nat) (ls : list (list Z)) : list iarr :=
  match ls with
  | [] => []
  | l :: ls' => mesh_one total k l :: mesh_from total (S k) ls'
  end.
Definition mesh (ls : list (list Z)) : list iarr := mesh_from (length ls) 0 ls.

(** Indexing with arrays of integers along the first axes.
    Used for variable.py 392-411. *)
Definition in_axis (n : nat) (x : iarr) : bool :=
  forallb (fun z => Z.leb (- Z.of_nat n) z && Z.ltb z (Z.of_nat n)) (icells x).
Definition wrap (n : nat) (z : Z) : nat := Z.to_nat (if Z.ltb z 0 then z + Z.of_nat n else z).
Definition fancy (a : arr) (xs : list iarr) : res arr :=
  if Nat.ltb (length (shape a)) (length xs) then Err IndexError
  else match broadcast (map ishape xs) with
       | None => Err IndexError
       | Some s =>
           if forallb (fun p => in_axis (fst p) (snd p)) (combine (shape a) xs)
           then Ok (build (s ++ skipn (length xs) (shape a))
                      (fun i => let p := firstn (length s) i in
                         at_ a (map (fun q => wrap (fst q) (iat (snd q) (bindex (ishape (snd q)) p)))
                                  (combine (shape a) xs)
                                ++ skipn (length s) i)))
           else Err IndexError
       end.

(** [ufunc(a, b)] for an elementwise function [f].
    Used for variable.py 176-229. *)
Definition ufunc2 (f : Qc -> Qc -> Qc) (a b : arr) : res arr :=
  match broadcast [shape a; shape b] with
  | None => Err ValueError
  | Some s => Ok (build s (fun i => f (at_ a (bindex (shape a) i)) (at_ b (bindex (shape b) i))))
  end.

(** * Normalising the user's subscripts *)

(** What the user writes between the brackets after [iterables.unwrap]
    (variable.py 124): a single object or a tuple of several (or none). *)
Inductive subscript : Type := Bare (i : item) | Many (l : list item).
(** iterables.py 39-105, [unwrap], on the tuple of arguments: a tuple or list
    with one element becomes the element. *)
Definition unwrap_item (i : item) : item :=
  match i with ISeq [z] => IInt z | _ => i end.
Definition unwrap_subscript (u : subscript) : subscript :=
  match u with
  | Bare i => Bare (unwrap_item i)
  | Many [i] => Bare (unwrap_item i)
  | Many l => Many l
  end.

(** variable.py 120 with iterables.py 1506-1610: the standard objects. *)
Definition builtin (i : item) : bool := match i with ISeq _ => false | _ => true end.
Definition standard (u : subscript) : bool :=
  match u with Bare i => builtin i | Many l => forallb builtin l end.

(** [l[a:b]] for a Python sequence.  Used for variable.py 161-174. *)
Definition py_clip (n z : Z) : Z := if Z.ltb z 0 then Z.max 0 (z + n) else Z.min z n.
Definition py_slice {A} (l : list A) (a b : Z) : list A :=
  let n := Z.of_nat (length l) in
  let x := py_clip n a in let y := py_clip n b in
  firstn (Z.to_nat (y - x)) (skipn (Z.to_nat x) l).

Fixpoint first_ell (l : list item) : nat :=
  match l with
  | [] => 0
  | x :: l' => if is_ell x then 0 else S (first_ell l')
  end.
(** variable.py 161-174 and physical.py 375-388, [_expand_ellipsis]. *)
Definition expand_ellipsis (ndim : nat) (user : list item) : list item :=
  if forallb (fun i => negb (is_ell i)) user then user
  else
    let len := (Z.of_nat ndim - Z.of_nat (length user) + 1)%Z in
    let start := first_ell user in
    firstn start user ++ repeat full_slice (Z.to_nat len)
    ++ py_slice user (Z.of_nat start + len) (Z.of_nat ndim).

(** The index that reaches the data.  Used for variable.py 140-159. *)
Inductive nindex : Type := NAll | NStd (u : subscript) | NFancy (xs : list iarr).

(** variable.py 152-159, the cross index: slices become the whole axis and
    every other index must be a list ([numpy.ix_] raises ValueError for
    anything that is not one-dimensional). *)
Fixpoint cross (s : list nat) (items : list item) : res (list item) :=
  match items with
  | [] => Ok []
  | ISlice _ _ _ :: items' =>
      match s with
      | [] => Err IndexError
      | n :: s' => do r <- cross s' items'; Ok (ISeq (map Z.of_nat (seq 0 n)) :: r)
      end
  | i :: items' => do r <- cross (tl s) items'; Ok (i :: r)
  end.
Definition only_lists (items : list item) : res (list (list Z)) :=
  mapM (fun i => match i with ISeq l => Ok l | _ => Err ValueError end) items.
(** variable.py 140-159, [_normalize_indices]. *)
Definition normalize (s : list nat) (u : subscript) : res nindex :=
  if standard u then Ok (NStd u)
  else
    let args := match u with
                | Bare (ISeq l) => map IInt l
                | Bare i => [i]
                | Many l => l
                end in
    do e <- cross s (expand_ellipsis (length s) args);
    do ls <- only_lists e;
    Ok (NFancy (mesh ls)).

(** iterables.py 140-155, [missing], on an index. *)
Definition missing (x : nindex) : bool :=
  match x with
  | NAll | NStd (Bare INone) | NStd (Many []) | NFancy [] => true
  | _ => false
  end.

(** [a[numpy.index_exp[x]]] for an in-memory array.
    Used for variable.py 392-411. *)
Definition np_get (a : arr) (x : nindex) : res arr :=
  match x with
  | NAll => Ok a
  | NStd (Bare i) => basic a [i]
  | NStd (Many l) => basic a l
  | NFancy xs => fancy a xs
  end.

(** * Array-like quantities *)

Section Objects.
(** [D]: the data objects that a quantity can wrap (lists, file variables);
    [asarray]: [numpy.asarray(data)]; [get]: [numpy.asarray(data[index])];
    [has_shape]: the object knows its shape without being read.
    [U]: units, with [==], [|] and [new // old] on them.
    Used for variable.py 392-411. *)
Context {D U : Type} (asarray : D -> arr) (get : D -> nindex -> res arr) (has_shape : D -> bool)
        (ueq uor : U -> U -> res bool) (ufactor : U -> U -> res Qc).

Inductive data : Type := Source (d : D) | Memory (a : arr).
Definition data_array (d : data) : arr := match d with Source d => asarray d | Memory a => a end.
Definition data_get (d : data) (x : nindex) : res arr :=
  match d with Source d => get d x | Memory a => np_get a x end.
Definition data_has_shape (d : data) : bool :=
  match d with Source d => has_shape d | Memory _ => true end.

(** variable.py 35-57 and 481-519: the state of an instance. *)
Record object : Type := mkObject
  { o_data : data; o_full : option arr; o_scale : Qc; o_unit : U; o_dims : list str }.
Definition set_full (o : object) (a : arr) : object :=
  mkObject (o_data o) (Some a) (o_scale o) (o_unit o) (o_dims o).

(** variable.py 392-411, [_read_array], with an index that is not missing. *)
Definition read_array (d : data) (x : nindex) : res arr :=
  match data_get d x with
  | Ok a => Ok a
  | Err TypeError | Err IndexError => np_get (data_array d) x
  | Err e => Err e
  end.

(** variable.py 350-390, [_load_array]; the second component is the instance
    afterwards. *)
Definition load_array (o : object) (x : nindex) : res arr * object :=
  if missing x then
    match o_full o with
    | Some a => (Ok a, o)
    | None => let a := data_array (o_data o) in (Ok a, set_full o a)
    end
  else
    match o_full o with
    | Some a => (np_get a x, o)
    | None => (read_array (o_data o) x, o)
    end.
(** variable.py 336-348, [_get_array]. *)
Definition get_array (o : object) (x : nindex) : res arr * object :=
  let (r, o') := load_array o x in (rmap (scale_arr (o_scale o)) r, o').

(** variable.py 83-118, [shape] (and [ndim], its length), through
    [_get_base_attr]: the data's own attribute, else that of the loaded
    array. *)
Definition get_shape (o : object) : list nat * object :=
  if data_has_shape (o_data o) then (shape (data_array (o_data o)), o)
  else match get_array o NAll with
       | (Ok a, o') => (shape a, o')
       | (Err _, o') => ([], o')
       end.

(** variable.py 481-519, a new instance from data. *)
Definition default_dims (n : nat) : list str :=
  map (fun i => lit "x" ++ dec_of_N (N.of_nat i)) (seq 0 n).
Definition new_from_data (d : data) (dims : list str) (u : U) : res object :=
  let o := mkObject d None 1%Qc u dims in
  let (s, o') := get_shape o in
  let dims := match dims with [] => default_dims (length s) | _ => dims end in
  if Nat.eqb (length dims) (length s)
  then Ok (mkObject (o_data o') (o_full o') (o_scale o') (o_unit o') dims)
  else Err ValueError.
(** variable.py 481-519, a new instance from an instance, which loads its
    array first; the second component is the given instance afterwards. *)
Definition new_from_object (o : object) : res object * object :=
  match get_array o NAll with
  | (Ok a, o') =>
      let n := mkObject (o_data o) (Some a) 1%Qc (o_unit o) (o_dims o) in
      let (s, n') := get_shape n in
      (if Nat.eqb (length (o_dims o)) (length s) then Ok n' else Err ValueError, o')
  | (Err e, o') => (Err e, o')
  end.

(** variable.py 571-600, [_update_unit], with 413-420.  Simplification: names
    of metric systems are left out.  The boolean is true if the result is the
    instance itself. *)
Definition update_unit (o : object) (u : U) : res (bool * object) :=
  do e <- ueq u (o_unit o);
  if e then Ok (true, o)
  else
    do c <- uor (o_unit o) u;
    if negb c then Err ValueError
    else
      do n <- new_from_data (o_data o) (o_dims o) u;
      do f <- ufactor (o_unit o) u;
      Ok (false, mkObject (o_data n) (o_full n) (o_scale o * f)%Qc (o_unit n) (o_dims n)).

(** variable.py 132-138, [_get_axis_size]. *)
Definition axis_size (s : list nat) (i : nat) (v : item) : res Z :=
  let default := match nth_error s i with Some n => Ok (Z.of_nat n) | None => Err IndexError end in
  match v with
  | IInt _ => Ok 1%Z
  | ISlice start stop _ =>
      do b <- match stop with Some z => if Z.eqb z 0 then default else Ok z | None => default end;
      Ok (b - match start with Some z => z | None => 0 end)%Z
  | _ => default
  end.
Fixpoint axis_sizes (s : list nat) (i : nat) (l : list item) : res (list Z) :=
  match l with
  | [] => Ok []
  | v :: l' => do z <- axis_size s i v; do r <- axis_sizes s (S i) l'; Ok (z :: r)
  end.

(** variable.py 117-130, [Array.__getitem__], the array of the result. *)
Definition rebuild (s : list nat) (x : nindex) (a : arr) : res arr :=
  let result := ndmin (length s) a in
  if Nat.eqb (length (shape a)) (length s) then Ok result
  else match x with
       | NStd (Many l) => do sizes <- axis_sizes s 0 l; reshape result sizes
       | NFancy xs => do sizes <- axis_sizes s 0 (map (fun _ => ISeq []) xs); reshape result sizes
       | _ => Ok result
       end.
(** variable.py 559-569, [Quantity.__getitem__] with an index: the new
    instance, and this one afterwards. *)
Definition getitem (o : object) (u : subscript) : res object * object :=
  let (s, o1) := get_shape o in
  match normalize s (unwrap_subscript u) with
  | Err e => (Err e, o1)
  | Ok x =>
      let (r, o2) := get_array o1 x in
      (do a <- r; do b <- rebuild s x a;
       do n <- new_from_data (Memory b) (o_dims o) (o_unit o);
       fst (new_from_object n), o2)
  end.

(** * Arithmetic *)

(** variable.py 620-623, [shape_dict]. *)
Definition shape_dict (dims : list str) (s : list nat) : list (str * nat) :=
  d_of str_eqb (combine dims s).
Fixpoint index_of (d : str) (l : list str) : option nat :=
  match l with
  | [] => None
  | x :: l' => if str_eqb x d then Some 0 else option_map S (index_of d l')
  end.
(** variable.py 602-618, [_ufunc_hook], the branch for products: the arrays
    of the two operands with their axes aligned. *)
Definition aligned (a b : object) : res ((arr * arr) * (object * object)) :=
  let (sa, a1) := get_shape a in
  let (sb, b1) := get_shape b in
  let dims := merge (o_dims a) [Some (o_dims a); Some (o_dims b)] in
  let tmp := d_update str_eqb (d_update str_eqb [] (shape_dict (o_dims a) sa)) (shape_dict (o_dims b) sb) in
  do full <- mapM (fun d => match d_get str_eqb tmp d with Some n => Ok n | None => Err KeyError end) dims;
  let indices := mesh (map (fun n => map Z.of_nat (seq 0 n)) full) in
  let part ds s :=
    mapM (fun d => match index_of d dims with
                   | Some k => match nth_error indices k with Some x => Ok x | None => Err IndexError end
                   | None => Err ValueError end) (map fst (shape_dict ds s)) in
  do ia <- part (o_dims a) sa;
  do ib <- part (o_dims b) sb;
  let (ra, a2) := get_array a1 (NFancy ia) in
  let (rb, b2) := get_array b1 (NFancy ib) in
  do x <- ra; do y <- rb;
  Ok ((x, y), (a2, b2)).
(** variable.py 176-229, [__array_ufunc__] for [numpy.multiply] (with the
    number product for [f]) or [numpy.true_divide], of two instances; [unit]
    is the unit that the metadata operator computes and the dimensions are
    those of metadata.py 806-812. *)
Definition array_product (f : Qc -> Qc -> Qc) (unit : U) (a b : object) : res object :=
  do p <- aligned a b;
  let '((x, y), _) := p in
  do r <- ufunc2 f x y;
  new_from_data (Memory r) (merge (o_dims a) [Some (o_dims b)]) unit.
(** variable.py 176-229 for [numpy.add] or [numpy.subtract] of two instances
    with the same unit: the arrays are not aligned, and the dimensions must
    be equal (metadata.py 467-477, 827-841); otherwise the operator of the
    metadata turns TypeError into MetadataError (metadata.py 165-175). *)
Definition array_sum (f : Qc -> Qc -> Qc) (unit : U) (a b : object) : res object :=
  let (ra, _) := get_array a NAll in
  let (rb, _) := get_array b NAll in
  do x <- ra; do y <- rb;
  do r <- ufunc2 f x y;
  if negb (dims_eq (o_dims b) (DDims (o_dims a))) then Err MetadataError
  else new_from_data (Memory r) (o_dims a) unit.

(** variable.py 626-634, [numpy.squeeze] without arguments. *)
Definition squeeze (o : object) : res object :=
  match get_array o NAll with
  | (Ok a, o') =>
      let (s, _) := get_shape o' in
      new_from_data (Memory (mkArr (filter (fun n => negb (Nat.eqb n 1)) (shape a)) (cells a)))
        (map fst (filter (fun p => negb (Nat.eqb (snd p) 1)) (combine (o_dims o) s))) (o_unit o)
  | (Err e, _) => Err e
  end.
(** variable.py 637-648, [numpy.mean] along an axis; numpy accepts negative
    axes.  An axis of size 0 is left out (numpy gives nan). *)
Definition mean_cells (a : arr) (k : nat) : arr :=
  build (firstn k (shape a) ++ skipn (S k) (shape a))
    (fun i => (sumQc (map (fun j => at_ a (firstn k i ++ j :: skipn k i)) (seq 0 (nth k (shape a) 0%nat)))
               / Qc_of_Z (Z.of_nat (nth k (shape a) 0%nat)))%Qc).
Definition mean (o : object) (axis : Z) : res object :=
  match get_array o NAll with
  | (Ok a, _) =>
      do k <- position (length (shape a)) axis;
      new_from_data (Memory (mean_cells a k))
        (filter (fun d => match index_of d (o_dims o) with
                          | Some j => negb (Z.eqb (Z.of_nat j) axis) | None => true end) (o_dims o))
        (o_unit o)
  | (Err e, _) => Err e
  end.
End Objects.
Arguments object D U : clear implicits.
Arguments data D : clear implicits.
