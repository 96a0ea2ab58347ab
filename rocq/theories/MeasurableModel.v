(** Model of /repo/src/goats/core/measurable.py, of the arithmetic of
    metadata.Unit (metadata.py 545-609), and of the instances of units
    (metric.py 1930-1991).

    Floats are exact rationals; a quantity is single-valued
    ([measurable.Scalar]). *)

From Coq Require Import String Ascii List Bool ZArith QArith Qcanon.
From Verif Require Import Py SymbolicModel IterablesModel AliasedModel MetricTables MetricModel MetadataModel.
Import ListNotations.
Open Scope list_scope.
Open Scope nat_scope.
Open Scope py_scope.

(** * Measuring *)

Section Measuring.
(** Whether [last in ['1', metadata.Unit('1')]]; the comparison with the unit
    raises an exception for a string that is not a unit. *)
Variable is_unity : obj -> res bool.
(** [str] of an object that is not a string.
    Used for measurable.py 351-428. *)
Variable show : obj -> str.

Definition is_num (o : obj) : bool := match o with ONum _ => true | _ => false end.
Definition is_str (o : obj) : bool := match o with OStr _ => true | _ => false end.

(** iterables.py 140-155, [missing]. *)
Definition missing (o : obj) : bool :=
  match o with ONone | OStr [] | OSeq _ [] => true | _ => false end.

(** The members over which Python iterates: characters, for a string.
    Used for measurable.py 351-428. *)
Definition iterate (o : obj) : list obj :=
  match o with
  | OStr s => map (fun c => OStr [c]) s
  | OSeq _ l => l
  | _ => []
  end.

(** measurable.py 431-438, [ensure_unit]. *)
Definition ensure_unit (args : list obj) : res str :=
  let l := last args ONone in
  do explicit <- is_unity l;
  Ok (if negb (existsb is_str args) || explicit then lit "1"
      else match l with OStr s => s | o => show o end).

(** measurable.py 351-428, [parse_measurable], [_wrap_measurable] and
    [_callback_parse] with [distribute=False].  The result is the tuple of
    the values and the unit; [None] is Python's implicit [None].
    Simplification: instances of [metadata.Unit] among the arguments are left
    out. *)
Fixpoint parse_measurable (fuel : nat) (args : obj) : res (option (list obj)) :=
  match fuel with
  | O => Err OutOfFuel
  | S fuel' =>
      let o := unwrap args in
      if missing o then Err UnmeasurableError
      else if is_num o then Ok (Some [o; OStr (lit "1")])
      else
        let items := iterate o in
        if Nat.ltb 1 (length (filter is_str items)) then Err MeasuringTypeError
        else if forallb is_num items then Ok (Some (items ++ [OStr (lit "1")]))
        else if forallb is_whole items then
          do parsed <- mapM (parse_measurable fuel') items;
          do units <- mapM (fun p => match p with
                                     | Some l => match rev l with u :: _ => Ok u | [] => Err IndexError end
                                     | None => Err TypeError end) parsed;
          match units with
          | [] => Err IndexError
          | u0 :: _ =>
              if existsb (fun u => negb (match u, u0 with OStr a, OStr b => str_eqb a b | _, _ => false end)) units
              then Err MeasuringTypeError
              else Ok (Some (flat_map (fun p => match p with Some l => removelast l | None => [] end) parsed ++ [u0]))
          end
        else
          do unit <- ensure_unit items;
          if forallb is_num (removelast items) then Ok (Some (removelast items ++ [OStr unit]))
          else match items with
               | OSeq _ l :: _ => Ok (Some (l ++ [OStr unit]))
               | _ => Ok None
               end
  end.

(** Enough fuel for any nesting.  Used for measurable.py 336-348. *)
Fixpoint depth (o : obj) : nat :=
  match o with OSeq _ l => S (fold_right Nat.max 0 (map depth l)) | _ => 1 end.

(** measurable.py 336-348, [measure(args...)]: the data and the unit.
    Simplification: the arguments do not define [__measure__]. *)
Definition measure (args : list obj) : res (list obj * obj) :=
  match args with
  | [] => Err IndexError
  | _ =>
      let o := OSeq KTuple args in
      do p <- parse_measurable (S (depth o)) o;
      match p with
      | None => Err TypeError
      | Some l => match rev l with u :: _ => Ok (removelast l, u) | [] => Err IndexError end
      end
  end.

(** measurable.py 280-319, [ismeasurable].  [iterables.allinstance] is true of
    an empty iterable (iterables.py 1441-1446). *)
Fixpoint ismeasurable (fuel : nat) (this : obj) : res bool :=
  match fuel with
  | O => Err OutOfFuel
  | S fuel' =>
      match unwrap this with
      | ONum _ => Ok true
      | OSeq _ l =>
          if forallb is_num l then Ok true
          else if is_str (last l ONone)
               && forallb is_num (match l with
                                  | OSeq _ l0 :: _ => l0
                                  | OStr s :: _ => iterate (OStr s)
                                  | _ => removelast l end)
          then Ok true
          else do bs <- mapM (ismeasurable fuel') l; Ok (forallb (fun b => b) bs)
      | _ => Ok false
      end
  end.

(** measurable.py 47-53, [Measurement.__getitem__] with an integer. *)
Definition measurement_getitem {A} (data : list A) (unit : str) (i : Z) : res (list (A * str)) :=
  let j := if (i <? 0)%Z then (i + Z.of_nat (length data))%Z else i in
  do v <- py_index data j;
  Ok [(v, unit)].
End Measuring.

(** * Units *)

(** An instance of [metadata.Unit] or (false) of its base class
    [metric.Unit].  Used for metric.py 1937. *)
Record unit_obj : Type := mkUnit { u_meta : bool; u_terms : expression }.

Section Quantities.
Variable F : flops.
Variable named : str -> option named_unit.
Variable canonical : list canonical_row.
Variable bases : list (str * str).
Variable qs : list (str * qdef).
Variable systems : list system.
Variable conns : connections.
Variable nodes : list str.
(** Python's [x ** y] on data. *)
Variable data_pow : Qc -> Qc -> res Qc.

Notation unit_eqb := (unit_eqb F named canonical bases qs systems conns nodes).
Notation unit_mul := (unit_mul F named canonical bases qs systems).
Notation unit_div := (unit_div F named canonical bases qs systems).
Notation unit_pow := (unit_pow F named canonical bases qs systems).
Notation decompose := (decompose F named canonical bases qs systems).
Notation dimensions_of := (dimensions_of F named canonical).
Notation convert := (convert F named canonical bases qs conns nodes).

(** The instances of units by their names (metric.py 1937): one mapping for
    the metaclass, shared by [metric.Unit] and [metadata.Unit]. *)
Definition instances : Type := @amap unit_obj.
Inductive unit_arg : Type := UText (s : str) | UUnit (u : unit_obj).

(** metric.py 1966-1991: the rest of [_UnitMeta.__call__], after the look-up
    of [string], for the new instance with terms [x]. *)
Definition unit_create (meta : bool) (st : instances) (text : option str) (string : option str) (x : expression)
  : res unit_obj * instances :=
  let name := expr_format F x in
  match getitem st name with
  | Ok v =>
      match text with
      | Some s => match alias_set (nodup str_eq_dec) st name [s] with
                  | (Ok _, st') => (Ok v, st')
                  | (Err e, st') => (Err e, st')
                  end
      | None => (Ok v, st)
      end
  | Err _ =>
      let key := match named name with
                 | Some n => [n_name n; n_symbol n]
                 | None => match string with Some s => [name; s] | None => [name] end
                 end in
      (Ok (mkUnit meta x), setitem_many (nodup str_eq_dec) st key (mkUnit meta x))
  end.
(** metric.py 1939-1991, [_UnitMeta.__call__] for [metadata.Unit] ([meta]) or
    [metric.Unit]. *)
Definition unit_call (meta : bool) (st : instances) (arg : unit_arg) : res unit_obj * instances :=
  match arg with
  | UText s =>
      match getitem st s with
      | Ok v => (Ok v, st)
      | Err _ =>
          match expression_of_str F false s with
          | Err e => (Err e, st)
          | Ok x => unit_create meta st (Some s) (Some s) x
          end
      end
  | UUnit u =>
      if negb meta || u_meta u then (Ok u, st)
      else
        let string := match u_terms u with [t] => Some (format_term F t) | _ => None end in
        match match string with Some s => getitem st s | None => Err KeyError end with
        | Ok v => (Ok v, st)
        | Err _ => unit_create meta st None string (u_terms u)
        end
  end.
(** A history of creations of units.
    For histories and uses of metric.py 1939-1991. *)
Fixpoint unit_calls (st : instances) (l : list (bool * unit_arg)) : instances :=
  match l with
  | [] => st
  | (meta, a) :: l' => unit_calls (snd (unit_call meta st a)) l'
  end.

(** * Operators on units *)

(** An operand of an operator on metadata: a unit, or a number without the
    attribute (utilities.py 47-48 returns the number itself). *)
Inductive uvalue : Type := VUnit (u : unit_obj) | VNumber (n : Qc).
Inductive binary : Type := Add | Sub | Mul | Div | Pow.

(** [Expression(n)] of a number.  Simplification: the decimal text of a float
    is replaced by a fraction.  Used for metadata.py 551-573. *)
Definition number_expression (n : Qc) : res expression := expression_of_str F false (dec_of_Qc n).

(** metadata.py 591-609, [_add_sub] of an instance of [metadata.Unit]. *)
Definition dims_eqb (a b : option expression * option expression) : bool :=
  let same x y := match x, y with
                  | Some e, Some f => expr_eqb F e f
                  | None, None => true
                  | _, _ => false end in
  same (fst a) (fst b) && same (snd a) (snd b).
Definition add_sub (u v : unit_obj) : res unit_obj :=
  do e <- unit_eqb (u_terms u) (u_terms v);
  if e then Ok u
  else if u_meta v then
    do a <- dimensions_of (u_terms u); do b <- dimensions_of (u_terms v);
    if dims_eqb a b then Err ScaleMismatch else Err DimensionMismatch
  else Err UnitError.

(** metadata.py 551-573 and 583-589, and metric.py 2065-2092 for the base
    class, which multiplies and divides by numbers.  A result is an instance
    of the class of the left operand.  Simplification: the class of the
    result of an operation on instances of both classes. *)
Definition unit_binary (op : binary) (a b : uvalue) : res unit_obj :=
  match op, a, b with
  | (Add | Sub), VUnit u, VUnit v => if u_meta u then add_sub u v else Err TypeError
  | (Add | Sub), _, _ => Err TypeError
  | Mul, VUnit u, VUnit v => do x <- unit_mul (u_terms u) (u_terms v); Ok (mkUnit (u_meta u) x)
  | Mul, VUnit u, VNumber n | Mul, VNumber n, VUnit u =>
      if u_meta u then Ok u
      else
        do y <- number_expression n;
        if expr_eqb F (u_terms u) y then
          do x <- expr_pow F (u_terms u) (Qc_of_Z 2); Ok (mkUnit false x)
        else
          do d <- decompose (u_terms u); do e <- expression_of_terms F d;
          do r <- expr_mul F e y; do x <- expression_of_terms F r; Ok (mkUnit false x)
  | Div, VUnit u, VUnit v => do x <- unit_div (u_terms u) (u_terms v); Ok (mkUnit (u_meta u) x)
  | Div, VUnit u, VNumber n =>
      if u_meta u then Ok u
      else
        do y <- number_expression n;
        if expr_eqb F (u_terms u) y then
          do x <- expression_of_str F false (lit "1"); Ok (mkUnit false x)
        else
          do d <- decompose (u_terms u); do e <- expression_of_terms F d;
          do r <- expr_div F e y; do x <- expression_of_terms F r; Ok (mkUnit false x)
  | Div, VNumber n, VUnit u => if u_meta u then Ok u else Err TypeError
  | Pow, VUnit u, VNumber n => do x <- unit_pow (u_terms u) n; Ok (mkUnit (u_meta u) x)
  | _, _, _ => Err TypeError
  end.

(** * Quantities *)

(** measurable.py 154-187: the data and the unit of a quantity. *)
Record quantity : Type := mkQuantity { q_data : Qc; q_unit : unit_obj }.

(** The types of operands: [algebraic.Real], [algebraic.Quantity], the type of
    the quantity itself, [typing.Iterable], and a plain number.
    Used for algebraic.py 240-241. *)
Inductive class : Type := CReal | CQuantity | CSelf | CIterable | CNumber.
Definition class_eqb (a b : class) : bool :=
  match a, b with
  | CReal, CReal | CQuantity, CQuantity | CSelf, CSelf | CIterable, CIterable | CNumber, CNumber => true
  | _, _ => false
  end.
(** [issubclass]: algebraic.py 240-241 and 244. *)
Definition subclass (a b : class) : bool :=
  match a, b with
  | CSelf, CQuantity => true
  | CNumber, CReal => true
  | _, _ => class_eqb a b
  end.

(** measurable.py 170-178: the rules of each operation. *)
Definition rules (op : binary) : list (call class) :=
  match op with
  | Div => [Suppress [Ty CReal; Ty CQuantity] false]
  | Pow => [Suppress [Ty CQuantity; Ty CQuantity] false; Suppress [Ty CReal; Ty CQuantity] false;
            Suppress [Ty CQuantity; Ty CIterable] true]
  | _ => []
  end.
Definition operation_of (op : binary) : operation class :=
  run_calls class (new_operation class CSelf [lit "unit"]) (rules op).

Inductive operand : Type := OpQ (q : quantity) | OpN (n : Qc).
Definition class_of (o : operand) : class := match o with OpQ _ => CSelf | OpN _ => CNumber end.
Definition value_of (o : operand) : Qc := match o with OpQ q => q_data q | OpN n => n end.
Definition unit_of (o : operand) : uvalue :=
  match o with OpQ q => VUnit (q_unit q) | OpN n => VNumber n end.
Definition has_unit (o : operand) : bool := match o with OpQ _ => true | OpN _ => false end.

(** The operation on data.  Used for measurable.py 113-145. *)
Definition data_binary (op : binary) (x y : Qc) : res Qc :=
  match op with
  | Add => Ok (x + y)%Qc
  | Sub => Ok (x - y)%Qc
  | Mul => Ok (x * y)%Qc
  | Div => if Qc_eqb y 0 then Err ZeroDivisionError else Ok (x / y)%Qc
  | Pow => data_pow x y
  end.

(** metadata.py 336-355: the operator of an operation, for the one parameter
    'unit'; metadata.py 165-175 with two operands. *)
Definition evaluate_unit (op : binary) (a b : operand) : res unit_obj :=
  if negb (supports class class_eqb subclass (operation_of op) [class_of a; class_of b])
  then Err OperandTypeError
  else match unit_binary op (unit_of a) (unit_of b) with
       | Err TypeError => if has_unit a && has_unit b then Err MetadataError else Err TypeError
       | r => r
       end.

(** measurable.py 113-145, [implement]: the modes 'forward' ([a] is [self])
    and 'reverse' ([b] is [self]). *)
Definition arithmetic (op : binary) (a b : operand) : res quantity :=
  do d <- data_binary op (value_of a) (value_of b);
  do u <- evaluate_unit op a b;
  Ok (mkQuantity d u).

(** measurable.py 137-143, the mode 'inplace': the quantity afterwards and
    what the statement raises.  Iterating over the mapping of metadata gives
    its keys, and the four characters of 'unit' do not unpack into two
    variables. *)
Definition inplace (op : binary) (self : quantity) (other : operand) : quantity * option exn :=
  match data_binary op (q_data self) (value_of other) with
  | Err e => (self, Some e)
  | Ok d =>
      match evaluate_unit op (OpQ self) other with
      | Err e => (self, Some e)
      | Ok _ => (mkQuantity d (q_unit self), Some ValueError)
      end
  end.

(** measurable.py 126-128, the mode 'comparison', with metadata.py 25-34 and
    412-416. *)
Definition compare (cmp : Qc -> Qc -> bool) (self : quantity) (other : operand) : res bool :=
  do c <- match other with
          | OpN _ => unit_eqb (u_terms (q_unit self)) (u_terms (q_unit self))
          | OpQ q =>
              do a <- unit_eqb (u_terms (q_unit self)) (u_terms (q_unit self));
              do b <- unit_eqb (u_terms (q_unit q)) (u_terms (q_unit self));
              Ok (a && b)
          end;
  if c then Ok (cmp (q_data self) (value_of other)) else Err ValueError.

(** measurable.py 100-111, [__eq__]. *)
Definition quantity_eq (self : quantity) (other : operand) : res bool :=
  match other with
  | OpN n => Ok (Qc_eqb n (q_data self))
  | OpQ q =>
      if negb (Qc_eqb (q_data q) (q_data self)) then Ok false
      else unit_eqb (u_terms (q_unit self)) (u_terms (q_unit q))
  end.

(** * Changing the unit *)

(** metric.py 2027-2038, [Unit.quantity]. *)
Definition unit_quantity (x : expression) : res expression :=
  do ts <- mapM (fun t => match named (base t) with
                          | None => Err UnitParsingError
                          | Some n => do b <- term_new 1 (replace (lit " ") (lit "_") (n_quantity n)) 1;
                                      term_pow F b (expo t)
                          end) x;
  expression_of_terms F ts.

(** metric.py 2254-2274, [self | other]. *)
Definition unit_or (x y : expression) : res bool :=
  do a <- dimensions_of x; do b <- dimensions_of y;
  let given := [fst b; snd b] in
  let matches d := match d with
                   | Some e => existsb (fun g => match g with Some f => expr_eqb F f e | None => false end) given
                   | None => false end in
  if existsb (fun s => matches (pick s a)) systems then Ok true
  else
    do p <- unit_quantity x; do r <- unit_quantity y;
    if expr_eqb F p r then Ok true
    else match convert (expr_format F y) (expr_format F x) with
         | Ok _ => Ok true
         | Err UnitConversionError => Ok false
         | Err e => Err e
         end.

(** measurable.py 194-236, [__getitem__], [_validate_unit] and [apply_unit].
    Simplification: names of metric systems are left out; the quantity keeps
    its unit as an instance. *)
Definition change_unit (q : quantity) (new : unit_obj) : res quantity :=
  do e <- unit_eqb (u_terms new) (u_terms (q_unit q));
  if e then Ok q
  else
    do c <- unit_or (u_terms (q_unit q)) (u_terms new);
    if negb c then Err ValueError
    else
      do f <- convert (expr_format F (u_terms (q_unit q))) (expr_format F (u_terms new));
      Ok (mkQuantity (q_data q * f)%Qc new).
End Quantities.

(** * The module's own tables *)

(** measurable.py 435 with metric.py 2199-2252. *)
Definition module_unity (o : obj) : res bool :=
  match o with
  | OStr s =>
      if str_eqb s (lit "1") then Ok true
      else do one <- expression_of_str F64 false (lit "1");
           do x <- expression_of_str F64 false s;
           m_unit_eqb mks_first one x
  | _ => Ok false
  end.
Definition no_show (o : obj) : str := [].
Definition m_measure := measure module_unity no_show.
(** Integral powers of data.  For histories and uses of measurable.py 435. *)
Definition int_pow (x y : Qc) : res Qc :=
  if Qc_eqb x 0 && Z.ltb (Qc_num y) 0 then Err ZeroDivisionError
  else if Z.eqb (Zpos (Qc_den y)) 1 then Ok (Qc_zpow x (Qc_num y)) else Err ValueError.
Definition m_arithmetic :=
  arithmetic F64 identified the_canonical base_quantities quantities mks_first the_connections the_nodes int_pow.
Definition m_inplace :=
  inplace F64 identified the_canonical base_quantities quantities mks_first the_connections the_nodes int_pow.
Definition m_change_unit :=
  change_unit F64 identified the_canonical base_quantities quantities mks_first the_connections the_nodes.
Definition m_unit_call := unit_call F64 identified.
Definition m_unit_calls := unit_calls F64 identified.
(** The unit with the given name, created first.
    For histories and uses of measurable.py 435. *)
Definition fresh_unit (meta : bool) (s : str) : res unit_obj := fst (m_unit_call meta (mkMap [] []) (UText s)).
