(** Model of the objects that convert units and of collections of dimensions:
    src/goats/core/metric.py 1213-1234 ([NamedUnit.systems]), 1459-1473,
    1577-1610 and 1814-1827 ([Conversion]), 1837-1924 ([_Converter]), 2134-2197
    ([Unit.__floordiv__]), 2404-2471 ([Dimensions]), 2571-2573
    ([Quantity.convert]) and 2791-2813 ([reduction]).  The search for factors,
    the tables and the properties of units are those of MetricModel.v. *)

From Coq Require Import String Ascii List Bool ZArith QArith Qcanon.
From Verif Require Import Py PyDict SymbolicModel ParametersModel IterablesModel MetricTables MetricModel SystemModel.
Import ListNotations.
Open Scope list_scope.
Open Scope py_scope.
Open Scope nat_scope.

Section Converter.

(** [Conversion._compute] for two texts (metric.py 1599-1610). *)
Variable compute : str -> str -> res Qc.
(** [UNITS[quantity]] (metric.py 824-874): the units in (mks, cgs). *)
Variable units_of : str -> res (str * str).

(** * Instances of [Conversion] *)

(** The attributes [u0], [u1] and [_factor] (metric.py 1570-1576). *)
Record conversion_obj : Type := mkConversion { c_from : str; c_to : str; c_factor : Qc }.
(** The attributes [unit], [quantity] and [_substitutions] (metric.py
    1870-1875). *)
Record converter_obj : Type := mkConverter { v_unit : str; v_quantity : str; v_subs : str * str }.
(** The objects created so far, in order of creation: an object is its
    position.  [w_conversions] and [w_converters] are the dictionaries
    [Conversion._instances] and [_Converter._instances].
    Used for metric.py 1577-1597. *)
Record world : Type := mkWorld {
  w_objects : list conversion_obj;
  w_conversions : list ((str * str) * nat);
  w_made : list converter_obj;
  w_converters : list ((str * str) * nat) }.
Definition start : world := mkWorld [] [] [] [].

Definition pair_eqb (a b : str * str) : bool := str_eqb (fst a) (fst b) && str_eqb (snd a) (snd b).

(** metric.py 1820-1827, [bool(conversion)]. *)
Definition truth (c : conversion_obj) : bool := negb (Qc_eqb (c_factor c) 0).
(** metric.py 1814-1818, [float(conversion)]. *)
Definition to_float (c : conversion_obj) : res Qc :=
  if truth c then Ok (c_factor c) else Err TypeError.

(** metric.py 1577-1597, [Conversion(u0, u1)]: an instance that is not false
    is used again; a failure leaves no entry. *)
Definition conversion_call (w : world) (u0 u1 : str) : res nat * world :=
  let found := match d_get pair_eqb (w_conversions w) (u0, u1) with
               | Some i => match nth_error (w_objects w) i with
                           | Some c => if truth c then Some i else None
                           | None => None
                           end
               | None => None
               end in
  match found with
  | Some i => (Ok i, w)
  | None =>
      match compute u0 u1 with
      | Err e => (Err e, w)
      | Ok f =>
          let i := length (w_objects w) in
          (Ok i, mkWorld (w_objects w ++ [mkConversion u0 u1 f])
                         (d_set pair_eqb (w_conversions w) (u0, u1) i) (w_made w) (w_converters w))
      end
  end.

(** metric.py 1599-1602, [conversion.inverse]. *)
Definition inverse (w : world) (i : nat) : res nat * world :=
  match nth_error (w_objects w) i with
  | Some c => conversion_call w (c_to c) (c_from c)
  | None => (Err TypeError, w)
  end.

(** metric.py 2288-2361, [conversion(u0, u1, strict=...)]. *)
Definition conversion_float (w : world) (u0 u1 : str) : res Qc * world :=
  match conversion_call w u0 u1 with
  | (Ok i, w') => (match nth_error (w_objects w') i with Some c => to_float c | None => Err TypeError end, w')
  | (Err e, w') => (Err e, w')
  end.
Definition conversion_function (w : world) (strict : bool) (u0 u1 : str) : res (option Qc) * world :=
  match conversion_float w u0 u1 with
  | (Ok f, w') => (Ok (Some f), w')
  | (Err UnitConversionError, w') => (if strict then Err UnitConversionError else Ok None, w')
  | (Err e, w') => (Err e, w')
  end.

(** * Conversions of a quantity *)

(** [self._substitutions.get(unit) or unit] (metric.py 1888 and 1913): the
    keys of the dictionary are 'mks' and 'cgs'. *)
Definition substituted (subs : str * str) (u : str) : str :=
  match exact_name u with
  | Some s => match pick s subs with [] => u | t => t end
  | None => u
  end.

(** metric.py 1877-1891, [_Converter(unit, quantity)]. *)
Definition converter_call (w : world) (unit quantity : str) : res nat * world :=
  match d_get pair_eqb (w_converters w) (unit, quantity) with
  | Some i => (Ok i, w)
  | None =>
      match units_of quantity with
      | Err e => (Err e, w)
      | Ok subs =>
          let i := length (w_made w) in
          (Ok i, mkWorld (w_objects w) (w_conversions w)
                         (w_made w ++ [mkConverter (substituted subs unit) quantity subs])
                         (d_set pair_eqb (w_converters w) (unit, quantity) i))
      end
  end.

(** metric.py 1893-1921, [converter.to(target)].  The last statement is not
    reached: [Conversion] raises if there is no factor, and no factor is 0. *)
Definition converter_to (w : world) (i : nat) (target : str) : res Qc * world :=
  match nth_error (w_made w) i with
  | None => (Err TypeError, w)
  | Some v =>
      let unit := substituted (v_subs v) target in
      if str_eqb (v_unit v) unit then (Ok 1%Qc, w)
      else
        match conversion_call w (v_unit v) unit with
        | (Err e, w') => (Err e, w')
        | (Ok k, w') =>
            (match nth_error (w_objects w') k with
             | Some c => if truth c then to_float c else Err ValueError
             | None => Err TypeError
             end, w')
        end
  end.

(** metric.py 2533-2556 and 2571-2573, [Quantity(name).convert(unit)].
    Simplification: the dimensions of the quantity are not looked up. *)
Definition quantity_convert (w : world) (name unit : str) : res nat * world :=
  match units_of (lower name) with
  | Err e => (Err e, w)
  | Ok _ => converter_call w unit (lower name)
  end.

(** * Histories *)

(** What a program may do with conversions.
    For histories and uses of metric.py 2533-2556. *)
Inductive action : Type :=
| MakeConversion (u0 u1 : str)
| Invert (i : nat)
| CallConversion (strict : bool) (u0 u1 : str)
| MakeConverter (unit quantity : str)
| ConvertQuantity (name unit : str)
| ConvertTo (i : nat) (target : str).
Definition step (w : world) (a : action) : world :=
  match a with
  | MakeConversion u0 u1 => snd (conversion_call w u0 u1)
  | Invert i => snd (inverse w i)
  | CallConversion strict u0 u1 => snd (conversion_function w strict u0 u1)
  | MakeConverter unit quantity => snd (converter_call w unit quantity)
  | ConvertQuantity name unit => snd (quantity_convert w name unit)
  | ConvertTo i target => snd (converter_to w i target)
  end.
Definition after (l : list action) : world := fold_left step l start.

(** * Quotients of units *)

(** The other operand of [//]: a unit, a text or some other object.
    Used for metric.py 2134-2182. *)
Inductive divisor : Type := DUnit (x : expression) | DText (s : str) | DOther.
Variable F : flops.
(** metric.py 2134-2182 and 2184-2197, [unit // other] and [other // unit]:
    [NotImplemented] becomes a [TypeError]. *)
Definition divisor_text (d : divisor) : option str :=
  match d with DUnit x => Some (expr_format F x) | DText s => Some s | DOther => None end.
Definition unit_floordiv (w : world) (x : expression) (d : divisor) : res Qc * world :=
  match divisor_text d with
  | Some s => match conversion_function w true s (expr_format F x) with
              | (Ok (Some f), w') => (Ok f, w')
              | (Ok None, w') => (Err TypeError, w')
              | (Err e, w') => (Err e, w')
              end
  | None => (Err TypeError, w)
  end.
Definition unit_rfloordiv (w : world) (d : divisor) (x : expression) : res Qc * world :=
  match divisor_text d with
  | Some s => match conversion_function w true (expr_format F x) s with
              | (Ok (Some f), w') => (Ok f, w')
              | (Ok None, w') => (Err TypeError, w')
              | (Err e, w') => (Err e, w')
              end
  | None => (Err TypeError, w)
  end.

(** * Dimensions *)

(** An argument of [Dimensions]: [None] or a text.
    Used for metric.py 2415-2453. *)
Definition dimension_arg : Type := option str.
(** [Dimension(a) if a else default].  Used for metric.py 2415-2453. *)
Definition dimension_or (a : dimension_arg) (default : option expression) : res (option expression) :=
  match a with
  | Some (c :: s) => do e <- expression_of_str F false (c :: s); Ok (Some e)
  | _ => Ok default
  end.
(** metric.py 2415-2453, [Dimensions(common, **systems)]; [SYSTEMS] in the
    given order.  An expression is false only if it has no terms. *)
Definition dimensions_new (order : list system) (common : dimension_arg) (systems : list (str * dimension_arg))
  : res (list (str * option expression)) :=
  do default <- dimension_or common None;
  do updates <- mapM (fun kv => do d <- dimension_or (snd kv) default; Ok (fst kv, d)) systems;
  let created := d_update str_eqb (map (fun s => (system_name s, None)) order) updates in
  if existsb (fun kv => match snd kv with Some (_ :: _) => true | _ => false end) created
  then Ok created else Err TypeError.
(** metric.py 2461-2465, [dimensions[key]]. *)
Definition dimensions_get (d : list (str * option expression)) (key : str) : res (option expression) :=
  match d_get str_eqb d (lower key) with Some e => Ok e | None => Err KeyError end.

(** * The systems of a named unit *)

Variable named : str -> option named_unit.
Variable canonical : list canonical_row.
(** metric.py 1213-1234, [NamedUnit.systems]: the names under 'fundamental',
    'defined' and 'allowed'. *)
Fixpoint systems_of (order : list system) (n : named_unit) : res (list system * list system * list system) :=
  match order with
  | [] => Ok ([], [], [])
  | s :: rest =>
      do f <- is_fundamental_in canonical n s;
      do d <- is_defined_in named canonical n s;
      do a <- is_allowed_in named canonical n s;
      do r <- systems_of rest n;
      let '(fs, ds, als) := r in
      Ok (if f then s :: fs else fs, if d then s :: ds else ds, if a then s :: als else als)
  end.

(** * Reductions *)

(** metric.py 1020-1027, [reduction ** n]. *)
Definition reduction_pow (r : reduction) (p : Qc) : res reduction :=
  do k <- frac_pow F (red_scale r) p;
  do ts <- mapM (fun t => term_pow F t p) (red_units r);
  do e <- expression_of_terms F ts;
  Ok (mkReduction (unit_terms e) k (red_system r)).
(** metric.py 1000-1007, [reduction * number]. *)
Definition reduction_mul (r : reduction) (k : Qc) : reduction :=
  mkReduction (red_units r) (red_scale r * k)%Qc (red_system r).
(** metric.py 2791-2813, [reduction(unit, system)]. *)
Variable reduce_unit : named_unit -> option system -> res (option reduction).
Definition reduced_term (given : option system) (t : term) : res (option reduction) :=
  match named (base t) with
  | None => Ok None
  | Some n =>
      match reduce_unit n given with
      | Ok None | Err SystemAmbiguityError | Err UnitParsingError => Ok None
      | Ok (Some r) => do p <- reduction_pow r (expo t); Ok (Some p)
      | Err e => Err e
      end
  end.
Definition somes {A} (l : list (option A)) : list A :=
  concat (map (fun o => match o with Some x => [x] | None => [] end) l).
Definition reduction_of (x : expression) (given : option system) : res (option reduction) :=
  do l <- mapM (reduced_term given) x;
  match somes l with
  | [] => Ok None
  | r :: rest => Ok (Some (fold_left (fun acc o => reduction_mul acc (red_scale o)) rest r))
  end.

End Converter.

(** * The package's own tables *)
(** For histories and uses of metric.py 2791-2813. *)
Definition m_units (limit : nat) : str -> res (str * str) := m_prop false limit.
Definition m_reduction_of := reduction_of F64 identified m_reduce.
Definition m_systems_of := systems_of identified the_canonical.
