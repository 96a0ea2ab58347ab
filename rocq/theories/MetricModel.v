(** Model of /repo/src/goats/core/metric.py: quantities, named units, the
    conversion search, and units.

    Simplifications: numbers are exact rationals (binary64 rounding is not
    modelled outside symbolic.py's own parameter [F]); the instance caches are
    only modelled where a property is about them ([cached] below); the two
    Python sets with more than one member that are iterated ([SYSTEMS] and
    [Conversion.units]) are parameters, the list of their members in iteration
    order.  Proof-free. *)

From Coq Require Import String Ascii List Bool ZArith NArith QArith Qcanon.
From Verif Require Import Py PyDict SymbolicModel AliasedModel IterablesModel MetricTables.
Import ListNotations.
Open Scope list_scope.
Open Scope py_scope.

(** * Named units *)

(** The [None] name of the blank prefix is formatted as 'None'.
    Used for metric.py 915-921. *)
Definition p_name_text (p : prefix) : str :=
  match p_name p with Some n => n | None => lit "None" end.

(** metric.py 915-921, [build_unit_aliases]. *)
Definition build_unit_aliases (p : prefix) (u : base_unit) : list str :=
  [p_name_text p ++ b_name u; p_symbol p ++ b_symbol u]
  ++ (if str_eqb (p_symbol p) (lit "μ") then [lit "u" ++ b_symbol u] else []).

(** The prefix and the base of a named unit.  Used for metric.py 924-929. *)
Record named_unit : Type := mkNamed { n_prefix : prefix; n_base : base_unit }.

(** metric.py 924-929, [named_units], built from any two tables. *)
Definition unit_table (ps : list prefix) (us : list base_unit) : @amap named_unit :=
  mapping (nodup str_eq_dec)
    (flat_map (fun p => map (fun u => (Many (build_unit_aliases p u), mkNamed p u)) us) ps).

(** metric.py 1032-1062, [identify]: [None] is [UnitParsingError]; also the
    test [string in named_units]. *)
Definition identify (t : @amap named_unit) (s : str) : option named_unit :=
  match getitem t s with Ok n => Some n | Err _ => None end.

(** metric.py 1140-1210: the attributes of a named unit. *)
Definition n_name (n : named_unit) : str := p_name_text (n_prefix n) ++ b_name (n_base n).
Definition n_symbol (n : named_unit) : str := p_symbol (n_prefix n) ++ b_symbol (n_base n).
Definition n_scale (n : named_unit) : Qc := p_factor (n_prefix n).
Definition n_quantity (n : named_unit) : str := b_quantity (n_base n).

(** [NamedTuple] equality.  Used for metric.py 1423-1428. *)
Definition prefix_eqb (p q : prefix) : bool :=
  str_eqb (p_symbol p) (p_symbol q)
  && match p_name p, p_name q with
     | Some a, Some b => str_eqb a b
     | None, None => true
     | _, _ => false
     end
  && Qc_eqb (p_factor p) (p_factor q).
Definition base_eqb (u v : base_unit) : bool :=
  str_eqb (b_symbol u) (b_symbol v) && str_eqb (b_name u) (b_name v)
  && str_eqb (b_quantity u) (b_quantity v).

(** metric.py 1423-1428, [NamedUnit.__eq__] on two named units. *)
Definition named_eqb (m n : named_unit) : bool :=
  prefix_eqb (n_prefix m) (n_prefix n) && base_eqb (n_base m) (n_base n).

(** metric.py 1480-1532, [ratio] of two named units. *)
Definition ratio (u0 u1 : named_unit) : res Qc :=
  if named_eqb u1 u0 then Ok 1%Qc
  else if negb (base_eqb (n_base u1) (n_base u0)) then Err ValueError
  else if Qc_eqb (n_scale u1) 0 then Err ZeroDivisionError
  else Ok (n_scale u0 / n_scale u1)%Qc.

(** metric.py 1434-1457, [self // other]. *)
Definition floordiv (self other : named_unit) : res Qc := ratio other self.

(** The instance cache of [NamedUnit] (metric.py 1068-1108): look up the
    string among the aliases of existing instances, else create the instance
    and store it under its name and symbol. *)
Definition cached : Type := @amap named_unit.
Definition named_call (t : @amap named_unit) (st : cached) (s : str) : res named_unit * cached :=
  match getitem st s with
  | Ok n => (Ok n, st)
  | Err _ =>
      match identify t s with
      | None => (Err UnitParsingError, st)
      | Some n => (Ok n, setitem_many (nodup str_eq_dec) st [n_name n; n_symbol n] n)
      end
  end.
(** A history of calls; the outcomes of all of them.
    For histories and uses of metric.py 1068-1108. *)
Fixpoint named_calls (t : @amap named_unit) (st : cached) (l : list str) : cached :=
  match l with
  | [] => st
  | s :: l' => named_calls t (snd (named_call t st s)) l'
  end.

(** * Quantities *)
(** Used for metric.py 1414-1421. *)

Inductive system : Type := Mks | Cgs.
Definition pick {A} (s : system) (p : A * A) : A :=
  match s with Mks => fst p | Cgs => snd p end.

(** [str.replace(old, new)]; [old] is not empty.  [skip] counts characters of
    an occurrence that was just replaced.  Used for metric.py 853-867. *)
Fixpoint is_prefix (p s : str) : bool :=
  match p, s with
  | [], _ => true
  | a :: p', b :: s' => Ascii.eqb a b && is_prefix p' s'
  | _ :: _, [] => false
  end.
Fixpoint replace_go (old new : str) (skip : nat) (s : str) : str :=
  match s with
  | [] => []
  | c :: s' =>
      match skip with
      | S k => replace_go old new k s'
      | O => if is_prefix old s then new ++ replace_go old new (pred (length old)) s'
             else c :: replace_go old new O s'
      end
  end.
Definition replace (old new s : str) : str := replace_go old new O s.

(** symbolic.py 216-226, [Operand.format] of a general operand, and
    [Term.format]. *)
Definition format_operand (F : flops) (o : operand) : str :=
  match o with
  | Simple t => format_term F t
  | Group t =>
      if Qc_eqb (coef t) 1 && Qc_eqb (expo t) 1 then base t
      else (if Qc_eqb (coef t) 1 then [] else dec_of_Qc (coef t))
           ++ lit "(" ++ base t ++ lit ")"
           ++ (if Qc_eqb (expo t) 1 then [] else lit "^" ++ dec_of_Qc (expo t))
  end.

(** symbolic.py 1438-1442 and 1301-1332, [Expression(list of operands)]. *)
Definition expression_of_operands (F : flops) (l : list operand) : res expression :=
  do us <- parse F false
             (match l with
              | [] => lit "1"
              | _ => join (lit " * ") (map (fun o => lit "(" ++ format_operand F o ++ lit ")") l)
              end);
  reduce us.

Section Property.
Variable F : flops.
(** [_QUANTITIES] *)
Variable qs : list (str * qdef).
(** true: the property 'dimensions'; false: 'units'. *)
Variable dims : bool.

(** metric.py 853-867: spaces in the names of quantities become '_'. *)
Definition underscore (s : str) : str :=
  fold_left (fun s kv => replace (fst kv) (replace (lit " ") (lit "_") (fst kv)) s) qs s.

(** metric.py 824-874, [_Property.__getitem__], [_get_property], [_parse] and
    [_expand]: the values for (mks, cgs).  The fuel bounds the recursion
    through [_expand].  Every entry has both systems, so the keys of the
    merged dictionaries are those two. *)
Fixpoint prop_get (fuel : nat) (q : str) : res (str * str) :=
  match fuel with
  | O => Err OutOfFuel
  | S f =>
      let parse_quantity s :=
        do e <- expression_of_str F false (underscore s);
        do parts <- mapM (fun t =>
            do v <- prop_get f (replace (lit "_") (lit " ") (base t));
            do a <- create F (S (length (fst v))) 1 (fst v) (expo t);
            do b <- create F (S (length (snd v))) 1 (snd v) (expo t);
            Ok (a, b)) e;
        do m <- expression_of_operands F (map fst parts);
        do c <- expression_of_operands F (map snd parts);
        Ok (expr_format F m, expr_format F c) in
      match sd_get qs q with
      | Some (QDict d u) => Ok (if dims then d else u)
      | Some (QStr s) => parse_quantity s
      | None => parse_quantity q
      end
  end.
End Property.

(** metric.py 903-909, [CANONICAL]: for each quantity the units and the
    dimensions in (mks, cgs). *)
Definition canonical_row : Type := str * ((str * str) * (str * str)).
Definition canonical_of (F : flops) (qs : list (str * qdef)) : res (list canonical_row) :=
  mapM (fun kv =>
    do u <- prop_get F qs false 10 (fst kv);
    do d <- prop_get F qs true 10 (fst kv);
    Ok (fst kv, (u, d))) qs.

(** * Properties of named units *)

(** The result of [NamedUnit.reduce] (metric.py 977-1030): the unit terms of
    the expression and the scale.  Simplification: multiplying the expression
    by the scale only adds a constant term, which [units] leaves out. *)
Record reduction : Type := mkReduction { red_units : list term; red_scale : Qc; red_system : system }.

Section Metric.

Variable F : flops.
(** [NamedUnit(string)], [None] for [UnitParsingError]. *)
Variable named : str -> option named_unit.
(** [CANONICAL]. *)
Variable canonical : list canonical_row.
(** [_BASE_QUANTITIES] and [_QUANTITIES]. *)
Variable bases : list (str * str).
Variable qs : list (str * qdef).
(** [SYSTEMS] in iteration order.  Used for metric.py 1414-1421. *)
Variable systems : list system.

Definition canonical_unit (s : system) (q : str) : res str :=
  match sd_get canonical q with Some (u, _) => Ok (pick s u) | None => Err KeyError end.
(** [DIMENSIONS[quantity]]; metric.py 1362-1380.  Every caller has already looked
    the quantity up in [CANONICAL]. *)
Definition dimension_strings (q : str) : res (str * str) :=
  match sd_get canonical q with Some (_, d) => Ok d | None => Err KeyError end.

(** metric.py 1414-1421, [is_fundamental_in]. *)
Definition is_fundamental_in (n : named_unit) (s : system) : res bool :=
  do c <- canonical_unit s (n_quantity n);
  Ok (str_eqb (n_symbol n) c || str_eqb (n_name n) c).

(** metric.py 1403-1412, [is_defined_in]. *)
Definition is_defined_in (n : named_unit) (s : system) : res bool :=
  do f <- is_fundamental_in n s;
  if f then Ok true
  else do c <- canonical_unit s (n_quantity n);
       Ok (match named c with Some r => base_eqb (n_base n) (n_base r) | None => false end).

(** metric.py 1382-1401, [is_allowed_in]. *)
Definition is_allowed_in (n : named_unit) (s : system) : res bool :=
  do m <- is_defined_in n Mks; do c <- is_defined_in n Cgs;
  Ok (if m || c then pick s (m, c) else true).

(** metric.py 1344-1380, [dimensions] and [_get_dimensions].  A system in
    which the unit is not defined has the dimension [Expression(None)], which
    is '1'. *)
Definition dimensions (n : named_unit) : res (expression * expression) :=
  do m <- is_defined_in n Mks; do c <- is_defined_in n Cgs;
  do d <- dimension_strings (n_quantity n);
  let d' := if Bool.eqb m c then d
            else (if m then fst d else [], if c then snd d else []) in
  do x <- expression_of_str F false (fst d');
  do y <- expression_of_str F false (snd d');
  Ok (x, y).

(** metric.py 1282-1301, [_resolve_system].  The tests [is None] at 1294 and
    1297 never succeed (see [dimensions]). *)
Definition resolve_system (n : named_unit) (given : option system) : res system :=
  match given with
  | Some s => Ok s
  | None =>
      do m <- is_fundamental_in n Mks; do c <- is_fundamental_in n Cgs;
      if m && negb c then Ok Mks
      else if c && negb m then Ok Cgs
      else do d <- dimensions n;
           if expr_eqb F (fst d) (snd d) then Ok Mks else Err SystemAmbiguityError
  end.

(** metric.py 1324-1336 and 1259-1270: the base units of a dimension.
    [_BASE_QUANTITIES.find(base)[0]] is the row with that dimension. *)
Definition base_terms (s : system) (x : expression) : res (list term) :=
  mapM (fun t =>
    match sd_get bases (base t) with
    | None => Err KeyError
    | Some q =>
        match sd_get qs q with
        | Some (QDict _ u) => term_new 1 (pick s u) (expo t)
        | _ => Err TypeError
        end
    end) x.

Definition unit_terms (x : expression) : list term :=
  filter (fun t => negb (str_eqb (base t) (lit "1"))) x.

(** metric.py 1273-1280 and 1303-1341, [reduce] and [_reduce]. *)
Definition reduce_named (n : named_unit) (given : option system) : res (option reduction) :=
  do s <- resolve_system n given;
  do d <- is_defined_in n s;
  if negb d then Ok None
  else
    do ds <- dimensions n;
    let x := pick s ds in
    match x with
    | [_] =>
        do c <- canonical_unit s (n_quantity n);
        if str_eqb (n_symbol n) c then
          do t <- term_new 1 (n_symbol n) 1;
          do e <- expression_of_terms F [t];
          Ok (Some (mkReduction (unit_terms e) 1 s))
        else
          do t <- term_new 1 c 1;
          match named c with
          | None => Err UnitParsingError
          | Some r =>
              do k <- ratio n r;
              do e <- expression_of_terms F [t];
              Ok (Some (mkReduction (unit_terms e) k s))
          end
    | _ =>
        do ts <- base_terms s x;
        do e <- expression_of_terms F ts;
        Ok (Some (mkReduction (unit_terms e) (n_scale n) s))
    end.

(** metric.py 1237-1271, [decomposed] and [_decompose]. *)
Definition decomposed (n : named_unit) : res (option (list term)) :=
  do fs <- mapM (fun s => do f <- is_fundamental_in n s; Ok (s, f)) systems;
  match find snd fs with
  | None => Ok None
  | Some (s, _) =>
      do d <- is_defined_in n s;
      if negb d then Ok None
      else
        do ds <- dimensions n;
        match pick s ds with
        | [_] => do t <- term_new 1 (n_symbol n) 1; Ok (Some [t])
        | x => do ts <- base_terms s x; Ok (Some ts)
        end
  end.

(** * The conversion search *)

(** [CONVERSIONS], and [Conversion.units] in iteration order. *)
Variable conns : connections.
Variable nodes : list str.

(** Python's truth value of a factor.  Used for metric.py 1626-1647. *)
Definition truthy_q (x : option Qc) : option Qc :=
  match x with Some q => if Qc_eqb q 0 then None else Some q | None => None end.

(** metric.py 1667-1681, [_get_aliases_of]. *)
Definition aliases_of (u : str) : list str :=
  u :: match named u with Some n => [n_symbol n; n_name n] | None => [] end.

(** metric.py 1649-1665, [_search]. *)
Fixpoint first_declared (l : list (str * str)) : weight :=
  match l with
  | [] => None
  | e :: l' => match d_get edge_eqb conns e with Some w => w | None => first_declared l' end
  end.
Definition search_declared (u0 u1 : str) : option Qc :=
  first_declared ((u0, u1) :: list_prod (aliases_of u0) (aliases_of u1)).

(** metric.py 1626-1647, [_simple_conversion] (with [scale=1.0], which all
    callers use). *)
Definition simple_conversion (u0 u1 : str) : res (option Qc) :=
  if str_eqb u0 u1 then Ok (Some 1%Qc)
  else match truthy_q (search_declared u0 u1) with
       | Some w => Ok (Some w)
       | None =>
           match named u1, named u0 with
           | Some n1, Some n0 =>
               match floordiv n1 n0 with
               | Ok r => Ok (truthy_q (Some r))
               | Err ValueError => Ok None
               | Err e => Err e
               end
           | _, _ => Ok None
           end
       end.

(** metric.py 1720-1737, [_rescale]. *)
Fixpoint rescale_go (n0 : named_unit) (u1 : str) (l : list str) : res (option Qc) :=
  match l with
  | [] => Ok None
  | ux :: l' =>
      match named ux with
      | Some nx =>
          if base_eqb (n_base nx) (n_base n0) then
            match truthy_q (search_declared ux u1) with
            | Some found => do r <- floordiv nx n0; Ok (Some (r * found)%Qc)
            | None => rescale_go n0 u1 l'
            end
          else rescale_go n0 u1 l'
      | None => rescale_go n0 u1 l'
      end
  end.
Definition rescale (u0 u1 : str) : res (option Qc) :=
  match named u0 with
  | None => Ok None
  | Some n0 => do r <- rescale_go n0 u1 nodes; Ok (truthy_q r)
  end.

(** metric.py 1683-1708, [_complex_conversion] before the multi-step search:
    rescale [u0], then [u1]. *)
Definition rescaled (u0 u1 : str) : res (option Qc) :=
  do a <- (if is_node conns u0 then Ok None else rescale u0 u1);
  match a with
  | Some c => Ok (Some c)
  | None =>
      do b <- (if is_node conns u1 then Ok None else rescale u1 u0);
      match b with
      | Some c => Ok (Some (/ c)%Qc)
      | None => Ok None
      end
  end.

Definition checked_in (u : str) (checked : list str) : bool := existsb (str_eqb u) checked.

(** metric.py 1612-1624 and 1709-1718, [_convert_as_strings] with the
    multi-step search.  [checked] is the attribute [_checked], which is
    threaded through the calls.  The fuel bounds the recursion. *)
Fixpoint convert_strings (fuel : nat) (checked : list str) (u0 u1 : str)
  : res (option Qc) * list str :=
  match fuel with
  | O => (Err OutOfFuel, checked)
  | S f =>
      let checked := checked ++ [u0] in
      match simple_conversion u0 u1 with
      | Err e => (Err e, checked)
      | Ok (Some c) => (Ok (Some c), checked)
      | Ok None =>
          match rescaled u0 u1 with
          | Err e => (Err e, checked)
          | Ok (Some c) => (Ok (truthy_q (Some c)), checked)
          | Ok None =>
              (fix loop (adj : list (str * weight)) (checked : list str)
                 : res (option Qc) * list str :=
                 match adj with
                 | [] => (Ok None, checked)
                 | (u, w) :: adj' =>
                     if checked_in u checked then loop adj' checked
                     else match convert_strings f checked u u1 with
                          | (Err e, ch) => (Err e, ch)
                          | (Ok None, ch) => loop adj' ch
                          | (Ok (Some v), ch) =>
                              match w with
                              | Some w => (Ok (truthy_q (Some (w * v)%Qc)), ch)
                              | None => (Err TypeError, ch)
                              end
                          end
                 end) (get_adjacencies conns u0) checked
          end
      end
  end.

(** Enough fuel: one level for the first unit and one for each node.
    Used for metric.py 1771-1789. *)
Definition search_fuel : nat := S (S (length nodes)).

(** metric.py 1771-1789, [_match_terms].  Simplification: the power of the
    factor is exact for an integral exponent and [fpow F] otherwise. *)
Fixpoint try_like (checked : list str) (u0 : str) (e : Qc) (l : list term)
  : res (option (Qc * term)) * list str :=
  match l with
  | [] => (Ok None, checked)
  | t :: l' =>
      match convert_strings search_fuel checked u0 (base t) with
      | (Err x, ch) => (Err x, ch)
      | (Ok None, ch) => try_like ch u0 e l'
      | (Ok (Some c), ch) =>
          (do p <- frac_pow F c e; Ok (Some (p, t)), ch)
      end
  end.
Definition match_terms (checked : list str) (target : term) (terms : list term)
  : res (option (Qc * term)) * list str :=
  let like := filter (fun t => negb (term_eqb F t target) && Qc_eqb (expo t) (- expo target)%Qc) terms in
  match try_like checked (base target) (expo target) like with
  | (Ok None, ch) =>
      (match named (base target) with
       | None => Err UnitParsingError
       | Some n =>
           do d <- dimensions n;
           do one <- expression_of_str F false (lit "1");
           Ok (if expr_eqb F (fst d) one && expr_eqb F (snd d) one
               then Some (1%Qc, target) else None)
       end, ch)
  | r => r
  end.

(** [list.remove] of a term that is present.  Used for metric.py 1791-1812. *)
Fixpoint remove_term (t : term) (l : list term) : list term :=
  match l with
  | [] => []
  | x :: l' => if term_eqb F x t then l' else x :: remove_term t l'
  end.

(** metric.py 1791-1812, [_resolve_terms]. *)
Fixpoint resolve_go (checked : list str) (terms matched unmatched : list term) (factor : Qc)
  : res (Qc * list term) * list str :=
  match terms with
  | [] => (Ok (factor, unmatched), checked)
  | target :: terms' =>
      if existsb (fun m => term_eqb F m target) matched
      then resolve_go checked terms' matched unmatched factor
      else
        match match_terms checked target unmatched with
        | (Err e, ch) => (Err e, ch)
        | (Ok None, ch) => resolve_go ch terms' matched unmatched factor
        | (Ok (Some (value, term)), ch) =>
            if term_eqb F term target
            then resolve_go ch terms' (matched ++ [target]) (remove_term target unmatched) (factor * value)%Qc
            else resolve_go ch terms' (matched ++ [target; term])
                   (remove_term term (remove_term target unmatched)) (factor * value)%Qc
        end
  end.
Definition resolve_terms (checked : list str) (terms : list term) : res (option Qc) * list str :=
  if Nat.leb (length terms) 1 then (Ok None, checked)
  else match resolve_go checked terms [] terms 1%Qc with
       | (Err e, ch) => (Err e, ch)
       | (Ok (factor, []), ch) => (Ok (Some factor), ch)
       | (Ok (_, _ :: _), ch) => (Ok None, ch)
       end.

(** metric.py 1751-1769, [_convert_by_dimensions]. *)
Definition dimension_terms (terms : list term) : res (list term) :=
  do l <- mapM (fun t =>
    match named (base t) with
    | None => Err UnitParsingError
    | Some n =>
        do r <- reduce_named n None;
        match r with
        | None => Ok []
        | Some r =>
            mapM (fun u => do c <- frac_pow F (red_scale r) (expo t);
                           term_new c (base u) (expo t * expo u)%Qc) (red_units r)
        end
    end) terms;
  Ok (concat l).
Definition convert_by_dimensions (checked : list str) (terms : list term)
  : res (option Qc) * list str :=
  match (do ts <- dimension_terms terms;
         do e <- expression_of_terms F ts;
         do one <- expression_of_str F false (lit "1");
         Ok (ts, expr_eqb F e one)) with
  | Err e => (Err e, checked)
  | Ok (_, true) => (Ok (Some 1%Qc), checked)
  | Ok (ts, false) => resolve_terms checked ts
  end.

(** metric.py 42: [UNITY]. *)
Definition unity (s : str) : bool := str_eqb s (lit "#") || str_eqb s (lit "1").

(** metric.py 1739-1749, [_convert_as_expressions]. *)
Definition convert_expressions (u0 u1 : str) : res Qc :=
  do e0 <- expression_of_str F false u0;
  do e1 <- expression_of_str F false u1;
  if expr_eqb F e0 e1 then Ok 1%Qc
  else
    do q <- expr_div F e0 e1;
    let terms := filter (fun t => negb (unity (base t))) q in
    let '(a, ch) := resolve_terms [] terms in
    do x <- a;
    match truthy_q x with
    | Some f => Ok f
    | None =>
        do y <- fst (convert_by_dimensions ch terms);
        match truthy_q y with
        | Some f => Ok f
        | None => Err UnitConversionError
        end
    end.

(** metric.py 1577-1610, [Conversion(u0, u1)] and [float] of it. *)
Definition convert (u0 u1 : str) : res Qc :=
  do a <- fst (convert_strings search_fuel [] u0 u1);
  match a with
  | Some f => Ok f
  | None => convert_expressions u0 u1
  end.

(** metric.py 2288-2361, [conversion(u0, u1)] without [strict]. *)
Definition conversion (u0 u1 : str) : res (option Qc) :=
  match convert u0 u1 with
  | Ok f => Ok (Some f)
  | Err UnitConversionError => Ok None
  | Err e => Err e
  end.

(** * Units *)

(** metric.py 2101-2132, [Unit.decompose] and [_decompose]: an expression is
    the list of its terms. *)
Definition decompose_term (t : term) : res (list term) :=
  match named (base t) with
  | None => Ok [t]
  | Some n =>
      match decomposed n with
      | Err SystemAmbiguityError => Ok [t]
      | Err e => Err e
      | Ok None => Ok [t]
      | Ok (Some l) => mapM (fun b => term_pow F b (expo t)) l
      end
  end.
Definition decompose (x : expression) : res expression :=
  do l <- mapM decompose_term x; reduce (concat l).

(** metric.py 2065-2092: [Unit.__mul__], [__truediv__] and [__pow__].
    [symbolic.product(a, b)] builds expressions from the lists of terms. *)
Definition unit_mul (x y : expression) : res expression :=
  if expr_eqb F x y then expr_pow F x (Qc_of_Z 2)
  else
    do a <- decompose x; do b <- decompose y;
    do ea <- expression_of_terms F a; do eb <- expression_of_terms F b;
    do r <- expr_mul F ea eb; expression_of_terms F r.
Definition unit_div (x y : expression) : res expression :=
  if expr_eqb F x y then expression_of_str F false (lit "1")
  else
    do a <- decompose x; do b <- decompose y;
    do ea <- expression_of_terms F a; do eb <- expression_of_terms F b;
    do r <- expr_div F ea eb; expression_of_terms F r.
Definition unit_pow (x : expression) (p : Qc) : res expression :=
  do a <- decompose x; do ea <- expression_of_terms F a;
  do r <- expr_pow F ea p; expression_of_terms F r.

(** metric.py 2371-2388, [Dimension.fromunit]. *)
Fixpoint dimension_go (s : system) (acc : expression) (ok : bool) (x : expression)
  : res (expression * bool) :=
  match x with
  | [] => Ok (acc, ok)
  | t :: x' =>
      match named (base t) with
      | None => Err UnitParsingError
      | Some n =>
          do m <- is_allowed_in n Mks; do c <- is_allowed_in n Cgs;
          do d <- dimensions n;
          let s' := if m && c then s else if m then Mks else Cgs in
          do p <- expr_pow F (pick s' d) (expo t);
          do acc' <- expr_mul F acc p;
          dimension_go s acc' (ok || pick s (m, c)) x'
      end
  end.
Definition dimension_of (s : system) (x : expression) : res expression :=
  do one <- expression_of_str F false (lit "1");
  do r <- dimension_go s one false x;
  if snd r then Ok (fst r) else Err ValueError.

(** metric.py 2408-2433, [Dimensions.fromunit]: a [ValueError] becomes
    [None]; at least one system must remain. *)
Definition dimensions_of (x : expression) : res (option expression * option expression) :=
  let guard r := match r with Ok e => Ok (Some e) | Err ValueError => Ok None | Err e => Err e end in
  do m <- guard (dimension_of Mks x);
  do c <- guard (dimension_of Cgs x);
  match m, c with None, None => Err TypeError | _, _ => Ok (m, c) end.

(** metric.py 2041-2057, [Unit.dimensionless]: [None == '1'] is false. *)
Definition dimensionless (x : expression) : res bool :=
  do d <- dimensions_of x;
  do one <- expression_of_str F false (lit "1");
  let is1 o := match o with Some e => expr_eqb F e one | None => false end in
  Ok (is1 (fst d) && is1 (snd d)).

(** metric.py 2199-2252, [Unit.__eq__].  The sets of decomposed terms compare
    by attributes. *)
Definition same_terms (x y : list term) : bool :=
  forallb (fun t => existsb (term_same t) y) x && forallb (fun t => existsb (term_same t) x) y.
Definition unit_eqb (x y : expression) : res bool :=
  if expr_eqb F x y then Ok true
  else if forallb (fun t => unity (format_term F t)) (expr_difference x y ++ expr_difference y x)
  then Ok true
  else
    do a <- decompose x; do b <- decompose y;
    if same_terms a b then Ok true
    else
      do ea <- expression_of_terms F a; do eb <- expression_of_terms F b;
      if expr_eqb F ea eb then Ok true
      else
        do p <- dimensionless x; do q <- dimensionless y;
        if negb (Bool.eqb p q) then Ok false
        else match convert (expr_format F y) (expr_format F x) with
             | Ok f => Ok (Qc_eqb f 1)
             | Err UnitConversionError => Ok false
             | Err e => Err e
             end.

End Metric.

(** * The module's own tables *)

(** metric.py 924-929 on the module's tables, computed once
    ([named_units_computed] in MetricTableProofs.v says that this is
    [unit_table prefixes units]). *)
Definition named_units : @amap named_unit := Eval vm_compute in unit_table prefixes units.
(** metric.py 1032-1062 on the module's tables. *)
Definition identified (s : str) : option named_unit := identify named_units s.
(** metric.py 768. *)
Definition the_connections : connections := connect declared.
(** iterables.py 1149-1152: the members of [nodes], in the order of first
    appearance. *)
Definition the_nodes : list str :=
  nodup str_eq_dec (concat (map (fun p => [fst (fst p); snd (fst p)]) the_connections)).

(** metric.py 903-909, [CANONICAL], computed once ([the_canonical_computed]
    in SystemProofs.v says that this is what the module computes). *)
Definition the_canonical : list canonical_row :=
  Eval vm_compute in match canonical_of F64 quantities with Ok l => l | Err _ => [] end.

(** The functions of the module on its own tables; [F64] is Python's float
    and the iteration orders of the two sets are fixed.
    For histories and uses of metric.py 903-909. *)
Definition mks_first : list system := [Mks; Cgs].
Definition m_dimensions := dimensions F64 identified the_canonical.
Definition m_reduce := reduce_named F64 identified the_canonical base_quantities quantities.
Definition m_decomposed (systems : list system) :=
  decomposed F64 identified the_canonical base_quantities quantities systems.
Definition m_convert :=
  convert F64 identified the_canonical base_quantities quantities the_connections the_nodes.
Definition m_conversion :=
  conversion F64 identified the_canonical base_quantities quantities the_connections the_nodes.
Definition m_decompose (systems : list system) :=
  decompose F64 identified the_canonical base_quantities quantities systems.
Definition m_unit_eqb (systems : list system) :=
  unit_eqb F64 identified the_canonical base_quantities quantities systems the_connections the_nodes.
Definition m_dimension_of := dimension_of F64 identified the_canonical.
