(** Model of /repo/src/goats/core/symbolic.py: terms, the operand and operator
    factories, the parser, and expressions.

    Strings are lists of characters.  Coefficients and exponents are
    [fractions.Fraction] objects, modelled by canonical rationals.  Python
    floats enter in three places ([float(Fraction)], [Fraction ** float] and
    [Fraction ** Fraction] with a fractional exponent); the float operations
    are a parameter [F : flops] of the model, so that the theorems say exactly
    what they need to know about them.

    Proof-free: statements are in SymbolicSpec.v and SymbolicProps.v. *)

From Coq Require Import String Ascii List Bool ZArith NArith QArith Qcanon.
From Verif Require Import Py.
Import ListNotations.
Open Scope list_scope.
Open Scope py_scope.

(** * Floating-point operations used by the module *)

(** [fl q] is the exact value of [float(q)]; [fpow a b] is the exact value of
    [float(a) ** float(b)], [None] when that is a complex number.  Overflow is
    not modelled.  Used for symbolic.py 188-192. *)
Record flops : Type := mkFlops {
  fl : Qc -> Qc;
  fpow : Qc -> Qc -> option Qc
}.

(** [Fraction ** Fraction] and [Fraction ** int] (Python's fractions module):
    exact for an integral exponent, through floats otherwise.  A complex
    result makes the callers in symbolic.py raise TypeError. *)
Definition frac_pow (F : flops) (a b : Qc) : res Qc :=
  if Qc_is_int b then
    if Qc_eqb a 0 && Qc_ltb b 0 then Err ZeroDivisionError
    else Ok (Qc_zpow a (Qc_num b))
  else if Qc_eqb a 0 then
    if Qc_ltb b 0 then Err ZeroDivisionError else Ok 0%Qc
  else match fpow F a b with
       | Some c => Ok c
       | None => Err TypeError
       end.

(** [Fraction ** float]: always through floats.
    Used for symbolic.py 188-192. *)
Definition frac_fpow (F : flops) (a b : Qc) : res Qc :=
  match fpow F a b with
  | Some c => Ok c
  | None => Err TypeError
  end.

(** * Operands and terms *)

(** symbolic.py 170-186: the attributes of an operand. *)
Record term : Type := mkTerm { coef : Qc; base : str; expo : Qc }.

(** symbolic.py 170-181, [Operand.__init__]: [x or 1] replaces every falsy
    argument, in particular the number 0, by 1. *)
Definition init (c : Qc) (b : str) (e : Qc) : term :=
  {| coef := if Qc_eqb c 0 then 1%Qc else c;
     base := match b with [] => lit "1" | _ => b end;
     expo := if Qc_eqb e 0 then 1%Qc else e |}.

(** symbolic.py 188-192, [Operand.__pow__] with an exact power. *)
Definition term_pow (F : flops) (t : term) (p : Qc) : res term :=
  do c <- frac_pow F (coef t) p;
  Ok (init c (base t) (expo t * p)%Qc).

(** symbolic.py 188-192, [Operand.__pow__] with a float power:
    [Fraction ** float] and [Fraction * float] are float operations. *)
Definition term_fpow (F : flops) (t : term) (p : Qc) : res term :=
  do c <- frac_fpow F (coef t) p;
  Ok (init c (base t) (fl F (fl F (expo t) * p)%Qc)).

(** symbolic.py 194-199, [Operand.__mul__]. *)
Definition term_scale (t : term) (x : Qc) : term :=
  init (coef t * x)%Qc (base t) (expo t).

(** symbolic.py 201-210, [Operand.__eq__] on two operands. *)
Definition term_eqb (F : flops) (s t : term) : bool :=
  str_eqb (base t) (base s)
  && Qc_eqb (fl F (expo t)) (fl F (expo s))
  && Qc_eqb (fl F (coef t)) (fl F (coef s)).

(** symbolic.py 361-377, [Term._format_coefficient]. *)
Definition format_coef (F : flops) (t : term) : str :=
  if negb (str_eqb (base t) (lit "1")) && Qc_eqb (coef t) 1 then []
  else if negb (str_eqb (base t) (lit "1")) && negb (Qc_is_int (coef t)) then
    lit "(" ++ dec_of_Qc (coef t) ++ lit ")"
  else if Qc_eqb (fl F (coef t)) (Qc_of_Z (Qc_trunc (coef t))) then
    dec_of_Z (Qc_trunc (coef t))
  else dec_of_Qc (coef t).

(** symbolic.py 379-387, [Term._format_exponent] without a style. *)
Definition format_expo (t : term) : str :=
  if str_eqb (base t) (lit "1") || Qc_eqb (expo t) 1 then []
  else lit "^" ++ dec_of_Qc (expo t).

(** symbolic.py 353-359, [Term.format] without a style; also [str(term)]
    (212-214). *)
Definition format_term (F : flops) (t : term) : str :=
  if str_eqb (base t) (lit "1") then format_coef F t
  else format_coef F t ++ base t ++ format_expo t.

(** symbolic.py 326-351, [Term.__call__] with a real (rational) argument. *)
Definition term_call (F : flops) (t : term) (v : Qc) : res term :=
  if str_eqb (base t) (lit "1") then Err TypeError
  else do p <- frac_pow F v (expo t);
       Ok (init (coef t * p)%Qc [] 1).

(** symbolic.py 389-403, [float(term)] and [int(term)] before the cast. *)
Definition term_number (t : term) : res Qc :=
  if str_eqb (base t) (lit "1") then Ok (coef t) else Err TypeError.

(** * Regular expressions

    A pattern is the list of its matches at the start of the string, in the
    order in which Python's backtracking engine would try them.  A match is a
    value together with the rest of the string.
    Used for symbolic.py 561-571. *)
Definition rx (A : Type) : Type := str -> list (A * str).

Definition rx_ret {A} (a : A) : rx A := fun s => [(a, s)].
Definition rx_bind {A B} (m : rx A) (f : A -> rx B) : rx B :=
  fun s => flat_map (fun p => f (fst p) (snd p)) (m s).
Definition rx_cls (p : ascii -> bool) : rx ascii :=
  fun s => match s with c :: s' => if p c then [(c, s')] else [] | [] => [] end.
Definition rx_alt {A} (m n : rx A) : rx A := fun s => m s ++ n s.
(** [m?] (greedy).  Used for symbolic.py 561-571. *)
Definition rx_opt {A} (m : rx A) : rx (option A) :=
  fun s => map (fun p => (Some (fst p), snd p)) (m s) ++ [(None, s)].
(** [p*] (greedy) on a character class.  Used for symbolic.py 561-571. *)
Fixpoint rx_star (p : ascii -> bool) (s : str) : list (str * str) :=
  match s with
  | c :: s' =>
      if p c then map (fun q => (c :: fst q, snd q)) (rx_star p s') ++ [([], s)]
      else [([], s)]
  | [] => [([], s)]
  end.
(** [p+] (greedy) on a character class.  Used for symbolic.py 561-571. *)
Definition rx_plus (p : ascii -> bool) : rx str :=
  rx_bind (rx_cls p) (fun c => rx_bind (rx_star p) (fun s => rx_ret (c :: s))).
(** [p*?] and [p+?] (lazy) on a character class.
    Used for symbolic.py 561-571. *)
Fixpoint rx_star_lazy (p : ascii -> bool) (s : str) : list (str * str) :=
  ([], s) ::
  match s with
  | c :: s' => if p c then map (fun q => (c :: fst q, snd q)) (rx_star_lazy p s') else []
  | [] => []
  end.
Definition rx_plus_lazy (p : ascii -> bool) : rx str :=
  rx_bind (rx_cls p) (fun c => rx_bind (rx_star_lazy p) (fun s => rx_ret (c :: s))).
(** Look-ahead assertions.  Used for symbolic.py 561-571. *)
Definition rx_look (p : str -> bool) : rx unit :=
  fun s => if p s then [(tt, s)] else [].

(** [pattern.match] and [pattern.fullmatch].  Used for symbolic.py 256. *)
Inductive mode : Type := Match | FullMatch.
Definition rx_run {A} (m : mode) (r : rx A) (s : str) : option (A * str) :=
  match m with
  | Match => hd_error (r s)
  | FullMatch => find (fun p => match snd p with [] => true | _ => false end) (r s)
  end.

Definition is_chr (c : ascii) : ascii -> bool := Ascii.eqb c.
Definition is_sign (c : ascii) : bool := is_chr "+" c || is_chr "-" c.
Definition is_expchar (c : ascii) : bool := is_chr "e" c || is_chr "E" c.

(** The pieces of a match of the [rational] pattern.
    Used for symbolic.py 561-571. *)
Inductive rtail : Type :=
| RDen (d : str)
| RDec (frac : option str) (ex : option (option ascii * str)).
Record rat : Type := mkRat { r_sign : option ascii; r_num : str; r_tail : rtail }.

(** symbolic.py 561-571 (and 241-251), the pattern [rational]. *)
Definition rx_tail : rx rtail :=
  rx_alt
    (rx_bind (rx_cls (is_chr "/")) (fun _ =>
     rx_bind (rx_plus_lazy is_digit) (fun d => rx_ret (RDen d))))
    (rx_bind (rx_opt (rx_bind (rx_cls (is_chr ".")) (fun _ => rx_star is_digit)))
       (fun f =>
     rx_bind (rx_opt (rx_bind (rx_cls is_expchar) (fun _ =>
                      rx_bind (rx_opt (rx_cls is_sign)) (fun sg =>
                      rx_bind (rx_plus is_digit) (fun d => rx_ret (sg, d))))))
       (fun x => rx_ret (RDec f x)))).
Definition starts_number (s : str) : bool :=
  match s with
  | c :: s' =>
      is_digit c
      || is_chr "." c && match s' with d :: _ => is_digit d | [] => false end
  | [] => false
  end.
Definition rx_rational : rx rat :=
  rx_bind (rx_opt (rx_cls is_sign)) (fun sg =>
  rx_bind (rx_look starts_number) (fun _ =>
  rx_bind (rx_star is_digit) (fun n =>
  rx_bind rx_tail (fun t => rx_ret (mkRat sg n t))))).

Definition is_minus (o : option ascii) : bool :=
  match o with Some c => is_chr "-" c | None => false end.

(** [Fraction(text)] for a text matched by [rational].  Simplification: the
    text is not matched again with the (equivalent) pattern of the fractions
    module; the value is computed from the pieces already found.
    Used for symbolic.py 1004-1034. *)
Definition rat_value (r : rat) : res Qc :=
  let n := digits_val (r_num r) in
  let signed q := if is_minus (r_sign r) then (- q)%Qc else q in
  match r_tail r with
  | RDen d =>
      let dv := digits_val d in
      if (dv =? 0)%N then Err ZeroDivisionError
      else Ok (signed (Qc_of_N n / Qc_of_N dv)%Qc)
  | RDec f x =>
      let fs := match f with Some fs => fs | None => [] end in
      let p := Qc_of_N (10 ^ N.of_nat (length fs)) in
      let m := (Qc_of_N n + Qc_of_N (digits_val fs) / p)%Qc in
      let sc := match x with
                | None => 1%Qc
                | Some (sg, d) =>
                    let t := Qc_of_N (10 ^ digits_val d) in
                    if is_minus sg then (/ t)%Qc else t
                end in
      Ok (signed (m * sc)%Qc)
  end.

(** symbolic.py 572-575, the pattern [base]. *)
Definition is_base_chr (c : ascii) : bool :=
  let n := code c in
  ((97 <=? n) && (n <=? 122) || (65 <=? n) && (n <=? 90))%N
  || is_chr "#" c || is_chr "_" c.
Definition rx_base : rx str :=
  rx_bind (rx_plus is_base_chr) (fun l =>
  rx_bind (rx_star is_digit) (fun d => rx_ret (l ++ d))).

(** symbolic.py 583, the exponent pattern. *)
Definition rx_exponent : rx rat :=
  rx_bind (rx_cls (is_chr "^")) (fun _ => rx_rational).

(** symbolic.py 585-595, the patterns 'constant' and 'variable'. *)
Definition rx_constant : rx (rat * option rat) :=
  rx_bind rx_rational (fun c =>
  rx_bind (rx_opt rx_exponent) (fun e => rx_ret (c, e))).
Definition rx_variable : rx (option rat * str * option rat) :=
  rx_bind (rx_opt rx_rational) (fun c =>
  rx_bind rx_base (fun b =>
  rx_bind (rx_opt rx_exponent) (fun e => rx_ret (c, b, e)))).

(** symbolic.py 256 and 319-324, [Term._validate_base]. *)
Definition valid_base (b : str) : bool :=
  match rx_run FullMatch (rx_alt (rx_bind rx_rational (fun _ => rx_ret tt))
                                 (rx_bind rx_base (fun _ => rx_ret tt))) b with
  | Some _ => true
  | None => false
  end.

(** symbolic.py 289-317, [Term(coefficient, base, exponent)]. *)
Definition term_new (c : Qc) (b : str) (e : Qc) : res term :=
  if valid_base b then Ok (init c b e) else Err ValueError.

(** * The operand factory *)

(** A parsed operand: a [Term] or a general [Operand] that needs further
    parsing (symbolic.py 125-226). *)
Inductive operand : Type :=
| Simple (t : term)
| Group (t : term).

(** symbolic.py 1004-1034: the standard value of an optional numeric text. *)
Definition std (r : option rat) : res Qc :=
  match r with None => Ok 1%Qc | Some r => rat_value r end.

(** symbolic.py 880-886, [_build_variable]. *)
Definition build_variable (m : option rat * str * option rat) : res term :=
  let '(c, b, e) := m in
  do cv <- std c; do ev <- std e; Ok (init cv b ev).

(** symbolic.py 888-895, [_build_constant]: note the conversion to float. *)
Definition build_constant (F : flops) (m : rat * option rat) : res term :=
  let '(c, e) := m in
  do cv <- rat_value c; do ev <- std e;
  do v <- frac_pow F cv ev;
  Ok (init (fl F v) [] 1).

Definition with_rest {A} (m : res A) (rest : str) : res (option (A * str)) :=
  do a <- m; Ok (Some (a, rest)).

(** symbolic.py 835-863, [_match_simplex] (with [start=0]).  The matched texts
    are prefixes of one string, so they are equal when the rests have the
    same length. *)
Definition match_simplex (F : flops) (md : mode) (s : str) : res (option (term * str)) :=
  match rx_run md rx_variable s, rx_run md rx_constant s with
  | None, None => Ok None
  | Some (v, rv), Some (c, rc) =>
      if Nat.eqb (length rv) (length rc) then with_rest (build_constant F c) rc
      else with_rest (build_variable v) rv
  | Some (v, rv), None => with_rest (build_variable v) rv
  | None, Some (c, rc) => with_rest (build_constant F c) rc
  end.

(** symbolic.py 926-1002, [find_bounds]: the loop at 993-1002; [i] is the loop
    index, [st] is [Some i0] once initialised. *)
Fixpoint bounds_go (s : str) (i : nat) (st : option nat) (count : Z) : option (nat * nat) :=
  match s with
  | [] => None
  | c :: s' =>
      let '(st', count') :=
        if is_chr "(" c then
          (match st with None => Some i | Some _ => st end, count + 1)%Z
        else if is_chr ")" c then (st, count - 1)%Z
        else (st, count) in
      match st' with
      | Some i0 =>
          if (count' =? 0)%Z then Some (i0, S i) else bounds_go s' (S i) st' count'
      | None => bounds_go s' (S i) st' count'
      end
  end.
Definition find_bounds (s : str) : option (nat * nat) := bounds_go s O None 0%Z.

(** [target[a:b]] for [0 <= a], [b].  Used for symbolic.py 897-924. *)
Definition substr (a b : nat) (s : str) : str := firstn (b - a) (skipn a s).

(** symbolic.py 897-924, [_match_complex] (with [start=0]); the second
    component is [target[end:]]. *)
Definition match_complex (F : flops) (md : mode) (s : str) : res (option (term * str)) :=
  match find_bounds s with
  | None => Ok None
  | Some (i0, e) =>
      let b := substr (i0 + 1) (e - 1) s in
      do m <- match_simplex F FullMatch (firstn i0 s);
      let '(c, i1) := match m with
                      | Some (t, _) => (coef t, O)
                      | None => (1%Qc, i0)
                      end in
      if match md with Match => negb (Nat.eqb i1 O) | FullMatch => false end
      then Ok None
      else
        let '(x, rest) := match rx_run Match rx_exponent (skipn e s) with
                          | Some (r, rest) => (Some r, rest)
                          | None => (None, skipn e s)
                          end in
        if match md with
           | FullMatch =>
               negb (Nat.eqb i1 O) || match rest with [] => false | _ => true end
           | Match => false
           end
        then Ok None
        else do ev <- std x; Ok (Some (init c b ev, rest))
  end.

(** symbolic.py 808-833, [search]. *)
Definition search (F : flops) (md : mode) (s : str) : res (option (operand * str)) :=
  do m <- match_simplex F md s;
  match m with
  | Some (t, r) => Ok (Some (Simple t, r))
  | None =>
      do g <- match_complex F md s;
      match g with
      | Some (t, r) => Ok (Some (Group t, r))
      | None => Ok None
      end
  end.

(** symbolic.py 789-806, [OperandFactory.parse]. *)
Definition operand_parse (F : flops) (s : str) : res (option (operand * str)) :=
  search F Match (strip s).

(** symbolic.py 701-787, [OperandFactory.create] of a coefficient, a base
    string and an exponent (the normalised arguments, 619-699); [strict] is
    false.  The fuel bounds the recursion at 768. *)
Fixpoint create (F : flops) (fuel : nat) (c0 : Qc) (b0 : str) (e0 : Qc) : res operand :=
  match fuel with
  | O => Err OutOfFuel
  | S f =>
      let b0 := match b0 with [] => lit "1" | _ => b0 end in
      let is_raise o := match o with Some c => is_chr "^" c | None => false end in
      if is_raise (hd_error b0) || is_raise (hd_error (rev b0))
      then Err OperandValueError
      else
        do m <- search F FullMatch b0;
        match m with
        | None => Ok (Group (init c0 b0 e0))
        | Some (o, _) =>
            let t := match o with Simple t => t | Group t => t end in
            do p <- frac_pow F (coef t) e0;
            let c := (c0 * p)%Qc in
            let e := (expo t * e0)%Qc in
            match o with
            | Simple _ => Ok (Simple (init c (base t) e))
            | Group _ =>
                do i <- create F f 1 (base t) 1;
                match i with
                | Simple u =>
                    do q <- frac_pow F (coef u) e;
                    Ok (Simple (init (c * q)%Qc (base u) (e * expo u)%Qc))
                | Group _ => Ok (Group (init c (base t) e))
                end
            end
        end
  end.
(** [create(string)]: one string argument (symbolic.py 637-658). *)
Definition create_str (F : flops) (s : str) : res operand :=
  create F (S (length s)) 1 s 1.

(** symbolic.py 405-411, [Term == string]. *)
Definition term_eq_str (F : flops) (t : term) (s : str) : res bool :=
  do o <- create_str F s;
  Ok (term_eqb F t (match o with Simple u => u | Group u => u end)).

(** * The operator factory *)
(** Used for symbolic.py 548-555. *)

Inductive operator : Type := Multiply | Divide | Sqrt.

Definition not_starting (c : ascii) (s : str) : bool :=
  match s with d :: _ => negb (is_chr c d) | [] => true end.

Fixpoint rx_text (t : str) : rx unit :=
  match t with
  | [] => rx_ret tt
  | c :: t' => rx_bind (rx_cls (is_chr c)) (fun _ => rx_text t')
  end.

(** symbolic.py 530-545: the operator patterns with the default tokens.  The
    look-behind assertions always succeed at the start of the string, which
    is where [match] is applied. *)
Definition rx_multiply : rx unit :=
  rx_bind (rx_star is_space) (fun _ => rx_bind (rx_cls (is_chr "*")) (fun _ =>
  rx_bind (rx_star is_space) (fun _ => rx_look (not_starting "/")))).
Definition rx_divide : rx unit :=
  rx_bind (rx_star is_space) (fun _ => rx_bind (rx_cls (is_chr "/")) (fun _ =>
  rx_bind (rx_star is_space) (fun _ => rx_look (not_starting "*")))).
Definition rx_sqrt : rx unit :=
  rx_bind (rx_star is_space) (fun _ => rx_bind (rx_text (lit "sqrt")) (fun _ =>
  rx_bind (rx_star is_space) (fun _ => rx_ret tt))).

(** symbolic.py 548-555, [OperatorFactory.parse]. *)
Definition operator_parse (s : str) : option (operator * str) :=
  match rx_run Match rx_multiply s with
  | Some (_, r) => Some (Multiply, r)
  | None =>
      match rx_run Match rx_divide s with
      | Some (_, r) => Some (Divide, r)
      | None =>
          match rx_run Match rx_sqrt s with
          | Some (_, r) => Some (Sqrt, r)
          | None => None
          end
      end
  end.

(** * The parser *)

(** symbolic.py 1251-1276, [_operator_error]; [strict] is
    [operator_order != 'ignore']. *)
Definition operator_error (strict : bool) (cur prev : option operator) : option exn :=
  if strict then
    match prev, cur with
    | Some Divide, Some Divide => Some RatioError
    | Some Divide, Some Multiply => Some ProductError
    | _, _ => None
    end
  else None.

Definition lift_pow (f : term -> res term) (o : operand) : res operand :=
  match o with
  | Simple t => do u <- f t; Ok (Simple u)
  | Group t => do u <- f t; Ok (Group u)
  end.

(** symbolic.py 1278-1286, [_evaluate]. *)
Definition evaluate (F : flops) (op : option operator) (o : operand) : res operand :=
  match op with
  | None | Some Multiply => Ok o
  | Some Divide => lift_pow (fun t => term_pow F t (- (1))%Qc) o
  | Some Sqrt => lift_pow (fun t => term_fpow F t (Q2Qc (1#2))) o
  end.

(** symbolic.py 1195-1249, [_parse_operand] with [_get_operator],
    [_get_operand] and [_compute_operand]: [e] is the exponent of the initial
    operand, [s] the current string, [prev] the previous operator. *)
Fixpoint parse_loop (F : flops) (strict : bool) (e : Qc) (fuel : nat)
  (s : str) (prev : option operator) : res (list operand) :=
  match s with
  | [] => Ok []
  | _ =>
      match fuel with
      | O => Err OutOfFuel
      | S f =>
          let '(op, s1) := match operator_parse s with
                           | Some (o, r) => (Some o, r)
                           | None => (None, s)
                           end in
          match operator_error strict op prev with
          | Some x => Err x
          | None =>
              do m <- operand_parse F s1;
              match m with
              | None => Err ParsingValueError
              | Some (o, rest) =>
                  do o1 <- lift_pow (fun t => term_pow F t e) o;
                  do o2 <- evaluate F op o1;
                  do more <- parse_loop F strict e f rest op;
                  Ok (o2 :: more)
              end
          end
      end
  end.

(** symbolic.py 1187-1193 and 1288-1294, [_resolve_operations] and
    [_update_terms]. *)
Fixpoint resolve (F : flops) (strict : bool) (fuel : nat) (cur : term) : res (list term) :=
  match fuel with
  | O => Err OutOfFuel
  | S f =>
      do ops <- parse_loop F strict (expo cur) (S (length (base cur))) (base cur) None;
      do tss <- mapM (fun o => match o with
                               | Simple t => Ok [t]
                               | Group g => resolve F strict f g
                               end) ops;
      Ok (concat tss ++ [init (coef cur) [] 1])
  end.

(** symbolic.py 1182-1185, [Parser.parse]. *)
Definition parse (F : flops) (strict : bool) (s : str) : res (list term) :=
  let cur := init 1 s 1 in
  resolve F strict (S (length (base cur))) cur.

(** * Reduction *)

(** symbolic.py 1685-1695: the dictionary [reduced], in insertion order. *)
Definition rdict : Type := list (str * (Qc * Qc)).
Fixpoint rdict_add (t : term) (d : rdict) : rdict :=
  match d with
  | [] => [(base t, (coef t, expo t))]
  | (k, (c, e)) :: d' =>
      if str_eqb (base t) k then (k, ((c * coef t)%Qc, (e + expo t)%Qc)) :: d'
      else (k, (c, e)) :: rdict_add t d'
  end.

Definition by_base (s t : term) : bool := str_leb (base s) (base t).
Definition by_expo_reverse (s t : term) : bool := Qc_leb (expo t) (expo s).

(** symbolic.py 1669-1717, [reduce] of the concatenated groups.  The bases of
    new terms are bases of existing terms, so [Term._validate_base] cannot
    fail at 1701 and 1712 and is not modelled there.  [functools.reduce] of
    an empty list raises TypeError. *)
Definition reduce (terms : list term) : res (list term) :=
  let d := fold_left (fun d t => rdict_add t d) terms [] in
  let fracs := map (fun kv => fst (snd kv)) d in
  let tmp := map (fun kv => init 1 (fst kv) (snd (snd kv)))
               (filter (fun kv => negb (str_eqb (fst kv) (lit "1"))
                                  && negb (Qc_eqb (snd (snd kv)) 0)) d) in
  let variables := sort_by by_expo_reverse (sort_by by_base tmp) in
  match fracs with
  | [] => Err TypeError
  | x :: xs =>
      let c := fold_left Qcmult xs x in
      let constant := [init c [] 1] in
      match variables with
      | [] => Ok constant
      | _ => if Qc_eqb c 1 then Ok variables else Ok (constant ++ variables)
      end
  end.

(** * Expressions *)

(** An [Expression] is its list of terms (symbolic.py 1438-1442). *)
Definition expression : Type := list term.

(** symbolic.py 1301-1332, [standard] of a list of terms with the joiner used
    by [Expression.__init__]. *)
Definition standard_terms (F : flops) (ts : list term) : str :=
  match ts with
  | [] => lit "1"
  | _ => join (lit " * ") (map (fun t => lit "(" ++ format_term F t ++ lit ")") ts)
  end.
(** symbolic.py 1301-1332, [standard] of a string. *)
Definition standard_str (s : str) : str := match s with [] => lit "1" | _ => s end.

(** symbolic.py 1438-1442, [Expression(string, operator_order=...)] and
    [Expression(terms)]. *)
Definition expression_of_str (F : flops) (strict : bool) (s : str) : res expression :=
  do ts <- parse F strict (standard_str s); reduce ts.
Definition expression_of_terms (F : flops) (ts : list term) : res expression :=
  do us <- parse F false (standard_terms F ts); reduce us.

(** symbolic.py 1471-1474, [Expression.format] with the default separator. *)
Definition expr_format (F : flops) (x : expression) : str :=
  join (lit " ") (map (format_term F) x).

(** symbolic.py 1456-1465, [Expression.__getitem__] with an integer. *)
Definition expr_getitem (x : expression) (i : Z) : res term :=
  let n := Z.of_nat (length x) in
  if (i >? n)%Z then Err IndexError
  else py_index x (if (i <? 0)%Z then (i + n)%Z else i).

(** symbolic.py 1565: the sort key (base, exponent, coefficient). *)
Definition by_key (s t : term) : bool :=
  if str_eqb (base s) (base t) then
    if Qc_eqb (expo s) (expo t) then Qc_leb (coef s) (coef t)
    else Qc_leb (expo s) (expo t)
  else str_leb (base s) (base t).

Fixpoint all2 {A} (f : A -> A -> bool) (l m : list A) : bool :=
  match l, m with
  | [], [] => true
  | x :: l', y :: m' => f x y && all2 f l' m'
  | _, _ => false
  end.

(** symbolic.py 1547-1566, [Expression.__eq__]. *)
Definition expr_eqb (F : flops) (x y : expression) : bool :=
  Nat.eqb (length x) (length y)
  && all2 (term_eqb F) (sort_by by_key x) (sort_by by_key y).

(** symbolic.py 1543-1545 and 413-418, [Expression.__hash__]: a function of
    the tuple of attribute triples.  [H] is Python's hash of such a tuple. *)
Definition expr_hash {V} (H : list (Qc * str * Qc) -> V) (x : expression) : V :=
  H (map (fun t => (coef t, base t, expo t)) x).

(** symbolic.py 1568-1580, [Expression.__mul__]. *)
Definition expr_mul (F : flops) (x y : expression) : res expression :=
  do r <- reduce (x ++ y); expression_of_terms F r.

(** symbolic.py 1586-1598, [Expression.__truediv__]. *)
Definition expr_div (F : flops) (x y : expression) : res expression :=
  do inv <- mapM (fun t => term_pow F t (- (1))%Qc) y;
  do r <- reduce (x ++ inv); expression_of_terms F r.

(** symbolic.py 1604-1615, [Expression.__pow__]; [p] is [float(exp)].  The
    NotImplemented result for a zero power makes Python raise TypeError. *)
Definition expr_pow (F : flops) (x : expression) (p : Qc) : res expression :=
  if Qc_eqb p 0 then Err TypeError
  else do ts <- mapM (fun t => term_fpow F t p) x;
       do r <- reduce ts; expression_of_terms F r.

(** symbolic.py 1533-1541, [Expression.difference] (one-sided): Python sets
    compare by hash and equality; modelled by attribute equality. *)
Definition term_same (s t : term) : bool :=
  Qc_eqb (coef s) (coef t) && str_eqb (base s) (base t) && Qc_eqb (expo s) (expo t).
Definition expr_difference (x y : expression) : list term :=
  filter (fun t => negb (existsb (term_same t) y)) x.

(** symbolic.py 1641-1657, [composition] of a string. *)
Definition composition_str (s : str) : bool :=
  existsb (is_chr "/") s || existsb (is_chr "*") s.

(** * A concrete [float]: binary64 rounding to nearest, ties to even, with an
      unbounded exponent range (correct by C336; used by the refutations and
      by the theorems about the package's own tables).
    Used for symbolic.py 194-300. *)
Definition round_half_even (n d : Z) : Z :=
  let q := (n / d)%Z in
  let r := (n mod d)%Z in
  if (2 * r <? d)%Z then q
  else if (d <? 2 * r)%Z then (q + 1)%Z
  else if Z.even q then q else (q + 1)%Z.
Definition scaled (n d e : Z) : Z * Z :=
  if (0 <=? e)%Z then (n, d * 2 ^ e)%Z else (n * 2 ^ (- e), d)%Z.
Definition round64_pos (n d : Z) : Q :=
  let e0 := (Z.log2 n - Z.log2 d - 52)%Z in
  let '(n0, d0) := scaled n d e0 in
  let e := if (n0 / d0 <? 2 ^ 52)%Z then (e0 - 1)%Z else e0 in
  let '(n1, d1) := scaled n d e in
  (inject_Z (round_half_even n1 d1) * Qpower (2#1) e)%Q.
Definition round64 (q : Qc) : Qc :=
  match Qc_num q with
  | Z0 => 0%Qc
  | Zpos p => Q2Qc (round64_pos (Zpos p) (Zpos (Qc_den q)))
  | Zneg p => (- Q2Qc (round64_pos (Zpos p) (Zpos (Qc_den q))))%Qc
  end.
(** Powers are only used with integral exponents in the refutations.
    Used for symbolic.py 194-300. *)
Definition F64 : flops :=
  mkFlops round64
    (fun a b => if Qc_is_int b
                then Some (round64 (Qc_zpow (round64 a) (Qc_num b)))
                else if Qc_eqb a 1 then Some 1%Qc else None).
