(** Model of the runtime parameters of a simulation (eprem/runtime.py) and of
    the text handling they rely on (core/iotools.py 169-174,
    core/numerical.py 130-166, core/iterables.py 198-206).

    Simplifications: text is in 8-bit characters with lines ended by "\n";
    numbers are exact rationals in place of ints and floats; the numerals of
    [int] and [float] are plain decimals (no underscores, infinities, NaN or
    complex numbers); comment signs are single characters, as documented. *)

From Coq Require Import String Ascii List Bool ZArith QArith Qcanon Lia.
From Verif Require Import Py PyDict SymbolicModel.
Import ListNotations.
Open Scope list_scope.
Open Scope nat_scope.

(** * Text *)

(** Python's [str.split(c)] for a single character.
    Used for iotools.py 169-174. *)
Fixpoint split_on (c : ascii) (s : str) : list str :=
  match s with
  | [] => [[]]
  | x :: s' =>
      if Ascii.eqb x c then [] :: split_on c s'
      else match split_on c s' with [] => [[x]] | p :: ps => (x :: p) :: ps end
  end.
Definition newline : ascii := ascii_of_nat 10.
Definition has_char (c : ascii) (s : str) : bool := existsb (Ascii.eqb c) s.
(** Python's [p in s] for strings.  Used for eprem/runtime.py 188-225. *)
Fixpoint starts (p s : str) : bool :=
  match p, s with
  | [], _ => true
  | x :: p', y :: s' => Ascii.eqb x y && starts p' s'
  | _, [] => false
  end.
Fixpoint substring_of (p s : str) : bool :=
  starts p s || match s with [] => false | _ :: s' => substring_of p s' end.

(** iotools.py 169-174, [strip_inline_comments]. *)
Definition strip_inline_comments (s : str) (comments : list ascii) : str :=
  strip (fold_left (fun s c => hd [] (split_on c s)) comments s).

(** eprem/runtime.py 557-574, [ConfigFile._parse]: the lines in turn.
    Unpacking anything but two parts raises ValueError. *)
Fixpoint parse_lines (comments : list ascii) (lines : list str) (pairs : list (str * str)) : res (list (str * str)) :=
  match lines with
  | [] => Ok pairs
  | [] :: rest => parse_lines comments rest pairs
  | (c :: l) :: rest =>
      if existsb (Ascii.eqb c) comments then parse_lines comments rest pairs
      else match split_on "="%char (c :: l) with
           | [key; tmp] => parse_lines comments rest (d_set str_eqb pairs key (strip_inline_comments tmp comments))
           | _ => Err ValueError
           end
  end.
(** eprem/runtime.py 512-516, for the contents of the file and a list of
    comment signs (if empty, the default). *)
Definition config_file (comments : list ascii) (contents : str) : res (list (str * str)) :=
  parse_lines (match comments with [] => ["#"%char] | _ => comments end) (split_on newline contents) [].

(** eprem/runtime.py 518-538, [diff] and [compare].  [dict(set(items))] is the
    mapping itself.  Simplification: keys sorted with [str_leb]. *)
Definition diff_keys (a b : list (str * str)) : list str :=
  filter (fun k => negb (d_has str_eqb b k)) (map fst a).
Definition compare (a b : list (str * str)) : list (str * (option str * option str)) :=
  map (fun k => (k, (d_get str_eqb a k, d_get str_eqb b k)))
    (sort_by str_leb (map fst a ++ diff_keys b a)).

(** * Numerals *)
(** Used for numerical.py 130-166. *)

Fixpoint take_digits (s : str) : str * str :=
  match s with
  | c :: s' => if is_digit c then let (d, r) := take_digits s' in (c :: d, r) else ([], s)
  | [] => ([], [])
  end.
Definition take_sign (s : str) : bool * str :=
  match s with
  | c :: s' => if Ascii.eqb c "-" then (true, s') else if Ascii.eqb c "+" then (false, s') else (false, s)
  | [] => (false, [])
  end.
Definition signed (negative : bool) (q : Qc) : Qc := if negative then (- q)%Qc else q.
(** [int(s)]; [None] for ValueError.  Used for numerical.py 130-166. *)
Definition read_int (s : str) : option Qc :=
  let (neg, r) := take_sign (strip s) in
  match take_digits r with
  | (d0 :: d, []) => Some (signed neg (Qc_of_N (digits_val (d0 :: d))))
  | _ => None
  end.
(** The exponent of a numeral.  Used for numerical.py 130-166. *)
Definition read_exponent (s : str) : option Z :=
  match s with
  | [] => Some 0%Z
  | c :: s' =>
      if is_expchar c then
        let (neg, r) := take_sign s' in
        match take_digits r with
        | (d0 :: d, []) => let n := Z.of_N (digits_val (d0 :: d)) in Some (if neg then (- n)%Z else n)
        | _ => None
        end
      else None
  end.
(** [float(s)]; [None] for ValueError.  Used for numerical.py 130-166. *)
Definition read_float (s : str) : option Qc :=
  let (neg, r) := take_sign (strip s) in
  let (whole, r1) := take_digits r in
  let (frac, r2) := match r1 with
                    | c :: r' => if Ascii.eqb c "." then take_digits r' else ([], r1)
                    | [] => ([], [])
                    end in
  match whole ++ frac with
  | [] => None
  | ds => match read_exponent r2 with
          | Some e => Some (signed neg (Qc_of_N (digits_val ds) * Qc_zpow (Qc_of_Z 10) (e - Z.of_nat (length frac)))%Qc)
          | None => None
          end
  end.
(** numerical.py 130-166, [cast(s, strict=False)] of a string. *)
Definition cast (s : str) : option Qc :=
  match read_int s with Some q => Some q | None => read_float s end.

(** * Values of parameters *)
(** Used for eprem/runtime.py 755-763. *)

Inductive rvalue : Type := RReal (q : Qc) | RStr (s : str) | RList (l : list Qc) | RNone.
Inductive rtype : Type := TInt | TFloat | TStr | TList.

(** [s.strip(chars)].  Used for iterables.py 198-206. *)
Fixpoint lstrip_of (p : ascii -> bool) (s : str) : str :=
  match s with c :: s' => if p c then lstrip_of p s' else s | [] => [] end.
Definition strip_of (p : ascii -> bool) (s : str) : str := rev (lstrip_of p (rev (lstrip_of p s))).
(** iterables.py 198-206, [string_to_list]; [None] for an exception. *)
Fixpoint cast_all (l : list str) : option (list Qc) :=
  match l with
  | [] => Some []
  | s :: l' => match cast s, cast_all l' with Some q, Some qs => Some (q :: qs) | _, _ => None end
  end.
Definition string_to_list (s : str) : option (list Qc) :=
  match s, rev s with
  | a :: _, z :: _ =>
      if Ascii.eqb a "[" && Ascii.eqb z "]" then
        match strip_of (fun c => Ascii.eqb c "[" || Ascii.eqb c "]") s with
        | [] => Some []
        | inside => cast_all (map (strip_of (fun c => Ascii.eqb c " " || Ascii.eqb c "'")) (split_on ","%char inside))
        end
      else None
  | _, _ => None
  end.
(** eprem/runtime.py 755-763, [_convert], and 347-383, [soft_convert]. *)
Definition convert (arg : str) (t : rtype) : rvalue :=
  match t with
  | TStr => RStr arg
  | TInt => match read_int arg with Some q => RReal q | None => RStr arg end
  | TFloat => match read_float arg with Some q => RReal q | None => RStr arg end
  | TList => match string_to_list arg with Some l => RList l | None => RStr arg end
  end.
(** [isinstance(definition, type)] for the result of [_convert].
    Used for eprem/runtime.py 734-753. *)
Definition is_instance (v : rvalue) (t : rtype) : bool :=
  match v, t with
  | RReal _, (TInt | TFloat) | RStr _, TStr | RList _, TList => true
  | _, _ => false
  end.

Open Scope py_scope.
Section Evaluation.
(** Floating-point powers with fractional exponents (SymbolicModel.v). *)
Context (F : flops).

(** * Constants of baseTypes.h *)

(** eprem/runtime.py 188-225: [__getitem__], [_compute] and [_evaluate] of
    [BaseTypesH].  A name without a known type makes [isinstance] raise
    TypeError.  The result of [term(value)] is a term, so that [init] turns a
    zero into one (symbolic.py 170-181).  The fuel bounds the depth of
    references; deeper recursion is RuntimeError (RecursionError).
    Simplification: the cache of values is left out. *)
Fixpoint compute_constant (defs : list (str * str)) (types : list (str * rtype)) (fuel : nat) (key : str) : res Qc :=
  match fuel with
  | 0 => Err RuntimeError
  | S fuel' =>
      match d_get str_eqb defs key with
      | None => Err KeyError
      | Some target =>
          match d_get str_eqb types key with
          | None => Err TypeError
          | Some t =>
              if existsb (fun p => substring_of p target) [lit "*"; lit "/"; lit "sqrt"] then
                do x <- expression_of_str F false target;
                (fix factors (l : list term) (acc : Qc) : res Qc :=
                   match l with
                   | [] => Ok acc
                   | u :: l' =>
                       if d_has str_eqb defs (base u) then
                         do v <- compute_constant defs types fuel' (base u);
                         do w <- term_call F u v;
                         do n <- term_number w;
                         factors l' (acc * n)%Qc
                       else if str_eqb (base u) (lit "1") then
                         do n <- term_number u;
                         factors l' (acc * n)%Qc
                       else factors l' acc
                   end) x 1%Qc
              else match (match t with TInt => read_int target | _ => read_float target end) with
                   | Some q => Ok q
                   | None => Err ValueError
                   end
          end
      end
  end%py.

(** * Parameters *)

(** The data of a run: the user's pairs, the parameters of configuration.c
    with their types and defaults, and the constants.
    Used for eprem/runtime.py 734-753. *)
Record run : Type := mkRun
  { r_user : list (str * str);
    r_reference : list (str * (rtype * str));
    r_constants : list (str * str);
    r_types : list (str * rtype) }.

(** eprem/runtime.py 734-753, [_get_argument]: the definition and whether it
    has the right type.  [self.user.get(key) or default]: an empty value
    gives the default. *)
Definition definition_of (r : run) (key : str) (p : rtype * str) : rvalue :=
  convert (match d_get str_eqb (r_user r) key with
           | Some (c :: s) => c :: s
           | _ => snd p
           end) (fst p).
Definition get_argument (r : run) (fuel : nat) (name : str) : res (option (rvalue * bool)) :=
  match d_get str_eqb (r_reference r) name with
  | Some p => let v := definition_of r name p in Ok (Some (v, is_instance v (fst p)))
  | None =>
      match compute_constant (r_constants r) (r_types r) fuel name with
      | Ok q => Ok (Some (RReal q, true))
      | Err KeyError => Ok None
      | Err e => Err e
      end
  end.

(** eprem/runtime.py 700, [_struct_member]: "config." and then letters,
    digits and underscores. *)
Definition is_word (c : ascii) : bool :=
  is_digit c || (let n := code c in ((65 <=? n)%N && (n <=? 90)%N) || ((97 <=? n)%N && (n <=? 122)%N)) || Ascii.eqb c "_".
Definition member (s : str) : option str :=
  if starts (lit "config.") s then
    let rest := skipn 7 s in if forallb is_word rest then Some rest else None
  else None.
Definition number (v : rvalue) : res Qc := match v with RReal q => Ok q | _ => Err TypeError end.

(** eprem/runtime.py 682-732: [_evaluate], [_resolve] and [_compute_sum]; and
    899-949, the same.  A non-empty list or [None] that is not of the right
    type makes [int] raise TypeError.  In a sum only the first two parts
    count; a single operator always gives two.  The fuel bounds the depth of
    the evaluation. *)
Fixpoint evaluate (r : run) (fuel : nat) (current : rvalue) : res rvalue :=
  match fuel with
  | 0 => Err RuntimeError
  | S fuel' =>
      match current with
      | RReal q => Ok (RReal q)
      | RList _ | RNone => Err TypeError
      | RStr s =>
          match cast s with
          | Some q => if Qc_eqb q 0 then evaluate_name r fuel' s else Ok (RReal q)
          | None => evaluate_name r fuel' s
          end
      end
  end
with evaluate_name (r : run) (fuel : nat) (s : str) : res rvalue :=
  match fuel with
  | 0 => Err RuntimeError
  | S fuel' =>
      if str_eqb s (lit "N_PROCS") then Ok RNone
      else if str_eqb s (lit "third") then Ok (RReal (Q2Qc (1 # 3)))
      else
        do a <- get_argument r fuel' s;
        match a with
        | Some (v, true) => Ok v
        | Some (v, false) => evaluate r fuel' v
        | None => resolve_definition r fuel' s
        end
  end%py
with resolve_definition (r : run) (fuel : nat) (s : str) : res rvalue :=
  match fuel with
  | 0 => Err RuntimeError
  | S fuel' =>
      match member s with
      | Some name => evaluate r fuel' (RStr name)
      | None =>
          let product :=
            (if has_char "*" s || has_char "/" s then
               do x <- expression_of_str F false s;
               do l <- mapM (fun t =>
                         do v <- evaluate r fuel' (RStr (base t));
                         do q <- number v;
                         do p <- frac_pow F q (expo t);
                         Ok (coef t * p)%Qc) x;
               match l with
               | [] => Err TypeError
               | q :: qs => Ok (RReal (fold_left Qcmult qs q))
               end
             else Err TypeError)%py in
          let sum op c :=
            (do l <- mapM (fun p => evaluate r fuel' (RStr (strip p))) (split_on c s);
             match l with
             | a :: b :: _ => do x <- number a; do y <- number b; Ok (op x y)
             | _ => Err IndexError
             end)%py in
          if has_char "+" s then
            do q <- sum Qcplus "+"%char; if Qc_eqb q 0 then product else Ok (RReal q)
          else if has_char "-" s then
            do q <- sum Qcminus "-"%char; if Qc_eqb q 0 then product else Ok (RReal q)
          else product
      end
  end%py.

(** eprem/runtime.py 623-627, [Runtime.__getitem__]. *)
Definition runtime_getitem (r : run) (fuel : nat) (name : str) : res rvalue :=
  if d_has str_eqb (r_reference r) name then evaluate r fuel (RStr name) else Err KeyError.

(** eprem/runtime.py 825-860, [Interface]: the values of all parameters, from
    a [Runtime] that is not given the comment signs (847-849), and the pairs
    of the user's file, which is read again with them (857).  Simplifications:
    without the local parameters, the aliases and the units. *)
Record interface : Type := mkInterface { i_values : list (str * rvalue); i_user : list (str * str) }.
Definition open_interface (fuel : nat) (signs : list ascii) (contents : str) (reference : list (str * (rtype * str)))
    (constants : list (str * str)) (types : list (str * rtype)) : res interface :=
  do user <- config_file [] contents;
  do values <- mapM (fun k => do v <- runtime_getitem (mkRun user reference constants types) fuel k; Ok (k, v)) (map fst reference);
  do again <- config_file signs contents;
  Ok (mkInterface values again).
Definition interface_getitem (i : interface) (name : str) : res rvalue :=
  match d_get str_eqb (i_values i) name with Some v => Ok v | None => Err KeyError end.
End Evaluation.
