(** Python prelude: the fragments of the Python language and of its builtins
    that the models of the goats modules share.

    Nothing in this file models a definition of /repo; every definition
    models a Python builtin, which is named in its comment.  *)

From Coq Require Import String Ascii List Bool ZArith NArith QArith Qcanon Qpower Qabs Lia.
Import ListNotations.
Open Scope list_scope.

(** * Exceptions as values *)

(** The exception classes that the modelled code raises.  [OutOfFuel] is not a
    Python exception: it is returned by a fuelled loop of the model that ran
    out of fuel, and every theorem that mentions such a loop excludes it. *)
Inductive exn : Type :=
| TypeError | ValueError | KeyError | IndexError | AttributeError
| ZeroDivisionError | NotImplementedError | RuntimeError
| ParsingValueError | RatioError | ProductError
| OperandTypeError | OperandValueError
| TableKeyError | MissingValueError | AmbiguousValueError
| AmbiguousRequestError | TableLookupError
| InjectiveTypeError | NonInvertibleError
| UnitParsingError | UnitConversionError | SystemAmbiguityError
| QuantityError | SearchError | UnknownUnitError | MetricTypeError
| MetadataError | ScaleMismatch | DimensionMismatch | UnitError
| NTypesError | OperatorTypeError | OperandTypeMismatch | MeasuringTypeError
| UnmeasurableError | MassValueError | AssumptionError | ConfigKeyError
| ConfigError | OutOfFuel | IndexTypeError
| SpellingError | NonExistentPathError | ReadOnlyPathError | ArgsNumberError
| MissingArgsError | NumericCastError | OverflowError | FileNotFoundError | StopIteration.

(** The result of running Python code: a value or a raised exception. *)
Inductive res (A : Type) : Type :=
| Ok (a : A)
| Err (e : exn).
Arguments Ok {A} a.
Arguments Err {A} e.

Definition bind {A B} (m : res A) (f : A -> res B) : res B :=
  match m with Ok a => f a | Err e => Err e end.

Definition rmap {A B} (f : A -> B) (m : res A) : res B :=
  match m with Ok a => Ok (f a) | Err e => Err e end.

Declare Scope py_scope.
Delimit Scope py_scope with py.
Notation "'do' x <- m ; f" := (bind m (fun x => f))
  (at level 200, x pattern, m at level 100, f at level 200) : py_scope.
Open Scope py_scope.

(** A list comprehension whose element expression may raise. *)
Fixpoint mapM {A B} (f : A -> res B) (l : list A) : res (list B) :=
  match l with
  | [] => Ok []
  | x :: l' => do y <- f x; do ys <- mapM f l'; Ok (y :: ys)
  end.

(** * Strings: lists of characters (Latin-1; other code points are not
      modelled). *)

Notation str := (list ascii).
Definition lit (s : string) : str := list_ascii_of_string s.

Definition chr_eqb : ascii -> ascii -> bool := Ascii.eqb.
Definition str_eq_dec : forall a b : str, {a = b} + {a <> b} :=
  list_eq_dec ascii_dec.
Definition str_eqb (a b : str) : bool :=
  if str_eq_dec a b then true else false.

Definition code (c : ascii) : N := N_of_ascii c.

(** [str.isspace], [\s] and [str.strip] on Latin-1 characters. *)
Definition is_space (c : ascii) : bool :=
  let n := code c in
  ((9 <=? n) && (n <=? 13) || (28 <=? n) && (n <=? 32)
   || (n =? 133) || (n =? 160))%N.

(** [\d] restricted to ASCII digits. *)
Definition is_digit (c : ascii) : bool :=
  let n := code c in ((48 <=? n) && (n <=? 57))%N.

Definition digit_val (c : ascii) : N := (code c - 48)%N.
Definition digit_chr (n : N) : ascii := ascii_of_N (48 + n).

(** [str.lstrip], [str.rstrip], [str.strip] with no argument. *)
Fixpoint lstrip (s : str) : str :=
  match s with
  | c :: s' => if is_space c then lstrip s' else s
  | [] => []
  end.
Definition rstrip (s : str) : str := rev (lstrip (rev s)).
Definition strip (s : str) : str := rstrip (lstrip s).

(** [sep.join(parts)]. *)
Fixpoint join (sep : str) (parts : list str) : str :=
  match parts with
  | [] => []
  | [p] => p
  | p :: ps => p ++ sep ++ join sep ps
  end.

(** Lexicographic comparison of strings by code point: [a <= b]. *)
Fixpoint str_leb (a b : str) : bool :=
  match a, b with
  | [], _ => true
  | _ :: _, [] => false
  | x :: a', y :: b' =>
      if (code x <? code y)%N then true
      else if (code y <? code x)%N then false
      else str_leb a' b'
  end.

(** * Decimal numerals *)

(** [int(digits)] for a string of digits. *)
Definition digits_val (s : str) : N :=
  fold_left (fun acc c => (10 * acc + digit_val c)%N) s 0%N.

(** [str(n)] for a natural number; the fuel is the bit length of [n]. *)
Fixpoint dec_go (fuel : nat) (n : N) (acc : str) : str :=
  if (n <? 10)%N then digit_chr n :: acc
  else match fuel with
       | O => acc
       | S f => dec_go f (n / 10)%N (digit_chr (n mod 10)%N :: acc)
       end.
Definition dec_of_N (n : N) : str := dec_go (N.size_nat n) n [].

(** [str(z)] for an integer. *)
Definition dec_of_Z (z : Z) : str :=
  match z with
  | Zneg p => "-"%char :: dec_of_N (Npos p)
  | _ => dec_of_N (Z.to_N z)
  end.

(** * Sorting *)

(** [sorted(l, key=...)]: a stable sort.  [le x y] is "the key of x is not
    after the key of y". *)
Fixpoint insert_by {A} (le : A -> A -> bool) (x : A) (l : list A) : list A :=
  match l with
  | [] => [x]
  | y :: l' => if le x y then x :: y :: l' else y :: insert_by le x l'
  end.
Definition sort_by {A} (le : A -> A -> bool) (l : list A) : list A :=
  fold_right (insert_by le) [] l.

(** * [fractions.Fraction]: canonical rationals *)

Definition Qc_num (q : Qc) : Z := Qnum (this q).
Definition Qc_den (q : Qc) : positive := Qden (this q).
Definition Qc_eqb (a b : Qc) : bool := if Qc_eq_dec a b then true else false.
Definition Qc_leb (a b : Qc) : bool := Qle_bool a b.
Definition Qc_ltb (a b : Qc) : bool := negb (Qle_bool b a).
Definition Qc_of_Z (z : Z) : Qc := Q2Qc (inject_Z z).
Definition Qc_of_N (n : N) : Qc := Qc_of_Z (Z.of_N n).
Definition Qc_abs (q : Qc) : Qc := Q2Qc (Qabs q).

(** [Fraction ** int] (the caller excludes 0 ** negative). *)
Definition Qc_zpow (q : Qc) (z : Z) : Qc := Q2Qc (Qpower q z).

(** [int(q)]: truncation towards zero. *)
Definition Qc_trunc (q : Qc) : Z := Z.quot (Qc_num q) (Zpos (Qc_den q)).

Definition Qc_is_int (q : Qc) : bool := (Qc_den q =? 1)%positive.

(** [str(Fraction)]. *)
Definition dec_of_Qc (q : Qc) : str :=
  if Qc_is_int q then dec_of_Z (Qc_num q)
  else dec_of_Z (Qc_num q) ++ ["/"%char] ++ dec_of_N (Npos (Qc_den q)).

Definition sumQc (l : list Qc) : Qc := fold_right Qcplus 0%Qc l.
Definition prodQc (l : list Qc) : Qc := fold_right Qcmult 1%Qc l.

(** * Sequence indexing *)

(** [seq[i]] for a Python list or tuple and an integer [i]. *)
Definition py_index {A} (l : list A) (i : Z) : res A :=
  let n := Z.of_nat (length l) in
  let j := if (i <? 0)%Z then (i + n)%Z else i in
  if ((0 <=? j) && (j <? n))%Z then
    match nth_error l (Z.to_nat j) with
    | Some a => Ok a
    | None => Err IndexError
    end
  else Err IndexError.
