(** Model of further operations of core/symbolic.py: comparing and evaluating
    terms, styles of printing, differences of expressions, operators with text
    on either side, [Expression.apply] and the functions [equality], [product]
    and [ratio]. *)

From Coq Require Import String Ascii List Bool ZArith NArith QArith Qcanon.
From Verif Require Import Py SymbolicModel.
Import ListNotations.
Open Scope list_scope.
Open Scope py_scope.

(** symbolic.py 405-407, [Term == number]: [float(self) == float(other)], with
    389-403. *)
Definition term_eq_number (F : flops) (t : term) (x : Qc) : res bool :=
  do n <- term_number t; Ok (Qc_eqb (fl F n) (fl F x)).

(** symbolic.py 379-387, [Term._format_exponent]; a style counts as TeX if 'tex'
    occurs in it, in small or capital letters. *)
Definition lower (c : ascii) : ascii :=
  let n := N_of_ascii c in if ((65 <=? n) && (n <=? 90))%N then ascii_of_N (n + 32) else c.
Fixpoint occurs (p s : str) : bool :=
  str_eqb p (firstn (length p) s) || match s with [] => false | _ :: s' => occurs p s' end.
Definition styled_expo (t : term) (style : option str) : res str :=
  if str_eqb (base t) (lit "1") || Qc_eqb (expo t) 1 then Ok []
  else match style with
       | None | Some [] => Ok (lit "^" ++ dec_of_Qc (expo t))
       | Some s => if occurs (lit "tex") (map lower s) then Ok (lit "^{" ++ dec_of_Qc (expo t) ++ lit "}")
                   else Err ValueError
       end.
(** symbolic.py 353-359, [Term.format(style)]. *)
Definition styled_term (F : flops) (style : option str) (t : term) : res str :=
  if str_eqb (base t) (lit "1") then Ok (format_coef F t)
  else do e <- styled_expo t style; Ok (format_coef F t ++ base t ++ e).
(** symbolic.py 1471-1474, [Expression.format(separator, style)]. *)
Definition styled_format (F : flops) (sep : str) (style : option str) (x : expression) : res str :=
  do l <- mapM (styled_term F style) x; Ok (join sep l).

(** An operand of an operator or function: an expression, or text to be
    converted to one.  Used for symbolic.py 1533-1541. *)
Inductive source : Type := Text (s : str) | Built (x : expression).
Definition as_expression (F : flops) (a : source) : res expression :=
  match a with Text s => expression_of_str F false s | Built x => Ok x end.

(** symbolic.py 1533-1541, [difference] with its two options: one set, the
    symmetric one, or a list of two. *)
Definition difference (F : flops) (x : expression) (other : source) : res (list term) :=
  do y <- as_expression F other; Ok (expr_difference x y).
Definition difference_symmetric (F : flops) (x : expression) (other : source) : res (list term) :=
  do y <- as_expression F other; Ok (expr_difference x y ++ expr_difference y x).
Definition difference_split (F : flops) (x : expression) (other : source) : res (list term * list term) :=
  do y <- as_expression F other; Ok (expr_difference x y, expr_difference y x).

(** symbolic.py 1561-1566, 1575-1580, 1594-1598: the operators with any operand
    on the right; 1582-1584 and 1600-1602: on the left. *)
Definition eq_any (F : flops) (x : expression) (other : source) : res bool :=
  do y <- as_expression F other; Ok (expr_eqb F x y).
Definition mul_any (F : flops) (x : expression) (other : source) : res expression :=
  do y <- as_expression F other; expr_mul F x y.
Definition div_any (F : flops) (x : expression) (other : source) : res expression :=
  do y <- as_expression F other; expr_div F x y.
Definition rmul_any (F : flops) (other : source) (x : expression) : res expression :=
  do y <- as_expression F other; expr_mul F y x.
Definition rdiv_any (F : flops) (other : source) (x : expression) : res expression :=
  do y <- as_expression F other; expr_div F y x.
(** symbolic.py 1720-1735, [equality], [product] and [ratio]. *)
Definition equality (F : flops) (a b : source) : res bool :=
  do x <- as_expression F a; do y <- as_expression F b; Ok (expr_eqb F x y).
Definition product (F : flops) (a b : source) : res expression :=
  do x <- as_expression F a; do y <- as_expression F b; expr_mul F x y.
Definition ratio (F : flops) (a b : source) : res expression :=
  do x <- as_expression F a; do y <- as_expression F b; expr_div F x y.

(** symbolic.py 1630-1635, [Expression.apply]: the bases are updated first;
    [pw] and [op] are the operators of the updated objects. *)
Definition apply {M : Type} (pw : M -> Qc -> res M) (op : M -> M -> res M) (update : str -> res M) (x : expression) : res M :=
  do bases <- mapM (fun t => update (base t)) x;
  match bases, map expo x with
  | b :: bs, e :: es =>
      do first <- pw b e;
      fold_left (fun r be => do a <- r; do p <- pw (fst be) (snd be); op a p) (combine bs es) (Ok first)
  | _, _ => Err IndexError
  end.
(** [x.apply(symbolic.Expression)]; exponents become floats (1612). *)
Definition apply_expression (F : flops) (x : expression) : res expression :=
  apply (expr_pow F) (expr_mul F) (expression_of_str F false) x.

(** [pattern.sub('', s, count=1)] for a pattern that is one character.
    Used for symbolic.py 1058-1066. *)
Fixpoint remove_first (c : ascii) (s : str) : str :=
  match s with
  | [] => []
  | d :: s' => if Ascii.eqb c d then s' else d :: remove_first c s'
  end.
(** symbolic.py 1058-1066, [OperandFactory.strip_separators], with the default
    separators. *)
Definition strip_separators (s : str) : res str :=
  match s with
  | [] => Err IndexError
  | c :: _ =>
      if Ascii.eqb "(" c && Ascii.eqb ")" (last s c)
      then Ok (rev (remove_first ")" (rev (remove_first "(" s))))
      else Ok s
  end.
