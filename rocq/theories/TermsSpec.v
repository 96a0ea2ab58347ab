(** Specification vocabulary for further operations on terms and
    expressions. *)

From Coq Require Import String Ascii List Bool ZArith NArith QArith Qcanon.
From Verif Require Import Py SymbolicModel SymbolicSpec TermsModel.
Import ListNotations.
Open Scope list_scope.

(** The expressions a program can have: read from text, or computed from
    others. *)
Inductive reachable (F : flops) : expression -> Prop :=
| r_text s strict x : expression_of_str F strict s = Ok x -> reachable F x
| r_mul x y z : reachable F x -> reachable F y -> expr_mul F x y = Ok z -> reachable F z
| r_div x y z : reachable F x -> reachable F y -> expr_div F x y = Ok z -> reachable F z
| r_pow x p z : reachable F x -> expr_pow F x p = Ok z -> reachable F z.
Definition valid (F : flops) (a : source) : Prop :=
  match a with Text _ => True | Built x => reachable F x end.

(** The text of a term: the coefficient, unless it is a 1 before a base, in
    brackets if it is a fraction before a base; the base; and the exponent,
    unless it is 1, after a caret, in braces or not. *)
Definition coef_text (t : term) : str :=
  if str_eqb (base t) (lit "1") then dec_of_Qc (coef t)
  else if Qc_eqb (coef t) 1 then []
  else if Qc_is_int (coef t) then dec_of_Qc (coef t) else lit "(" ++ dec_of_Qc (coef t) ++ lit ")".
Definition expo_text (open close : str) (t : term) : str :=
  if Qc_eqb (expo t) 1 then [] else open ++ dec_of_Qc (expo t) ++ close.
Definition term_text (open close : str) (t : term) : str :=
  if str_eqb (base t) (lit "1") then coef_text t else coef_text t ++ base t ++ expo_text open close t.

(** The text contains the letters of TeX, each small or capital. *)
Definition mentions_tex (s : str) : Prop :=
  exists before t e x after, s = before ++ t :: e :: x :: after
  /\ (t = "t"%char \/ t = "T"%char) /\ (e = "e"%char \/ e = "E"%char) /\ (x = "x"%char \/ x = "X"%char).
