(** Numbers as users write them in expressions: "25", "-2.5", ".5", "1e3",
    "2.5E-3".  The vocabulary does not use the patterns of the model. *)

From Coq Require Import String Ascii List Bool ZArith NArith QArith Qcanon.
From Verif Require Import Py SymbolicModel SymbolicSpec.
Import ListNotations.
Open Scope list_scope.

(** A numeral: an optional sign, the digits before the point, the point and
    the digits after it, and the power of ten (its letter, sign and digits). *)
Record numeral : Type := mkNumeral {
  n_sign : option ascii;
  n_whole : str;
  n_part : option str;
  n_power : option (ascii * option ascii * str)
}.

Definition opt_text (o : option ascii) : str := match o with Some c => [c] | None => [] end.
Definition part_text (o : option str) : str := match o with Some p => "."%char :: p | None => [] end.
Definition power_text (o : option (ascii * option ascii * str)) : str :=
  match o with Some (c, s, d) => c :: opt_text s ++ d | None => [] end.
Definition numeral_text (n : numeral) : str :=
  opt_text (n_sign n) ++ n_whole n ++ part_text (n_part n) ++ power_text (n_power n).

(** The number a list of digits stands for, and the number a numeral stands
    for: the digits before and after the point, times a power of ten. *)
Definition number (s : str) : Z :=
  fold_left (fun z c => (10 * z + (Z.of_N (N_of_ascii c) - 48))%Z) s 0%Z.
Definition sign_of (o : option ascii) : Z :=
  match o with Some "-"%char => (-1)%Z | _ => 1%Z end.
Definition part_of (n : numeral) : str := match n_part n with Some p => p | None => [] end.
Definition power_of (n : numeral) : Z :=
  match n_power n with Some (_, s, d) => (sign_of s * number d)%Z | None => 0%Z end.
Definition numeral_value (n : numeral) : Qc :=
  Q2Qc (inject_Z (sign_of (n_sign n) * number (n_whole n ++ part_of n))
        * (10 # 1) ^ (power_of n - Z.of_nat (length (part_of n))))%Q.

Definition a_sign (o : option ascii) : Prop :=
  o = None \/ o = Some "+"%char \/ o = Some "-"%char.
Definition legal_numeral (n : numeral) : Prop :=
  a_sign (n_sign n)
  /\ Forall digit (n_whole n) /\ Forall digit (part_of n)
  /\ (n_whole n <> [] \/ part_of n <> [])
  /\ (forall c s d, n_power n = Some (c, s, d) ->
        (c = "e"%char \/ c = "E"%char) /\ a_sign s /\ d <> [] /\ Forall digit d).

(** The power of ten has no sign of its own. *)
Definition unsigned_power (n : numeral) : Prop :=
  forall c s d, n_power n = Some (c, s, d) -> s = None.

(** A factor: a numeral, or a base with an optional numeral written directly
    before it and an optional numeral as exponent. *)
Inductive factor : Type :=
| Numeral (n : numeral)
| Multiple (n : option numeral) (b : str) (p : option numeral).

Definition factor_text (x : factor) : str :=
  match x with
  | Numeral n => numeral_text n
  | Multiple n b p =>
      match n with Some n => numeral_text n | None => [] end
      ++ b ++ match p with Some p => "^"%char :: numeral_text p | None => [] end
  end.

(** The term it stands for; a number alone is rounded to a float. *)
Definition factor_term (F : flops) (x : factor) : term :=
  match x with
  | Numeral n => mkTerm (fl F (numeral_value n)) (lit "1") 1
  | Multiple n b p =>
      mkTerm match n with Some n => numeral_value n | None => 1%Qc end b
             match p with Some p => numeral_value p | None => 1%Qc end
  end.

(** Zeros are excluded (they are read as 1), and so is a coefficient without
    power before a base such as "e5": the text "2e5" is a number. *)
Definition like_power (b : str) : Prop :=
  exists d, (b = "e"%char :: d \/ b = "E"%char :: d) /\ d <> [] /\ Forall digit d.
Definition legal_factor (F : flops) (x : factor) : Prop :=
  match x with
  | Numeral n => legal_numeral n /\ unsigned_power n /\ fl F (numeral_value n) <> 0%Qc
  | Multiple n b p =>
      legal_base b /\ ~ starts_with (lit "sqrt") b
      /\ (forall c, n = Some c ->
            legal_numeral c /\ numeral_value c <> 0%Qc /\ (n_power c = None -> ~ like_power b))
      /\ (forall q, p = Some q -> legal_numeral q /\ numeral_value q <> 0%Qc)
  end.

(** A chain of factors: "x0 op x1 op x2 ...". *)
Definition factors_text (x0 : factor) (l : list (option operator * factor)) : str :=
  factor_text x0 ++ concat (map (fun p => sep (fst p) ++ factor_text (snd p)) l).
Definition factors_terms (F : flops) (x0 : factor) (l : list (option operator * factor)) : list term :=
  factor_term F x0 :: concat (map (fun p => apply_op (fst p) [factor_term F (snd p)]) l).

(** The number before the power of ten, and the power as a number. *)
Definition mantissa (n : numeral) : numeral := mkNumeral (n_sign n) (n_whole n) (n_part n) None.
Definition integer (s : option ascii) (d : str) : numeral := mkNumeral s d None None.
