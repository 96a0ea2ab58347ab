(** Specification side of the properties of the package's parameters. *)

From Coq Require Import String Ascii List Bool ZArith QArith Qcanon.
From Verif Require Import Py RuntimeModel RuntimeSpec PackageModel.
Import ListNotations.
Open Scope list_scope.
Open Scope nat_scope.

(** * Numerals *)

(** A decimal numeral: a sign (true for a minus), the digits before and after
    the point, if there is one, and the exponent with its letter and sign. *)
Record decimal : Type := mkDecimal
  { d_sign : option bool;
    d_whole : str;
    d_frac : option str;
    d_exp : option (ascii * option bool * str) }.
Definition sign_text (s : option bool) : str :=
  match s with None => [] | Some true => ["-"%char] | Some false => ["+"%char] end.
Definition decimal_text (x : decimal) : str :=
  sign_text (d_sign x) ++ d_whole x
  ++ match d_frac x with Some f => "."%char :: f | None => [] end
  ++ match d_exp x with Some (c, s, d) => c :: sign_text s ++ d | None => [] end.
Definition a_digit (c : ascii) : Prop := In c (lit "0123456789").
Definition decimal_ok (x : decimal) : Prop :=
  Forall a_digit (d_whole x)
  /\ match d_frac x with Some f => Forall a_digit f /\ (d_whole x <> [] \/ f <> []) | None => d_whole x <> [] end
  /\ match d_exp x with Some (c, _, d) => (c = "e"%char \/ c = "E"%char) /\ Forall a_digit d /\ d <> [] | None => True end.
(** A numeral for a whole number. *)
Definition is_whole (x : decimal) : Prop := d_frac x = None /\ d_exp x = None.

(** The number written with some digits, and a power of ten. *)
Fixpoint digits_number (s : str) : Z :=
  match s with
  | [] => 0
  | c :: s' => (Z.of_nat (nat_of_ascii c - 48) * 10 ^ Z.of_nat (length s') + digits_number s')%Z
  end.
Definition power_of_ten (z : Z) : Qc := if (z <? 0)%Z then (/ Qc_of_Z (10 ^ (- z)))%Qc else Qc_of_Z (10 ^ z).
Definition with_sign (s : option bool) (q : Qc) : Qc := match s with Some true => (- q)%Qc | _ => q end.
(** The number that a numeral denotes. *)
Definition decimal_value (x : decimal) : Qc :=
  with_sign (d_sign x)
    ((Qc_of_Z (digits_number (d_whole x))
      + match d_frac x with Some f => Qc_of_Z (digits_number f) / Qc_of_Z (10 ^ Z.of_nat (length f)) | None => 0 end)
     * power_of_ten (match d_exp x with
                     | Some (_, Some true, d) => - digits_number d
                     | Some (_, _, d) => digits_number d
                     | None => 0 end))%Qc.
(** Characters that may surround a numeral. *)
Definition spaces (s : str) : Prop := Forall (fun c => is_space c = true) s.

(** * Values of parameters *)

(** What a text means as the value of a parameter of a type.  A list has
    numerals between spaces or single quotes, with commas in between. *)
Definition padding (s : str) : Prop := Forall (fun c => c = " "%char \/ c = "'"%char) s.
Fixpoint commas (l : list str) : str :=
  match l with [] => [] | [x] => x | x :: l' => x ++ ","%char :: commas l' end.
Inductive reads : rtype -> str -> rvalue -> Prop :=
| reads_real x : decimal_ok x -> reads TFloat (decimal_text x) (RReal (decimal_value x))
| reads_whole x : decimal_ok x -> is_whole x -> reads TInt (decimal_text x) (RReal (decimal_value x))
| reads_decimal x : decimal_ok x -> ~ is_whole x -> decimal_value x <> 0%Qc -> reads TInt (decimal_text x) (RReal (decimal_value x))
| reads_text s : reads TStr s (RStr s)
| reads_list l : Forall (fun p : str * decimal * str => padding (fst (fst p)) /\ decimal_ok (snd (fst p)) /\ padding (snd p)) l ->
    reads TList (lit "[" ++ commas (map (fun p : str * decimal * str => fst (fst p) ++ decimal_text (snd (fst p)) ++ snd p) l) ++ lit "]")
      (RList (map (fun p => decimal_value (snd (fst p))) l)).

Section Meaning.
(** The text that the user gives for a parameter, unless it is empty. *)
Context (user : str -> option str).
(** What the parameters of the package mean: the user's text or, without one,
    the default, which may be given by other parameters. *)
Inductive means : str -> rvalue -> Prop :=
| means_given n t d s v : In (n, (t, d)) parameters -> user n = Some s -> reads t s v -> means n v
| means_default n t d v : In (n, (t, d)) parameters -> user n = None -> reads t d v -> means n v
| means_other n t m v : In (n, (t, lit "config." ++ m)) parameters -> user n = None -> means m v -> means n v
| means_sum n t a b x y : In (n, (t, lit "config." ++ a ++ lit " + config." ++ b)) parameters -> user n = None ->
    means a (RReal x) -> means b (RReal y) -> (x + y <> 0)%Qc -> means n (RReal (x + y)%Qc)
| means_third n t : In (n, (t, lit "third")) parameters -> user n = None -> means n (RReal (1 / Qc_of_Z 3)%Qc)
| means_processes n t : In (n, (t, lit "N_PROCS")) parameters -> user n = None -> means n RNone
  (* 0.004144 in binary64, over MAS_TIME_NORM, times TAU = AU / C *)
| means_rotation n t : In (n, (t, lit "(0.004144/MAS_TIME_NORM)*TAU")) parameters -> user n = None ->
    means n (RReal (Q2Qc (2388853357545387 # 576460752303423488) / Q2Qc (144587003080685 # 100000000000)
                    * (Qc_of_Z 14959787070000 / Qc_of_Z 29979245800))%Qc).
(** Every text for a parameter can be read. *)
Definition all_read : Prop := forall n t d s, In (n, (t, d)) parameters -> user n = Some s -> exists v, reads t s v.
End Meaning.

(** The text that a file gives for a parameter: the last one, unless it is
    empty. *)
Definition chosen (ls : list line) (n : str) : option str :=
  match find (fun p : str * str => str_eqb (fst p) n) (rev (entries ls)) with
  | Some (_, c :: s) => Some (c :: s)
  | _ => None
  end.

(** * Names *)

(** [a] is a name of the parameter [k]: itself, an alias in the metadata, or a
    name of the same observable quantity. *)
Definition names_parameter (k a : str) : Prop :=
  a = k
  \/ (exists l u, In (k, (Some l, u)) metadata /\ In a l)
  \/ (exists g, In g (map AliasedModel.members reference_keys) /\ In k g /\ In a g).
(** The unit of a parameter. *)
Definition has_unit (k : str) (u : option str) : Prop :=
  (exists l, In (k, (l, u)) metadata) \/ (~ In k (map fst metadata) /\ u = None).

(** * Files *)

(** A run with or without a configuration file. *)
Definition lines_of (file : option (list line)) : list line := match file with Some ls => ls | None => [] end.
(** The stop time is known: the user gives it, or the start time and the step
    do not cancel. *)
Definition stops (user : str -> option str) : Prop :=
  user (lit "simStopTime") = None ->
  forall x y, means user (lit "simStartTime") (RReal x) -> means user (lit "tDel") (RReal y) -> (x + y <> 0)%Qc.
(** Names of the analysis and of the package's parameters. *)
Definition a_parameter (k : str) : Prop := In k (map fst local_values) \/ In k (map fst parameters).
