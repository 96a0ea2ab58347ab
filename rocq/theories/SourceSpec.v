(** Vocabulary of the properties of C source files: lines as they are
    written. *)

From Coq Require Import String Ascii List Bool.
From Verif Require Import Py PyDict RuntimeSpec SourceModel.
From Verif Require RuntimeModel.
Import ListNotations.
Open Scope list_scope.

Definition all_chars (p : ascii -> bool) (s : str) : Prop := Forall (fun c => p c = true) s.
Definition some_chars (p : ascii -> bool) (s : str) : Prop := s <> [] /\ all_chars p s.
(** The characters of the names of constants and of values. *)
Definition name_letter : ascii -> bool := is_among (lit "ABCDEFGHIJKLMNOPQRSTUVWXYZ_").
Definition value_letter (c : ascii) : bool := word_letter c || is_space c || is_among (lit "-+.*/()") c.
(** Blanks, at least one. *)
Definition gap (s : str) : Prop := s <> [] /\ blanks s.

(** [#define NAME value]. *)
Definition define_text (b0 b1 name b2 value b3 : str) : str :=
  b0 ++ lit "#define" ++ b1 ++ name ++ b2 ++ value ++ b3.

(** An argument of a function with spaces and quotation marks around it. *)
Record written_arg : Type := mkArg { before_arg : str; arg_text : str; after_arg : str }.
Definition quoting (s : str) : Prop := Forall (fun c => c = " "%char \/ c = """"%char) s.
Definition arg_ok (x : written_arg) : Prop :=
  quoting (before_arg x) /\ quoting (after_arg x)
  /\ without ","%char (arg_text x) /\ without RuntimeModel.newline (arg_text x)
  /\ match arg_text x with [] => True | c :: _ => c <> " "%char /\ c <> """"%char end
  /\ match rev (arg_text x) with [] => True | c :: _ => c <> " "%char /\ c <> """"%char end.
Definition arg_full (x : written_arg) : str := before_arg x ++ arg_text x ++ after_arg x.
(** The names of the functions that read parameters. *)
Definition function_name (m : mode) : str :=
  match m with
  | ReadInt => lit "readInt" | ReadDouble => lit "readDouble"
  | ReadDoubleArray => lit "readDoubleArray" | ReadString => lit "readString"
  end.
(** A call that reads a parameter, possibly with a cast to a string. *)
Definition call_text (b0 name b1 b2 : str) (cast : bool) (m : mode) (alias b3 : str) (args : list written_arg) (b4 : str) : str :=
  b0 ++ lit "config." ++ name ++ b1 ++ lit "=" ++ b2 ++ (if cast then lit "(char*)" else []) ++ function_name m ++ lit "("
  ++ [""""%char] ++ alias ++ [""""%char] ++ b3 ++ lit "," ++ join (lit ",") (map arg_full args) ++ lit ");" ++ b4.

(** [Scalar_t name[size] = {value};]. *)
Definition array_text (b0 b1 name size b2 b3 value b4 : str) : str :=
  b0 ++ lit "Scalar_t" ++ b1 ++ name ++ lit "[" ++ size ++ lit "]" ++ b2 ++ lit "=" ++ b3 ++ lit "{" ++ value ++ lit "};" ++ b4.
(** A numeral without a sign or an exponent. *)
Definition numeral (whole : str) (fraction : option str) : str :=
  whole ++ match fraction with Some f => "."%char :: f | None => [] end.

(** The last of the lines that are read under a name gives [x]. *)
Definition last_read {M X} (match_line : str -> option M) (parse : M -> str * X) (lines : list str) (name : str) (x : X) : Prop :=
  exists l1 l l2 m, lines = l1 ++ l :: l2 /\ match_line l = Some m /\ parse m = (name, x)
    /\ forall l' m', In l' l2 -> match_line l' = Some m' -> fst (parse m') <> name.
Definition never_read {M X} (match_line : str -> option M) (parse : M -> str * X) (lines : list str) (name : str) : Prop :=
  forall l m, In l lines -> match_line l = Some m -> fst (parse m) <> name.
(** The type of value that each function reads. *)
Definition class_of (m : mode) : class_ := match m with ReadInt => CInt | ReadDouble => CFloat | ReadString => CStr | ReadDoubleArray => CList end.
(** What the arguments of each function are, in their order. *)
Definition argument_names (m : mode) : list str :=
  match m with
  | ReadInt => [lit "default"; lit "minimum"; lit "maximum"]
  | ReadDouble => [lit "default"; lit "minimum"; lit "maximum"]
  | ReadDoubleArray => [lit "size"; lit "default"]
  | ReadString => [lit "default"]
  end.
