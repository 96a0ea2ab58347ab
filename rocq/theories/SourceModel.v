(** Model of the reading of parameters from C source files
    (eprem/runtime.py 66-150 and 228-463). *)

From Coq Require Import String Ascii List Bool ZArith Lia.
From Verif Require Import Py PyDict.
From Verif Require RuntimeModel FilesModel.
Import ListNotations.
Open Scope list_scope.
Open Scope nat_scope.
Open Scope py_scope.

(** * Patterns *)

(** The regular expressions are modelled by deterministic readers: each
    repetition is followed by a character that cannot be part of it.  Only
    ASCII characters are modelled. *)

(** The longest beginning with characters of a class, and the rest.
    Used for runtime.py 69-94. *)
Fixpoint span (p : ascii -> bool) (s : str) : str * str :=
  match s with
  | c :: s' => if p c then let (a, b) := span p s' in (c :: a, b) else ([], s)
  | [] => ([], [])
  end.
Fixpoint eat (t s : str) : option str :=
  match t, s with
  | [], _ => Some s
  | x :: t', y :: s' => if Ascii.eqb x y then eat t' s' else None
  | _, [] => None
  end.
Definition obind {A B} (x : option A) (f : A -> option B) : option B := match x with Some a => f a | None => None end.
Definition is_upper (c : ascii) : bool := let n := nat_of_ascii c in Nat.leb 65 n && Nat.leb n 90.
Definition is_lower (c : ascii) : bool := let n := nat_of_ascii c in Nat.leb 97 n && Nat.leb n 122.
(** The classes [\w], [[A-Z_]] and [[-+\.\*\/\d\w\s\(\)]].
    Used for runtime.py 69-94. *)
Definition word_char (c : ascii) : bool := is_upper c || is_lower c || is_digit c || Ascii.eqb c "_".
Definition name_char (c : ascii) : bool := is_upper c || Ascii.eqb c "_".
Definition value_char (c : ascii) : bool :=
  word_char c || is_space c || existsb (Ascii.eqb c) ["-"; "+"; "."; "*"; "/"; "("; ")"]%char.

Definition some_span (p : ascii -> bool) (s : str) : option (str * str) :=
  let (a, b) := span p s in match a with [] => None | _ => Some (a, b) end.
Definition skip_space (s : str) : str := snd (span is_space s).
(** [s] without [t] at its end.  Used for runtime.py 402-446. *)
Definition eat_end (t s : str) : option str := option_map (@rev ascii) (eat (rev t) (rev s)).

(** ** Constants: runtime.py 69-94, [BaseTypeDef.match] *)
Definition define_match (line : str) : option (str * str) :=
  obind (eat (lit "#define") (strip line)) (fun s1 =>
  obind (some_span is_space s1) (fun '(_, s2) =>
  obind (some_span name_char s2) (fun '(n, s3) =>
  obind (some_span is_space s3) (fun '(_, v) =>
  match v with [] => None | _ => if forallb value_char v then Some (n, v) else None end)))).
(** runtime.py 95-97 and 176-178, [BaseTypesH.load_from_source]. *)
Definition load_constants (lines : list str) : res (list (str * str)) :=
  FilesModel.extract str_eqb define_match (fun m => Ok m) lines.

(** ** Function calls: runtime.py 239-273, [FunctionCall.match] *)
Inductive mode : Type := ReadInt | ReadDouble | ReadDoubleArray | ReadString.
Definition mode_name (m : mode) : str :=
  match m with ReadInt => lit "readInt" | ReadDouble => lit "readDouble" | ReadDoubleArray => lit "readDoubleArray" | ReadString => lit "readString" end.
(** The alternatives in order, each followed by a bracket.
    Used for runtime.py 402-446. *)
Fixpoint read_mode (l : list mode) (s : str) : option (mode * str) :=
  match l with
  | [] => None
  | m :: l' => match obind (eat (mode_name m) s) (eat (lit "(")) with
               | Some r => Some (m, r)
               | None => read_mode l' s
               end
  end.
Record call : Type := mkCall { c_name : str; c_mode : mode; c_alias : str; c_args : str }.
Definition call_match (line : str) : option call :=
  obind (eat (lit "config.") (skip_space (strip line))) (fun s1 =>
  obind (some_span word_char s1) (fun '(n, s2) =>
  obind (eat (lit "=") (skip_space s2)) (fun s3 =>
  let s4 := skip_space s3 in
  let s5 := match eat (lit "(char*)") s4 with Some s => s | None => s4 end in
  obind (read_mode [ReadInt; ReadDouble; ReadDoubleArray; ReadString] s5) (fun '(m, s6) =>
  obind (eat [""""%char] s6) (fun s7 =>
  let (a, s8) := span word_char s7 in
  obind (eat [""""%char] s8) (fun s9 =>
  obind (eat (lit ",") (skip_space s9)) (fun s10 =>
  obind (eat_end (lit ");") s10) (fun args =>
  if RuntimeModel.has_char RuntimeModel.newline args then None else Some (mkCall n m a args))))))))).

(** The attributes of a parameter: texts, the names of functions and, later,
    classes of values.  Used for runtime.py 402-446. *)
Inductive class_ : Type := CInt | CFloat | CStr | CList.
Inductive value : Type := VText (s : str) | VMode (m : mode) | VClass (c : class_).
Notation attrs := (list (str * value)).
(** runtime.py 287-292, [_keys]. *)
Definition mode_keys (m : mode) : list str :=
  match m with
  | ReadInt | ReadDouble => [lit "default"; lit "minimum"; lit "maximum"]
  | ReadString => [lit "default"]
  | ReadDoubleArray => [lit "size"; lit "default"]
  end.
Definition strip_arg (s : str) : str := RuntimeModel.strip_of (fun c => Ascii.eqb c " " || Ascii.eqb c """") s.
(** runtime.py 274-285 and 294-297, [parse] and [_normalize]. *)
Definition call_parse (c : call) : str * attrs :=
  let first := if str_eqb (c_alias c) (c_name c) then [] else [(lit "alias", VText (c_alias c))] in
  let pairs := combine (mode_keys (c_mode c)) (map (fun a => VText (strip_arg a)) (RuntimeModel.split_on ","%char (c_args c))) in
  (c_name c, d_update str_eqb (d_update str_eqb first [(lit "mode", VMode (c_mode c))]) pairs).

(** ** Arrays: runtime.py 309-344, [VariableDefinition] *)
(** The pattern [\d*(?:\.\d+)?].  Used for runtime.py 402-446. *)
Definition number_text (v : str) : bool :=
  let (_, r) := span is_digit v in
  match r with
  | [] => true
  | c :: r' => Ascii.eqb c "." && match r' with [] => false | _ => forallb is_digit r' end
  end.
Definition array_match (line : str) : option (str * (str * str)) :=
  obind (eat (lit "Scalar_t") (skip_space (strip line))) (fun s1 =>
  obind (some_span word_char (skip_space s1)) (fun '(n, s2) =>
  obind (eat (lit "[") s2) (fun s3 =>
  obind (some_span is_digit s3) (fun '(size, s4) =>
  obind (eat (lit "]") s4) (fun s5 =>
  obind (eat (lit "=") (skip_space s5)) (fun s6 =>
  obind (eat (lit "{") (skip_space s6)) (fun s7 =>
  obind (eat_end (lit "};") s7) (fun v =>
  if number_text v then Some (n, (size, v)) else None)))))))).
(** [parse]: the single value in brackets.  Used for runtime.py 402-446. *)
Definition array_parse (m : str * (str * str)) : str * str := (fst m, lit "[" ++ snd (snd m) ++ lit "]").

(** ** Parameters: runtime.py 402-446, [ConfigurationC.load_from_source] *)
Definition text_of (a : option value) : res str :=
  match a with Some (VText s) => Ok s | Some (VMode m) => Ok (mode_name m) | Some (VClass _) => Err TypeError | None => Err KeyError end.
Definition load_parameters (lines : list str) : res (list (str * attrs)) :=
  do assignments <- FilesModel.extract str_eqb call_match (fun c => Ok (call_parse c)) lines;
  do arrays <- FilesModel.extract str_eqb array_match (fun m => Ok (array_parse m)) lines;
  do subs <- mapM (fun p : str * attrs =>
      do d <- text_of (d_get str_eqb (snd p) (lit "default"));
      Ok (match d_get str_eqb arrays d with
          | Some v => (fst p, match d_get str_eqb (snd p) (lit "mode") with
                              | Some m => [(lit "mode", m); (lit "default", VText v)]
                              | None => [(lit "default", VText v)] end)
          | None => p
          end)) assignments;
  Ok subs.

(** ** Standard definitions: runtime.py 389-401 and 424-463 *)
Definition types : list (mode * class_) := [(ReadInt, CInt); (ReadDouble, CFloat); (ReadString, CStr); (ReadDoubleArray, CList)].
Section Replace.
Context (conversion : value -> res value).
(** [_replace]; [interior[old]] may raise.
    Models runtime.py 401-402 and 442-455. *)
Definition replace (old new : str) (mapping : list (str * attrs)) : res (list (str * attrs)) :=
  mapM (fun p : str * attrs =>
    match d_get str_eqb (snd p) old with
    | None => Err KeyError
    | Some x => do y <- conversion x;
                Ok (fst p, d_update str_eqb [(new, y)] (filter (fun q => negb (str_eqb (fst q) old)) (snd p)))
    end) mapping.
End Replace.
Definition mode_eqb (a b : mode) : bool :=
  match a, b with ReadInt, ReadInt | ReadDouble, ReadDouble | ReadDoubleArray, ReadDoubleArray | ReadString, ReadString => true | _, _ => false end.
Definition class_eqb (a b : class_) : bool :=
  match a, b with CInt, CInt | CFloat, CFloat | CStr, CStr | CList, CList => true | _, _ => false end.
Definition to_class (v : value) : res value :=
  match v with
  | VMode m => match find (fun p => mode_eqb (fst p) m) types with Some p => Ok (VClass (snd p)) | None => Err KeyError end
  | _ => Err KeyError
  end.
Definition to_mode (v : value) : res value :=
  match v with
  | VClass c => match find (fun p => class_eqb (snd p) c) types with Some p => Ok (VMode (fst p)) | None => Err KeyError end
  | _ => Err KeyError
  end.
Definition standardize := replace to_class (lit "mode") (lit "type").
(** [format('json')].  Models runtime.py 159-161 and 425-430. *)
Definition format_json := replace to_mode (lit "type") (lit "mode").

(** ** The file that is read: runtime.py 104-150 *)
Section Files.
Context (exists_ is_dir : str -> bool) (resolve : str -> str) (join : str -> str -> str).
(** [build_path]: [ReadOnlyPath(None)] raises TypeError, which is caught.
    Models runtime.py 128-141. *)
Definition build_path (filename : str) (source : option str) : res (option str) :=
  match source with
  | None => Ok None
  | Some p => do path <- FilesModel.read_only_path exists_ resolve p;
              Ok (Some (if is_dir (snd path) then join (snd path) filename else snd path))
  end.
(** [__init__]: the file with definitions, or [None] for the package's own.
    Models runtime.py 103-117. *)
Definition source_file (filename : str) (source : option str) : res (option str) :=
  do path <- build_path filename source;
  Ok (match path with Some p => if exists_ p then Some p else None | None => None end).
End Files.
