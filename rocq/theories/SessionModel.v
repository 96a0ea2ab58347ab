(** Model of the objects that keep the parameters of a run in caches:
    src/goats/eprem/runtime.py 154-162 ([SourceFile.get] and [format]), 165-196
    and 432-436 ([BaseTypesH] and [ConfigurationC]), 540-555 ([ConfigFile]) and
    581-675 and 733-752 ([Runtime]).

    What the files contain and what a parameter evaluates to are parameters of
    the model (they are modelled in RuntimeModel.v): this file is about when
    files are read and which of the values read before are used again. *)

From Coq Require Import String Ascii List Bool ZArith.
From Verif Require Import Py PyDict.
Import ListNotations.
Open Scope list_scope.
Open Scope nat_scope.
Open Scope py_scope.

(** * Runtime *)

Section Runtime.
(** Contents of [ConfigFile], [BaseTypesH] and [ConfigurationC]; the dictionary
    [_current]; values of parameters. *)
Context {C B R K V : Type}.
(** The file system at one time: what the constructors of the three classes
    give for a path ([None] reads the definitions of the package).
    Used for runtime.py 653-658. *)
Record files : Type := mkFiles {
  read_config : str -> res C;
  read_constants : option str -> res B;
  read_reference : option str -> res R }.
(** [{}] in place of a user's file. *)
Variable no_config : C.
(** The names in the reference; the dictionary of all current definitions
    (runtime.py 735-742). *)
Variable names : R -> list str.
Variable build : C -> R -> res K.

(** What [_evaluate] does with a name: at each point it may ask for the
    reference, for the current definitions or for the constants, and continue
    with what it gets, or end with a value or an exception.
    Used for runtime.py 735-742. *)
Inductive prog : Type :=
| Done (r : res V)
| AskReference (k : R -> prog)
| AskCurrent (k : K -> prog)
| AskConstants (k : B -> prog).
Variable evaluate : str -> prog.

(** The attributes [_paths], [_user], [_basetypes], [_reference], [_collection]
    and [_current] (runtime.py 610-621). *)
Record runtime : Type := mkRuntime {
  t_paths : list (str * option str);
  t_user : option C; t_constants : option B; t_reference : option R;
  t_keys : list str; t_current : option K }.

Definition source_of (o : runtime) : option str :=
  match d_get str_eqb (t_paths o) (lit "source") with Some p => p | None => None end.
Definition config_of (o : runtime) : option str :=
  match d_get str_eqb (t_paths o) (lit "config") with Some p => p | None => None end.

(** runtime.py 653-658, [basetypes]. *)
Definition get_constants (f : files) (o : runtime) : res B * runtime :=
  match t_constants o with
  | Some b => (Ok b, o)
  | None => match read_constants f (source_of o) with
            | Ok b => (Ok b, mkRuntime (t_paths o) (t_user o) (Some b) (t_reference o) (t_keys o) (t_current o))
            | Err e => (Err e, o)
            end
  end.
(** runtime.py 660-668, [user]. *)
Definition get_user (f : files) (o : runtime) : res C * runtime :=
  match t_user o with
  | Some c => (Ok c, o)
  | None =>
      let r := match config_of o with
               | Some (x :: p) => read_config f (x :: p)
               | _ => Ok no_config
               end in
      match r with
      | Ok c => (Ok c, mkRuntime (t_paths o) (Some c) (t_constants o) (t_reference o) (t_keys o) (t_current o))
      | Err e => (Err e, o)
      end
  end.
(** runtime.py 670-675, [reference]. *)
Definition get_reference (f : files) (o : runtime) : res R * runtime :=
  match t_reference o with
  | Some r => (Ok r, o)
  | None => match read_reference f (source_of o) with
            | Ok r => (Ok r, mkRuntime (t_paths o) (t_user o) (t_constants o) (Some r) (t_keys o) (t_current o))
            | Err e => (Err e, o)
            end
  end.
(** runtime.py 735-742: [_current]; the user's file is read for the first
    name. *)
Definition get_current (f : files) (o : runtime) : res K * runtime :=
  match t_current o with
  | Some k => (Ok k, o)
  | None =>
      match get_reference f o with
      | (Err e, o1) => (Err e, o1)
      | (Ok r, o1) =>
          match (match names r with [] => (Ok no_config, o1) | _ => get_user f o1 end) with
          | (Err e, o2) => (Err e, o2)
          | (Ok c, o2) =>
              match build c r with
              | Ok k => (Ok k, mkRuntime (t_paths o2) (t_user o2) (t_constants o2) (t_reference o2) (t_keys o2) (Some k))
              | Err e => (Err e, o2)
              end
          end
      end
  end.

Fixpoint run (f : files) (p : prog) (o : runtime) : res V * runtime :=
  match p with
  | Done r => (r, o)
  | AskReference k => match get_reference f o with (Ok r, o') => run f (k r) o' | (Err e, o') => (Err e, o') end
  | AskCurrent k => match get_current f o with (Ok c, o') => run f (k c) o' | (Err e, o') => (Err e, o') end
  | AskConstants k => match get_constants f o with (Ok b, o') => run f (k b) o' | (Err e, o') => (Err e, o') end
  end.

(** runtime.py 588-621, [Runtime(source_path, config_path)]. *)
Definition new_runtime (f : files) (source config : option str) : res runtime :=
  let o := mkRuntime [(lit "source", source); (lit "config", config)] None None None [] None in
  match get_reference f o with
  | (Ok r, o') => Ok (mkRuntime (t_paths o') (t_user o') (t_constants o') (t_reference o') (names r) (t_current o'))
  | (Err e, _) => Err e
  end.

(** runtime.py 623-627, [runtime[name]]. *)
Definition getitem (f : files) (o : runtime) (name : str) : res V * runtime :=
  match get_reference f o with
  | (Ok r, o') => if existsb (str_eqb name) (names r) then run f (evaluate name) o' else (Err KeyError, o')
  | (Err e, o') => (Err e, o')
  end.

(** runtime.py 629-651, [path_to] with names, or with new paths. *)
Definition paths_of (o : runtime) (asked : list str) : res (list (option str)) :=
  match asked with
  | [] => Err TypeError
  | _ => mapM (fun n => match d_get str_eqb (t_paths o) n with Some p => Ok p | None => Err KeyError end) asked
  end.
Definition set_paths (o : runtime) (new : list (str * option str)) : res runtime :=
  match new with
  | [] => Err TypeError
  | _ =>
      let given n := existsb (str_eqb n) (map fst new) in
      Ok (mkRuntime (d_update str_eqb (t_paths o) new)
            (if given (lit "config") then None else t_user o)
            (if given (lit "source") then None else t_constants o)
            (if given (lit "source") then None else t_reference o)
            (t_keys o) None)
  end.

(** What a program may do; [len], [iter] and the views use the names read at
    the creation (iterables.py 552-570). *)
Inductive raction : Type :=
| RGet (name : str)
| RUser | RConstants
| RKeys
| RPaths (asked : list str)
| RSet (new : list (str * option str)).
Inductive rview : Type :=
| SeeValue (r : res V) | SeeUser (r : res C) | SeeConstants (r : res B) | SeeKeys (l : list str)
| SeePaths (r : res (list (option str))) | SeeSelf (r : res unit).
Definition act (f : files) (o : runtime) (a : raction) : rview * runtime :=
  match a with
  | RGet n => let (r, o') := getitem f o n in (SeeValue r, o')
  | RUser => let (r, o') := get_user f o in (SeeUser r, o')
  | RConstants => let (r, o') := get_constants f o in (SeeConstants r, o')
  | RKeys => (SeeKeys (t_keys o), o)
  | RPaths l => (SeePaths (paths_of o l), o)
  | RSet l => match set_paths o l with
              | Ok o' => (SeeSelf (Ok tt), o')
              | Err e => (SeeSelf (Err e), o)
              end
  end.
(** A history: each action with the files at its time.
    For histories and uses of iterables.py 552-570. *)
Definition later (o : runtime) (h : list (files * raction)) : runtime :=
  fold_left (fun o fa => snd (act (fst fa) o (snd fa))) h o.
End Runtime.

(** * Source files *)

Section Source.
(** Definitions and values. *)
Context {D V : Type}.
(** runtime.py 198-225, the value of a constant. *)
Variable compute : str -> res V.
(** The attributes [definitions] and [_cache].  Used for runtime.py 188-196. *)
Record source : Type := mkSource { o_definitions : list (str * D); o_cache : list (str * V) }.
(** runtime.py 188-196, [BaseTypesH.__getitem__]. *)
Definition constant (o : source) (key : str) : res V * source :=
  match d_get str_eqb (o_cache o) key with
  | Some v => (Ok v, o)
  | None =>
      if d_has str_eqb (o_definitions o) key then
        match compute key with
        | Ok v => (Ok v, mkSource (o_definitions o) (d_set str_eqb (o_cache o) key v))
        | Err e => (Err e, o)
        end
      else (Err KeyError, o)
  end.
(** What [get] returns: a value, a definition or the default.
    Used for runtime.py 180-186. *)
Inductive got : Type := GValue (v : V) | GDefinition (d : D) | GDefault.
(** runtime.py 180-186 with 154-158, [BaseTypesH.get].  The definitions are
    texts: none is an [Expression].  [Mapping.get] catches [KeyError]. *)
Definition constants_get (o : source) (key : str) (format : option str) : res got * source :=
  match format with
  | None | Some [] =>
      match constant o key with
      | (Ok v, o') => (Ok (GValue v), o')
      | (Err KeyError, o') => (Ok GDefault, o')
      | (Err e, o') => (Err e, o')
      end
  | Some m =>
      if str_eqb m (lit "json") then
        (Ok (match d_get str_eqb (o_definitions o) key with Some d => GDefinition d | None => GDefault end), o)
      else (Err NotImplementedError, o)
  end.
(** runtime.py 160-162, [format]: a dictionary over the names, in turn. *)
Fixpoint format_names (o : source) (mode : option str) (l : list str) : res (list (str * got)) * source :=
  match l with
  | [] => (Ok [], o)
  | k :: l' =>
      match constants_get o k mode with
      | (Err e, o1) => (Err e, o1)
      | (Ok g, o1) => match format_names o1 mode l' with
                      | (Ok r, o2) => (Ok ((k, g) :: r), o2)
                      | (Err e, o2) => (Err e, o2)
                      end
      end
  end.
Definition format (o : source) (mode : option str) : res (list (str * got)) * source :=
  format_names o mode (map fst (o_definitions o)).
Inductive saction : Type := SItem (key : str) | SGet (key : str) (format : option str) | SFormat (mode : option str).
Definition sact (o : source) (a : saction) : source :=
  match a with SItem k => snd (constant o k) | SGet k m => snd (constants_get o k m) | SFormat m => snd (format o m) end.
End Source.

(** ** [ConfigurationC] *)

(** The modes of reading and the types (runtime.py 393-400). *)
Inductive mode : Type := ReadInt | ReadDouble | ReadString | ReadDoubleArray.
Inductive ctype : Type := TInt | TFloat | TStr | TList.
Definition type_of_mode (m : mode) : ctype :=
  match m with ReadInt => TInt | ReadDouble => TFloat | ReadString => TStr | ReadDoubleArray => TList end.
Definition mode_of_type (t : ctype) : mode :=
  match t with TInt => ReadInt | TFloat => ReadDouble | TStr => ReadString | TList => ReadDoubleArray end.
(** Interior mappings: the entries 'mode' or 'type', and all others.
    Used for runtime.py 442-455. *)
Record interior (T X : Type) : Type := mkInterior { in_kind : T; in_rest : list (str * X) }.
Arguments mkInterior {T X}. Arguments in_kind {T X}. Arguments in_rest {T X}.
(** runtime.py 442-455, [_replace].  Simplification: the new entry is not among
    the others. *)
Definition replace_kind {S T X : Type} (conversion : S -> T) (m : list (str * interior S X)) : list (str * interior T X) :=
  map (fun kv => (fst kv, mkInterior (conversion (in_kind (snd kv))) (in_rest (snd kv)))) m.
(** runtime.py 401-402, [standardize]; 425-430, [get] with the format
    'json'. *)
Definition standardize {X} (loaded : list (str * interior mode X)) : list (str * interior ctype X) := replace_kind type_of_mode loaded.
Definition reference_json {X} (definitions : list (str * interior ctype X)) (key : str) : option (interior mode X) :=
  d_get str_eqb (replace_kind mode_of_type definitions) key.
