(** Model of the access to files and datasets (core/iotools.py,
    core/datafile.py). *)

From Coq Require Import String Ascii List Bool ZArith Lia.
From Verif Require Import Py PyDict.
From Verif Require AliasedModel MetricModel ObserverModel.
Import ListNotations.
Open Scope list_scope.
Open Scope nat_scope.
Open Scope py_scope.

(** * Text *)

(** Python's [s.split(c)[0]]: the text before the first occurrence.
    Used for core/iotools.py 169-174. *)
Fixpoint before (c s : str) : str :=
  match s with
  | [] => []
  | x :: s' => if MetricModel.is_prefix c s then [] else x :: before c s'
  end.
(** core/iotools.py 169-174, [strip_inline_comments]; an empty separator
    raises ValueError. *)
Fixpoint cut_all (comments : list str) (s : str) : res str :=
  match comments with
  | [] => Ok s
  | [] :: _ => Err ValueError
  | c :: l => cut_all l (before c s)
  end.
Definition strip_inline_comments (s : str) (comments : list str) : res str :=
  rmap strip (cut_all comments s).

(** core/iotools.py 131-155, [TextFile.extract].  [match_line] gives [None]
    for what is false. *)
Definition extract {M K V} (keq : K -> K -> bool) (match_line : str -> option M) (parse : M -> res (K * V))
  (lines : list str) : res (list (K * V)) :=
  let matches := map match_line lines in
  do parsed <- mapM parse (concat (map (fun m => match m with Some x => [x] | None => [] end) matches));
  Ok (d_of keq parsed).

(** * Paths *)

Section Paths.
(** [exists_], [is_dir]: properties of resolved paths; [resolve]: the full path
    without wildcards; [join d f]: [d / f]. *)
Context (exists_ is_dir : str -> bool) (resolve : str -> str) (join : str -> str -> str).

(** The class of a path object.  Used for core/iotools.py 71-81. *)
Inductive path_class : Type := Posix | ReadOnly.
(** core/iotools.py 71-81, [ReadOnlyPath.__new__]: the object is one of
    [pathlib.PosixPath]. *)
Definition read_only_path (p : str) : res (path_class * str) :=
  let inst := resolve p in
  if exists_ inst then Ok (Posix, inst) else Err NonExistentPathError.
(** core/iotools.py 80-89, [open], [write_bytes] and [write_text]: whether the
    call is allowed; [args] are its positional arguments. *)
Definition open_path (p : path_class * str) (args : list str) : res str :=
  match fst p with
  | Posix => Ok (snd p)
  | ReadOnly => if existsb (str_eqb (lit "w")) args then Err ReadOnlyPathError else Ok (snd p)
  end.
Definition write_text (p : path_class * str) : res str :=
  match fst p with Posix => Ok (snd p) | ReadOnly => Err ReadOnlyPathError end.

(** core/iotools.py 177-199, [search]. *)
Fixpoint search (paths : list str) (file : str) : res (option str) :=
  match paths with
  | [] => Ok None
  | p :: l =>
      do path <- read_only_path p;
      if is_dir (snd path) && exists_ (join (snd path) file) then Ok (Some (join (snd path) file))
      else search l file
  end.
(** core/iotools.py 202-212, [find_file_by_template]. *)
Fixpoint first_existing (d : str) (files : list str) : option str :=
  match files with
  | [] => None
  | f :: l => if exists_ (join d f) then Some (join d f) else first_existing d l
  end.
Definition find_file_by_template (templates : list (str -> str)) (name directory : str) : res (option str) :=
  do d <- read_only_path directory;
  Ok (first_existing (snd d) (map (fun t => t name) templates)).
End Paths.

(** * One object for each path *)

(** An argument: a string or a path object; they are never equal.
    Used for core/iotools.py 12-31. *)
Inductive arg : Type := Text (s : str) | PathObject (s : str).
Definition arg_eqb (a b : arg) : bool :=
  match a, b with
  | Text s, Text t => str_eqb s t
  | PathObject s, PathObject t => str_eqb s t
  | _, _ => false
  end.
(** core/iotools.py 12-31 and core/iterables.py 1218-1248, [PathSet]: the cache
    belongs to the metaclass, so all its classes share it; other forms of
    calls ([None]) have no key.  [create c a] is the constructor of the class
    [c]; an object is its class and a number. *)
Section Instances.
Context {C : Type} (create : C -> arg -> res unit).
Definition cache : Type := list (arg * (C * nat)).
Definition call (s : cache * nat) (c : C) (a : option arg) : res (C * nat) * (cache * nat) :=
  match a with
  | None => (Err TypeError, s)
  | Some a =>
      match d_get arg_eqb (fst s) a with
      | Some o => (Ok o, s)
      | None => match create c a with
                | Err e => (Err e, s)
                | Ok _ => (Ok (c, snd s), (d_set arg_eqb (fst s) a (c, snd s), S (snd s)))
                end
      end
  end.
Fixpoint calls (s : cache * nat) (l : list (C * option arg)) : list (res (C * nat)) :=
  match l with
  | [] => []
  | (c, a) :: l' => let (r, s') := call s c a in r :: calls s' l'
  end.
End Instances.

(** * Viewers *)

Section Viewers.
Context {viewer : Type}.
(** core/datafile.py 199-216: a dataset; [_variables] and [_axes] are created
    by the viewer that was in use then. *)
Record dataset : Type := mkDataset { ds_suffix : str; ds_made : list (str * viewer) }.
(** core/datafile.py 128-143: the class attribute [_viewer_map], which is not
    copied, and all datasets. *)
Record world : Type := mkWorld { w_viewers : list (str * list (str * viewer)); w_datasets : list dataset }.

(** core/datafile.py 209-216 and 150-164, [__init__]: nothing is raised for an
    unknown type. *)
Definition open_dataset (w : world) (suffix : str) : world :=
  mkWorld (w_viewers w) (w_datasets w ++ [mkDataset suffix []]).
(** core/datafile.py 265-268 and 173-175, [use] with one viewer: [_viewers] is
    [None] for an unknown type. *)
Definition use (w : world) (i : nat) (group : str) (v : viewer) : res unit * world :=
  match nth_error (w_datasets w) i with
  | None => (Err IndexError, w)
  | Some d =>
      match d_get str_eqb (w_viewers w) (ds_suffix d) with
      | None => (Err TypeError, w)
      | Some m => (Ok tt, mkWorld (d_set str_eqb (w_viewers w) (ds_suffix d) (d_set str_eqb m group v)) (w_datasets w))
      end
  end.
Fixpoint set_nth {A} (l : list A) (i : nat) (x : A) : list A :=
  match l, i with
  | [], _ => []
  | _ :: l', O => x :: l'
  | y :: l', S i' => y :: set_nth l' i' x
  end.
(** core/datafile.py 218-226, 240-248 and 166-171, [variables] and [axes]: the
    viewer through which the dataset is read. *)
Definition access (w : world) (i : nat) (group : str) : res viewer * world :=
  match nth_error (w_datasets w) i with
  | None => (Err IndexError, w)
  | Some d =>
      match d_get str_eqb (ds_made d) group with
      | Some v => (Ok v, w)
      | None =>
          match d_get str_eqb (w_viewers w) (ds_suffix d) with
          | None => (Err TypeError, w)
          | Some m =>
              match d_get str_eqb m group with
              | None => (Err KeyError, w)
              | Some v => (Ok v, mkWorld (w_viewers w)
                                   (set_nth (w_datasets w) i (mkDataset (ds_suffix d) (d_set str_eqb (ds_made d) group v))))
              end
          end
      end
  end.
End Viewers.
Arguments dataset : clear implicits. Arguments world : clear implicits.

(** * Variables *)

(** core/datafile.py 45-75, [Variable], of an array on disk, which may have the
    attributes [unit], [units] and [dimensions]. *)
Record raw : Type := mkRaw { r_unit : option str; r_units : option str; r_dimensions : option (list str) }.
Record variable : Type := mkVariable { v_unit : option str; v_dimensions : list str; v_name : str }.
(** core/datafile.py 83-102, [NetCDFVariables.__getitem__]. *)
Definition view (name : str) (r : raw) : variable :=
  mkVariable (match r_unit r with Some u => Some u | None => r_units r end)
    (match r_dimensions r with Some d => d | None => [] end) name.

Section Variables.
Context (mkset : list str -> list str) (members : list (str * raw)).
(** core/reference.py 147, [ALIASES]. *)
Definition alias_groups : AliasedModel.groups :=
  AliasedModel.groups_init mkset (map (fun g => AliasedModel.Many g) ObserverModel.reference).
(** core/datafile.py 218-226, [variables]. *)
Definition variables : AliasedModel.amap variable :=
  AliasedModel.mapping_with_groups mkset (map (fun p => (fst p, view (fst p) (snd p))) members) alias_groups.
(** core/datafile.py 228-238, [units]; groups are the keys. *)
Definition units : res (AliasedModel.amap (option str)) :=
  do l <- AliasedModel.aliased_items variables;
  Ok (AliasedModel.mapping mkset (map (fun p => (AliasedModel.Many (fst p), v_unit (snd p)))
        (AliasedModel.dict_of l))).
(** core/datafile.py 250-263, [available('variables')]. *)
Definition available_full : list str := AliasedModel.flat_keys variables.
Definition available_grouped : list (list str) := map fst (AliasedModel.as_dict variables).
Definition available_canonical : list str := map fst members.
End Variables.
