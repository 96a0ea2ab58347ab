(** Model of observers (core/observer.py, eprem/__init__.py 636-746), of the
    table of names (core/reference.py) and of the metadata of observable
    quantities (core/observing.py 406-425). *)

From Coq Require Import String Ascii List Bool ZArith QArith Qcanon.
From Verif Require Import Py PyDict SymbolicModel.
From Verif Require AliasedModel SpellingModel ObservingModel.
Import ListNotations.
Open Scope list_scope.
Open Scope nat_scope.
Open Scope py_scope.

Notation One := AliasedModel.One.
Notation Many := AliasedModel.Many.

(** * Names *)

(** core/reference.py 11-133: the keys of [_BASE]. *)
Definition reference : list (list str) :=
  [[lit "time"; lit "t"; lit "times"];
   [lit "shell"; lit "shells"];
   [lit "mu"; lit "mus"; lit "pitch angle"; lit "pitch-angle"; lit "pitch-angle cosine"; lit "pitch angles"; lit "pitch-angles"; lit "pitch-angle cosines"];
   [lit "mass"; lit "m"];
   [lit "charge"; lit "q"];
   [lit "energy"; lit "egrid"; lit "energies"; lit "E"];
   [lit "speed"; lit "vgrid"; lit "vparticle"];
   [lit "radius"; lit "R"; lit "r"];
   [lit "theta"; lit "T"];
   [lit "phi"; lit "P"];
   [lit "Br"; lit "br"];
   [lit "Bt"; lit "bt"; lit "Btheta"; lit "btheta"];
   [lit "Bp"; lit "bp"; lit "Bphi"; lit "bphi"];
   [lit "Vr"; lit "vr"];
   [lit "Vt"; lit "vt"; lit "Vtheta"; lit "vtheta"];
   [lit "Vp"; lit "vp"; lit "Vphi"; lit "vphi"];
   [lit "rho"; lit "Rho"];
   [lit "dist"; lit "Dist"; lit "f"];
   [lit "flux"; lit "Flux"; lit "J"; lit "J(E)"; lit "j"; lit "j(E)"];
   [lit "x"; lit "X"];
   [lit "y"; lit "Y"];
   [lit "z"; lit "Z"];
   [lit "B"; lit "b_mag"; lit "|B|"; lit "bmag"; lit "b mag"];
   [lit "V"; lit "v_mag"; lit "|V|"; lit "vmag"; lit "v mag"; lit "v"; lit "|v|"];
   [lit "BV"; lit "bv_mag"; lit "bv"; lit "|bv|"; lit "|BV|"];
   [lit "Vpara"; lit "v_para"; lit "vpara"];
   [lit "Vperp"; lit "v_perp"; lit "vperp"];
   [lit "flow_angle"; lit "flow angle"; lit "angle"];
   [lit "div_v"; lit "divV"; lit "divv"; lit "div V"; lit "div v"; lit "div(V)"; lit "div(v)"];
   [lit "density_ratio"; lit "density ratio"; lit "n2/n1"; lit "n_2/n_1"];
   [lit "rigidity"; lit "Rg"; lit "R_g"];
   [lit "mean_free_path"; lit "mean free path"; lit "mfp"];
   [lit "acceleration_rate"; lit "acceleration rate"];
   [lit "energy_density"; lit "energy density"];
   [lit "average_energy"; lit "average energy"];
   [lit "isotropic_distribution"; lit "isotropic distribution"; lit "isodist"];
   [lit "fluence"];
   [lit "integral_flux"; lit "integral flux"]].

Section Names.
Context (mkset : list str -> list str).
(** core/reference.py 135-140, [NAMES]: each group under its first name. *)
Definition name_definitions : list (str * list str) :=
  map (fun g => (hd [] g, g)) reference.
(** [reference.NAMES.get(s, s)].  Used for eprem/__init__.py 395-398. *)
Definition names_get (s : str) : str :=
  match AliasedModel.namemap mkset name_definitions with
  | Ok m => match AliasedModel.nm_get m s with Ok n => n | Err _ => s end
  | Err _ => s
  end.
(** core/reference.py 147 and core/observing.py 379-383:
    [tuple(reference.ALIASES.find(key, [key]))]. *)
Definition aliases_find (s : str) : list str :=
  match AliasedModel.groups_find mkset (AliasedModel.groups_init mkset (map (fun g => Many g) reference)) s with
  | Some g => g
  | None => [s]
  end.
End Names.

(** * Observable names *)

Section Observables.
Context (F : flops) (mkset : list str -> list str).

(** core/observer.py 49-64, [observables]. *)
Definition observables (observable : list (list str)) (unobservable : list str) : AliasedModel.groups :=
  AliasedModel.groups_without mkset (AliasedModel.groups_init mkset (map (fun g => Many g) observable)) unobservable.

(** Python's [all] of a generator: it stops at the first false value.
    Used for core/observer.py 84-91. *)
Fixpoint all_true {A} (f : A -> res bool) (l : list A) : res bool :=
  match l with
  | [] => Ok true
  | x :: l' => do b <- f x; if b then all_true f l' else Ok false
  end.
(** core/observer.py 84-91, [_observes], of a string; deeper recursion than
    [fuel] is RuntimeError (RecursionError). *)
Fixpoint observes (fuel : nat) (known : AliasedModel.groups) (key : str) : res bool :=
  match fuel with
  | O => Err RuntimeError
  | S fuel' =>
      if AliasedModel.groups_contains mkset known key then Ok true
      else if composition_str key then
        do expression <- expression_of_str F false key;
        all_true (fun t => observes fuel' known (base t)) expression
      else Ok false
  end.
(** core/observer.py 75-82, [observes], of several names: the first of them. *)
Definition observes_any (fuel : nat) (known : AliasedModel.groups) (names : list str) : res bool :=
  match names with [] => Ok false | n :: _ => observes fuel known n end.

(** eprem/__init__.py 395-398: the bases and exponents of the expression that
    is evaluated for a name. *)
Definition evaluated (key : str) : res (list (str * Qc)) :=
  do e <- expression_of_str F false (names_get mkset key);
  Ok (map (fun t => (base t, expo t)) e).
End Observables.

(** * Metadata of observable quantities *)

Section Metadata.
(** [get_attribute]: the attribute of a known quantity (an object, or [None]);
    [mul], [pow]: operations of its type; [true]: its truth. *)
Context {A : Type} (F : flops) (mkset : list str -> list str)
        (get_attribute : str -> option A) (mul : A -> A -> res A) (pow : A -> Qc -> res A) (truth : A -> bool).
(** core/observing.py 404-415, [get_metadata]; [None * x] and [None ** n]
    raise TypeError. *)
Definition power_of (t : str * Qc) : res A :=
  match get_attribute (fst t) with Some a => pow a (snd t) | None => Err TypeError end.
Fixpoint product (a : A) (l : list (str * Qc)) : res A :=
  match l with
  | [] => Ok a
  | t :: l' => do b <- power_of t; do c <- mul a b; product c l'
  end.
Definition get_metadata (target : str) : res (option A) :=
  match get_attribute target with
  | Some a => if truth a then Ok (Some a) else
      do e <- evaluated F mkset target;
      match e with
      | [] => Err IndexError
      | (b, _) :: l => match get_attribute b, l with
                       | o, [] => Ok o
                       | Some a, _ => rmap Some (product a l)
                       | None, _ => Err TypeError
                       end
      end
  | None =>
      do e <- evaluated F mkset target;
      match e with
      | [] => Err IndexError
      | (b, _) :: l => match get_attribute b, l with
                       | o, [] => Ok o
                       | Some a, _ => rmap Some (product a l)
                       | None, _ => Err TypeError
                       end
      end
  end.
End Metadata.

(** * Access to quantities *)

Section Access.
Context {V IX SC : Type} (F : flops) (mkset : list str -> list str).
(** As in ObservingModel: [defaults] are the default constraints, [names] the
    names of the quantities in the mappings; [mapped]: a key of a mapping. *)
Context (defaults : list (str * V)) (names : list str) (mapped : str -> bool) (unobservable : list str).

(** core/observer.py 17-46: the observing context and the words of the spell
    checker, if it exists. *)
Record observer : Type := mkObserver
  { o_context : ObservingModel.context V IX SC; o_words : option (list AliasedModel.key) }.
(** What [observer[key]] gives: an observable quantity, the quantity of a
    mapping, the value of a constraint, or None.
    Used for core/observing.py 397-402. *)
Inductive item : Type := Observable (key : str) | Mapped (key : str) | Constraint (v : V) | Nothing.

(** core/observing.py 397-402, [get_quantity]. *)
Definition get_quantity (c : ObservingModel.context V IX SC) (key : str) : item * ObservingModel.context V IX SC :=
  if mapped key then (Mapped key, c)
  else let (d, c') := ObservingModel.constraints defaults c in
       (match d_get str_eqb d key with Some v => Constraint v | None => Nothing end, c').

(** core/spelling.py 37-63, [check], for words that may be tuples: a tuple is
    not equal to any string. *)
Definition is_string (s : str) (w : AliasedModel.key) : bool :=
  match w with AliasedModel.One x => str_eqb s x | AliasedModel.Many _ => false end.
Definition suggestions (words : list AliasedModel.key) (name : str) : list AliasedModel.key :=
  if existsb (is_string name) words then []
  else
    let near l := filter (fun w => existsb (fun e => is_string e w) l) words in
    let e := SpellingModel.edits name in
    match near e with [] => near (flat_map SpellingModel.edits e) | s => s end.
(** core/observer.py 93-100, [_check_spelling]; [available] is a tuple of
    tuples, and [set |= tuple] raises TypeError. *)
Definition check_spelling (o : observer) (key : str) : res unit * observer :=
  let (a, c) := ObservingModel.available defaults (aliases_find mkset) names (o_context o) in
  match o_words o with
  | Some w => (Err TypeError, mkObserver c (Some w))
  | None =>
      let w := map (fun g => Many g) a in
      (match suggestions w key with [] => Ok tt | _ => Err SpellingError end, mkObserver c (Some w))
  end.

(** core/observer.py 66-73, [__getitem__]. *)
Definition observer_getitem (fuel : nat) (o : observer) (key : str) : res item * observer :=
  let (obs, c1) := ObservingModel.observable (aliases_find mkset) names (o_context o) in
  match observes F mkset fuel (observables mkset obs unobservable) key with
  | Err e => (Err e, mkObserver c1 (o_words o))
  | Ok true => (Ok (Observable key), mkObserver c1 (o_words o))
  | Ok false =>
      let (b, c2) := ObservingModel.contains defaults (aliases_find mkset) names c1 key in
      if b then let (q, c3) := get_quantity c2 key in (Ok q, mkObserver c3 (o_words o))
      else match check_spelling (mkObserver c2 (o_words o)) key with
           | (Ok _, o') => (Err KeyError, o')
           | (Err e, o') => (Err e, o')
           end
  end.
End Access.
Arguments mkObserver {V IX SC}. Arguments o_context {V IX SC}. Arguments o_words {V IX SC}.
Arguments Observable {V}. Arguments Mapped {V}. Arguments Constraint {V}. Arguments Nothing {V}.

(** * Data sources *)

Section Sources.
(** [find_data d]: the path of the first file in the directory [d] that fits
    a template (core/iotools.py 201-213), and the errors for what is not a
    directory (eprem/__init__.py 728-736); [bare]: a file name without
    directories; [parent], [join], [exists], [resolve]: operations on paths;
    [cwd]: the current directory. *)
Context (find_data : str -> res (option str)) (bare : str -> bool) (parent : str -> str) (join : str -> str -> str)
        (exists_ : str -> bool) (resolve : str -> str) (cwd : str).

(** The context that is built: the paths it was built from and the metric
    system.  Used for eprem/__init__.py 649-666. *)
Record built : Type := mkBuilt { b_data : str; b_conf : str; b_system : str }.
(** eprem/__init__.py 649-666: the state of an observer. *)
Record sources : Type := mkSources
  { s_source : str; s_config : option str; s_datapath : option str; s_confpath : option str; s_context : option built }.

(** eprem/__init__.py 717-743, [datapath]. *)
Definition datapath (s : sources) : res (option str) * sources :=
  match s_datapath s with
  | Some p => (Ok (Some p), s)
  | None => let r := find_data (s_source s) in
            (r, match r with
                | Ok p => mkSources (s_source s) (s_config s) p (s_confpath s) (s_context s)
                | Err _ => s
                end)
  end.
(** eprem/__init__.py 688-715, [confpath], after [datapath] gave [data]. *)
Definition confpath (s : sources) (data : str) : res (option str) * sources :=
  match s_confpath s with
  | Some p => (Ok (Some p), s)
  | None =>
      let r := match s_config s with
               | None => Ok None
               | Some c =>
                   let full := join (parent data) c in
                   if bare c && exists_ full then Ok (Some full)
                   else if exists_ (resolve c) then Ok (Some (resolve c)) else Err NonExistentPathError
               end in
      (r, match r with
          | Ok p => mkSources (s_source s) (s_config s) (s_datapath s) p (s_context s)
          | Err _ => s
          end)
  end.
(** Python's [x or y] for optional strings.
    Used for eprem/__init__.py 691-704. *)
Definition or_str (x : option str) (y : str) : str :=
  match x with Some ((_ :: _) as s) => s | _ => y end.
Definition given (x : option str) : bool := match x with Some (_ :: _) => true | _ => false end.
(** eprem/__init__.py 691-704, [_build_context]. *)
Definition build_context (s : sources) (source config system : option str) : res (option built) * sources :=
  let s := if given config then mkSources (s_source s) config (s_datapath s) None (s_context s) else s in
  let s := if given source then mkSources (or_str source []) (s_config s) None (s_confpath s) (s_context s) else s in
  match datapath s with
  | (Err e, s) => (Err e, s)
  | (Ok None, s) => (Ok None, s)
  | (Ok (Some d), s) =>
      match confpath s d with
      | (Err e, s) => (Err e, s)
      | (Ok None, s) => (Ok None, s)
      | (Ok (Some c), s) => (Ok (Some (mkBuilt d c (or_str system (lit "mks")))), s)
      end
  end.
Definition with_context (s : sources) (b : built) : sources :=
  mkSources (s_source s) (s_config s) (s_datapath s) (s_confpath s) (Some b).
(** eprem/__init__.py 649-666, [__init__]. *)
Definition make_observer (config source system : option str) : res unit * sources :=
  let s := mkSources (or_str source cwd) config None None None in
  match build_context s None None system with
  | (Err e, s) => (Err e, s)
  | (Ok None, s) => (Ok tt, s)
  | (Ok (Some b), s) => (Ok tt, with_context s b)
  end.
(** eprem/__init__.py 668-687, [update]. *)
Definition update (s : sources) (source config : option str) : res unit * sources :=
  match build_context s source config None with
  | (Err e, s) => (Err e, s)
  | (Ok None, s) => (Ok tt, s)
  | (Ok (Some b), s) => (Ok tt, with_context s b)
  end.
End Sources.
