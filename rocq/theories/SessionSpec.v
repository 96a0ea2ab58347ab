(** Specification vocabulary for the caches of the parameters of a run. *)

From Coq Require Import String Ascii List Bool ZArith.
From Verif Require Import Py PyDict SessionModel.
Import ListNotations.
Open Scope list_scope.

Section Histories.
Context {C B R : Type}.
Notation step := (@files C B R * raction)%type.

(** The paths that an action sets. *)
Definition sets (a : raction) : list (str * option str) := match a with RSet new => new | _ => [] end.
(** Two file systems with the same source code, or the same configuration
    files. *)
Definition same_sources (f g : @files C B R) : Prop :=
  (forall p, read_constants f p = read_constants g p) /\ (forall p, read_reference f p = read_reference g p).
Definition same_configs (f g : @files C B R) : Prop := forall p, read_config f p = read_config g p.
(** [same] has held since the creation (with the files [f0]), or since the path
    with this name was last set. *)
Definition since (name : str) (same : @files C B R -> Prop) (f0 : @files C B R) (h : list step) : Prop :=
  same f0 /\ Forall (fun s => same (fst s)) h
  \/ exists h1 s h2, h = h1 ++ s :: h2 /\ In name (map fst (sets (snd s))) /\ Forall (fun s => same (fst s)) h2.
(** The source code is as in [f] since its path was last set, and the
    configuration files are since theirs was. *)
Definition unchanged (f0 f : @files C B R) (h : list step) : Prop :=
  since (lit "source") (same_sources f) f0 h /\ since (lit "config") (same_configs f) f0 h.
(** The path given last for a name. *)
Definition last_path (start : list (str * option str)) (h : list step) (name : str) (p : option str) : Prop :=
  exists l1 l2, start ++ flat_map (fun s => sets (snd s)) h = l1 ++ (name, p) :: l2 /\ ~ In name (map fst l2).
End Histories.
