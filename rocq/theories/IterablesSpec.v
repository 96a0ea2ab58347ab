(** Vocabulary of the properties of the iterable tools. *)

From Coq Require Import String Ascii List Bool ZArith NArith QArith Qcanon.
From Verif Require Import Py PyDict IterablesModel.
Import ListNotations.
Open Scope list_scope.

(** A Boolean [==] that is an equivalence relation. *)
Definition equivalence {A} (eqb : A -> A -> bool) : Prop :=
  (forall a, eqb a a = true)
  /\ (forall a b, eqb a b = true -> eqb b a = true)
  /\ (forall a b c, eqb a b = true -> eqb b c = true -> eqb a c = true).

(** A Boolean [==] that decides equality. *)
Definition decides {A} (eqb : A -> A -> bool) : Type := forall a b, reflect (a = b) (eqb a b).

(** The first list arises from the second by leaving out elements. *)
Inductive subsequence {A} : list A -> list A -> Prop :=
| sub_nil : subsequence [] []
| sub_skip x l m : subsequence l m -> subsequence l (x :: m)
| sub_keep x l m : subsequence l m -> subsequence (x :: l) (x :: m).

(** [wraps o r]: [o] is [r] inside any number of one-element lists or tuples. *)
Inductive wraps : obj -> obj -> Prop :=
| wraps_here r : wraps r r
| wraps_in k o r : wraps o r -> wraps (OSeq k [o]) r.
Definition singleton (o : obj) : Prop := exists k x, o = OSeq k [x].

(** The members of an object that has any. *)
Inductive members : obj -> list obj -> Prop :=
| members_text s : members (OStr s) (map (fun c => OStr [c]) s)
| members_seq k l : members (OSeq k l) l.

(** The members of a range, in order. *)
Definition range_list (r : range) : list Z :=
  map (fun k => (r_start r + Z.of_nat k * r_step r)%Z)
      (seq 0 (Z.to_nat (Z.max 0 (if (0 <? r_step r)%Z
                                 then (r_stop r - r_start r + r_step r - 1) / r_step r
                                 else (r_start r - r_stop r - r_step r - 1) / (- r_step r))))).

(** The range of indices that Python uses for [seq[s]], [len(seq) == n]
    ([slice.indices]); [None] for a zero step, which Python rejects. *)
Definition slice_indices (s : slice) (n : Z) : option range :=
  let step := match s_step s with Some x => x | None => 1%Z end in
  let lower := if (step <? 0)%Z then (-1)%Z else 0%Z in
  let upper := if (step <? 0)%Z then (n - 1)%Z else n in
  let clip x := if (x <? 0)%Z then Z.max (x + n) lower else Z.min x upper in
  if (step =? 0)%Z then None
  else Some (mkRange
    (match s_start s with Some x => clip x | None => if (step <? 0)%Z then upper else lower end)
    (match s_stop s with Some x => clip x | None => if (step <? 0)%Z then lower else upper end)
    step).

(** ** Tables *)

(** Every requested pair is in the entry. *)
Definition satisfies {V} (veq : V -> V -> bool) (request : list (str * V)) (e : entry) : Prop :=
  forall k v, In (k, v) request -> exists w, In (k, w) e /\ veq w v = true.

(** [r] is the only member of the list with property [P]. *)
Definition only {A} (P : A -> Prop) (l : list A) (r : A) : Prop :=
  exists l1 l2, l = l1 ++ r :: l2 /\ P r /\ forall x, In x (l1 ++ l2) -> ~ P x.

(** The entries are dictionaries. *)
Definition dicts {V} (entries : list (@entry V)) : Prop :=
  Forall (fun e => NoDup (map fst e)) entries.

(** Every entry has the key. *)
Definition common_key {V} (entries : list (@entry V)) (k : str) : Prop :=
  forall e, In e entries -> In k (map fst e).

(** The number of entries with the given value for the key. *)
Fixpoint holders {V} (veq : V -> V -> bool) (k : str) (v : V) (entries : list (@entry V)) : nat :=
  match entries with
  | [] => 0
  | e :: es => (if existsb (fun p => str_eqb (fst p) k && veq (snd p) v) e then 1 else 0)
               + holders veq k v es
  end.

(** ** Connections *)

(** The weight that the first addition linking [a] and [b], in either
    direction, gives to the connection from [a] to [b].  In [Qc], [/ 0] is
    [0]: a zero weight is kept. *)
Fixpoint first_link (l : list (edge * weight)) (a b : str) : option weight :=
  match l with
  | [] => None
  | ((s, t), w) :: l' =>
      if str_eqb s a && str_eqb t b then Some w
      else if str_eqb s b && str_eqb t a then Some (option_map Qcinv w)
      else first_link l' a b
  end.

(** ** Registries *)

(** Names that do not end in [_] and a decimal number. *)
Definition unnumbered (s : str) : Prop := forall p n, s <> p ++ lit "_" ++ dec_of_N n.
