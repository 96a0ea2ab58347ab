(** Vocabulary of the properties of aliased mappings, independent of how the
    implementation stores them. *)

From Coq Require Import List Bool Relations.
From Verif Require Import Py AliasedModel.
Import ListNotations.
Open Scope list_scope.

(** A possible iteration order of Python sets: each member once. *)
Definition set_order (mkset : list str -> list str) : Prop :=
  forall l, NoDup (mkset l) /\ forall a, In a (mkset l) <-> In a l.

(** No name is in two of the lists. *)
Definition disjoint (gs : list (list str)) : Prop :=
  ForallOrdPairs (fun g h => forall a, In a g -> ~ In a h) gs.

(** * The abstract map: names have values and are partitioned into classes *)

Record abs (V : Type) : Type := mkAbs {
  val : str -> option V;
  rel : str -> str -> bool   (** are two names aliases of one another? *)
}.
Arguments mkAbs {V}. Arguments val {V}. Arguments rel {V}.

(** The map described by a list of keys with values. *)
Definition abs_of {V} (l : list (key * V)) : abs V :=
  mkAbs (fun a => option_map snd (find (fun p => gin a (members (fst p))) l))
        (fun a b => existsb (fun p => gin a (members (fst p)) && gin b (members (fst p))) l).

Definition abs_set {V} (s : abs V) (a : str) (v : V) : abs V :=
  match val s a with
  | Some _ => mkAbs (fun n => if rel s a n then Some v else val s n) (rel s)
  | None => mkAbs (fun n => if str_eqb n a then Some v else val s n)
                  (fun x y => str_eqb x a && str_eqb y a || rel s x y)
  end.

Definition abs_del {V} (s : abs V) (a : str) : abs V :=
  mkAbs (fun n => if rel s a n then None else val s n)
        (fun x y => rel s x y && negb (rel s a x)).

(** The name [b] joins the class of [a]. *)
Definition abs_join {V} (s : abs V) (a b : str) : abs V :=
  mkAbs (fun n => if str_eqb n b then val s a else val s n)
        (fun x y => rel s x y || (rel s a x || str_eqb x b) && (rel s a y || str_eqb y b)).

(** New aliases are registered one at a time, up to the first that is taken. *)
Fixpoint abs_alias {V} (s : abs V) (a : str) (bs : list str) : res unit * abs V :=
  match bs with
  | [] => (Ok tt, s)
  | b :: bs' =>
      if str_eqb b a then abs_alias s a bs'
      else match val s a, val s b with
           | None, _ => (Err TypeError, s)
           | Some _, Some _ => (Err KeyError, s)
           | Some _, None => abs_alias (abs_join s a b) a bs'
           end
  end.

Definition abs_op {V} (o : op V) (s : abs V) : res unit * abs V :=
  match o with
  | Set_ a v => (Ok tt, abs_set s a v)
  | Del_ a => match val s a with
              | Some _ => (Ok tt, abs_del s a)
              | None => (Err KeyError, s)
              end
  | Alias_ a l => abs_alias s a l
  end.

Fixpoint abs_run {V} (l : list (op V)) (s : abs V) : list (res unit) * abs V :=
  match l with
  | [] => ([], s)
  | o :: l' =>
      let '(r, s') := abs_op o s in
      let '(rs, s'') := abs_run l' s' in (r :: rs, s'')
  end.

(** What a caller can observe of a mapping agrees with an abstract map. *)
Definition agrees {V} (m : amap V) (s : abs V) : Prop :=
  (forall a, getitem m a = match val s a with Some v => Ok v | None => Err KeyError end)
  /\ (forall a, contains m a = match val s a with Some _ => true | None => false end)
  /\ (forall a, match resolve_key m a with
                | Some g => val s a <> None /\ NoDup g /\ forall b, In b g <-> rel s a b = true
                | None => val s a = None
                end)
  /\ (exists names, NoDup names /\ (forall a, In a names <-> val s a <> None)
                    /\ len m = length names)
  /\ disjoint (map fst (as_dict m))
  /\ Forall (fun g => g <> []) (map fst (as_dict m)).

(** A consistent mapping: the state that every sequence of calls preserves. *)
Definition consistent {V} (m : amap V) : Prop :=
  flat_dict m = flat_of (as_dict m)
  /\ disjoint (map fst (as_dict m))
  /\ Forall (fun g => NoDup g /\ g <> []) (map fst (as_dict m)).

(** Two names are aliases of one another. *)
Definition aliases_of {V} (m : amap V) (a b : str) : Prop :=
  exists g, resolve_key m a = Some g /\ In b g.

(** * Collections of groups *)

(** Two names are in one of the groups. *)
Definition together (gs : list (list str)) (a b : str) : Prop :=
  exists g, In g gs /\ In a g /\ In b g.

(** Two groups share a name. *)
Definition meets (g h : list str) : Prop := exists a, In a g /\ In a h.

(** Each new group meets at most one existing group, and is the only one. *)
Definition matching (self os : list (list str)) : Prop :=
  (forall o g h, In o os -> In g self -> In h self -> meets o g -> meets o h -> g = h)
  /\ (forall o p g, In o os -> In p os -> In g self -> meets o g -> meets p g -> o = p).

(** The groups among the addends (no bare strings). *)
Definition listed (others : list addend) : Prop :=
  Forall (fun x => match x with AStr _ => False | _ => True end) others.
Definition new_groups (others : list addend) : list (list str) :=
  concat (map (fun x => match x with AGroups gs => gs | AIter l => [l] | AStr s => [[s]] end) others).

(** * Interior aliases *)

(** The names of an entry: its key and the aliases listed in its value. *)
Definition entry_names {W} (alias_names : W -> list str) (aliases : str)
  (p : str * list (str * W)) : list str :=
  fst p :: match inner_get (snd p) aliases with Some w => alias_names w | None => [] end.
