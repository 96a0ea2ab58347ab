(** Python's [dict] with insertion order: association lists with distinct
    keys.  Models the builtin; nothing here models /repo. *)

From Coq Require Import List Bool.
From Verif Require Import Py PyFacts.
Import ListNotations.
Open Scope list_scope.

Section Dict.

Context {K V : Type}.
Variable keq : K -> K -> bool.

Fixpoint d_get (d : list (K * V)) (k : K) : option V :=
  match d with
  | [] => None
  | (h, v) :: d' => if keq k h then Some v else d_get d' k
  end.

Definition d_has (d : list (K * V)) (k : K) : bool :=
  match d_get d k with Some _ => true | None => false end.

(** [d[k] = v] keeps the position of an existing key. *)
Fixpoint d_set (d : list (K * V)) (k : K) (v : V) : list (K * V) :=
  match d with
  | [] => [(k, v)]
  | (h, w) :: d' => if keq k h then (h, v) :: d' else (h, w) :: d_set d' k v
  end.

Fixpoint d_del (d : list (K * V)) (k : K) : list (K * V) :=
  match d with
  | [] => []
  | (h, w) :: d' => if keq k h then d' else (h, w) :: d_del d' k
  end.

(** [dict(pairs)], also a comprehension. *)
Definition d_of (l : list (K * V)) : list (K * V) :=
  fold_left (fun d p => d_set d (fst p) (snd p)) l [].

(** [{**d, **l}]. *)
Definition d_update (d l : list (K * V)) : list (K * V) :=
  fold_left (fun d p => d_set d (fst p) (snd p)) l d.

Hypothesis keq_spec : forall a b, reflect (a = b) (keq a b).

Lemma keq_refl a : keq a a = true.
Proof. destruct (keq_spec a a); congruence. Qed.

Lemma d_get_set_same d k v : d_get (d_set d k v) k = Some v.
Proof.
  induction d as [|[h w] d IH]; simpl; [now rewrite keq_refl|].
  destruct (keq k h) eqn:E; simpl; now rewrite E.
Qed.

Lemma d_get_set_other d k v j : j <> k -> d_get (d_set d k v) j = d_get d j.
Proof.
  intro N. induction d as [|[h w] d IH]; simpl.
  - destruct (keq_spec j k); congruence.
  - destruct (keq_spec k h) as [->|Nh]; simpl.
    + destruct (keq_spec j h); congruence.
    + now rewrite IH.
Qed.

Lemma d_get_set d k v j : d_get (d_set d k v) j = if keq j k then Some v else d_get d j.
Proof. destruct (keq_spec j k) as [->|N]; [apply d_get_set_same|now apply d_get_set_other]. Qed.

Lemma d_get_in d k v : d_get d k = Some v -> In (k, v) d.
Proof.
  induction d as [|[h w] d IH]; simpl; [discriminate|]. destruct (keq_spec k h) as [->|N]; intro H; auto.
  injection H as ->. auto.
Qed.

Lemma d_get_none d k : d_get d k = None <-> ~ In k (map fst d).
Proof.
  induction d as [|[h w] d IH]; simpl; [tauto|]. destruct (keq_spec k h) as [->|N].
  - split; [discriminate|tauto].
  - rewrite IH. split; intro H; [intros [E|E]; [congruence|tauto]|tauto].
Qed.

Lemma d_get_iff d k v : NoDup (map fst d) -> (d_get d k = Some v <-> In (k, v) d).
Proof.
  intro N. split; [apply d_get_in|]. induction d as [|[h w] d IH]; [contradiction|].
  simpl in *. inversion N as [|? ? N1 N2]; subst. intros [E|I].
  - injection E as -> ->. now rewrite keq_refl.
  - destruct (keq_spec k h) as [->|Nk]; auto. exfalso. apply N1. apply in_map_iff. exists (h, v). auto.
Qed.

Lemma d_has_in d k : d_has d k = true <-> In k (map fst d).
Proof.
  unfold d_has. destruct (d_get d k) as [v|] eqn:E.
  - split; auto. intros _. apply d_get_in in E. apply in_map_iff. exists (k, v). auto.
  - apply d_get_none in E. split; [discriminate|contradiction].
Qed.

Lemma d_has_false d k : d_has d k = false <-> ~ In k (map fst d).
Proof. rewrite <- d_has_in. destruct (d_has d k); split; congruence. Qed.

Lemma d_set_new d k v : ~ In k (map fst d) -> d_set d k v = d ++ [(k, v)].
Proof.
  induction d as [|[h w] d IH]; simpl; [auto|]. intro N. destruct (keq_spec k h) as [->|Nh]; [tauto|].
  rewrite IH; tauto.
Qed.

Lemma d_set_keys d k v : map fst (d_set d k v) = if d_has d k then map fst d else map fst d ++ [k].
Proof.
  unfold d_has. induction d as [|[h w] d IH]; [reflexivity|]. simpl. destruct (keq k h); [reflexivity|].
  simpl. rewrite IH. now destruct (d_get d k).
Qed.

Lemma d_set_keys_in d k v j : In j (map fst (d_set d k v)) <-> j = k \/ In j (map fst d).
Proof.
  rewrite d_set_keys. destruct (d_has d k) eqn:E.
  - apply d_has_in in E. split; [auto|]. intros [->|H]; auto.
  - rewrite in_app_iff. simpl. split; [intros [H|[H|[]]]; auto|intros [->|H]; auto].
Qed.

Lemma d_set_NoDup d k v : NoDup (map fst d) -> NoDup (map fst (d_set d k v)).
Proof.
  intro N. rewrite d_set_keys. destruct (d_has d k) eqn:E; auto. apply NoDup_snoc; auto.
  now apply d_has_false.
Qed.

Lemma d_del_get d k j : NoDup (map fst d) -> d_get (d_del d k) j = if keq j k then None else d_get d j.
Proof.
  induction d as [|[h w] d IH]; intro N; simpl; [now destruct (keq j k)|].
  simpl in N. inversion N as [|? ? N1 N2]; subst. destruct (keq_spec k h) as [->|Nk]; simpl.
  - destruct (keq_spec j h) as [E|Nj]; auto. subst j. now apply d_get_none.
  - rewrite IH by auto. destruct (keq_spec j h) as [E|Nj]; auto. subst j.
    destruct (keq_spec h k); congruence.
Qed.

Lemma d_update_NoDup l : forall d, NoDup (map fst d) -> NoDup (map fst (d_update d l)).
Proof. induction l as [|[k v] l IH]; intros d N; simpl; auto. apply IH. now apply d_set_NoDup. Qed.

Lemma d_of_NoDup l : NoDup (map fst (d_of l)).
Proof. apply d_update_NoDup. constructor. Qed.

(** The last value given for a key wins. *)
Lemma d_update_get l : forall d k,
  d_get (d_update d l) k = match d_get (rev l) k with Some v => Some v | None => d_get d k end.
Proof.
  induction l as [|[h v] l IH]; intros d k; simpl; auto.
  rewrite IH, d_get_set. assert (forall r e, d_get (r ++ e) k = match d_get r k with Some v => Some v | None => d_get e k end) as A.
  { induction r as [|[a b] r IHr]; intro e; simpl; auto. now destruct (keq k a). }
  rewrite A. simpl. destruct (d_get (rev l) k); auto. now destruct (keq k h).
Qed.

Lemma d_of_id l : NoDup (map fst l) -> d_of l = l.
Proof.
  unfold d_of. induction l as [|[k v] l IH] using rev_ind; intro N; [reflexivity|].
  rewrite map_app in N. simpl in N. rewrite fold_left_app, IH by (eapply NoDup_app_l; eauto). simpl.
  apply d_set_new. intro I. eapply NoDup_app_disj; eauto. now left.
Qed.

Lemma d_of_get l k : d_get (d_of l) k = d_get (rev l) k.
Proof. unfold d_of. fold (d_update [] l). rewrite d_update_get. now destruct (d_get (rev l) k). Qed.

End Dict.

(** Dictionaries with string keys. *)
Notation sd_get := (d_get str_eqb).
Notation sd_has := (d_has str_eqb).
Notation sd_put := (d_set str_eqb).
Notation sd_of := (d_of str_eqb).
