(** Lemmas about open meshes, broadcasting, and products of array-like
    quantities. *)

From Coq Require Import String Ascii List Bool ZArith QArith Qcanon Lia.
From Verif Require Import Py PyFacts PyDict IterablesModel IterablesSpec IterablesProofs MetadataModel MetadataSpec MetadataProofs.
From Verif Require Import ArrayModel ArraySpec ArrayProofs ArrayOpsProofs.
Import ListNotations.
Open Scope list_scope.
Open Scope nat_scope.

(** * Meshes *)

Lemma mesh_from_length total ls : forall k, length (mesh_from total k ls) = length ls.
Proof. induction ls as [|l ls IH]; intros k; cbn; auto. Qed.
Lemma mesh_length ls : length (mesh ls) = length ls. Proof. apply mesh_from_length. Qed.
Lemma mesh_from_nth total ls : forall k j l, nth_error ls j = Some l ->
  nth_error (mesh_from total k ls) j = Some (mesh_one total (k + j) l).
Proof.
  induction ls as [|l ls IH]; intros k [|j] m H; cbn in *; try discriminate.
  - injection H as ->. now rewrite Nat.add_0_r.
  - rewrite (IH (S k) j m H). do 2 f_equal. lia.
Qed.
Lemma mesh_nth ls j l : nth_error ls j = Some l -> nth_error (mesh ls) j = Some (mesh_one (length ls) j l).
Proof. intros H. unfold mesh. now rewrite (mesh_from_nth _ _ 0 j l H). Qed.

(** The shape of a mesh array, position by position. *)
Definition one_axis (k n : nat) (j : nat) : nat := if Nat.eqb j k then n else 1.
Lemma repeat_map {A} (x : A) (f : nat -> A) m : forall s, (forall j, s <= j < s + m -> f j = x) ->
  repeat x m = map f (seq s m).
Proof.
  induction m as [|m IH]; intros s H; cbn; [reflexivity|]. f_equal; [symmetry; apply H; lia|].
  apply IH. intros j Hj. apply H. lia.
Qed.
Lemma mesh_shape t k l : k < t -> ishape (mesh_one t k l) = map (one_axis k (length l)) (seq 0 t).
Proof.
  intros H. cbn [mesh_one ishape].
  replace t with (k + S (t - k - 1)) at 2 by lia. rewrite seq_app, map_app. cbn [seq map].
  rewrite (repeat_map 1 (one_axis k (length l)) k 0).
  2:{ intros j Hj. unfold one_axis. rewrite (proj2 (Nat.eqb_neq _ _)) by lia. reflexivity. }
  rewrite (repeat_map 1 (one_axis k (length l)) (t - k - 1) (S k)).
  2:{ intros j Hj. unfold one_axis. rewrite (proj2 (Nat.eqb_neq _ _)) by lia. reflexivity. }
  f_equal. f_equal. unfold one_axis. now rewrite Nat.eqb_refl.
Qed.

Lemma bindex_same s i : length i = length s ->
  bindex s i = map (fun p => if Nat.eqb (fst p) 1 then 0 else snd p) (combine s i).
Proof. intros H. unfold bindex. rewrite H, Nat.sub_diag. reflexivity. Qed.
Lemma nth_bindex s i k : length i = length s -> nth k (bindex s i) 0 = if Nat.eqb (nth k s 1) 1 then 0 else nth k i 0.
Proof.
  intros H. rewrite bindex_same by exact H. revert i H k. induction s as [|n s IH]; intros [|x i] H [|k]; cbn in *; try discriminate; auto.
Qed.
Lemma bindex_length s i : length i = length s -> length (bindex s i) = length s.
Proof. intros H. rewrite bindex_same by exact H. rewrite map_length, combine_length. lia. Qed.

Lemma ravel_ones m : forall i, ravel (repeat 1 m) (bindex (repeat 1 m) i) = 0 \/ length i <> m.
Proof.
  intros i. destruct (Nat.eq_dec (length i) m) as [H|H]; [|auto]. left.
  rewrite bindex_same by (rewrite repeat_length; exact H).
  revert i H. induction m as [|m IH]; intros [|x i] H; cbn in *; try discriminate; auto.
Qed.
Lemma ones_product m : product (repeat 1 m) = 1.
Proof. induction m; cbn in *; [reflexivity|]. unfold product in *. rewrite IHm. reflexivity. Qed.

Lemma mesh_at_gen (l : list Z) m : forall k i, length i = k + S m -> nth k i 0 < length l ->
  ravel (repeat 1 k ++ length l :: repeat 1 m) (bindex (repeat 1 k ++ length l :: repeat 1 m) i) = nth k i 0.
Proof.
  induction k as [|k IH]; intros i L Hi; (destruct i as [|x i]; [discriminate|]); cbn [nth] in *.
  - cbn [repeat app]. rewrite bindex_same by (cbn; rewrite repeat_length; cbn in L; lia).
    cbn [combine map fst snd ravel]. rewrite ones_product.
    destruct (ravel_ones m i) as [Z|Z]; [|cbn in L; lia].
    rewrite bindex_same in Z by (rewrite repeat_length; cbn in L; lia). rewrite Z.
    destruct (Nat.eqb_spec (length l) 1); lia.
  - cbn [repeat app]. rewrite bindex_same by (cbn; rewrite app_length; cbn; rewrite !repeat_length; cbn in L; lia).
    cbn [combine map fst snd ravel Nat.eqb].
    rewrite <- bindex_same by (rewrite app_length; cbn; rewrite !repeat_length; cbn in L; lia).
    rewrite IH by (cbn in L; lia). lia.
Qed.
Lemma mesh_at t k l i : k < t -> length i = t -> nth k i 0 < length l ->
  iat (mesh_one t k l) (bindex (ishape (mesh_one t k l)) i) = nth (nth k i 0) l 0%Z.
Proof.
  intros H L Hi. unfold iat. cbn [mesh_one ishape icells]. rewrite mesh_at_gen by (auto; lia). reflexivity.
Qed.

(** * Broadcasting *)

Lemma bcast2_map (f g h : nat -> nat) l :
  (forall j, In j l -> (f j = g j /\ h j = f j) \/ (f j = 1 /\ h j = g j) \/ (g j = 1 /\ h j = f j)) ->
  bcast2 (map f l) (map g l) = Some (map h l).
Proof.
  induction l as [|j l IH]; intros H; cbn [map bcast2]; [reflexivity|].
  rewrite IH by (intros; apply H; now right).
  destruct (Nat.eqb_spec (f j) (g j)) as [E|E].
  - do 2 f_equal. destruct (H j (or_introl eq_refl)) as [[_ ->]|[[? ->]|[? ->]]]; congruence.
  - destruct (Nat.eqb_spec (f j) 1) as [E1|E1].
    + do 2 f_equal. destruct (H j (or_introl eq_refl)) as [[? ?]|[[? ->]|[? ?]]]; congruence.
    + destruct (Nat.eqb_spec (g j) 1) as [E2|E2].
      * do 2 f_equal. destruct (H j (or_introl eq_refl)) as [[? ?]|[[? ?]|[? ->]]]; congruence.
      * destruct (H j (or_introl eq_refl)) as [[? ?]|[[? ?]|[? ?]]]; congruence.
Qed.

Definition memb (k : nat) (ks : list nat) : bool := existsb (Nat.eqb k) ks.
Definition some_axes (sz : nat -> nat) (ks : list nat) (j : nat) : nat := if memb j ks then sz j else 1.

Lemma pad_same n s : length s = n -> pad n s = s.
Proof. intros <-. unfold pad. now rewrite Nat.sub_diag. Qed.

Lemma broadcast_axes t (sz : nat -> nat) ks : ks <> [] ->
  broadcast (map (fun k => map (one_axis k (sz k)) (seq 0 t)) ks) = Some (map (some_axes sz ks) (seq 0 t)).
Proof.
  intros Hk. unfold broadcast.
  assert (M : fold_right Nat.max 0 (map (@length nat) (map (fun k => map (one_axis k (sz k)) (seq 0 t)) ks)) = t).
  { destruct ks as [|k ks]; [contradiction|]. clear Hk. cbn [map fold_right]. rewrite map_length, seq_length.
    induction ks as [|k' ks IH]; cbn [map fold_right]; [lia|]. rewrite map_length, seq_length. lia. }
  rewrite M. clear M Hk. induction ks as [|k ks IH]; cbn [map fold_right].
  - f_equal. apply repeat_map. reflexivity.
  - rewrite IH, pad_same by (now rewrite map_length, seq_length).
    apply bcast2_map. intros j _. unfold one_axis, some_axes, memb. cbn [existsb].
    destruct (Nat.eqb_spec j k) as [->|N]; cbn [orb].
    + destruct (existsb (Nat.eqb k) ks); auto.
    + right. left. auto.
Qed.

(** * Picking elements through a mesh *)

Lemma mapM_map {A B} (f : A -> res B) (g : A -> B) l : (forall x, In x l -> f x = Ok (g x)) -> mapM f l = Ok (map g l).
Proof.
  induction l as [|x l IH]; intros H; cbn; [reflexivity|]. rewrite H by now left. cbn.
  rewrite IH by (intros; apply H; now right). reflexivity.
Qed.

Lemma length_inside s i : inside s i -> length i = length s.
Proof. apply F2_length. Qed.
Lemma nth_inside s i k : inside s i -> k < length s -> nth k i 0 < nth k s 1.
Proof.
  intros H. revert k. induction H as [|x n i s H1 H2 IH]; intros [|k] L; cbn in *; try lia. apply IH. lia.
Qed.

(** Indexing [a] with the mesh arrays at the positions [ks]: the [m]-th axis
    of [a] is indexed by the [nth m ks]-th list. *)
Lemma fancy_mesh a (ls : list (list Z)) ks :
  length ks = length (shape a) -> ks <> [] -> (forall k, In k ks -> k < length ls) ->
  (forall m n, nth_error (shape a) m = Some n ->
     Forall (fun z => - Z.of_nat n <= z < Z.of_nat n)%Z (nth (nth m ks 0) ls [])) ->
  let sh := map (some_axes (fun k => length (nth k ls [])) ks) (seq 0 (length ls)) in
  exists r, fancy a (map (fun k => mesh_one (length ls) k (nth k ls [])) ks) = Ok r /\ shape r = sh /\ filled r /\
    forall i, inside sh i ->
      at_ r i = at_ a (map (fun p => wrap (fst p) (nth (nth (snd p) i 0) (nth (snd p) ls []) 0%Z)) (combine (shape a) ks)).
Proof.
  intros L Nk Hk Hb sh. unfold fancy. rewrite map_length, L, Nat.ltb_irrefl.
  rewrite map_map. erewrite (map_ext_in (fun k => ishape _)).
  2:{ intros k Ik. apply mesh_shape, Hk, Ik. }
  rewrite broadcast_axes by exact Nk. fold sh.
  replace (forallb _ _) with true.
  2:{ symmetry. apply forallb_forall. intros [n x] Ix. cbn [fst snd].
      apply In_nth_error in Ix as [m Hm].
      assert (Hc : exists k, nth_error (shape a) m = Some n /\ nth_error ks m = Some k /\ x = mesh_one (length ls) k (nth k ls [])).
      { revert Hm. clear. revert ks m. induction (shape a) as [|n' s IH]; intros [|k ks] [|m] H; cbn in *; try discriminate.
        - injection H as <- <-. eauto.
        - destruct (IH ks m H) as (k' & ?). eauto. }
      destruct Hc as (k & H1 & H2 & ->). unfold in_axis. cbn [icells mesh_one].
      specialize (Hb m n H1). rewrite (nth_error_nth ks m 0 H2) in Hb.
      apply forallb_forall. intros z Iz. rewrite Forall_forall in Hb. specialize (Hb z Iz).
      apply andb_true_intro. split; [apply Z.leb_le|apply Z.ltb_lt]; lia. }
  rewrite skipn_all2 by lia. rewrite app_nil_r.
  assert (Lsh : length sh = length ls) by (unfold sh; now rewrite map_length, seq_length).
  eexists. split; [reflexivity|]. split; [reflexivity|]. split; [apply filled_build|].
  intros i Hi. rewrite at_build by exact Hi.
  pose proof (length_inside _ _ Hi) as Li.
  rewrite firstn_all2 by lia. rewrite skipn_all2 by lia. rewrite app_nil_r. f_equal.
  assert (Hi' : forall k, In k ks -> nth k i 0 < length (nth k ls [])).
  { intros k Ik. pose proof (nth_inside _ _ k Hi) as N. rewrite Lsh in N. specialize (N (Hk k Ik)).
    unfold sh in N. rewrite (nth_indep _ 1 (some_axes (fun k => length (nth k ls [])) ks 0)) in N
      by (rewrite map_length, seq_length; auto).
    rewrite map_nth, seq_nth in N by auto. unfold some_axes, memb in N. cbn [Nat.add] in N.
    replace (existsb (Nat.eqb k) ks) with true in N; [exact N|].
    symmetry. apply existsb_exists. exists k. split; [exact Ik|apply Nat.eqb_refl]. }
  assert (Li' : length i = length ls) by lia. clear - Hk Hi' Li'. revert Hk Hi'. generalize (shape a) as s. induction ks as [|k ks IH]; intros s Hk Hi'; destruct s as [|n s]; cbn [map combine]; try reflexivity.
  cbn [fst snd]. f_equal; [|apply IH; intros; [apply Hk|apply Hi']; now right].
  rewrite mesh_at; [reflexivity|apply Hk; now left|lia|apply Hi'; now left].
Qed.

(** * Names of axes *)

Lemma where_is_lt d l : In d l -> where_is d l < length l.
Proof.
  induction l as [|x l IH]; [contradiction|]. cbn. destruct (str_eqb x d) eqn:E; [lia|].
  intros [->|H]; [now rewrite str_eqb_refl in E|]. specialize (IH H). lia.
Qed.
Lemma index_of_where d l : In d l -> index_of d l = Some (where_is d l).
Proof.
  induction l as [|x l IH]; [contradiction|]. cbn. destruct (str_eqb x d) eqn:E; [reflexivity|].
  intros [->|H]; [now rewrite str_eqb_refl in E|]. now rewrite IH.
Qed.
Lemma nth_where d l : In d l -> nth_error l (where_is d l) = Some d.
Proof.
  induction l as [|x l IH]; [contradiction|]. cbn. destruct (str_eqb x d) eqn:E.
  - apply str_eqb_eq in E. now subst.
  - intros [->|H]; [now rewrite str_eqb_refl in E|]. now apply IH.
Qed.
Lemma where_nth d l k : NoDup l -> nth_error l k = Some d -> where_is d l = k.
Proof.
  revert k. induction l as [|x l IH]; intros [|k] N H; try discriminate; cbn in *.
  - injection H as ->. now rewrite str_eqb_refl.
  - inversion N as [|? ? N1 N2]; subst. destruct (str_eqb x d) eqn:E.
    + apply str_eqb_eq in E. subst. exfalso. apply N1. eapply nth_error_In; eauto.
    + f_equal. now apply IH.
Qed.

Lemma combine_get (da : list str) (sa : list nat) d : NoDup da -> length da = length sa -> In d da ->
  d_get str_eqb (combine da sa) d = Some (nth (where_is d da) sa 0).
Proof.
  revert sa. induction da as [|x da IH]; intros [|n sa] N L H; try discriminate; [contradiction|].
  cbn [combine d_get where_is]. inversion N as [|? ? N1 N2]; subst. destruct (str_eqb d x) eqn:E.
  - apply str_eqb_eq in E. subst. now rewrite str_eqb_refl.
  - replace (str_eqb x d) with false.
    + destruct H as [->|H]; [now rewrite str_eqb_refl in E|]. cbn [nth]. apply IH; auto.
    + symmetry. destruct (str_eqb x d) eqn:E'; [|reflexivity]. apply str_eqb_eq in E'. subst. now rewrite str_eqb_refl in E.
Qed.
Lemma combine_keys (da : list str) (sa : list nat) : length da = length sa -> map fst (combine da sa) = da.
Proof. revert sa. induction da as [|x da IH]; intros [|n sa] L; try discriminate; cbn in *; f_equal; auto. Qed.
Lemma shape_dict_id da sa : NoDup da -> length da = length sa -> shape_dict da sa = combine da sa.
Proof. intros N L. unfold shape_dict. apply d_of_id; [exact str_eqb_spec|]. now rewrite combine_keys. Qed.
Lemma update_get (l d : list (str * nat)) k : NoDup (map fst l) ->
  d_get str_eqb (d_update str_eqb d l) k =
  match d_get str_eqb l k with Some v => Some v | None => d_get str_eqb d k end.
Proof.
  intros N. rewrite d_update_get by exact str_eqb_spec.
  replace (d_get str_eqb (rev l) k) with (d_get str_eqb l k); [reflexivity|].
  destruct (d_get str_eqb l k) as [v|] eqn:E.
  - symmetry. apply d_get_iff; [exact str_eqb_spec|rewrite map_rev; now apply NoDup_rev|].
    apply in_rev. rewrite rev_involutive. eapply d_get_in; [exact str_eqb_spec|exact E].
  - symmetry. apply d_get_none; [exact str_eqb_spec|]. rewrite map_rev, <- in_rev.
    now apply d_get_none in E; [|exact str_eqb_spec].
Qed.

(** * Products *)

Lemma broadcast_two t (sa sb : list nat) (f g h : nat -> nat) :
  pad t sa = map f (seq 0 t) -> pad t sb = map g (seq 0 t) ->
  (length sa = t \/ length sb = t) -> length sa <= t -> length sb <= t ->
  (forall j, j < t -> (f j = g j /\ h j = f j) \/ (f j = 1 /\ h j = g j) \/ (g j = 1 /\ h j = f j)) ->
  broadcast [sa; sb] = Some (map h (seq 0 t)).
Proof.
  intros Ha Hb L La Lb H. unfold broadcast. cbn [map fold_right].
  replace (Nat.max (length sa) (Nat.max (length sb) 0)) with t by lia.
  rewrite Hb. rewrite (repeat_map 1 (fun _ => 1) t 0) by reflexivity.
  rewrite (bcast2_map g (fun _ => 1) g) by auto. rewrite Ha.
  apply bcast2_map. intros j Ij. apply in_seq in Ij. apply H. lia.
Qed.

Section Products.
Context {D U : Type} (asarray : D -> arr) (get : D -> nindex -> res arr) (has_shape : D -> bool).
Hypothesis R : reads_like asarray get.
Notation meaning := (@ArraySpec.meaning D U asarray).
Notation shaped := (@ArraySpec.shaped D U asarray).

(** One operand, indexed by the part of the mesh for its own axes. *)
Lemma operand_ok (o : object D U) dims (sz : str -> nat) :
  shaped o -> NoDup (o_dims o) -> incl (o_dims o) dims -> NoDup dims ->
  (forall d, In d (o_dims o) -> nth (where_is d (o_dims o)) (shape (meaning o)) 0 = sz d) ->
  let t := length dims in
  let full := map sz dims in
  let ls := map (fun n => map Z.of_nat (seq 0 n)) full in
  let ks := map (fun d => where_is d dims) (o_dims o) in
  exists x o', get_array asarray get o (NFancy (map (fun k => mesh_one t k (nth k ls [])) ks)) = (Ok x, o') /\
    pad t (shape x) = map (some_axes (fun k => nth k full 0) ks) (seq 0 t) /\
    (shape x = [] /\ o_dims o = [] \/ length (shape x) = t) /\
    forall i, inside full i -> at_ x (bindex (shape x) i) = at_ (meaning o) (restrict_to (o_dims o) dims i).
Proof.
  intros Sh Nd Inc Ndims Sz t full ls ks.
  destruct (get_array_ok asarray get R o (NFancy (map (fun k => mesh_one t k (nth k ls [])) ks))) as (o' & E & _).
  rewrite E. clear E.
  assert (Lt : length ls = t) by (unfold ls, full, t; now rewrite !map_length).
  assert (Ls : length (o_dims o) = length (shape (meaning o))) by (rewrite meaning_shape by exact Sh; apply Sh).
  assert (C : o_dims o = [] \/ o_dims o <> []) by (destruct (o_dims o); [now left|right; discriminate]).
  destruct C as [Ed|Ed].
  - exists (meaning o), o'. assert (Ek : ks = []) by (unfold ks; rewrite Ed; reflexivity). rewrite Ek.
    cbn [map missing]. split; [reflexivity|]. rewrite Ed in Ls.
    assert (Es : shape (meaning o) = []) by (destruct (shape (meaning o)); [reflexivity|discriminate]).
    rewrite Es, Ed. split; [|split; [left; auto|]].
    + unfold pad. cbn [length]. rewrite Nat.sub_0_r, app_nil_r. apply repeat_map. reflexivity.
    + intros i Hi. reflexivity.
  - assert (Nk : ks <> []) by (unfold ks; intros E; apply map_eq_nil in E; contradiction).
    assert (Hk : forall k, In k ks -> k < length ls).
    { intros k Ik. unfold ks in Ik. apply in_map_iff in Ik as (d & <- & Id). rewrite Lt. apply where_is_lt, Inc, Id. }
    assert (Lsk : forall k, k < t -> nth k ls [] = map Z.of_nat (seq 0 (nth k full 0))).
    { intros k Hk'. unfold ls.
      rewrite (nth_indep _ [] ((fun n => map Z.of_nat (seq 0 n)) 0)) by (rewrite map_length; unfold full; rewrite map_length; exact Hk').
      rewrite (map_nth (fun n => map Z.of_nat (seq 0 n))). reflexivity. }
    assert (Fk : forall d, In d dims -> nth (where_is d dims) full 0 = sz d).
    { intros d Id. unfold full. erewrite nth_error_nth; [reflexivity|]. rewrite nth_error_map, nth_where by exact Id. reflexivity. }
    assert (Hb : forall m n, nth_error (shape (meaning o)) m = Some n ->
      Forall (fun z => - Z.of_nat n <= z < Z.of_nat n)%Z (nth (nth m ks 0) ls [])).
    { intros m n Hm. assert (Lm : m < length (o_dims o)) by (rewrite Ls; apply nth_error_Some; congruence).
      destruct (nth_error (o_dims o) m) as [d|] eqn:Dm; [|apply nth_error_None in Dm; lia].
      assert (Id : In d (o_dims o)) by (eapply nth_error_In; eauto).
      assert (Km : nth m ks 0 = where_is d dims).
      { unfold ks. apply nth_error_nth. rewrite nth_error_map, Dm. reflexivity. }
      rewrite Km, Lsk by (apply where_is_lt, Inc, Id). rewrite Fk by (apply Inc, Id).
      rewrite <- Sz by exact Id. rewrite (where_nth d (o_dims o) m Nd Dm).
      rewrite (nth_error_nth _ _ 0 Hm). apply Forall_forall. intros z Iz.
      apply in_map_iff in Iz as (j & <- & Ij). apply in_seq in Ij. lia. }
    assert (Lk : length ks = length (shape (meaning o))) by (unfold ks; rewrite map_length; exact Ls).
    destruct (fancy_mesh (meaning o) ls ks Lk Nk Hk Hb) as (x & Fx & Sx & _ & Ax).
    rewrite Lt in Fx, Sx, Ax. exists x, o'.
    assert (Szs : map (some_axes (fun k => length (nth k ls [])) ks) (seq 0 t) = map (some_axes (fun k => nth k full 0) ks) (seq 0 t)).
    { apply map_ext_in. intros j Ij. apply in_seq in Ij. unfold some_axes. rewrite Lsk by lia.
      now rewrite map_length, seq_length. }
    rewrite Szs in Sx, Ax.
    assert (Lx : length (shape x) = t) by (rewrite Sx, map_length, seq_length; reflexivity).
    split; [|split; [|split]].
    + replace (missing _) with false; [now rewrite <- Fx|]. destruct ks; [contradiction|reflexivity].
    + rewrite pad_same by exact Lx. exact Sx.
    + right. exact Lx.
    + intros i Hi. pose proof (length_inside _ _ Hi) as Li. unfold full in Li. rewrite map_length in Li. fold t in Li.
      assert (Hs : forall j, j < t -> nth j (shape x) 1 = some_axes (fun k => nth k full 0) ks j).
      { intros j Hj. rewrite Sx. rewrite (nth_indep _ 1 (some_axes (fun k => nth k full 0) ks 0)) by (now rewrite map_length, seq_length).
        rewrite map_nth, seq_nth by exact Hj. reflexivity. }
      assert (Hb' : forall j, In j ks -> nth j (bindex (shape x) i) 0 = nth j i 0).
      { intros j Ij. rewrite nth_bindex by lia. specialize (Hk j Ij). rewrite Lt in Hk. rewrite Hs by exact Hk.
        unfold some_axes, memb. replace (existsb (Nat.eqb j) ks) with true
          by (symmetry; apply existsb_exists; exists j; split; [exact Ij|apply Nat.eqb_refl]).
        pose proof (nth_inside _ _ j Hi) as Nj. unfold full at 1 in Nj. rewrite map_length in Nj. specialize (Nj Hk).
        rewrite (nth_indep _ 1 0) in Nj by (unfold full; rewrite map_length; exact Hk).
        destruct (Nat.eqb_spec (nth j full 0) 1); lia. }
      rewrite Ax.
      2:{ assert (G : Forall2 lt (bindex (shape x) i) (shape x)).
          { rewrite bindex_same by lia. assert (Lz : length i = length (shape x)) by lia.
            assert (P : forall j, j < t -> (if Nat.eqb (nth j (shape x) 1) 1 then 0 else nth j i 0) < nth j (shape x) 1).
            { intros j Hj. rewrite Hs by exact Hj. unfold some_axes. destruct (memb j ks).
              - pose proof (nth_inside _ _ j Hi) as Nj. unfold full at 1 in Nj. rewrite map_length in Nj. specialize (Nj Hj).
                rewrite (nth_indep _ 1 0) in Nj by (unfold full; rewrite map_length; exact Hj).
                destruct (Nat.eqb_spec (nth j full 0) 1); lia.
              - cbn. lia. }
            rewrite <- Lx in P. revert P Lz. clear. generalize (shape x) as s. intros s. revert i.
            induction s as [|n s IH]; intros [|k i] P L; try discriminate; cbn; [constructor|].
            constructor; [apply (P 0); cbn; lia|]. apply IH; [|cbn in L; lia]. intros j Hj. apply (P (S j)). cbn. lia. }
          rewrite Sx in G. unfold inside. rewrite Sx. exact G. }
      f_equal. unfold restrict_to.
      assert (G : forall m, m < length (o_dims o) ->
        forall d n, nth_error (o_dims o) m = Some d -> nth_error (shape (meaning o)) m = Some n -> n = sz d).
      { intros m Lm d n Dm Nm. rewrite <- Sz by (eapply nth_error_In; eauto). rewrite (where_nth d _ m Nd Dm).
        now rewrite (nth_error_nth _ _ 0 Nm). }
      unfold ks. clear Ax Fx Sx Hb Lk.
      assert (Hd : forall d, In d (o_dims o) -> forall n, n = sz d ->
        wrap n (nth (nth (where_is d dims) (bindex (shape x) i) 0) (nth (where_is d dims) ls []) 0%Z) = nth (where_is d dims) i 0).
      { intros d Id n ->. assert (Iw : In (where_is d dims) ks) by (unfold ks; apply in_map_iff; eauto).
        rewrite Hb' by exact Iw. rewrite Lsk by (apply where_is_lt, Inc, Id). rewrite Fk by (apply Inc, Id).
        pose proof (nth_inside _ _ (where_is d dims) Hi) as Nj. unfold full at 1 in Nj. rewrite map_length in Nj.
        specialize (Nj (where_is_lt _ _ (Inc _ Id))).
        rewrite (nth_indep _ 1 0) in Nj by (unfold full; rewrite map_length; apply where_is_lt, Inc, Id).
        rewrite Fk in Nj by (apply Inc, Id).
        rewrite (nth_indep _ 0%Z (Z.of_nat 0)) by (rewrite map_length, seq_length; exact Nj).
        rewrite map_nth, seq_nth by exact Nj. unfold wrap. cbn [Nat.add].
        rewrite (proj2 (Z.ltb_ge _ _)) by lia. lia. }
      revert G Hd Ls. clear. generalize (shape (meaning o)) as s. induction (o_dims o) as [|d ds IH]; intros [|n s] G Hd Ls; try discriminate; [reflexivity|].
      cbn [map combine fst snd]. f_equal.
      * apply Hd; [now left|]. apply (G 0); [cbn; lia|reflexivity..].
      * apply IH; [|intros; apply Hd; [now right|assumption]|cbn in Ls; lia].
        intros m Lm d' n' Dm Nm. apply (G (S m)); [cbn; lia|assumption..].
Qed.

Lemma merge_three a b : NoDup a -> merge a [Some a; Some b] = merge a [Some b].
Proof.
  intros N. change [Some a; Some b] with ([Some a] ++ [Some b]). rewrite <- merge_many. now rewrite merge_idem.
Qed.

Theorem product_ok f u (a b : object D U) :
  shaped a -> shaped b -> NoDup (o_dims a) -> NoDup (o_dims b) ->
  same_sizes (o_dims a) (o_dims b) (shape (meaning a)) (shape (meaning b)) ->
  exists r, array_product asarray get has_shape f u a b = Ok r /\
    o_dims r = merge (o_dims a) [Some (o_dims b)] /\ o_unit r = u /\
    length (shape (meaning r)) = length (o_dims r) /\
    (forall d, In d (o_dims a) -> nth (where_is d (o_dims r)) (shape (meaning r)) 0 = nth (where_is d (o_dims a)) (shape (meaning a)) 0) /\
    (forall d, In d (o_dims b) -> nth (where_is d (o_dims r)) (shape (meaning r)) 0 = nth (where_is d (o_dims b)) (shape (meaning b)) 0) /\
    forall i, inside (shape (meaning r)) i ->
      at_ (meaning r) i = f (at_ (meaning a) (restrict_to (o_dims a) (o_dims r) i))
                            (at_ (meaning b) (restrict_to (o_dims b) (o_dims r) i)).
Proof.
  intros Sa Sb Na Nb Ss.
  assert (La : length (o_dims a) = length (shape (meaning a))) by (rewrite meaning_shape by exact Sa; apply Sa).
  assert (Lb : length (o_dims b) = length (shape (meaning b))) by (rewrite meaning_shape by exact Sb; apply Sb).
  pose proof (merge_members (o_dims a) (o_dims b)) as [Nm Im].
  unfold array_product, aligned. rewrite merge_three by exact Na. set (dims := merge (o_dims a) [Some (o_dims b)]) in *.
  destruct (get_shape_ok asarray get has_shape R a Sa) as (a1 & -> & A1 & A2 & A3 & A4 & A5 & A6).
  destruct (get_shape_ok asarray get has_shape R b Sb) as (b1 & -> & B1 & B2 & B3 & B4 & B5 & B6).
  rewrite <- !meaning_shape by assumption.
  assert (Ma : meaning a1 = meaning a) by (unfold ArraySpec.meaning; now rewrite A2, A5).
  assert (Mb : meaning b1 = meaning b) by (unfold ArraySpec.meaning; now rewrite B2, B5).
  assert (Sa1 : shaped a1) by (unfold ArraySpec.shaped; rewrite A5, A1, A4; exact Sa).
  assert (Sb1 : shaped b1) by (unfold ArraySpec.shaped; rewrite B5, B1, B4; exact Sb).
  rewrite !shape_dict_id by assumption. rewrite !combine_keys by assumption.
  set (sz := fun d => if in_dec str_eq_dec d (o_dims a) then nth (where_is d (o_dims a)) (shape (meaning a)) 0
                      else nth (where_is d (o_dims b)) (shape (meaning b)) 0).
  assert (Za : forall d, In d (o_dims a) -> nth (where_is d (o_dims a)) (shape (meaning a)) 0 = sz d).
  { intros d Id. unfold sz. destruct (in_dec _ d (o_dims a)); [reflexivity|contradiction]. }
  assert (Zb : forall d, In d (o_dims b) -> nth (where_is d (o_dims b)) (shape (meaning b)) 0 = sz d).
  { intros d Id. unfold sz. destruct (in_dec _ d (o_dims a)) as [I|I]; [symmetry; now apply Ss|reflexivity]. }
  rewrite (mapM_map _ sz).
  2:{ intros d Id. rewrite !update_get by (rewrite combine_keys; assumption). apply Im in Id.
      destruct (in_dec str_eq_dec d (o_dims b)) as [I|I].
      - rewrite combine_get by assumption. now rewrite Zb.
      - assert (Ia : In d (o_dims a)) by tauto.
        replace (d_get str_eqb (combine (o_dims b) (shape (meaning b))) d) with (@None nat).
        + rewrite combine_get by assumption. now rewrite Za.
        + symmetry. apply d_get_none; [exact str_eqb_spec|]. now rewrite combine_keys. }
  cbn [bind]. set (t := length dims). set (full := map sz dims).
  set (ls := map (fun n => map Z.of_nat (seq 0 n)) full).
  assert (Lt : length ls = t) by (unfold ls, full; now rewrite !map_length).
  assert (Px : forall ds, incl ds dims ->
    mapM (fun d => match index_of d dims with
                   | Some k => match nth_error (mesh ls) k with Some x => Ok x | None => Err IndexError end
                   | None => Err ValueError end) ds =
    Ok (map (fun k => mesh_one t k (nth k ls [])) (map (fun d => where_is d dims) ds))).
  { intros ds Inc. rewrite map_map. apply mapM_map. intros d Id. apply Inc in Id.
    rewrite index_of_where by exact Id. pose proof (where_is_lt _ _ Id) as Hw. fold t in Hw.
    destruct (nth_error ls (where_is d dims)) as [l|] eqn:El; [|apply nth_error_None in El; lia].
    rewrite (mesh_nth _ _ _ El), Lt. now rewrite (nth_error_nth _ _ [] El). }
  assert (Ia : incl (o_dims a) dims) by (intros d Id; apply Im; auto).
  assert (Ib : incl (o_dims b) dims) by (intros d Id; apply Im; auto).
  rewrite (Px _ Ia), (Px _ Ib). cbn [bind].
  rewrite <- A4 in Ia, Na |- *. rewrite <- B4 in Ib, Nb |- *.
  destruct (operand_ok a1 dims sz Sa1 Na Ia Nm) as (x & a2 & Ex & Px1 & Px2 & Px3).
  { rewrite Ma, A4. exact Za. }
  destruct (operand_ok b1 dims sz Sb1 Nb Ib Nm) as (y & b2 & Ey & Py1 & Py2 & Py3).
  { rewrite Mb, B4. exact Zb. }
  fold t full ls in Ex, Ey, Px1, Py1, Px2, Py2, Px3, Py3. rewrite Ex, Ey. cbn [bind].
  unfold ufunc2.
  assert (Fl : full = map (fun j => nth j full 0) (seq 0 t)).
  { assert (G : forall l : list nat, l = map (fun j => nth j l 0) (seq 0 (length l))).
    { induction l as [|n l IH]; [reflexivity|]. cbn [length seq map nth]. f_equal.
      rewrite IH at 1. rewrite <- seq_shift, map_map. reflexivity. }
    rewrite (G full) at 1. unfold full at 2. rewrite map_length. reflexivity. }
  assert (Cov : forall j, j < t -> In j (map (fun d => where_is d dims) (o_dims a1)) \/ In j (map (fun d => where_is d dims) (o_dims b1))).
  { intros j Hj. destruct (nth_error dims j) as [d|] eqn:Ed; [|apply nth_error_None in Ed; unfold t in Hj; lia].
    assert (Id : In d dims) by (eapply nth_error_In; eauto).
    assert (Wj : where_is d dims = j) by (now apply where_nth).
    apply Im in Id. rewrite A4, B4.
    destruct Id as [Id|Id]; [left|right]; apply in_map_iff; eauto. }
  assert (Lxy : length (shape x) = t \/ length (shape y) = t).
  { destruct Px2 as [[E0 E1]|]; [|now left]. destruct Py2 as [[_ E2]|]; [|now right].
    assert (t = 0) as ->. { destruct t; [reflexivity|]. destruct (Cov 0) as [C|C]; [lia|rewrite E1 in C; contradiction|rewrite E2 in C; contradiction]. }
    left. rewrite E0. reflexivity. }
  rewrite (broadcast_two t _ _ _ _ (fun j => nth j full 0) Px1 Py1 Lxy).
  - rewrite <- Fl. cbn [bind].
    set (r := build full _).
    pose proof (new_from_data_ok asarray get has_shape (Memory r) dims u) as N. cbn [data_array] in N.
    rewrite (value_make_same r dims u) in N by (cbn; unfold full; now rewrite map_length).
    destruct N as (o & N & P1 & P2 & P3 & P4 & P5 & P6 & P7 & P8). exists o. split; [exact N|].
    cbn [v_dims] in P4.
    assert (Mr : meaning o = r).
    { unfold ArraySpec.meaning, ArraySpec.unscaled. rewrite P1, P2, scale_one. cbn [data_array].
      destruct P8 as [-> | ->]; reflexivity. }
    rewrite Mr, P4, A4, B4. split; [reflexivity|]. split; [exact P3|].
    assert (Fk : forall d, In d dims -> nth (where_is d dims) full 0 = sz d).
    { intros d Id. unfold full. apply nth_error_nth. rewrite nth_error_map, nth_where by exact Id. reflexivity. }
    split; [cbn; unfold full; now rewrite map_length|].
    rewrite A4 in Ia. rewrite B4 in Ib.
    split; [intros d Id; cbn [shape r build]; rewrite Fk by (now apply Ia); symmetry; now apply Za|].
    split; [intros d Id; cbn [shape r build]; rewrite Fk by (now apply Ib); symmetry; now apply Zb|].
    intros i Hi. unfold r. rewrite at_build by exact Hi. rewrite (Px3 i Hi), (Py3 i Hi), Ma, Mb, A4, B4. reflexivity.
  - destruct Px2 as [[-> _]|E]; [cbn; lia|lia].
  - destruct Py2 as [[-> _]|E]; [cbn; lia|lia].
  - intros j Hj. unfold some_axes. destruct (Cov j Hj) as [C|C].
    + replace (memb j (map (fun d => where_is d dims) (o_dims a1))) with true
        by (symmetry; apply existsb_exists; exists j; split; [exact C|apply Nat.eqb_refl]).
      destruct (memb j _); auto.
    + replace (memb j (map (fun d => where_is d dims) (o_dims b1))) with true
        by (symmetry; apply existsb_exists; exists j; split; [exact C|apply Nat.eqb_refl]).
      destruct (memb j _); auto.
Qed.
End Products.
