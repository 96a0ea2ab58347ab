(** Lemmas about arrays, subscripts and histories of quantities. *)

From Coq Require Import String Ascii List Bool ZArith QArith Qcanon Lia.
From Verif Require Import Py PyFacts PyDict ArrayModel ArraySpec.
Import ListNotations.
Open Scope list_scope.
Open Scope nat_scope.

(** * Cells *)

Lemma all_indices_length s : length (all_indices s) = product s.
Proof.
  induction s as [|n s IH]; [reflexivity|].
  change (product (n :: s)) with (n * product s). cbn [all_indices].
  rewrite <- IH. clear IH. rewrite <- (seq_length n 0) at 2.
  induction (seq 0 n) as [|k l IHl]; [reflexivity|].
  cbn [flat_map]. rewrite app_length, map_length, IHl. reflexivity.
Qed.

Lemma ravel_lt s i : inside s i -> ravel s i < product s.
Proof.
  intros H. induction H as [|k n i s H1 H2 IH]; [cbn; lia|].
  change (product (n :: s)) with (n * product s). cbn [ravel]. nia.
Qed.

Lemma nth_flat_map_seq (s' : list nat) (r p : nat) : r < product s' ->
  forall n a, p < n ->
  nth (p * product s' + r) (flat_map (fun k => map (cons k) (all_indices s')) (seq a n)) [] =
  (a + p) :: nth r (all_indices s') [].
Proof.
  intros Hr n. revert p. induction n as [|n IH]; intros p a Hp; [lia|].
  cbn [seq flat_map]. destruct p as [|p].
  - cbn [Nat.mul Nat.add]. rewrite app_nth1 by (rewrite map_length, all_indices_length; exact Hr).
    rewrite (nth_indep _ [] (a :: [])) by (rewrite map_length, all_indices_length; exact Hr).
    rewrite map_nth, Nat.add_0_r. reflexivity.
  - rewrite app_nth2; rewrite map_length, all_indices_length; [|lia].
    replace (S p * product s' + r - product s') with (p * product s' + r) by lia.
    rewrite IH by lia. f_equal. lia.
Qed.

Lemma nth_ravel s i : inside s i -> nth (ravel s i) (all_indices s) [] = i.
Proof.
  intros H. induction H as [|k n i s H1 H2 IH]; [reflexivity|].
  cbn [ravel all_indices]. rewrite nth_flat_map_seq; auto using ravel_lt.
  now rewrite IH.
Qed.

Lemma at_build s f i : inside s i -> at_ (build s f) i = f i.
Proof.
  intros H. unfold at_, build. cbn [shape cells].
  rewrite (nth_indep _ _ (f [])) by (rewrite map_length, all_indices_length; now apply ravel_lt).
  rewrite map_nth. now rewrite nth_ravel.
Qed.

Lemma filled_build s f : filled (build s f).
Proof. unfold filled, build. cbn. now rewrite map_length, all_indices_length. Qed.

Lemma all_indices_inside s i : In i (all_indices s) -> inside s i.
Proof.
  revert i. induction s as [|n s IH]; cbn [all_indices]; intros i H.
  - destruct H as [<-|[]]. constructor.
  - apply in_flat_map in H as (k & Hk & H). apply in_map_iff in H as (j & <- & H).
    apply in_seq in Hk. constructor; [lia|]. now apply IH.
Qed.

Lemma build_ext s f g : (forall i, inside s i -> f i = g i) -> build s f = build s g.
Proof.
  intros H. unfold build. f_equal. apply map_ext_in. intros i Hi. apply H.
  now apply all_indices_inside.
Qed.

(** * Scaling *)

Lemma at_scale c a i : at_ (scale_arr c a) i = (c * at_ a i)%Qc.
Proof.
  unfold at_, scale_arr. cbn [shape cells].
  replace 0%Qc with (c * 0)%Qc at 1 by ring. rewrite map_nth. reflexivity.
Qed.
Lemma shape_scale c a : shape (scale_arr c a) = shape a. Proof. reflexivity. Qed.
Lemma scale_build c s f : scale_arr c (build s f) = build s (fun i => c * f i)%Qc.
Proof. unfold scale_arr, build. cbn. f_equal. now rewrite map_map. Qed.
Lemma scale_scale c d a : scale_arr c (scale_arr d a) = scale_arr (c * d) a.
Proof.
  unfold scale_arr. cbn. f_equal. rewrite map_map. apply map_ext. intros. ring.
Qed.
Lemma scale_one a : scale_arr 1 a = a.
Proof.
  destruct a as [s l]. unfold scale_arr. cbn. f_equal.
  rewrite <- (map_id l) at 2. apply map_ext. intros. ring.
Qed.

Lemma rmap_bind {A B C} (f : B -> C) (m : res A) (g : A -> res B) :
  rmap f (bind m g) = bind m (fun x => rmap f (g x)).
Proof. now destruct m. Qed.

Lemma basic_scale c a l : basic (scale_arr c a) l = rmap (scale_arr c) (basic a l).
Proof.
  unfold basic. rewrite shape_scale. destruct (Nat.ltb 1 _); [reflexivity|].
  destruct (Nat.ltb _ _); [reflexivity|].
  destruct (select (shape a) l) as [s|e]; [|reflexivity].
  cbn [bind rmap]. f_equal. unfold apply_selections. rewrite scale_build.
  apply build_ext. intros i _. apply at_scale.
Qed.
Lemma fancy_scale c a l : fancy (scale_arr c a) l = rmap (scale_arr c) (fancy a l).
Proof.
  unfold fancy. rewrite shape_scale. destruct (Nat.ltb _ _); [reflexivity|].
  destruct (broadcast _) as [s|]; [|reflexivity].
  destruct (forallb _ _); [|reflexivity].
  cbn [rmap]. f_equal. rewrite scale_build. apply build_ext. intros i _. apply at_scale.
Qed.
Lemma np_get_scale c a x : np_get (scale_arr c a) x = rmap (scale_arr c) (np_get a x).
Proof.
  destruct x as [|[i|l]|xs]; cbn [np_get]; auto using basic_scale, fancy_scale.
Qed.

(** * Histories *)

Lemma nth_error_replace {A} (l : list A) k x j :
  nth_error (replace_nth l k x) j = if Nat.eqb j k then option_map (fun _ => x) (nth_error l k) else nth_error l j.
Proof.
  revert k j. induction l as [|y l IH]; intros [|k] [|j]; cbn [replace_nth nth_error Nat.eqb option_map]; try reflexivity.
  - destruct (Nat.eqb j k); reflexivity.
  - apply IH.
Qed.
Lemma replace_length {A} (l : list A) k x : length (replace_nth l k x) = length l.
Proof. revert k. induction l as [|y l IH]; intros [|k]; cbn; auto. Qed.

Section Histories.
Context {D U : Type} (asarray : D -> arr) (get : D -> nindex -> res arr) (has_shape : D -> bool)
        (ueq uor : U -> U -> res bool) (ufactor : U -> U -> res Qc).
Hypothesis R : reads_like asarray get.

Notation base o := (data_array asarray (o_data o)).
Notation unscaled := (@ArraySpec.unscaled D U asarray).
Notation meaning := (@ArraySpec.meaning D U asarray).
Notation shaped := (@ArraySpec.shaped D U asarray).

Lemma read_array_ok d x : missing x = false -> read_array asarray get d x = np_get (data_array asarray d) x.
Proof.
  intros Hm. unfold read_array. destruct d as [d|a]; cbn [data_get data_array].
  - specialize (R d x Hm). destruct (get d x) as [a|[]]; auto.
  - destruct (np_get a x) as [b|[]]; reflexivity.
Qed.

Lemma get_array_ok o x :
  exists o', get_array asarray get o x =
             (if missing x then Ok (meaning o) else np_get (meaning o) x, o') /\
             o_data o' = o_data o /\ o_scale o' = o_scale o /\ o_unit o' = o_unit o /\ o_dims o' = o_dims o /\
             unscaled o' = unscaled o /\
             (o_full o' = o_full o \/ o_full o' = Some (base o) /\ o_full o = None).
Proof.
  unfold get_array, load_array, ArraySpec.meaning, ArraySpec.unscaled. destruct (missing x) eqn:Hm.
  - destruct (o_full o) as [a|] eqn:E; cbn [rmap].
    + exists o. rewrite E. repeat split; auto.
    + exists (set_full o (base o)). cbn. repeat split; auto.
  - destruct (o_full o) as [a|] eqn:E.
    + exists o. rewrite E, np_get_scale. repeat split; auto.
    + exists o. rewrite E, np_get_scale, read_array_ok by exact Hm. repeat split; auto.
Qed.

Lemma get_shape_ok o : shaped o ->
  exists o', get_shape asarray get has_shape o = (shape (base o), o') /\
             o_data o' = o_data o /\ o_scale o' = o_scale o /\ o_unit o' = o_unit o /\ o_dims o' = o_dims o /\
             unscaled o' = unscaled o /\
             (o_full o' = o_full o \/ o_full o' = Some (base o) /\ o_full o = None).
Proof.
  intros [H1 H2]. unfold get_shape. destruct (data_has_shape has_shape (o_data o)).
  - exists o. repeat split; auto.
  - destruct (get_array_ok o NAll) as (o' & E & P). exists o'. rewrite E. cbn [missing].
    split; [|exact P]. f_equal. unfold ArraySpec.meaning. rewrite shape_scale. exact H1.
Qed.

Lemma new_from_data_ok d dims u :
  match value_make (U := U) (data_array asarray d) dims u with
  | Err e => new_from_data asarray get has_shape d dims u = Err e
  | Ok v => exists o, new_from_data asarray get has_shape d dims u = Ok o /\
              o_data o = d /\ o_scale o = 1%Qc /\ o_unit o = u /\ o_dims o = v_dims v /\
              v_array v = data_array asarray d /\ v_unit v = u /\
              length (v_dims v) = length (shape (data_array asarray d)) /\
              (o_full o = None \/ o_full o = Some (data_array asarray d))
  end.
Proof.
  unfold value_make, new_from_data.
  set (o := mkObject d None 1%Qc u dims).
  assert (G : exists o', get_shape asarray get has_shape o = (shape (data_array asarray d), o') /\
             o_data o' = d /\ o_scale o' = 1%Qc /\ o_unit o' = u /\
             (o_full o' = None \/ o_full o' = Some (data_array asarray d))).
  { unfold get_shape. destruct (data_has_shape has_shape (o_data o)).
    - exists o. repeat split; auto.
    - unfold get_array, load_array. cbn [missing o o_full rmap o_scale o_data].
      rewrite scale_one. eexists. split; [reflexivity|]. cbn. auto. }
  destruct G as (o' & E & P1 & P2 & P3 & P4). rewrite E.
  destruct (Nat.eqb _ _) eqn:L; [|reflexivity].
  apply Nat.eqb_eq in L.
  eexists. split; [reflexivity|]. cbn. rewrite P1, P2, P3. repeat split; auto.
Qed.

Definition related (o : object D U) (v : value U) (m : mark) : Prop :=
  o_unit o = v_unit v /\ o_dims o = v_dims v /\ v_array v = meaning o /\ shaped o /\
  (snd m = false -> o_full o = None \/ o_full o = Some (base o)) /\
  (fst m = false -> o_scale o = 1%Qc).

Lemma related_update o v m o' :
  related o v m ->
  o_data o' = o_data o -> o_scale o' = o_scale o -> o_unit o' = o_unit o -> o_dims o' = o_dims o ->
  unscaled o' = unscaled o ->
  (o_full o' = o_full o \/ o_full o' = Some (base o) /\ o_full o = None) ->
  related o' v m.
Proof.
  intros (H1 & H2 & H3 & [H4 H5] & H6 & H7) E1 E2 E3 E4 E5 E6.
  unfold related, ArraySpec.meaning, ArraySpec.shaped. rewrite E1, E2, E3, E4, E5. repeat split; auto.
  intros Hm. destruct E6 as [-> | [-> _]]; auto.
Qed.

Lemma related_made d dims u o v : new_from_data asarray get has_shape d dims u = Ok o ->
  value_make (data_array asarray d) dims u = Ok v -> related o v (false, false).
Proof.
  intros E F. pose proof (new_from_data_ok d dims u) as H. rewrite F in H.
  destruct H as (o' & E' & P1 & P2 & P3 & P4 & P5 & P6 & P7 & P8).
  rewrite E in E'. injection E' as <-.
  assert (Un : unscaled o = base o) by (unfold ArraySpec.unscaled; rewrite P1; destruct P8 as [-> | ->]; reflexivity).
  unfold related, ArraySpec.meaning, ArraySpec.shaped. rewrite Un, P1, P2, P3, P4, P5, P6, scale_one. repeat split; auto.
Qed.

Lemma copy_ok o v m : related o v m ->
  exists n o', new_from_object asarray get has_shape o = (Ok n, o') /\ related o' v m /\
               related n v (false, fst m || snd m).
Proof.
  intros H. pose proof H as (H1 & H2 & H3 & [H4 H5] & H6 & H7).
  unfold new_from_object. destruct (get_array_ok o NAll) as (o' & E & P). rewrite E. cbn [missing].
  set (n := mkObject (o_data o) (Some (meaning o)) 1%Qc (o_unit o) (o_dims o)).
  assert (Sn : shaped n) by (split; [exact H4|exact H5]).
  assert (Rn : related n v (false, fst m || snd m)).
  { unfold related. cbn [o_unit o_dims n]. split; [exact H1|]. split; [exact H2|]. split; [|split; [exact Sn|split; [|reflexivity]]].
    - unfold ArraySpec.meaning at 1, ArraySpec.unscaled. cbn. rewrite scale_one. exact H3.
    - intros Hm. right. cbn [snd] in Hm. apply orb_false_elim in Hm as [M1 M2].
      cbn. f_equal. unfold ArraySpec.meaning. rewrite (H7 M1), scale_one. unfold ArraySpec.unscaled.
      destruct (H6 M2) as [-> | ->]; reflexivity. }
  destruct (get_shape_ok n Sn) as (n' & En & Q). fold n. rewrite En. cbn [o_data n].
  rewrite H5, Nat.eqb_refl. exists n', o'. split; [reflexivity|].
  destruct P as (P1 & P2 & P3 & P4 & P5 & P6). destruct Q as (Q1 & Q2 & Q3 & Q4 & Q5 & Q6).
  split; eapply related_update; eauto.
Qed.

Lemma convert_ok o v m u : related o v m ->
  match value_convert ueq uor ufactor v u with
  | Ok (true, _) => exists x, update_unit asarray get has_shape ueq uor ufactor o u = Ok (true, x)
  | Ok (false, w) =>
      exists n, update_unit asarray get has_shape ueq uor ufactor o u = Ok (false, n) /\
                (snd m = false -> related n w (true, snd m))
  | Err e => update_unit asarray get has_shape ueq uor ufactor o u = Err e
  end.
Proof.
  intros (H1 & H2 & H3 & [H4 H5] & H6 & H7). unfold value_convert, update_unit. rewrite H1.
  destruct (ueq u (v_unit v)) as [e|]; [|reflexivity]. cbn [bind].
  destruct e; [now eexists|].
  destruct (uor (v_unit v) u) as [c|]; [|reflexivity]. cbn [bind].
  destruct c; [|reflexivity]. cbn [negb].
  pose proof (new_from_data_ok (o_data o) (o_dims o) u) as N.
  unfold value_make in N.
  assert (L : match o_dims o with [] => default_dims (length (shape (base o))) | _ => o_dims o end = o_dims o).
  { destruct (o_dims o) eqn:E; [|reflexivity]. rewrite <- H5. reflexivity. }
  rewrite L, H5, Nat.eqb_refl in N.
  destruct N as (n & -> & P1 & P2 & P3 & P4 & P5 & P6 & P7 & P8). cbn [bind].
  destruct (ufactor (v_unit v) u) as [f|]; [|reflexivity]. cbn [bind].
  eexists. split; [reflexivity|]. intros Hm.
  set (k := mkObject _ _ _ _ _).
  assert (Un : unscaled k = base o).
  { unfold ArraySpec.unscaled, k. cbn. rewrite P1. destruct P8 as [-> | ->]; reflexivity. }
  unfold related, ArraySpec.shaped. cbn [snd fst]. repeat split.
  - cbn. exact P3.
  - cbn. rewrite P4. cbn. exact H2.
  - cbn. unfold ArraySpec.meaning. rewrite Un. cbn [o_scale k]. rewrite H3. unfold ArraySpec.meaning, ArraySpec.unscaled.
    rewrite scale_scale. replace (f * o_scale o)%Qc with (o_scale o * f)%Qc by ring.
    destruct (H6 Hm) as [-> | ->]; reflexivity.
  - rewrite Un. cbn. now rewrite P1.
  - cbn. rewrite P4, P1. exact H5.
  - intros _. cbn. rewrite P1. exact P8.
  - discriminate.
Qed.

Lemma subset_ok o v m s : related o v m ->
  exists r o', getitem asarray get has_shape o s = (r, o') /\ related o' v m /\
  match value_subset v s with
  | Ok w => exists n, r = Ok n /\ related n w (false, false)
  | Err e => r = Err e
  end.
Proof.
  intros H. pose proof H as (H1 & H2 & H3 & [H4 H5] & H6 & H7).
  unfold getitem, value_subset.
  assert (Sv : shape (v_array v) = shape (base o)).
  { rewrite H3. unfold ArraySpec.meaning. rewrite shape_scale. exact H4. }
  destruct (get_shape_ok o (conj H4 H5)) as (o1 & E1 & P1 & P2 & P3 & P4 & P5 & P6).
  rewrite E1, Sv. assert (R1 : related o1 v m) by (eapply related_update; eauto).
  destruct (normalize (shape (base o)) (unwrap_subscript s)) as [x|e]; cbn [bind].
  2:{ eexists _, _. split; [reflexivity|]. split; [exact R1|reflexivity]. }
  destruct (get_array_ok o1 x) as (o2 & E2 & Q1 & Q2 & Q3 & Q4 & Q5 & Q6). rewrite E2.
  assert (R2 : related o2 v m) by (eapply related_update; eauto).
  eexists _, _. split; [reflexivity|]. split; [exact R2|].
  replace (if missing x then Ok (meaning o1) else np_get (meaning o1) x) with (value_read v x).
  2:{ unfold value_read. destruct R1 as (_ & _ & -> & _). reflexivity. }
  destruct (value_read v x) as [a|e]; [|reflexivity]. cbn [bind].
  destruct (rebuild (shape (base o)) x a) as [b|e]; [|reflexivity]. cbn [bind].
  pose proof (new_from_data_ok (Memory b) (o_dims o) (o_unit o)) as N. cbn [data_array] in N.
  rewrite <- H1, <- H2. destruct (value_make b (o_dims o) (o_unit o)) as [w|e] eqn:W.
  2:{ rewrite N. reflexivity. }
  destruct N as (n & N & N'). rewrite N. cbn [bind].
  assert (Rn : related n w (false, false)) by (eapply related_made; [exact N|exact W]).
  destruct (copy_ok n w _ Rn) as (n' & n'' & C & _ & Rn'). rewrite C. cbn [fst].
  exists n'. split; [reflexivity|exact Rn'].
Qed.

Definition heaps (h : list (object D U)) (hv : list (value U)) (ms : list mark) : Prop :=
  length h = length hv /\ length ms = length hv /\
  forall k o v, nth_error h k = Some o -> nth_error hv k = Some v -> related o v (nth k ms (false, false)).

Lemma heaps_made h hv ms o v m : heaps h hv ms -> related o v m -> heaps (h ++ [o]) (hv ++ [v]) (ms ++ [m]).
Proof.
  intros (L1 & L2 & H) Ro. split; [rewrite !app_length; cbn; lia|]. split; [rewrite !app_length; cbn; lia|].
  intros k a b Ha Hb. destruct (Nat.lt_trichotomy k (length h)) as [C|[C|C]].
  - rewrite nth_error_app1 in Ha, Hb by lia. rewrite app_nth1 by lia. eauto.
  - rewrite nth_error_app2 in Ha, Hb by lia. rewrite app_nth2 by lia.
    replace (k - length h) with 0 in Ha by lia. replace (k - length hv) with 0 in Hb by lia.
    replace (k - length ms) with 0 by lia. cbn in *. congruence.
  - assert (nth_error (h ++ [o]) k = None) by (apply nth_error_None; rewrite app_length; cbn; lia). congruence.
Qed.
Lemma heaps_replace h hv ms k o v : heaps h hv ms -> nth_error hv k = Some v ->
  related o v (nth k ms (false, false)) -> heaps (replace_nth h k o) hv ms.
Proof.
  intros (L1 & L2 & H) Hk Ro. split; [rewrite replace_length; lia|]. split; [lia|].
  intros j a b Ha Hb. rewrite nth_error_replace in Ha. destruct (Nat.eqb j k) eqn:E; [|eauto].
  apply Nat.eqb_eq in E. subst j. destruct (nth_error h k); cbn in Ha; [|discriminate].
  injection Ha as <-. assert (b = v) by congruence. now subst.
Qed.
Lemma heaps_both h hv ms k : heaps h hv ms ->
  (nth_error h k = None /\ nth_error hv k = None) \/
  (exists o v, nth_error h k = Some o /\ nth_error hv k = Some v /\ related o v (nth k ms (false, false))).
Proof.
  intros (L1 & L2 & H). destruct (nth_error h k) as [o|] eqn:E1, (nth_error hv k) as [v|] eqn:E2.
  - right. eauto 6.
  - apply nth_error_None in E2. assert (k < length h) by (apply nth_error_Some; congruence). lia.
  - apply nth_error_None in E1. assert (k < length hv) by (apply nth_error_Some; congruence). lia.
  - auto.
Qed.

Lemma step_ok h hv ms c : heaps h hv ms ->
  mark_allows ms c (snd (value_step asarray ueq uor ufactor hv c)) ->
  snd (step asarray get has_shape ueq uor ufactor h c) = snd (value_step asarray ueq uor ufactor hv c) /\
  heaps (fst (step asarray get has_shape ueq uor ufactor h c)) (fst (value_step asarray ueq uor ufactor hv c))
    (mark_step ms c (snd (value_step asarray ueq uor ufactor hv c))).
Proof.
  intros Hh. pose proof Hh as (L1 & L2 & _).
  destruct c as [d dims u|k x|k u|k s|k]; cbn [step value_step].
  - intros _. pose proof (new_from_data_ok (Source d) dims u) as N. cbn [data_array] in N.
    destruct (value_make (asarray d) dims u) as [v|e] eqn:V.
    + destruct N as (o & N & _). rewrite N. cbn [made fst snd]. rewrite L1. split; [reflexivity|].
      cbn [mark_step]. rewrite L2, (proj2 (Nat.ltb_ge _ _)) by lia.
      apply heaps_made; [exact Hh|]. eapply related_made; [exact N|exact V].
    + rewrite N. cbn. auto.
  - intros _. destruct (heaps_both h hv ms k Hh) as [[-> ->]|(o & v & E1 & E2 & Ro)]; [cbn; auto|].
    rewrite E1, E2. destruct (get_array_ok o x) as (o' & E & P1 & P2 & P3 & P4 & P5 & P6). rewrite E.
    cbn [fst snd mark_step]. split.
    + unfold value_read. destruct Ro as (_ & _ & -> & _). reflexivity.
    + eapply heaps_replace; eauto. eapply related_update; eauto.
  - destruct (heaps_both h hv ms k Hh) as [[-> ->]|(o & v & E1 & E2 & Ro)]; [cbn; auto|].
    rewrite E1, E2. pose proof (convert_ok o v _ u Ro) as C.
    destruct (value_convert ueq uor ufactor v u) as [[[] w]|e].
    + destruct C as (x & ->). cbn [fst snd mark_step]. intros _. split; [reflexivity|].
      assert (k < length ms) by (rewrite L2; apply nth_error_Some; congruence).
      now rewrite (proj2 (Nat.ltb_lt _ _)).
    + destruct C as (n & -> & Rn). cbn [made fst snd mark_allows mark_step]. intros A.
      rewrite L1. split; [reflexivity|].
      rewrite (proj2 (Nat.ltb_ge _ _)) by lia. apply heaps_made; [exact Hh|].
      apply Rn, A. lia.
    + rewrite C. cbn. auto.
  - intros _. destruct (heaps_both h hv ms k Hh) as [[-> ->]|(o & v & E1 & E2 & Ro)]; [cbn; auto|].
    rewrite E1, E2. destruct (subset_ok o v _ s Ro) as (r & o' & E & Ro' & W). rewrite E.
    assert (Hr : heaps (replace_nth h k o') hv ms) by (eapply heaps_replace; eauto).
    destruct (value_subset v s) as [w|e].
    + destruct W as (n & -> & Rn). cbn [made fst snd mark_step]. rewrite replace_length, L1.
      split; [reflexivity|]. rewrite (proj2 (Nat.ltb_ge _ _)) by lia. now apply heaps_made.
    + subst r. cbn. auto.
  - intros _. destruct (heaps_both h hv ms k Hh) as [[-> ->]|(o & v & E1 & E2 & Ro)]; [cbn; auto|].
    rewrite E1, E2. destruct (copy_ok o v _ Ro) as (n & o' & -> & Ro' & Rn).
    cbn [made fst snd mark_step]. rewrite replace_length, L1. split; [reflexivity|].
    rewrite (proj2 (Nat.ltb_ge _ _)) by lia. apply heaps_made; [|exact Rn]. eapply heaps_replace; eauto.
Qed.

Theorem run_ok l : forall h hv ms, heaps h hv ms -> careful asarray ueq uor ufactor hv ms l ->
  run asarray get has_shape ueq uor ufactor h l = value_run asarray ueq uor ufactor hv l.
Proof.
  induction l as [|c l IH]; intros h hv ms Hh Hc; [reflexivity|].
  cbn [run value_run careful] in *.
  pose proof (step_ok h hv ms c Hh) as S.
  destruct (value_step asarray ueq uor ufactor hv c) as [hv' r].
  destruct Hc as [A Hc]. specialize (S A). destruct (step _ _ _ _ _ _ h c) as [h' r'].
  cbn [fst snd] in S. destruct S as [-> Hh']. f_equal. eapply IH; eauto.
Qed.

Lemma no_copies_careful l : forall hv ms, (forall k, ~ In (Copy k) l) ->
  Forall (fun m => snd m = false) ms -> careful asarray ueq uor ufactor hv ms l.
Proof.
  induction l as [|c l IH]; intros hv ms N F; cbn [careful]; [exact I|].
  destruct (value_step asarray ueq uor ufactor hv c) as [hv' r].
  assert (Z : forall k, snd (nth k ms (false, false)) = false).
  { intros k. destruct (Nat.lt_ge_cases k (length ms)) as [C|C].
    - rewrite Forall_forall in F. apply F, nth_In, C.
    - now rewrite nth_overflow. }
  split.
  - destruct c, r as [|[]]; cbn; auto.
  - apply IH; [intros k Hk; apply (N k); now right|].
    unfold mark_step. destruct r as [|[k'|]]; auto. destruct (Nat.ltb _ _); auto.
    destruct c; try (apply Forall_app; split; auto; constructor; cbn; auto).
    exfalso. eapply N. now left.
Qed.

Theorem run_no_copies l : no_copies l ->
  run asarray get has_shape ueq uor ufactor [] l = value_run asarray ueq uor ufactor [] l.
Proof.
  intros N. apply run_ok with (ms := []).
  - split; [reflexivity|]. split; [reflexivity|]. intros [|k]; discriminate.
  - apply no_copies_careful; auto.
Qed.
Theorem run_careful l : careful asarray ueq uor ufactor [] [] l ->
  run asarray get has_shape ueq uor ufactor [] l = value_run asarray ueq uor ufactor [] l.
Proof.
  apply run_ok with (ms := []). split; [reflexivity|]. split; [reflexivity|]. intros [|k]; discriminate.
Qed.
End Histories.
