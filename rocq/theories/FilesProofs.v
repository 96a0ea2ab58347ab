(** Proofs about files and datasets. *)

From Coq Require Import String Ascii List Bool Lia Arith.
From Verif Require Import Py PyFacts PyDict FilesModel FilesSpec.
From Verif Require AliasedModel AliasedSpec AliasedProofs AliasedGroupProofs AliasedMapProofs AliasedMoreProofs MetricModel ObserverModel ObserverSpec ObserverProofs.
Import ListNotations.
Open Scope list_scope.
Open Scope nat_scope.
Open Scope py_scope.

(** * Text *)

Lemma prefix_begins c : forall s, MetricModel.is_prefix c s = true <-> begins c s.
Proof.
  induction c as [|x c IH]; intros s; simpl.
  - split; [exists s; reflexivity|auto].
  - destruct s as [|y s].
    + split; [discriminate|intros (t & E); discriminate].
    + rewrite andb_true_iff, IH. split.
      * intros [E (t & ->)]. apply Ascii.eqb_eq in E as ->. now exists t.
      * intros (t & E). injection E as -> ->. split; [apply Ascii.eqb_refl|now exists t].
Qed.

Lemma begins_app c s t : length c <= length s -> begins c (s ++ t) -> begins c s.
Proof.
  revert s. induction c as [|x c IH]; intros s L (r & E); [now exists s|].
  destruct s as [|y s]; [simpl in L; lia|]. simpl in E. injection E as -> E.
  destruct (IH s) as (q & ->); [simpl in L; lia|now exists r|]. now exists q.
Qed.

Lemma begins_both c d s : begins c s -> begins d s -> begins c d \/ begins d c.
Proof.
  revert d s. induction c as [|x c IH]; intros d s (t & E) (r & F); [left; now exists d|].
  destruct d as [|y d]; [right; now exists (x :: c)|]. subst s. simpl in F. injection F as <- F.
  destruct (IH d (c ++ t)) as [(q & ->)|(q & ->)]; [now exists t|now exists r|left; now exists q|right; now exists q].
Qed.

Lemma before_spec c s : c <> [] -> exists rest, s = before c s ++ rest /\ (rest = [] \/ begins c rest)
  /\ forall u v, before c s = u ++ v -> v <> [] -> ~ begins c (v ++ rest).
Proof.
  intros N. induction s as [|x s IH]; [exists []; simpl; repeat split; auto|].
  - intros u v E Nv. destruct u, v; try discriminate; congruence.
  - cbn [before]. destruct (MetricModel.is_prefix c (x :: s)) eqn:E.
    + exists (x :: s). split; [reflexivity|]. split; [right; now apply prefix_begins|].
      intros u v F Nv. destruct u, v; try discriminate; congruence.
    + destruct IH as (rest & S1 & S2 & S3). exists rest. simpl. split; [now rewrite <- S1|]. split; [exact S2|].
      intros u v F Nv B. destruct u as [|y u].
      * simpl in F. subst v. simpl in B. rewrite <- S1 in B. apply prefix_begins in B. congruence.
      * simpl in F. injection F as <- F. exact (S3 u v F Nv B).
Qed.

Lemma before_keeps c s : ~ occurs c s -> before c s = s.
Proof.
  induction s as [|x s IH]; intros N; [reflexivity|]. cbn [before].
  destruct (MetricModel.is_prefix c (x :: s)) eqn:E.
  - apply prefix_begins in E as (t & E). exfalso. apply N. exists [], t. exact E.
  - f_equal. apply IH. intros (u & v & E'). apply N. exists (x :: u), v. simpl. now rewrite E'.
Qed.

(** What is left after the signs in [done] have been cut. *)
Definition cut_state (done : list str) (s0 s : str) : Prop :=
  exists r, s0 = s ++ r
  /\ (r = [] \/ exists c, In c done /\ begins c r /\ forall u v, s = u ++ v -> v <> [] -> ~ begins c (v ++ r))
  /\ (forall d, In d done -> ~ occurs d s).

Lemma cut_step done s0 s c : c <> [] -> cut_state done s0 s -> cut_state (done ++ [c]) s0 (before c s).
Proof.
  intros N (r & E & R & D). destruct (before_spec c s N) as (q & Q1 & Q2 & Q3).
  exists (q ++ r). split; [rewrite app_assoc, <- Q1; exact E|]. split.
  - destruct Q2 as [->|B].
    + rewrite app_nil_r in Q1. simpl. destruct R as [->|(d & I & B & F)]; [now left|right].
      exists d. split; [apply in_or_app; now left|]. split; [exact B|]. rewrite <- Q1. exact F.
    + right. exists c. split; [apply in_or_app; right; now left|]. split.
      * destruct B as (t & ->). exists (t ++ r). now rewrite app_assoc.
      * intros u v F Nv G. apply (Q3 u v F Nv). rewrite app_assoc in G. apply begins_app with r; [|exact G].
        destruct B as (t & ->). rewrite !app_length. lia.
  - intros d I (u & v & F). apply in_app_iff in I as [I|[<-|[]]].
    + apply (D d I). exists u, (v ++ q). rewrite Q1, F, <- !app_assoc. reflexivity.
    + apply (Q3 u (c ++ v) F); [destruct c; [congruence|discriminate]|].
      exists (v ++ q). now rewrite app_assoc.
Qed.

Lemma cut_all_state signs : forall done s0 s, Forall (fun c => c <> []) signs -> cut_state done s0 s ->
  exists t, cut_all signs s = Ok t /\ cut_state (done ++ signs) s0 t.
Proof.
  induction signs as [|c l IH]; intros done s0 s F C; [exists s; rewrite app_nil_r; auto|].
  inversion F as [|? ? Nc Fl]; subst. destruct (IH (done ++ [c]) s0 (before c s) Fl) as (t & E & G); [now apply cut_step|].
  exists t. rewrite <- app_assoc in G. split; [|exact G]. destruct c; [congruence|exact E].
Qed.

Lemma cut_all_spec signs s : Forall (fun c => c <> []) signs -> exists t, cut_all signs s = Ok t /\ cut_state signs s t.
Proof.
  intros F. apply (cut_all_state signs [] s s F). exists []. rewrite app_nil_r. split; [auto|]. split; [now left|contradiction].
Qed.

Lemma cut_state_before signs s t : Forall (fun c => c <> []) signs -> apart signs -> cut_state signs s t -> before_signs signs s t.
Proof.
  intros F A (r & E & R & D). exists r. split; [exact E|]. split.
  - destruct R as [->|(c & I & B & _)]; [now left|right; now exists c].
  - intros u v G Nv (d & I & B). destruct (le_lt_dec (length d) (length v)) as [L|L].
    + apply begins_app in B as (w & ->); [|exact L]. apply (D d I). exists u, w. exact G.
    + destruct (begins_both d v (v ++ r) B) as [(w & W)|(w & W)]; [now exists r| |].
      * rewrite W, app_length in L. lia.
      * assert (w <> []) as Nw by (intros ->; rewrite app_nil_r in W; subst d; lia).
        assert (begins w r) as Bw. { destruct B as (z & Z). rewrite W, <- app_assoc in Z. apply app_inv_head in Z. now exists z. }
        destruct R as [->|(c & J & Bc & Fc)]; [destruct Bw as (z & Z); destruct w; [congruence|discriminate]|].
        destruct (list_eq_dec ascii_dec c d) as [->|Ncd]; [exact (Fc u v G Nv B)|].
        destruct (A c d v w J I Ncd W Nv Nw) as [A1 A2]. destruct (begins_both c w r Bc Bw); contradiction.
Qed.

Lemma begins_eq {c d s} : begins c s -> begins d s -> length c = length d -> c = d.
Proof.
  intros B C L. destruct (begins_both c d s B C) as [(t & E)|(t & E)]; rewrite E, app_length in L; destruct t; simpl in L; try lia;
    rewrite app_nil_r in E; congruence.
Qed.

Lemma before_signs_le signs s t1 t2 : before_signs signs s t1 -> before_signs signs s t2 -> length t1 <= length t2.
Proof.
  intros (r1 & E1 & R1 & F1) (r2 & E2 & R2 & F2). destruct (le_lt_dec (length t1) (length t2)) as [|L]; [auto|exfalso].
  assert (begins t2 t1) as (w & W).
  { destruct (begins_both t1 t2 s) as [(w & W)|B]; [now exists r1|now exists r2| |exact B]. rewrite W, app_length in L. lia. }
  assert (w <> []) as Nw by (intros ->; rewrite app_nil_r in W; subst; lia).
  assert (r2 = w ++ r1) as -> by (rewrite E1, W, <- app_assoc in E2; now apply app_inv_head in E2).
  destruct R2 as [R2|R2]; [destruct w; [congruence|discriminate]|]. exact (F1 t2 w W Nw R2).
Qed.

Lemma before_signs_unique signs s t1 t2 : before_signs signs s t1 -> before_signs signs s t2 -> t1 = t2.
Proof.
  intros B1 B2. pose proof (before_signs_le _ _ _ _ B1 B2). pose proof (before_signs_le _ _ _ _ B2 B1).
  destruct B1 as (r1 & E1 & _), B2 as (r2 & E2 & _). apply (@begins_eq t1 t2 s); [now exists r1|now exists r2|lia].
Qed.

Lemma lstrip_suffix s : exists a, s = a ++ lstrip s.
Proof. induction s as [|c s [a IH]]; [now exists []|]. simpl. destruct (is_space c); [exists (c :: a); simpl; now rewrite <- IH|now exists []]. Qed.
Lemma strip_infix s : exists a b, s = a ++ strip s ++ b.
Proof.
  destruct (lstrip_suffix s) as [a A]. destruct (lstrip_suffix (rev (lstrip s))) as [b B]. exists a, (rev b).
  rewrite A at 1. f_equal. unfold strip, rstrip. rewrite <- (rev_involutive (lstrip s)) at 1. rewrite B at 1. apply rev_app_distr.
Qed.
Lemma lstrip_head s : match lstrip s with c :: _ => is_space c = false | [] => True end.
Proof. induction s as [|c s IH]; simpl; [auto|]. destruct (is_space c) eqn:E; auto. Qed.
Lemma lstrip_last c : is_space c = false -> forall s, exists x, lstrip (s ++ [c]) = x ++ [c].
Proof.
  intros N. induction s as [|d s [x IH]]; simpl; [rewrite N; now exists []|].
  destruct (is_space d); [now exists x|now exists (d :: s)].
Qed.
Lemma strip_twice s : strip (strip s) = strip s.
Proof.
  apply strip_id.
  - unfold strip, rstrip. pose proof (lstrip_head s) as H. destruct (lstrip s) as [|c t]; [exact I|].
    simpl. destruct (lstrip_last c H (rev t)) as [x ->]. rewrite rev_app_distr. exact H.
  - unfold strip, rstrip. rewrite rev_involutive. exact (lstrip_head (rev (lstrip s))).
Qed.
Lemma occurs_strip c s : occurs c (strip s) -> occurs c s.
Proof.
  intros (u & v & E). destruct (strip_infix s) as (a & b & S). exists (a ++ u), (v ++ b).
  rewrite S, E, <- !app_assoc. reflexivity.
Qed.
Lemma cut_all_keeps signs : forall s, Forall (fun c => c <> []) signs -> (forall c, In c signs -> ~ occurs c s) -> cut_all signs s = Ok s.
Proof.
  induction signs as [|c l IH]; intros s F N; [reflexivity|]. inversion F as [|? ? Nc Fl]; subst. simpl.
  destruct c; [congruence|]. rewrite before_keeps by (apply N; now left). apply IH; [exact Fl|]. intros d I. apply N. now right.
Qed.

(** * Lines *)

Section Lines.
Context {M K V : Type} (keq : K -> K -> bool) (keq_spec : forall a b, reflect (a = b) (keq a b)).
Context (match_line : str -> option M) (parse : M -> res (K * V)).
Definition parsed (line : str) : list (res (K * V)) := match match_line line with Some m => [parse m] | None => [] end.

Lemma matched_map lines : map parse (concat (map (fun m => match m with Some x => [x] | None => [] end) (map match_line lines)))
  = concat (map parsed lines).
Proof.
  induction lines as [|x l IH]; simpl; [reflexivity|]. rewrite map_app, IH. f_equal. unfold parsed. now destruct (match_line x).
Qed.
Lemma mapM_map {A B} (f : A -> res B) l r : mapM f l = Ok r <-> map f l = map Ok r.
Proof.
  revert r. induction l as [|x l IH]; intros r; simpl.
  - split; [intros E; injection E as <-; reflexivity|]. destruct r; [reflexivity|discriminate].
  - destruct (f x) as [y|e] eqn:E; simpl; [|split; [discriminate|destruct r; discriminate]].
    destruct (mapM f l) as [r'|e'] eqn:F; simpl.
    + split.
      * intros H. injection H as <-. simpl. f_equal. now apply IH.
      * destruct r as [|z r]; [discriminate|]. simpl. intros H. injection H as -> H. apply IH in H. congruence.
    + split; [discriminate|]. destruct r as [|z r]; [discriminate|]. simpl. intros H. injection H as -> H. apply IH in H. discriminate.
Qed.

Lemma concat_parsed_split lines p r : forall q, concat (map parsed lines) = map Ok (p ++ q :: r) ->
  exists l1 x l2, lines = l1 ++ x :: l2 /\ parsed x = [Ok q] /\ concat (map parsed l2) = map Ok r.
Proof.
  revert p. induction lines as [|x l IH]; intros p q E; simpl in E; [destruct p; discriminate|].
  destruct (parsed x) as [|y [|? ?]] eqn:P.
  - simpl in E. destruct (IH p q E) as (l1 & z & l2 & -> & A & B). exists (x :: l1), z, l2. auto.
  - destruct p as [|q' p]; simpl in E; injection E as -> E.
    + exists [], x, l. auto.
    + destruct (IH p q E) as (l1 & z & l2 & -> & A & B). exists (x :: l1), z, l2. auto.
  - unfold parsed in P. destruct (match_line x); discriminate.
Qed.

Lemma get_app (r e : list (K * V)) k : d_get keq (r ++ e) k = match d_get keq r k with Some v => Some v | None => d_get keq e k end.
Proof. induction r as [|[a b] r IHr]; simpl; auto. now destruct (keq k a). Qed.
Lemma get_rev_last (l : list (K * V)) k : match d_get keq (rev l) k with
  | Some v => exists l1 l2, l = l1 ++ (k, v) :: l2 /\ ~ In k (map fst l2)
  | None => ~ In k (map fst l)
  end.
Proof.
  induction l as [|[h v] l IH]; simpl; [tauto|].
  rewrite get_app. simpl. destruct (d_get keq (rev l) k) as [w|].
  - destruct IH as (l1 & l2 & -> & N). exists ((h, v) :: l1), l2. auto.
  - destruct (keq_spec k h) as [->|Nk]; [exists [], l; auto|]. intros [E|I]; [congruence|contradiction].
Qed.

Lemma in_parsed l kv : (exists m, match_line l = Some m /\ parse m = Ok kv) <-> parsed l = [Ok kv].
Proof.
  unfold parsed. destruct (match_line l) as [m|].
  - split; [intros (m' & E & F); injection E as <-; now rewrite F|intros E; injection E as E; eauto].
  - split; [intros (m' & E & _); discriminate|discriminate].
Qed.

Lemma extract_spec lines :
  (forall l m, In l lines -> match_line l = Some m -> exists kv, parse m = Ok kv) ->
  exists d, extract keq match_line parse lines = Ok d /\ NoDup (map fst d)
  /\ forall k v, d_get keq d k = Some v <->
       exists l1 l l2 m, lines = l1 ++ l :: l2 /\ match_line l = Some m /\ parse m = Ok (k, v)
         /\ forall l' m' w, In l' l2 -> match_line l' = Some m' -> parse m' <> Ok (k, w).
Proof.
  intros H. unfold extract.
  destruct (mapM parse (concat (map (fun m => match m with Some x => [x] | None => [] end) (map match_line lines)))) as [ps|e] eqn:E.
  2:{ exfalso. assert (exists r, map parse (concat (map (fun m => match m with Some x => [x] | None => [] end) (map match_line lines))) = map Ok r) as [r R].
      { rewrite matched_map. clear E. induction lines as [|x l IH]; [now exists []|]. destruct IH as [r R]; [intros; eapply H; eauto; now right|].
        simpl. rewrite R. unfold parsed. destruct (match_line x) as [m|] eqn:F; [|now exists r].
        destruct (H x m) as [kv ->]; [now left|exact F|]. now exists (kv :: r). }
      apply mapM_map in R. congruence. }
  simpl. eexists. split; [reflexivity|]. split; [now apply d_of_NoDup|]. intros k v.
  apply mapM_map in E. rewrite matched_map in E. rewrite d_of_get by exact keq_spec. pose proof (get_rev_last ps k) as G. split.
  - intros D. rewrite D in G. destruct G as (p & r & -> & N). destruct (concat_parsed_split _ _ _ _ E) as (l1 & l & l2 & -> & P & C).
    apply in_parsed in P as (m & Pm & Pk). exists l1, l, l2, m. split; [reflexivity|]. split; [exact Pm|]. split; [exact Pk|].
    intros l' m' w I M' F. apply N. assert (In (Ok (k, w)) (map Ok r)) as J.
    { rewrite <- C. apply in_concat. exists (parsed l'). split; [now apply in_map|].
      assert (parsed l' = [Ok (k, w)]) as -> by (apply in_parsed; eauto). now left. }
    apply in_map_iff in J as (kv & J1 & J2). injection J1 as ->. now apply (in_map fst) in J2.
  - intros (l1 & l & l2 & m & -> & Pm & Pk & N). rewrite map_app, concat_app in E. simpl in E.
    assert (parsed l = [Ok (k, v)]) as P by (apply in_parsed; eauto). rewrite P in E. simpl in E.
    symmetry in E. apply map_eq_app in E as (p & r' & -> & E1 & E2). apply map_eq_cons in E2 as (q & r & -> & E2 & E3). injection E2 as ->.
    assert (~ In k (map fst r)) as Nr.
    { intros I. apply in_map_iff in I as ([k' w] & K' & I). simpl in K'. subst k'. apply (in_map Ok) in I. rewrite E3 in I.
      apply in_concat in I as (x & I1 & I2). apply in_map_iff in I1 as (l' & <- & I1).
      unfold parsed in I2. destruct (match_line l') as [m'|] eqn:M'; [|contradiction]. destruct I2 as [I2|[]].
      exact (N l' m' w I1 M' I2). }
    destruct (d_get keq (rev (p ++ (k, v) :: r)) k) as [w|] eqn:D.
    + rewrite rev_app_distr in D. simpl in D. rewrite <- app_assoc in D.
      rewrite get_app in D. assert (d_get keq (rev r) k = None) as D0.
      { apply d_get_none; [exact keq_spec|]. rewrite map_rev. intros I. apply in_rev in I. contradiction. }
      rewrite D0 in D. simpl in D. destruct (keq_spec k k); [now symmetry|congruence].
    + exfalso. apply G. rewrite map_app. apply in_or_app. right. now left.
Qed.

Lemma extract_fails lines l m e : In l lines -> match_line l = Some m -> parse m = Err e ->
  exists e', extract keq match_line parse lines = Err e'.
Proof.
  intros I M' P. unfold extract.
  destruct (mapM parse (concat (map (fun m => match m with Some x => [x] | None => [] end) (map match_line lines)))) as [ps|e'] eqn:E; [exfalso|simpl; eauto].
  apply mapM_map in E. rewrite matched_map in E. assert (In (Err e) (map Ok ps)) as J.
  { rewrite <- E. apply in_concat. exists (parsed l). split; [now apply in_map|]. unfold parsed. rewrite M', P. now left. }
  apply in_map_iff in J as (x & J & _). discriminate.
Qed.
End Lines.

(** * Paths *)

Section Paths.
Context (exists_ is_dir : str -> bool) (resolve : str -> str) (join : str -> str -> str).
Notation has_file := (has_file exists_ is_dir resolve join).

Lemma search_spec file paths : (forall p, In p paths -> exists_ (resolve p) = true) ->
  exists r, first_such (has_file file) paths r
    /\ search exists_ is_dir resolve join paths file = Ok (option_map (fun p => join (resolve p) file) r).
Proof.
  induction paths as [|p l IH]; intros H; [exists None; split; [intros ? []|reflexivity]|].
  simpl. unfold read_only_path. rewrite H by now left. simpl.
  destruct (is_dir (resolve p)) eqn:D, (exists_ (join (resolve p) file)) eqn:E; simpl.
  1:{ exists (Some p). split; [|reflexivity]. exists [], l. repeat split; auto; intros ? []. }
  all: destruct IH as (r & F & G); [intros; apply H; now right|]; exists r; (split; [|exact G]); destruct r as [x|];
    [destruct F as (l1 & l2 & -> & P & N); exists (p :: l1), l2; split; [reflexivity|]; split; [exact P|];
     intros y [<-|I]; [intros [A B]; congruence|auto]
    |intros y [<-|I]; [intros [A B]; congruence|auto]].
Qed.

Lemma search_missing file p l : exists_ (resolve p) = false ->
  search exists_ is_dir resolve join (p :: l) file = Err NonExistentPathError.
Proof. intros E. simpl. unfold read_only_path. now rewrite E. Qed.

Lemma first_existing_spec d files :
  exists r, first_such (fun f => exists_ (join d f) = true) files r /\ first_existing exists_ join d files = option_map (join d) r.
Proof.
  induction files as [|f l (r & F & G)]; [exists None; split; [intros ? []|reflexivity]|]. simpl.
  destruct (exists_ (join d f)) eqn:E.
  - exists (Some f). split; [|reflexivity]. exists [], l. repeat split; auto; intros ? [].
  - exists r. split; [|exact G]. destruct r as [x|].
    + destruct F as (l1 & l2 & -> & P & N). exists (f :: l1), l2. split; [reflexivity|]. split; [exact P|]. intros y [<-|I]; [congruence|auto].
    + intros y [<-|I]; [congruence|auto].
Qed.
End Paths.

(** * Objects *)

Lemma arg_eqb_spec a b : reflect (a = b) (arg_eqb a b).
Proof.
  destruct a as [s|s], b as [t|t]; simpl; try (constructor; congruence);
    destruct (str_eqb_spec s t) as [->|N]; constructor; congruence.
Qed.

Section Instances.
Context {C : Type} (create : C -> arg -> res unit).
Notation state := (@cache C * nat)%type.
Lemma call_mono (s : state) c b a o : d_get arg_eqb (fst s) a = Some o -> d_get arg_eqb (fst (snd (call create s c b))) a = Some o.
Proof.
  intros G. unfold call. destruct b as [b|]; [|exact G]. destruct (d_get arg_eqb (fst s) b) as [o'|] eqn:B; [exact G|].
  destruct (create c b); [|exact G]. simpl. rewrite (d_get_set_other _ arg_eqb_spec); [exact G|congruence].
Qed.
Lemma call_stores (s : state) c a o : fst (call create s c (Some a)) = Ok o -> d_get arg_eqb (fst (snd (call create s c (Some a)))) a = Some o.
Proof.
  unfold call. destruct (d_get arg_eqb (fst s) a) as [o'|] eqn:B; simpl; [intros E; injection E as <-; exact B|].
  destruct (create c a); simpl; [|discriminate]. intros E. injection E as <-. apply (d_get_set_same _ arg_eqb_spec).
Qed.
Lemma calls_stored l : forall (s : state) a o j d, d_get arg_eqb (fst s) a = Some o -> nth_error l j = Some (d, Some a) ->
  nth_error (calls create s l) j = Some (Ok o).
Proof.
  induction l as [|[c b] l IH]; intros s a o j d G N; [destruct j; discriminate|]. simpl.
  destruct (call create s c b) as [r s'] eqn:E. destruct j as [|j]; simpl in *.
  - injection N as -> ->. unfold call in E. rewrite G in E. injection E as <- _. reflexivity.
  - apply IH with a d; [|exact N]. pose proof (call_mono s c b a o G) as M. now rewrite E in M.
Qed.
Lemma calls_same l : forall (s : state) a o i j c d, i <= j ->
  nth_error l i = Some (c, Some a) -> nth_error l j = Some (d, Some a) ->
  nth_error (calls create s l) i = Some (Ok o) -> nth_error (calls create s l) j = Some (Ok o).
Proof.
  induction l as [|[b x] l IH]; intros s a o i j c d L I J R; [destruct i; discriminate|].
  destruct j as [|j]; [assert (i = 0) as -> by lia; exact R|]. simpl in *. destruct (call create s b x) as [r s'] eqn:E.
  destruct i as [|i]; simpl in *.
  - injection I as -> ->. injection R as ->. apply calls_stored with a d; [|exact J].
    pose proof (call_stores s c a o) as M. rewrite E in M. now apply M.
  - apply IH with a i c d; auto. lia.
Qed.
Definition separate (s : state) : Prop :=
  (forall a o, d_get arg_eqb (fst s) a = Some o -> snd o < snd s)
  /\ forall a b o p, d_get arg_eqb (fst s) a = Some o -> d_get arg_eqb (fst s) b = Some p -> snd o = snd p -> a = b.
Lemma call_separate s c x : separate s -> separate (snd (call create s c x)).
Proof.
  intros [B U]. unfold call. destruct x as [x|]; [|split; assumption].
  destruct (d_get arg_eqb (fst s) x) as [q|] eqn:G; [split; assumption|]. destruct (create c x) as [tt_|]; [|split; assumption].
  simpl. split; simpl.
  - intros a o. rewrite (d_get_set _ arg_eqb_spec). destruct (arg_eqb_spec a x); intros E; [injection E as <-; simpl; lia|apply B in E; lia].
  - intros a b o p. rewrite !(d_get_set _ arg_eqb_spec).
    destruct (arg_eqb_spec a x) as [->|Na], (arg_eqb_spec b x) as [->|Nb]; intros E F W; auto.
    + injection E as <-. apply B in F. simpl in W. lia.
    + injection F as <-. apply B in E. simpl in W. lia.
    + eauto.
Qed.
(** A later state keeps the objects. *)
Lemma calls_final l : forall s : state, separate s -> exists s', separate s'
  /\ (forall a o, d_get arg_eqb (fst s) a = Some o -> d_get arg_eqb (fst s') a = Some o)
  /\ forall i c a o, nth_error l i = Some (c, Some a) -> nth_error (calls create s l) i = Some (Ok o) -> d_get arg_eqb (fst s') a = Some o.
Proof.
  induction l as [|[c x] l IH]; intros s W; [exists s; split; [exact W|]; split; [auto|intros [|i]; discriminate]|].
  simpl. destruct (call create s c x) as [r s1] eqn:E.
  destruct (IH s1) as (s' & W' & K & R); [pose proof (call_separate s c x W) as M; now rewrite E in M|].
  exists s'. split; [exact W'|]. split.
  - intros a o G. apply K. pose proof (call_mono s c x a o G) as M. now rewrite E in M.
  - intros [|i] d a o; simpl; intros I J.
    + injection I as -> ->. injection J as ->. apply K. pose proof (call_stores s d a o) as M. rewrite E in M. now apply M.
    + eauto.
Qed.
Lemma separate_start : separate ([], 0).
Proof. split; simpl; discriminate. Qed.
Lemma calls_class l c : (forall d x, In (d, x) l -> d = c) -> forall s : state, (forall a o, d_get arg_eqb (fst s) a = Some o -> fst o = c) ->
  forall o, In (Ok o) (calls create s l) -> fst o = c.
Proof.
  induction l as [|[d x] l IH]; intros H s K o; [contradiction|]. simpl. destruct (call create s d x) as [r s1] eqn:E.
  assert (d = c) as -> by (apply (H d x); now left).
  assert ((forall o, r = Ok o -> fst o = c) /\ forall a o, d_get arg_eqb (fst s1) a = Some o -> fst o = c) as [R K'].
  { unfold call in E. destruct x as [x|]; [|injection E as <- <-; split; [discriminate|exact K]].
    destruct (d_get arg_eqb (fst s) x) as [q|] eqn:G; [injection E as <- <-; split; [intros p F; injection F as <-; eauto|exact K]|].
    destruct (create c x) as [tt_|]; injection E as <- <-; [|split; [discriminate|exact K]]. split; [intros p F; injection F as <-; reflexivity|].
    simpl. intros a p. rewrite (d_get_set _ arg_eqb_spec). destruct (arg_eqb_spec a x); intros F; [injection F as <-; reflexivity|eauto]. }
  intros [->|I]; [now apply R|]. apply IH with s1; auto. intros d' y J. apply (H d' y). now right.
Qed.
End Instances.

(** * Viewers *)

Section Viewers.
Context {viewer : Type}.
Implicit Types (w : world viewer) (v : viewer).
Lemma use_datasets w i g v : w_datasets (snd (use w i g v)) = w_datasets w.
Proof. unfold use. destruct (nth_error _ i); [|reflexivity]. now destruct (d_get _ _ _). Qed.
Lemma use_viewers w i g v d : nth_error (w_datasets w) i = Some d -> forall s,
  d_get str_eqb (w_viewers (snd (use w i g v))) s
  = match d_get str_eqb (w_viewers w) s with
    | Some m => Some (if str_eqb s (ds_suffix d) then d_set str_eqb m g v else m)
    | None => None
    end.
Proof.
  intros N s. unfold use. rewrite N. destruct (d_get str_eqb (w_viewers w) (ds_suffix d)) as [m|] eqn:G; simpl.
  - rewrite (d_get_set _ str_eqb_spec). destruct (str_eqb_spec s (ds_suffix d)) as [->|Ns]; [now rewrite G|].
    now destruct (d_get str_eqb (w_viewers w) s).
  - destruct (str_eqb_spec s (ds_suffix d)) as [->|Ns]; [now rewrite G|]. now destruct (d_get str_eqb (w_viewers w) s).
Qed.
Lemma set_nth_same {A} (l : list A) i x y : nth_error l i = Some y -> nth_error (set_nth l i x) i = Some x.
Proof. revert i. induction l as [|z l IH]; intros [|i] E; try discriminate; [reflexivity|]. simpl in *. now apply IH. Qed.
Lemma set_nth_other {A} (l : list A) i j x : i <> j -> nth_error (set_nth l i x) j = nth_error l j.
Proof. revert i j. induction l as [|z l IH]; intros [|i] [|j] N; simpl; try reflexivity; [congruence|]. apply IH. congruence. Qed.

(** After it has been read, a dataset stays with its viewer. *)
Lemma access_made w i g v : fst (access w i g) = Ok v ->
  exists d, nth_error (w_datasets (snd (access w i g))) i = Some d /\ d_get str_eqb (ds_made d) g = Some v.
Proof.
  unfold access. destruct (nth_error (w_datasets w) i) as [d|] eqn:N; [|discriminate].
  destruct (d_get str_eqb (ds_made d) g) as [v'|] eqn:M; simpl; [intros E; injection E as <-; eauto|].
  destruct (d_get str_eqb (w_viewers w) (ds_suffix d)) as [m|]; [|discriminate].
  destruct (d_get str_eqb m g) as [v'|]; simpl; [|discriminate]. intros E. injection E as <-.
  eexists. split; [eapply set_nth_same; eauto|]. simpl. apply (d_get_set_same _ str_eqb_spec).
Qed.
End Viewers.

(** * Variables *)

Section Variables.
Context (mkset : list str -> list str) (order : AliasedSpec.set_order mkset).
Lemma alias_groups_In g : In g (alias_groups mkset) <-> exists h, In h ObserverModel.reference /\ g = mkset h.
Proof.
  unfold alias_groups, AliasedModel.groups_init. rewrite map_map, in_map_iff. split; intros (h & A & B); exists h; auto.
Qed.
Lemma alias_groups_member g a : In g (alias_groups mkset) -> In a g -> exists h, In h ObserverModel.reference /\ g = mkset h /\ In a h.
Proof. intros I J. apply alias_groups_In in I as (h & I & ->). exists h. repeat split; auto. now apply (proj2 (order h)). Qed.
Lemma together_same a b : AliasedSpec.together (alias_groups mkset) a b \/ a = b <-> ObserverSpec.same_name a b.
Proof.
  split.
  - intros [(g & I & A & B)| ->]; [|now left]. right. apply alias_groups_In in I as (h & I & ->). exists h.
    apply (proj2 (order h)) in A. apply (proj2 (order h)) in B. auto.
  - intros [->|(h & I & A & B)]; [now right|left]. exists (mkset h). split; [apply alias_groups_In; eauto|]. split; apply (proj2 (order h)); assumption.
Qed.
Lemma disjoint_map (gs : list (list str)) : NoDup (concat gs) -> AliasedSpec.disjoint (map mkset gs).
Proof.
  unfold AliasedSpec.disjoint. induction gs as [|g gs IH]; intros N; simpl; [constructor|]. simpl in N. constructor.
  - apply Forall_forall. intros h I a A B. apply in_map_iff in I as (k & <- & I). apply (proj2 (order g)) in A. apply (proj2 (order k)) in B.
    eapply NoDup_app_disj; [exact N|exact A|]. apply in_concat. eauto.
  - apply IH. eapply NoDup_app_r; eauto.
Qed.
Lemma alias_groups_disjoint : AliasedSpec.disjoint (alias_groups mkset).
Proof.
  unfold alias_groups, AliasedModel.groups_init. rewrite map_map. apply (disjoint_map ObserverModel.reference).
  apply ObserverProofs.distinct_NoDup, ObserverProofs.reference_distinct.
Qed.

Lemma same_name_dec a b : {ObserverSpec.same_name a b} + {~ ObserverSpec.same_name a b}.
Proof.
  destruct (str_eq_dec a b) as [->|N]; [left; now left|].
  destruct (existsb (fun g => existsb (str_eqb a) g && existsb (str_eqb b) g) ObserverModel.reference) eqn:E; [left|right].
  - right. apply existsb_exists in E as (g & I & E). apply andb_true_iff in E as [A B].
    apply existsb_exists in A as (a' & A & A'). apply existsb_exists in B as (b' & B & B').
    destruct (str_eqb_spec a a') as [<-|], (str_eqb_spec b b') as [<-|]; try discriminate. eauto.
  - intros [X|(g & I & A & B)]; [contradiction|].
    assert (existsb (fun g => existsb (str_eqb a) g && existsb (str_eqb b) g) ObserverModel.reference = true); [|congruence].
    apply existsb_exists. exists g. split; [exact I|]. apply andb_true_iff. split; apply existsb_exists.
    + exists a. split; [exact A|]. now destruct (str_eqb_spec a a).
    + exists b. split; [exact B|]. now destruct (str_eqb_spec b b).
Qed.
Lemma variables_spec members : NoDup (map fst members) -> unambiguous (map fst members) ->
  let m := variables mkset members in
  AliasedSpec.consistent m
  /\ (forall k r a, In (k, r) members -> ObserverSpec.same_name k a -> AliasedModel.getitem m a = Ok (view k r))
  /\ (forall a, (forall k, In k (map fst members) -> ~ ObserverSpec.same_name k a) -> AliasedModel.getitem m a = Err KeyError)
  /\ Forall2 (fun k g => forall a, In a g <-> ObserverSpec.same_name k a) (map fst members) (available_grouped mkset members).
Proof.
  intros N U m. set (l := map (fun p => (fst p, view (fst p) (snd p))) members).
  assert (map fst l = map fst members) as Ml by (unfold l; rewrite map_map; reflexivity).
  destruct (@AliasedMoreProofs.with_groups_spec mkset order _ l (alias_groups mkset)) as (C & G & E & Z).
  - now rewrite Ml.
  - exact alias_groups_disjoint.
  - rewrite Ml. intros g a b I A B Ia Ib. apply U; auto. apply together_same. left. now exists g.
  - split; [exact C|]. split; [|split].
    + intros k r a I S. apply (G k (view k r) a).
      * unfold l. apply in_map_iff. exists (k, r). auto.
      * apply together_same in S as [S| ->]; auto.
    + intros a H. apply E. rewrite Ml. intros k I. specialize (H k I). split.
      * intros ->. apply H. now left.
      * intros T. apply H. apply together_same. now left.
    + unfold available_grouped, variables. fold l. rewrite <- Ml. clear - Z order. cbv zeta in Z.
      revert Z. generalize (map fst (AliasedModel.as_dict (AliasedModel.mapping_with_groups mkset l (alias_groups mkset)))).
      generalize l. clear l. intros l gs Z. induction Z as [|p g l gs H Z IH]; simpl; constructor; [|exact IH].
      intros a. rewrite H. rewrite <- together_same. split; (intros [X|X]; [auto|auto]).
Qed.

Lemma units_same members : NoDup (map fst members) -> unambiguous (map fst members) ->
  exists u, units mkset members = Ok u /\ forall a, AliasedModel.getitem u a = rmap v_unit (AliasedModel.getitem (variables mkset members) a).
Proof.
  intros N U. destruct (variables_spec members N U) as (C & _). apply AliasedMapProofs.consistent_dict in C as (d & E & G).
  unfold units. rewrite E, AliasedMapProofs.aliased_items_good by exact G. simpl. eexists. split; [reflexivity|].
  rewrite AliasedMapProofs.dict_of_good by exact G. destruct (AliasedMapProofs.good_members d G) as [D F].
  assert (map (fun p : list str * variable => (AliasedModel.Many (fst p), v_unit (snd p))) d
          = map (fun q : AliasedModel.key * variable => (fst q, v_unit (snd q))) (map (fun p => (AliasedModel.Many (fst p), snd p)) d)) as X
    by (rewrite map_map; reflexivity).
  rewrite X. change (Forall (fun p : AliasedModel.key * variable => AliasedModel.members (fst p) <> []) (map (fun p : list str * variable => (AliasedModel.Many (fst p), snd p)) d)) in F.
  set (l := map (fun p : list str * variable => (AliasedModel.Many (fst p), snd p)) d) in *.
  destruct (@AliasedProofs.mapping_get mkset order _ (map (fun q : AliasedModel.key * variable => (fst q, v_unit (snd q))) l)) as [M1 M2].
  - rewrite map_map. exact D.
  - apply Forall_forall. intros p I. apply in_map_iff in I as (q & <- & I). rewrite Forall_forall in F. exact (F q I).
  - intros a. destruct (AliasedModel.getitem (AliasedModel.of_dict d) a) as [v|e] eqn:A; simpl.
    + apply AliasedProofs.getitem_spec in A as (g & I & J); [|exact G]. apply (M1 (AliasedModel.Many g) (v_unit v) a); [|exact J].
      apply in_map_iff. exists (AliasedModel.Many g, v). split; [reflexivity|]. unfold l. apply in_map_iff. exists (g, v). auto.
    + assert (e = KeyError) as ->.
      { unfold AliasedModel.getitem in A. destruct (AliasedModel.truthy _); [destruct (AliasedModel.dget _ _)|]; congruence. }
      apply M2. intros k v I J. apply in_map_iff in I as ((k' & w) & E' & I). injection E' as <- <-.
      unfold l in I. apply in_map_iff in I as ((g & w') & E' & I). injection E' as <- <-. simpl in J.
      assert (AliasedModel.getitem (AliasedModel.of_dict d) a = Ok w') as A' by (apply AliasedProofs.getitem_spec; eauto). simpl in *. congruence.
Qed.

Lemma full_names members : NoDup (map fst members) -> unambiguous (map fst members) ->
  NoDup (available_full mkset members)
  /\ forall a, In a (available_full mkset members) <-> exists k, In k (map fst members) /\ ObserverSpec.same_name k a.
Proof.
  intros N U. destruct (variables_spec members N U) as (C & P & Q & _). unfold available_full. pose proof C as (_ & D & F).
  split.
  - unfold AliasedModel.flat_keys. generalize (map fst (AliasedModel.as_dict (variables mkset members))), D, F. clear.
    induction l as [|g l IH]; intros D F; simpl; [constructor|]. inversion D as [|? ? D1 D2]; subst. inversion F as [|? ? F1 F2]; subst.
    apply NoDup_app_intro; [apply F1|now apply IH|]. intros a A B. apply in_concat in B as (h & I & B).
    rewrite Forall_forall in D1. exact (D1 h I a A B).
  - intros a. apply AliasedMapProofs.consistent_dict in C as (d & E & G). cbv zeta in P, Q. rewrite E in *. unfold AliasedModel.flat_keys. simpl. split.
    + intros I. apply in_concat in I as (g & I & A). apply in_map_iff in I as ((g' & v) & <- & I). simpl in A.
      assert (AliasedModel.getitem (AliasedModel.of_dict d) a = Ok v) as V by (apply AliasedProofs.getitem_spec; eauto).
      destruct (existsb (fun k => if same_name_dec k a then true else false) (map fst members)) eqn:X.
      * apply existsb_exists in X as (k & I' & X). destruct (same_name_dec k a); [eauto|discriminate].
      * rewrite Q in V; [discriminate|]. intros k I' S.
        assert (existsb (fun k => if same_name_dec k a then true else false) (map fst members) = true); [|congruence].
        apply existsb_exists. exists k. split; [exact I'|]. now destruct (same_name_dec k a).
    + intros (k & I & S). apply in_map_iff in I as ((k' & r) & <- & I). pose proof (P k' r a I S) as V.
      apply AliasedProofs.getitem_spec in V as (g & J & A); [|exact G]. apply in_concat. exists g. split; [|exact A]. now apply (in_map fst) in J.
Qed.

(** The later of two variables with one name hides the other. *)
Lemma hidden {V} gs k1 k2 (v1 v2 : V) g : AliasedModel.groups_find mkset gs k2 = Some g -> In k1 g ->
  AliasedModel.getitem (AliasedModel.mapping_with_groups mkset [(k1, v1); (k2, v2)] gs) k1 = Ok v2.
Proof.
  intros Fg Ig. unfold AliasedModel.mapping_with_groups. cbn [map fst snd]. rewrite Fg.
  set (K1 := AliasedModel.group_or mkset (AliasedModel.group_of mkset (AliasedModel.One k1)) _).
  set (K2 := AliasedModel.group_or mkset (AliasedModel.group_of mkset (AliasedModel.One k2)) _).
  assert (In k1 K1) as I1. { unfold K1, AliasedModel.group_or. apply (proj2 (order _)). apply (proj2 (order _)). apply in_or_app. left. apply (proj2 (order _)). now left. }
  assert (In k1 K2) as I2.
  { unfold K2, AliasedModel.group_or. apply (proj2 (order _)). apply (proj2 (order _)). apply in_or_app. right. now apply (proj2 (order g)). }
  assert (forall g, In k1 g -> AliasedModel.flat_get (map (fun a => (a, g)) g ++ []) k1 = Some g) as FG.
  { clear. intros g I. rewrite app_nil_r. assert (forall l, In k1 l -> AliasedModel.flat_get (map (fun a => (a, g)) l) k1 = Some g) as X; [|now apply X].
    induction l as [|x l IH]; [contradiction|]. simpl. intros [->|J].
    - destruct (AliasedModel.flat_get (map (fun a => (a, g)) l) k1) as [h|] eqn:E; [|now destruct (str_eqb_spec k1 k1)].
      clear - E. revert h E. induction l as [|y l IH]; intros h E; [discriminate|]. simpl in E.
      destruct (AliasedModel.flat_get (map (fun a => (a, g)) l) k1) as [h'|]; [injection E as <-; now apply IH|].
      destruct (str_eqb k1 y); [|discriminate]. injection E as <-. reflexivity.
    - now rewrite (IH J). }
  assert (forall g l1 l2, AliasedModel.flat_get l2 k1 = Some g -> AliasedModel.flat_get (l1 ++ l2) k1 = Some g) as FA.
  { clear. intros g l1 l2 E. induction l1 as [|[b h] l1 IH]; [exact E|]. simpl. now rewrite IH. }
  assert (forall g, In k1 g -> AliasedModel.truthy (Some g) = Some g) as T by (clear; intros [|x g] I; [contradiction|reflexivity]).
  clearbody K1 K2.
  unfold AliasedModel.dict_of, AliasedModel.getitem, AliasedModel.resolve_key, AliasedModel.of_dict, AliasedModel.flat_of.
  cbn [fold_left fst snd AliasedModel.dset]. assert (AliasedModel.gmatch K2 K1 = if list_eq_dec str_eq_dec K2 K1 then true else false) as -> by reflexivity.
  destruct (list_eq_dec str_eq_dec K2 K1) as [E|E].
  - cbn [AliasedModel.flat_dict AliasedModel.as_dict map concat fst snd]. rewrite (FG K1 I1), T by exact I1. simpl. unfold AliasedModel.gmatch. destruct (list_eq_dec str_eq_dec K1 K1); [reflexivity|congruence].
  - cbn [AliasedModel.flat_dict AliasedModel.as_dict map concat fst snd]. rewrite (FA K2) by apply (FG K2 I2). rewrite T by exact I2. simpl. unfold AliasedModel.gmatch.
    destruct (list_eq_dec str_eq_dec K2 K1); [contradiction|]. destruct (list_eq_dec str_eq_dec K2 K2); [reflexivity|congruence].
Qed.
Lemma variables_hidden k1 k2 r1 r2 : k1 <> k2 -> ObserverSpec.same_name k1 k2 ->
  AliasedModel.getitem (variables mkset [(k1, r1); (k2, r2)]) k1 = Ok (view k2 r2).
Proof.
  intros N S. unfold variables. cbn [map fst snd]. destruct S as [E|(h & Ih & A & B)]; [contradiction|].
  destruct (AliasedModel.groups_find mkset (alias_groups mkset) k2) as [g|] eqn:F.
  - apply (hidden _ _ _ _ _ g F). apply (AliasedGroupProofs.groups_find_some mkset order) in F as [Ig J].
    destruct (alias_groups_member g k2 Ig J) as (h' & Ih' & -> & J').
    apply (proj2 (order h')). now rewrite <- (ObserverProofs.reference_unique h h' k2 Ih Ih' B J').
  - exfalso. apply (AliasedGroupProofs.groups_find_none mkset order) with (g := mkset h) in F; [|apply alias_groups_In; eauto].
    apply F. now apply (proj2 (order h)).
Qed.
End Variables.
