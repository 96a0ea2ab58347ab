(** Proofs about the variables of a dataset. *)

From Coq Require Import String Ascii List Bool ZArith QArith Qcanon Lia.
From Verif Require Import Py PyFacts PyDict SymbolicModel IterablesModel MetricTables MetricModel SystemModel SystemSpec SystemNormProofs SystemProofs ParametersSpec
  MeasurableModel EpremModel ArrayModel ArraySpec ObservablesModel ObservablesProofs VariablesModel VariablesSpec.
Import ListNotations.
Open Scope list_scope.
Open Scope nat_scope.

Section Generic.
Context {D U : Type} (asarray : D -> arr) (get : D -> nindex -> res arr) (has_shape : D -> bool)
        (ueq uor : U -> U -> res bool) (ufactor : U -> U -> res Qc)
        (uread : str -> res U) (norms : U -> res (list (str * U))).
Context (unit_attr : D -> option str) (dims_attr : D -> option (list str)).
Let construct := construct asarray get has_shape uread unit_attr dims_attr.
Let convert_unit := convert_unit asarray get has_shape ueq uor ufactor uread unit_attr dims_attr.

Lemma fresh_shape (d : data D) (u : U) dims :
  exists full, get_shape asarray get has_shape (mkObject d None 1%Qc u dims)
    = (shape (data_array asarray d), mkObject d full 1%Qc u dims)
  /\ (full = None \/ full = Some (data_array asarray d)).
Proof.
  unfold get_shape. cbn [o_data]. destruct (data_has_shape has_shape d).
  - exists None. auto.
  - unfold get_array, load_array. cbn [missing o_full o_data o_scale set_full rmap]. unfold rmap, set_full. cbn.
    exists (Some (data_array asarray d)). auto.
Qed.

Lemma construct_ok d dims u x :
  dims <> [] -> length dims = length (shape (data_array asarray d)) ->
  (attr_of dims_attr d = None \/ attr_of dims_attr d = Some dims) ->
  match attr_of unit_attr d with Some t => uread t | None => u end = Ok x ->
  exists full, construct d dims u = Ok (mkObject d full 1%Qc x dims)
    /\ (full = None \/ full = Some (data_array asarray d)).
Proof.
  intros N L A R. unfold construct, VariablesModel.construct. rewrite R. cbn [bind].
  destruct (fresh_shape d x dims) as (full & E & F). rewrite E. cbn [o_data o_full o_scale o_unit].
  exists full. split; [|exact F].
  assert (match attr_of dims_attr d with Some l => l | None => match dims with [] => default_dims (length (shape (data_array asarray d))) | _ => dims end end = dims) as ->.
  { destruct A as [-> | ->]; [destruct dims; congruence|reflexivity]. }
  rewrite L, Nat.eqb_refl. reflexivity.
Qed.

Lemma construct_refuses d dims u x :
  dims <> [] -> length dims <> length (shape (data_array asarray d)) ->
  (attr_of dims_attr d = None \/ attr_of dims_attr d = Some dims) ->
  match attr_of unit_attr d with Some t => uread t | None => u end = Ok x ->
  construct d dims u = Err ValueError.
Proof.
  intros N L A R. unfold construct, VariablesModel.construct. rewrite R. cbn [bind].
  destruct (fresh_shape d x dims) as (full & E & F). rewrite E. cbn [o_data o_full o_scale o_unit].
  assert (match attr_of dims_attr d with Some l => l | None => match dims with [] => default_dims (length (shape (data_array asarray d))) | _ => dims end end = dims) as ->.
  { destruct A as [-> | ->]; [destruct dims; congruence|reflexivity]. }
  apply Nat.eqb_neq in L. now rewrite L.
Qed.

Lemma scale_scale c a : scale_arr c (scale_arr 1%Qc a) = scale_arr c a.
Proof.
  unfold scale_arr. cbn [shape cells]. f_equal. rewrite map_map. apply map_ext. intro x. now rewrite Qcmult_1_l.
Qed.

(** A unit that is another one: the values are scaled. *)
Lemma convert_scales d full x y f dims :
  dims <> [] -> length dims = length (shape (data_array asarray d)) ->
  (attr_of dims_attr d = None \/ attr_of dims_attr d = Some dims) ->
  (full = None \/ full = Some (data_array asarray d)) ->
  ueq y x = Ok false -> uor x y = Ok true -> ufactor x y = Ok f ->
  forall z, match attr_of unit_attr d with Some t => uread t | None => Ok y end = Ok z ->
  exists o, convert_unit (mkObject d full 1%Qc x dims) y = Ok o
    /\ meaning asarray o = scale_arr f (data_array asarray d) /\ o_unit o = z /\ o_dims o = dims.
Proof.
  intros N L A Fu E O Fa z R. unfold convert_unit, VariablesModel.convert_unit. cbn [o_unit o_data o_dims o_scale].
  rewrite E. cbn [bind]. rewrite O. cbn [bind negb].
  destruct (construct_ok d dims (Ok y) z N L A R) as (full' & C & F'). unfold construct in C. rewrite C. cbn [bind].
  rewrite Fa. cbn [bind o_data o_full o_unit o_dims]. eexists. split; [reflexivity|].
  unfold meaning, unscaled. cbn [o_full o_scale o_data o_unit o_dims]. rewrite Qcmult_1_l.
  split; [|auto]. destruct F' as [-> | ->]; reflexivity.
Qed.
Lemma convert_same d full x y dims :
  ueq y x = Ok true -> convert_unit (mkObject d full 1%Qc x dims) y = Ok (mkObject d full 1%Qc x dims).
Proof. intros E. unfold convert_unit, VariablesModel.convert_unit. cbn [o_unit]. rewrite E. reflexivity. Qed.
Lemma same_meaning d full (x : U) dims :
  (full = None \/ full = Some (data_array asarray d)) ->
  meaning asarray (mkObject d full 1%Qc x dims) = scale_arr 1%Qc (data_array asarray d).
Proof. intros [-> | ->]; reflexivity. Qed.
End Generic.

(** * The module's units *)

Section Module.
Context {D : Type} (asarray : D -> arr) (get : D -> nindex -> res arr) (has_shape : D -> bool)
        (unit_attr : D -> option str) (dims_attr : D -> option (list str)) (limit : nat).

(** What is computed for a unit text [t] in the system [s], whose unit should
    be [u] and whose factor [f]. *)
Definition unit_row (limit : nat) (s : system) (t u : str) (f : Qc) : bool :=
  match m_read (or_one (standardize t)), m_read u with
  | Ok x, Ok w =>
      match norm_in (m_norms limit) x (system_name s) with
      | Ok y =>
          expr_eqb F64 y w &&
          match m_unit_eqb mks_first y x with
          | Ok true => Qc_eqb f 1 && expr_eqb F64 x w
          | Ok false =>
              match m_or x y, m_factor x y with
              | Ok true, Ok g => Qc_eqb f g
              | _, _ => false
              end
          | Err _ => false
          end
      | Err _ => false
      end
  | _, _ => false
  end.
Lemma system_word s : is_system (system_name s) = true. Proof. destruct s; reflexivity. Qed.

Lemma row_built s t u f w d dims name : unit_row limit s t u f = true -> writes u w ->
  unit_attr d = None -> (dims_attr d = None \/ dims_attr d = Some dims) ->
  dims <> [] -> length dims = length (shape (asarray d)) -> ~ names_mass name ->
  exists o, m_variable asarray get has_shape unit_attr dims_attr limit (Some s) (mkRawVariable d (Some t) dims name) = Ok o
    /\ shows asarray o (asarray d) f w dims.
Proof.
  intros R W UA DA N L NM. unfold unit_row in R. destruct (m_read (or_one (standardize t))) as [x|] eqn:Ex; [|discriminate R].
  unfold writes in W. unfold m_read in R at 1. rewrite W in R.
  destruct (norm_in (m_norms limit) x (system_name s)) as [y|] eqn:Ey; [|discriminate R].
  apply andb_true_iff in R as [Ew R].
  unfold m_variable, eprem_build. cbn [rv_unit rv_data rv_dims rv_name bind].
  destruct (construct_ok asarray get has_shape m_read unit_attr dims_attr (Source d) dims (m_read (or_one (standardize t))) x N L DA) as (full & C & F).
  { cbn [attr_of]. rewrite UA. exact Ex. }
  rewrite C. cbn [bind].
  assert (existsb (str_eqb name) [lit "mass"; lit "m"] = false) as ->.
  { apply not_true_is_false. intro H. apply NM. apply existsb_exists in H as (z & [<-|[<-|[]]] & H);
      [left|right]; [destruct (str_eqb_spec name (lit "mass"))|destruct (str_eqb_spec name (lit "m"))]; congruence. }
  unfold convert_text. rewrite system_word. cbn [o_unit]. rewrite Ey. cbn [bind].
  destruct (m_unit_eqb mks_first y x) as [[]|] eqn:Eq; [| |discriminate R].
  - apply andb_true_iff in R as [Ef Exw]. rewrite convert_same by exact Eq. eexists. split; [reflexivity|].
    unfold shows. rewrite same_meaning by exact F. cbn [o_unit o_dims data_array].
    destruct (Qc_eqb_spec f 1) as [->|]; [auto|discriminate Ef].
  - destruct (m_or x y) as [[]|] eqn:Eo; try discriminate R. destruct (m_factor x y) as [g|] eqn:Eg; [|discriminate R].
    destruct (Qc_eqb_spec f g) as [->|]; [|discriminate R].
    destruct (convert_scales asarray get has_shape (m_unit_eqb mks_first) m_or m_factor m_read unit_attr dims_attr
                (Source d) full x y g dims N L DA F Eq Eo Eg y) as (o & Eo' & M & U & Dm).
    { cbn [attr_of]. now rewrite UA. }
    exists o. split; [exact Eo'|]. unfold shows. rewrite U. auto.
Qed.

(** The same for data with an attribute [unit]: the values are scaled, but
    the unit stays that of the file. *)
Lemma row_attribute s t u f w x d dims name : unit_row limit s t u f = true -> writes u w -> f <> 1%Qc ->
  standardize t = t -> t <> [] -> writes t x ->
  unit_attr d = Some t -> (dims_attr d = None \/ dims_attr d = Some dims) ->
  dims <> [] -> length dims = length (shape (asarray d)) -> ~ names_mass name ->
  exists o, m_variable asarray get has_shape unit_attr dims_attr limit (Some s) (mkRawVariable d (Some t) dims name) = Ok o
    /\ meaning asarray o = scale_arr f (asarray d) /\ o_unit o = x.
Proof.
  intros R W F1 St Nt Wt UA DA N L NM. unfold unit_row in R. rewrite St in R.
  replace (or_one t) with t in R by (destruct t; [congruence|reflexivity]). unfold writes in W, Wt. unfold m_read in R at 1.
  rewrite Wt in R. unfold m_read in R at 1. rewrite W in R.
  destruct (norm_in (m_norms limit) x (system_name s)) as [y|] eqn:Ey; [|discriminate R].
  apply andb_true_iff in R as [Ew R].
  unfold m_variable, eprem_build. cbn [rv_unit rv_data rv_dims rv_name bind].
  destruct (construct_ok asarray get has_shape m_read unit_attr dims_attr (Source d) dims (m_read (or_one (standardize t))) x N L DA) as (full & C & F).
  { cbn [attr_of]. rewrite UA. exact Wt. }
  rewrite C. cbn [bind].
  assert (existsb (str_eqb name) [lit "mass"; lit "m"] = false) as ->.
  { apply not_true_is_false. intro H. apply NM. apply existsb_exists in H as (z & [<-|[<-|[]]] & H);
      [left|right]; [destruct (str_eqb_spec name (lit "mass"))|destruct (str_eqb_spec name (lit "m"))]; congruence. }
  unfold convert_text. rewrite system_word. cbn [o_unit]. rewrite Ey. cbn [bind].
  destruct (m_unit_eqb mks_first y x) as [[]|] eqn:Eq; [| |discriminate R].
  - exfalso. apply andb_true_iff in R as [Ef _]. destruct (Qc_eqb_spec f 1) as [->|]; [congruence|discriminate Ef].
  - destruct (m_or x y) as [[]|] eqn:Eo; try discriminate R. destruct (m_factor x y) as [g|] eqn:Eg; [|discriminate R].
    destruct (Qc_eqb_spec f g) as [->|]; [|discriminate R].
    destruct (convert_scales asarray get has_shape (m_unit_eqb mks_first) m_or m_factor m_read unit_attr dims_attr
                (Source d) full x y g dims N L DA F Eq Eo Eg x) as (o & Eo' & M & U & Dm).
    { cbn [attr_of]. rewrite UA. exact Wt. }
    exists o. auto.
Qed.
End Module.

(** The norms do not depend on the limit, once it suffices. *)
Lemma norm_in_mono f g s q r : f <= g -> SystemModel.norm_in F64 quantities f s q = Ok r -> SystemModel.norm_in F64 quantities g s q = Ok r.
Proof.
  intros L. unfold SystemModel.norm_in.
  destruct (mapM (fun t => do u <- prop_get F64 quantities false f (base t); do e <- expression_of_str F64 false (pick s u); expr_pow F64 e (expo t)) q)
    as [l|] eqn:E; cbn [bind]; [|intro H; discriminate H].
  erewrite mapM_mono; [intro H; exact H| |exact E].
  intros t b. cbn beta. destruct (prop_get F64 quantities false f (base t)) as [u|] eqn:Eu; cbn [bind]; [|intro H; discriminate H].
  rewrite (prop_get_mono _ _ _ _ _ f g L Eu). cbn [bind]. exact (fun H => H).
Qed.
Lemma m_norms_mono f g x r : f <= g -> m_norms f x = Ok r -> m_norms g x = Ok r.
Proof.
  intros L. unfold m_norms, m_norm, norm. destruct (SystemModel.unit_quantity F64 identified x) as [q|]; cbn [bind]; [|exact (fun H => H)].
  destruct (SystemModel.norm_in F64 quantities f Mks q) as [m|] eqn:Em; cbn [bind]; [|intro H; discriminate H].
  rewrite (norm_in_mono f g Mks q m L Em). cbn [bind].
  destruct (SystemModel.norm_in F64 quantities f Cgs q) as [c|] eqn:Ec; cbn [bind]; [|intro H; discriminate H].
  rewrite (norm_in_mono f g Cgs q c L Ec). cbn [bind]. exact (fun H => H).
Qed.
Lemma unit_row_mono f g s t u k : f <= g -> unit_row f s t u k = true -> unit_row g s t u k = true.
Proof.
  intro L. unfold unit_row. destruct (m_read (or_one (standardize t))) as [x|]; [|exact (fun H => H)]. destruct (m_read u) as [w|]; [|exact (fun H => H)].
  unfold norm_in. destruct (m_norms f x) as [r|] eqn:E; cbn [bind]; [|intro H; discriminate H].
  rewrite (m_norms_mono f g x r L E). cbn [bind]. exact (fun H => H).
Qed.

Definition row_check (r : str * ((str * Qc) * (str * Qc))) : bool :=
  unit_row 6 Mks (fst r) (fst (fst (snd r))) (snd (fst (snd r))) && unit_row 6 Cgs (fst r) (fst (snd (snd r))) (snd (snd (snd r))).
Lemma rows_ok : forallb row_check eprem_units = true.
Proof. vm_cast_no_check (eq_refl true). Qed.
Lemma row_of limit t s u f : 6 <= limit -> eprem_unit t s u f -> exists w, unit_row limit s t w f = true /\ writes w u.
Proof.
  intros L (r & I & W & F). pose proof rows_ok as R. rewrite forallb_forall in R. apply R in I. unfold row_check in I. cbn [fst snd] in I.
  apply andb_true_iff in I as [I1 I2]. destruct r as [[a b] [c e]]. cbn [fst snd] in *.
  destruct s; cbn [pick fst snd] in *; subst.
  - exists a. split; [exact (unit_row_mono 6 limit _ _ _ _ L I1)|exact W].
  - exists c. split; [exact (unit_row_mono 6 limit _ _ _ _ L I2)|exact W].
Qed.

(** Masses. *)
Definition mass_row (s : system) (f : Qc) (w : expression) : bool :=
  match m_read (or_one (standardize (lit "nucleon"))) with
  | Ok x => match m_unit_eqb mks_first w x, m_or x w, m_factor x w with
            | Ok false, Ok true, Ok g => Qc_eqb f g
            | _, _, _ => false
            end
  | Err _ => false
  end.
Section Masses.
Context {D : Type} (asarray : D -> arr) (get : D -> nindex -> res arr) (has_shape : D -> bool)
        (unit_attr : D -> option str) (dims_attr : D -> option (list str)) (limit : nat).
Lemma mass_built s w f d dims name : 10 <= limit ->
  unit_is s (lit "mass") w -> mass_row s f w = true ->
  unit_attr d = None -> (dims_attr d = None \/ dims_attr d = Some dims) ->
  dims <> [] -> length dims = length (shape (asarray d)) -> names_mass name ->
  exists o, m_variable asarray get has_shape unit_attr dims_attr limit (Some s) (mkRawVariable d (Some (lit "nucleon")) dims name) = Ok o
    /\ meaning asarray o = scale_arr f (asarray d) /\ o_unit o = w /\ o_dims o = dims.
Proof.
  intros Li U R UA DA N L NM. unfold mass_row in R. destruct (m_read (or_one (standardize (lit "nucleon")))) as [x|] eqn:Ex; [|discriminate R].
  destruct (m_unit_eqb mks_first w x) as [[]|] eqn:Eq; try discriminate R.
  destruct (m_or x w) as [[]|] eqn:Eo; try discriminate R. destruct (m_factor x w) as [g|] eqn:Eg; [|discriminate R].
  destruct (Qc_eqb_spec f g) as [->|]; [|discriminate R].
  unfold m_variable, eprem_build. cbn [rv_unit rv_data rv_dims rv_name bind].
  destruct (construct_ok asarray get has_shape m_read unit_attr dims_attr (Source d) dims (m_read (or_one (standardize (lit "nucleon")))) x N L DA) as (full & C & F).
  { cbn [attr_of]. rewrite UA. exact Ex. }
  rewrite C. cbn [bind].
  assert (existsb (str_eqb name) [lit "mass"; lit "m"] = true) as -> by (destruct NM as [-> | ->]; reflexivity).
  unfold m_mass_unit. assert (spells (lit "mass") (lit "mass")) as S.
  { unfold spells. repeat constructor; left; reflexivity. }
  rewrite (get_ok' limit (lit "mass") (lit "mass") s w Li S U). cbn [bind p_unit].
  destruct (convert_scales asarray get has_shape (m_unit_eqb mks_first) m_or m_factor m_read unit_attr dims_attr
              (Source d) full x w g dims N L DA F Eq Eo Eg w) as (o & Eo' & M & U' & Dm).
  { cbn [attr_of]. now rewrite UA. }
  exists o. auto.
Qed.
End Masses.

(** Without a system. *)
Definition none_row (t : str) : bool :=
  match m_read (or_one (standardize t)), m_read (lit "None") with
  | Ok x, Ok n => match m_unit_eqb mks_first n x with Err UnitParsingError => true | _ => false end
  | _, _ => false
  end.
Lemma none_rows_ok : forallb (fun r => none_row (fst r)) eprem_units = true.
Proof. vm_cast_no_check (eq_refl true). Qed.

(** Histories. *)
Section Histories.
Context {D U : Type} (find : str -> res (raw_variable D)) (build : raw_variable D -> res (object D U)).
Definition kept (cache : list (str * object D U)) : Prop :=
  forall k o, d_get str_eqb cache k = Some o -> (do v <- find k; build v) = Ok o.
Lemma requests_ok ks : forall cache, kept cache -> requests find build cache ks = map (fun k => do v <- find k; build v) ks.
Proof.
  induction ks as [|k ks IH]; intros cache K; cbn [requests map]; [reflexivity|]. unfold retrieve.
  destruct (d_get str_eqb cache k) as [o|] eqn:E.
  - rewrite (K k o E). f_equal. now apply IH.
  - destruct (do v <- find k; build v) as [o|e] eqn:B; f_equal; apply IH; [|exact K].
    intros j p. destruct (str_eqb_spec k j) as [->|N].
    + rewrite d_get_set_same by apply str_eqb_spec. intro H. injection H as <-. exact B.
    + rewrite d_get_set_other by (try apply str_eqb_spec; congruence). apply K.
Qed.
End Histories.
