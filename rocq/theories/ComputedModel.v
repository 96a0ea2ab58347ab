(** Model of computed quantities (core/computed.py) and of the conversion of
    coordinates (core/numerical.py 177-293).

    Simplification: one element of each array, except where axes matter.  The
    formulas without trigonometry are over an arbitrary arithmetic: real
    numbers and IEEE binary64 numbers are two instances. *)

From Coq Require Import String List Bool ZArith QArith Qcanon Qreals Reals SpecFloat Arith.
From Verif Require Import Py PyDict NumericalModel.
Import ListNotations.
Open Scope list_scope.

(** * Arguments of methods *)

(** A dependency: an array, a scalar, several scalars or something else (such
    as [None] for a missing value).  Used for core/computed.py 440-454. *)
Inductive dep (A F : Type) : Type := Arr (a : A) | Num (f : F) | Nums (l : list F) | Missing.
Arguments Arr {A F}. Arguments Num {A F}. Arguments Nums {A F}. Arguments Missing {A F}.
Inductive arg (A F : Type) : Type := AArr (a : A) | ANum (f : F).
Arguments AArr {A F}. Arguments ANum {A F}.

Section Methods.
Context {A F : Type}.
Open Scope py_scope.

(** core/computed.py 440-454, [Method.parse]: the arrays and then the numbers. *)
Definition lookup (deps : list (str * dep A F)) (p : str) : res (dep A F) :=
  match d_get str_eqb deps p with Some d => Ok d | None => Err KeyError end.
Definition arrays_of (d : dep A F) : list A := match d with Arr a => [a] | _ => [] end.
Definition numbers_of (d : dep A F) : list F := match d with Num f => [f] | Nums l => l | _ => [] end.
Definition parse (params : list str) (deps : list (str * dep A F)) : res (list (arg A F)) :=
  do l <- mapM (lookup deps) params;
  Ok (map AArr (concat (map arrays_of l)) ++ map ANum (concat (map numbers_of l))).

(** Python's binding of positional arguments to the parameters, the last of
    which may take any number of arguments ([variadic]); a wrong number raises
    TypeError.  Used for core/computed.py 436-438. *)
Fixpoint bind_arguments (params : list str) (variadic : bool) (args : list (arg A F)) : res (list (str * list (arg A F))) :=
  match params, args with
  | [], [] => Ok []
  | [], _ :: _ => Err TypeError
  | [p], _ => if variadic then Ok [(p, args)]
              else match args with [a] => Ok [(p, [a])] | _ => Err TypeError end
  | _ :: _, [] => Err TypeError
  | p :: ps, a :: args' => do r <- bind_arguments ps variadic args'; Ok ((p, [a]) :: r)
  end.
(** core/computed.py 436-438, [Method.compute]: the arguments that each
    parameter of the function gets. *)
Definition compute_arguments (params : list str) (variadic : bool) (deps : list (str * dep A F)) : res (list (str * list (arg A F))) :=
  do l <- parse params deps; bind_arguments params variadic l.
End Methods.

(** * Formulas *)

(** The operations of an arithmetic.  Used for core/computed.py 93-107. *)
Record arith (T : Type) : Type := mkArith
  { add : T -> T -> T; sub : T -> T -> T; mul : T -> T -> T; div : T -> T -> T; root : T -> T }.
Arguments add {T}. Arguments sub {T}. Arguments mul {T}. Arguments div {T}. Arguments root {T}.

Section Formulas.
Context {T : Type} (K : arith T).
Notation "a +. b" := (add K a b) (at level 50, left associativity).
Notation "a -. b" := (sub K a b) (at level 50, left associativity).
Notation "a *. b" := (mul K a b) (at level 40, left associativity).
Notation "a /. b" := (div K a b) (at level 40, left associativity).

(** core/computed.py 60-67, [b_mag], and 70-77, [v_mag]. *)
Definition b_mag (br bt bp : T) : T := root K (br *. br +. bt *. bt +. bp *. bp).
Definition v_mag (vr vt vp : T) : T := root K (vr *. vr +. vt *. vt +. vp *. vp).
(** core/computed.py 80-90, [bv_mag]. *)
Definition bv_mag (br bt bp vr vt vp : T) : T := b_mag br bt bp *. v_mag vr vt vp.
(** core/computed.py 110-120, [v_para]. *)
Definition v_para (vr vt vp br bt bp : T) : T := (br *. vr +. bt *. vt +. bp *. vp) /. b_mag br bt bp.
(** core/computed.py 123-135, [v_perp]. *)
Definition v_perp (vr vt vp br bt bp : T) : T :=
  let mag := v_mag vr vt vp in
  let para := v_para vr vt vp br bt bp in
  root K (mag *. mag -. para *. para).
End Formulas.

(** IEEE binary64 arithmetic (Coq's specification of floating-point numbers).
    For histories and uses of core/computed.py 123-135. *)
Definition binary64 : arith spec_float :=
  mkArith _ (SFadd 53 1024) (SFsub 53 1024) (SFmul 53 1024) (SFdiv 53 1024) (SFsqrt 53 1024).

(** Real numbers; [None] is what is not a finite number (numpy's nan and
    infinities).  Used for core/computed.py 93-107. *)
Definition lift2 (f : R -> R -> option R) (a b : option R) : option R :=
  match a, b with Some x, Some y => f x y | _, _ => None end.
Definition real_div (x y : R) : option R := if Req_EM_T y 0 then None else Some (x / y)%R.
Definition real_sqrt (a : option R) : option R :=
  match a with Some x => if Rlt_dec x 0 then None else Some (sqrt x) | None => None end.
Definition reals : arith (option R) :=
  mkArith _ (lift2 (fun x y => Some (x + y)%R)) (lift2 (fun x y => Some (x - y)%R)) (lift2 (fun x y => Some (x * y)%R))
    (lift2 real_div) real_sqrt.

Open Scope R_scope.
Open Scope py_scope.

(** core/computed.py 30-57, [x], [y] and [z]. *)
Definition x_ (r theta phi : R) : R := r * sin theta * cos phi.
Definition y_ (r theta phi : R) : R := r * sin theta * sin phi.
Definition z_ (r theta : R) : R := r * cos theta.

(** core/computed.py 102-106: limits of the argument, and [arccos]. *)
Definition clamp (a : R) : R :=
  let a := if Rlt_dec a (-1) then -1 else a in if Rlt_dec 1 a then 1 else a.
(** core/computed.py 93-107, [flow_angle]. *)
Definition flow_angle (br bt bp vr vt vp : R) : option R :=
  let s := Some in
  let b_dot_v := v_para reals (s br) (s bt) (s bp) (s vr) (s vt) (s vp) in
  let bv := bv_mag reals (s br) (s bt) (s bp) (s vr) (s vt) (s vp) in
  match div reals b_dot_v bv with Some a => Some (acos (clamp a)) | None => None end.

(** core/computed.py 164-169, [density_ratio], along the time axis. *)
Definition density_ratio (rho : list R) : list (option R) :=
  match rho with [] => [] | r0 :: _ => map (fun r => real_div r r0) rho end.

(** core/computed.py 172-190, [rigidity], for a speed of light [c]. *)
Definition rigidity (c energy mass charge : R) : option R :=
  let total := energy + mass * (c * c) in
  let rest := mass * (c * c) in
  lift2 real_div (lift2 real_div (real_sqrt (Some (total * total - rest * rest))) (Some c)) (Some charge).

(** core/computed.py 191-209, [mean_free_path], for one radius and one energy;
    [au] and [e0] are the constants; powers of positive numbers. *)
Definition mean_free_path (c au e0 r energy mass charge mfp_radial_power rigidity_power lambda0 : R) : option R :=
  match lift2 real_div (rigidity c energy mass charge) (rigidity c e0 mass charge) with
  | Some q => Some (Rpower (r / au) mfp_radial_power * Rpower q rigidity_power * lambda0)
  | None => None
  end.

(** numpy's [gradient] (edge_order 1).  [gradient_unit] is
    [numpy.gradient(v)] and [gradient] is [numpy.gradient(f, t)] with its
    second-order formula for any spacing; fewer than two points raise
    ValueError.  Used for core/computed.py 254-271. *)
Fixpoint inner_unit (l : list R) : list R :=
  match l with
  | a :: ((b :: c :: _) as l') => (c - a) / 2 :: inner_unit l'
  | _ => []
  end.
Definition gradient_unit (l : list R) : res (list R) :=
  match l with
  | a :: b :: _ => Ok ((b - a) :: inner_unit l ++ [nth (length l - 1) l 0 - nth (length l - 2) l 0])
  | _ => Err ValueError
  end.
Definition slope (p q : R * R) : R := (snd q - snd p) / (fst q - fst p).
Definition inner_slope (p q r : R * R) : R :=
  let hs := fst q - fst p in
  let hd := fst r - fst q in
  - hd / (hs * (hs + hd)) * snd p + (hd - hs) / (hd * hs) * snd q + hs / (hd * (hs + hd)) * snd r.
Fixpoint inner_slopes (l : list (R * R)) : list R :=
  match l with
  | a :: ((b :: c :: _) as l') => inner_slope a b c :: inner_slopes l'
  | _ => []
  end.
Definition gradient (l : list (R * R)) : res (list R) :=
  match l with
  | a :: b :: _ => Ok (slope a b :: inner_slopes l ++ [slope (nth (length l - 2) l a) (nth (length l - 1) l a)])
  | _ => Err ValueError
  end.

(** core/computed.py 138-161, [div_v], along the time axis: pairs of a time
    and a positive density. *)
Definition div_v (l : list (R * R)) : res (list R) :=
  rmap (map (fun g => -1 * g)) (gradient (map (fun p => (fst p, ln (snd p))) l)).

(** core/computed.py 241-251, [_ahead] and [_behind], along the shells. *)
Definition ahead {T} (l : list T) : res (list T) :=
  take (seq 1 (length l - 1) ++ [(length l - 1)%nat]) l.
Definition behind {T} (l : list T) : res (list T) :=
  take (0%nat :: seq 0 (length l - 1)) l.

Fixpoint map2 {A B C} (f : A -> B -> C) (l : list A) (m : list B) : list C :=
  match l, m with a :: l', b :: m' => f a b :: map2 f l' m' | _, _ => [] end.

(** core/computed.py 212-239, [acceleration_rate], along the shells for one
    time, one species and one energy. *)
Definition acceleration_rate (vr vt vp : list R) (vparticle : R) (angle mfp : list R) (kper_kpar : R) : res (list (option R)) :=
  do vr1 <- ahead vr; do vr0 <- behind vr;
  do vt1 <- ahead vt; do vt0 <- behind vt;
  do vp1 <- ahead vp; do vp0 <- behind vp;
  let v1_dot_v2 := map2 Rplus (map2 Rplus (map2 Rmult vr1 vr0) (map2 Rmult vt1 vt0)) (map2 Rmult vp1 vp0) in
  let v := map2 (fun f z => f z) (map2 (fun x y z => sqrt (x * x + y * y + z * z)) vr vt) vp in
  do v1 <- ahead v;
  let delta_v := map2 (fun s d => match real_div d (s * s) with Some q => Some (s * Rabs (1 - q)) | None => None end) v1 v1_dot_v2 in
  let kxx_kpar := map (fun a => cos a * cos a + kper_kpar * (sin a * sin a)) angle in
  let kappa := map2 (fun m k => m * (k * vparticle / 3)) mfp kxx_kpar in
  let kxx_vx := map2 real_div kappa v in
  do k1 <- ahead kxx_vx; do k0 <- behind kxx_vx;
  let delta_x := map2 (fun a b => lift2 (fun a b => Some (3 * (a + b))) a b) k1 k0 in
  Ok (map2 (lift2 real_div) delta_v delta_x).

(** core/computed.py 254-271, [energy_density], for a proton mass [mp]; along
    the energies, which are pairs of a speed and a value of the distribution. *)
Definition sum (l : list R) : R := fold_right Rplus 0 l.
Definition energy_density (mp : R) (l : list (R * R)) : res R :=
  do dv <- gradient_unit (map fst l);
  Ok (mp * sum (map2 (fun p d => fst p ^ 4 * snd p * d) l dv)).
(** core/computed.py 274-294, [average_energy]. *)
Definition average_energy (mp : R) (l : list (R * R)) : res (option R) :=
  do dv <- gradient_unit (map fst l);
  let normalizer := sum (map2 (fun p d => fst p ^ 2 * snd p * d) l dv) in
  do epsilon <- energy_density mp l;
  Ok (real_div (1 / 2 * epsilon) normalizer).

(** core/computed.py 297-307, [isotropic_distribution], along the pitch angles. *)
Definition isotropic_distribution (l : list R) : option R := real_div (sum l) (INR (length l)).

(** core/computed.py 310-317, [flux]. *)
Definition flux (mp energy dist : R) : R := 2 * energy / (mp * mp) * dist.

(** [scipy.integrate.simpson] with its default treatment of an even number of
    points ([even='avg']); pairs of a coordinate and a value.
    Used for core/computed.py 320-326. *)
Definition panel (p q r : R * R) : R :=
  let h0 := fst q - fst p in
  let h1 := fst r - fst q in
  let hsum := h0 + h1 in
  hsum / 6 * (snd p * (2 - h1 / h0) + snd q * (hsum * (hsum / (h0 * h1))) + snd r * (2 - h0 / h1)).
Fixpoint panels (l : list (R * R)) : R :=
  match l with
  | p :: q :: ((r :: _) as l') => panel p q r + panels l'
  | _ => 0
  end.
Definition trapezoid (p q : R * R) : R := (fst q - fst p) * (snd p + snd q) / 2.
Definition simpson (l : list (R * R)) : R :=
  if Nat.odd (length l) then panels l
  else match l with
       | p :: q :: _ =>
           let e := nth (length l - 1) l p in
           let d := nth (length l - 2) l p in
           ((trapezoid d e + panels (removelast l)) + (trapezoid p q + panels (tl l))) / 2
       | _ => 0
       end.

(** core/computed.py 320-326, [fluence], along the time axis. *)
Definition fluence (l : list (R * R)) : R := simpson l.

(** Energies are rationals, as all floating-point numbers are.
    Used for core/computed.py 380-405. *)
Definition inj (q : Qc) : R := Q2R (this q).

(** core/computed.py 380-405, [_interpolate]: pairs of an energy and a flux. *)
Definition interpolate (f : list R) (x : list Qc) (m : Qc) : res (list (Qc * R)) :=
  do i0x0 <- find_nearest x m BUpper;
  let '(i0, x0) := i0x0 in
  do f1 <- py_index f (i0 + 1);
  do f0 <- py_index f i0;
  do x1 <- py_index x (i0 + 1);
  let beta := ln (f1 / f0) / ln (inj x1 / inj x0) in
  let k := Z.to_nat (if (i0 <? 0)%Z then i0 + Z.of_nat (length x) else i0) in
  Ok ((m, f0 * Rpower (inj m / inj x0) beta) :: skipn (S k) (combine x f)).

(** core/computed.py 353-379, [integral_flux], for one lower bound, one time,
    one shell; [species] holds the energies and the fluxes of every species.
    [tiny] is the least positive normal number.  Numpy's [min] of no numbers
    raises ValueError. *)
Definition Qc_max (a b : Qc) : Qc := if Qc_ltb a b then b else a.
Definition Qc_min (a b : Qc) : Qc := if Qc_ltb b a then b else a.
Definition minimum (l : list Qc) : res Qc :=
  match l with [] => Err ValueError | x :: l' => Ok (fold_left Qc_min l' x) end.
Definition tiny : Qc := Q2Qc (1 # (2 ^ 1022)).
Definition integral_flux (species : list (list Qc * list R)) (b : Qc) : res (list R) :=
  let m := Qc_max b tiny in
  do least <- minimum (concat (map fst species));
  let use_all := Qc_ltb m least in
  mapM (fun s => let '(e, f) := s in
    do l <- (if use_all then Ok (combine e f) else interpolate f e m);
    Ok (simpson (map (fun p => (inj (fst p), snd p)) l))) species.

(** * Coordinates *)

(** sys.float_info.epsilon.  Used for core/numerical.py 177-231. *)
Definition eps : R := / 2 ^ 52.
(** [numpy.arctan2(y, x)]; zeros have no sign.
    Used for core/numerical.py 177-231. *)
Definition atan2 (y x : R) : R :=
  if Rlt_dec 0 x then atan (y / x)
  else if Rlt_dec x 0 then (if Rlt_dec y 0 then atan (y / x) - PI else atan (y / x) + PI)
  else if Rlt_dec 0 y then PI / 2
  else if Rlt_dec y 0 then - (PI / 2) else 0.
(** core/numerical.py 177-231, [xyz2rtp], for one element of arrays. *)
Definition xyz2rtp (v : R * R * R) : R * R * R :=
  let '(x, y, z) := v in
  let r := sqrt (x * x + y * y + z * z) in
  let r := if Rlt_dec (Rabs r) eps then 0 else r in
  let t := if Req_EM_T r 0 then 0 else acos (z / r) in
  let p := atan2 y x in
  let p := if Rlt_dec p 0 then p + 2 * PI else p in
  let p := if Req_EM_T x 0 then (if Rlt_dec y 0 then - (1 / 2) * PI else 1 / 2 * PI) else p in
  (r, t, p).
(** core/numerical.py 280-291, [zero_floor]. *)
Definition zero_floor (a : R) : R := if Rlt_dec (Rabs a) eps then 0 else a.
(** core/numerical.py 231-277, [rtp2xyz]. *)
Definition rtp2xyz (v : R * R * R) : R * R * R :=
  let '(r, t, p) := v in
  (zero_floor (r * sin t * cos p), zero_floor (r * sin t * sin p), zero_floor (r * cos t)).
