(** Model of src/solarspatialtools/synthirrad/copula.py. Exact real arithmetic. Library randomness and the
    normal distribution function are arguments: [mvn] is numpy's multivariate normal sampler and [Phi] is
    scipy.stats.norm.cdf. *)
From Verif Require Import Prelude RealBase Fl RealStat M_spatial.
Local Open Scope R_scope.

(** copula.py:24-42 _sigmoid *)
Definition sigmoid (x a c : R) : R := 1 / (1 + exp (- a * (x - c))).

(** copula.py:15-21: the parameter dict, one field per list entry. Simplification: all keys present, three
    entries each. *)
Record copula_params : Type := {
  comp0 : R; comp1 : R; comp2 : R;
  mean0 : R; mean1 : R; mean2 : R;
  clear0 : R; clear1 : R; clear2 : R;
  cloud0 : R; cloud1 : R; cloud2 : R;
  corr_quadr : R }.
(** copula.py:15-21 DEFAULT_PARAMS *)
Definition default_params : copula_params :=
  {| comp0 := 8051 / 10000; comp1 := 73605 / 10000; comp2 := 7092 / 10000;
     mean0 := 22928 / 10000; mean1 := 10801 / 10000; mean2 := 4532 / 10000;
     clear0 := 3512 / 10000; clear1 := 48414 / 10000; clear2 := 6442 / 10000;
     cloud0 := 1997 / 10000; cloud1 := 50919 / 10000; cloud2 := 3863 / 10000;
     corr_quadr := 43 / 10000 |}.

(** copula.py:262-291 _exponential_decay_parameter. An array of any length but one has no truth value, so
    the except branch floors it element by element; a one-element array that is floored becomes a number. *)
Inductive numeric : Type := Scalar (r : R) | Arr (l : list R).
Definition decay_floor : R := 1 / 100000.
Definition decay_one (K p : R) : R := let k := p * K * (1 - K) in if Rltb k decay_floor then decay_floor else k.
Definition exponential_decay (K : numeric) (p : R) : numeric :=
  match K with
  | Scalar K => Scalar (decay_one K p)
  | Arr [K] => if Rltb (p * K * (1 - K)) decay_floor then Scalar decay_floor else Arr [p * K * (1 - K)]
  | Arr l => Arr (map (fun K => decay_one K p) l)
  end.

(** A Gaussian mixture: (mean, weight, variance) of each component. *)
Record mixture : Type := { mix_mu : list R; mix_w : list R; mix_var : list R }.
(** copula.py:154-217 _process_params. A zero cloudy weight gives non-finite means in numpy; such
    parameters are outside the model and marked ZeroDivisionError. *)
Definition process_params (meanCSI : R) (q : copula_params) : result (mixture * R) :=
  let w1 := 1 - comp0 q * sigmoid meanCSI (comp1 q) (comp2 q) in
  let w2 := 1 - w1 in
  let mu2 := mean0 q * w1 * meanCSI + mean1 q * (1 - w1) * (meanCSI - mean2 q) in
  if Reqb w1 0 then Err ZeroDivisionError
  else
    let mu1 := (meanCSI - w2 * mu2) / w1 in
    let sig2 := clear0 q * (1 - sigmoid meanCSI (clear1 q) (clear2 q)) in
    let sig1 := cloud0 q * sigmoid meanCSI (cloud1 q) (cloud2 q) in
    Ok ({| mix_mu := [mu1; mu2]; mix_w := [w1; w2]; mix_var := [sig1 ^ 2; sig2 ^ 2] |},
        decay_one meanCSI (corr_quadr q)).

(** Density of a normal distribution. *)
Definition normal_pdf (mu var x : R) : R := / sqrt (2 * PI * var) * exp (- (x - mu) ^ 2 / (2 * var)).
(** exp(GaussianMixture.score_samples): the mixture density. A variance that is not positive makes the
    Cholesky factorisation fail (ValueError). A negative weight gives NaN; it is outside the model and marked OtherError. *)
Definition mixture_pdf (m : mixture) (x : R) : R :=
  Rsum (map (fun c => snd (fst c) * normal_pdf (fst (fst c)) (snd c) x) (combine (combine (mix_mu m) (mix_w m)) (mix_var m))).
Fixpoint cumsum_from (a : R) (l : list R) : list R :=
  match l with [] => [] | x :: xs => (a + x) :: cumsum_from (a + x) xs end.
Definition cumsum (l : list R) : list R := cumsum_from 0 l.
(** copula.py:45-105 _gmdistribution on an array of points; a number is handled as a one-element array and
    unwrapped again. *)
Definition gmdistribution (x : list R) (m : mixture) : result (list R * list R) :=
  if existsb (fun v => Rleb v 0) (mix_var m) then Err ValueError
  else if existsb (fun w => Rltb w 0) (mix_w m) then Err OtherError
  else match x with
       | [] => Err ValueError
       | _ =>
         let pdf := map (mixture_pdf m) x in
         let cs := cumsum pdf in
         Ok (pdf, map (fun c => c / Rmax_of cs) cs)
       end.
(** copula.py:220-259 _solar_gmm *)
Definition solar_gmm (csi : list R) (meanCSI : R) (q : copula_params) : result (list R * list R * R) :=
  let! mk := process_params meanCSI q in
  let! pc := gmdistribution csi (fst mk) in
  Ok (pc, snd mk).

(** np.unique(l, return_index=True): sorted distinct values, each with the index of its first occurrence. *)
Fixpoint first_index (v : R) (l : list R) : nat :=
  match l with [] => 0%nat | x :: xs => if Reqb x v then 0%nat else S (first_index v xs) end.
Fixpoint dedup (l : list R) : list R :=
  match l with
  | [] => []
  | x :: xs => if existsb (Reqb x) xs then dedup xs else x :: dedup xs
  end.
Definition np_unique (l : list R) : list (R * nat) := map (fun v => (v, first_index v l)) (rsort (dedup l)).
(** np.interp at one point for ascending [xp]: constant outside, the last node at or below the point decides the segment. *)
Definition np_interp (r : R) (xp fp : list R) : R :=
  let n := length xp in
  let j := length (filter (fun x => Rleb x r) xp) in
  match j with
  | O => nth 0 fp 0
  | S j =>
    if Nat.eqb (S j) n then nth j fp 0
    else if Reqb (nth j xp 0) r then nth j fp 0
    else (nth (S j) fp 0 - nth j fp 0) / (nth (S j) xp 0 - nth j xp 0) * (r - nth j xp 0) + nth j fp 0
  end.
(** copula.py:108-151 _inverse_sample at one value; arrays are handled element by element and keep their shape.
    Simplification: cdf values in [0, 1], so the padded table is ascending. A cdf longer than x would raise
    IndexError. *)
Definition inverse_sample (x cdf : list R) (r : R) : R :=
  let u := np_unique cdf in
  let Fxu := 0 :: map fst u ++ [1] in
  let xu := (-2) :: map (fun p => nth (snd p) x 0) u ++ [2] in
  np_interp r Fxu xu.

Section Copula.
  (** Sampler: seed -> covariance -> one draw. Normal distribution function. Seed None is a fresh seed per call. *)
  Variable mvn : Z -> list (list R) -> list R.
  Variable Phi : R -> R.

  (** copula.py:344-379 _copularnd_gaussian (n = 1) *)
  Definition copularnd_gaussian (cov : list (list R)) (seed : Z) : list R := map Phi (mvn seed cov).
  (** copula.py:294-341 _space_time_copula (n = 1, as downscale calls it) *)
  Definition space_time_copula (D : list (list R)) (cdf_x cdf : list R) (p : R) (seed : Z) : list R :=
    let cov := map (map (fun d => exp (- p * d))) D in
    map (inverse_sample cdf_x cdf) (copularnd_gaussian cov seed).

  (** copula.py:447 np.arange(-2, 2, 0.01): 400 points *)
  Definition csi_grid : list R := map (fun i => -2 + INR i / 100) (seq 0 (Z.to_nat 400)).

  (** spatial.py:594-595 with an array of speeds: one speed is broadcast, otherwise one per time. With a
      single time and several speeds the sizes disagree at copula.py:456 (ValueError as well). *)
  Definition spacetime_speeds (x y times cs : list R) (cd : R) : result (list (list R)) :=
    match times with
    | [] => Err IndexError
    | t0 :: _ =>
      match cs with
      | [v] => spacetime_distances x y times v cd
      | _ =>
        if negb (Nat.eqb (length cs) (length times)) then Err ValueError
        else if negb (Nat.eqb (length x) (length y)) then Err ValueError
        else
          let dur := map (fun t => t - t0) times in
          let x_drift := map2 (fun c d => c * d * cos cd) cs dur in
          let y_drift := map2 (fun c d => c * d * sin cd) cs dur in
          let xf := ravelF (length x) (transpose (length times) (map (fun xi => map (fun d => xi - d) x_drift) x)) in
          let yf := ravelF (length y) (transpose (length times) (map (fun yi => map (fun d => yi - d) y_drift) y)) in
          Ok (map2 (map2 (fun a b => sqrt (a ^ 2 + b ^ 2))) (map (fun a => map (fun b => a - b) xf) xf)
                   (map (fun a => map (fun b => a - b) yf) yf))
      end
    end.

  (** reshape(1, sites, times).transpose([0, 2, 1])[0] of one draw; a wrong size raises ValueError. *)
  Definition reshape_sites (n_sites n_times : nat) (l : list R) : result (list (list R)) :=
    if Nat.eqb (length l) (n_sites * n_times)
    then Ok (transpose n_times (map (fun s => firstn n_times (skipn (s * n_times) l)) (seq 0 n_sites)))
    else Err ValueError.
  (** copula.py:461-462 cm[cm < 0] = 0 *)
  Definition clip_neg (m : list (list R)) : list (list R) := map (map (fun v => if Rltb v 0 then 0 else v)) m.
  (** copula.py:464-465 cm *= mean_csi / np.mean(cm) *)
  Definition scale_to (mean_csi : R) (m : list (list R)) : list (list fl) :=
    let k := fdiv (Fin mean_csi) (nan_reduce Rmean (concat m)) in
    map (map (fun v => fmul (Fin v) k)) m.
  (** copula.py:382-466 downscale; [cloud_spd] is a one-element list for a number. *)
  Definition downscale (times e_pos n_pos cloud_spd : list R) (cloud_dir mean_csi : R) (q : copula_params)
      (seed : Z) (scale noneg : bool) : result (list (list fl)) :=
    let! g := solar_gmm csi_grid mean_csi q in
    let cdf := snd (fst g) in
    let p := snd g in
    let! D := spacetime_speeds e_pos n_pos times cloud_spd cloud_dir in
    let samples := space_time_copula D csi_grid cdf p seed in
    let! cm := reshape_sites (length e_pos) (length times) samples in
    let cm := if noneg then clip_neg cm else cm in
    Ok (if scale then scale_to mean_csi cm else map (map Fin) cm).

  (** Arguments of downscale_multihour: a single value or a sequence. *)
  Inductive hourly (A : Type) : Type := Single (a : A) | Many (l : list A).
  Arguments Single {A} a.
  Arguments Many {A} l.

  (** copula.py:547-562: a sequence must match the number of hours. Simplification: entries have the right type. *)
  Definition check_hours {A} (n : nat) (a : hourly A) : result unit :=
    match a with Single _ => Ok tt | Many l => if Nat.eqb (length l) n then Ok tt else Err ValueError end.
  (** copula.py:564-569 and 571-576, body: len(v) fails on a number; a sequence of other than one entry must
      match. True when it is split by hour. *)
  Definition check_numbers (n : nat) (a : hourly R) : result bool :=
    match a with
    | Single _ => Err TypeError
    | Many l => if Nat.eqb (length l) 1 then Ok false else if Nat.eqb (length l) n then Ok true else Err ValueError
    end.
  Definition as_list (a : hourly R) : list R := match a with Single r => [r] | Many l => l end.
  (** copula.py:469-595 downscale_multihour *)
  Definition downscale_multihour (times : hourly (list R)) (e_pos n_pos : list R) (cloud_spd cloud_dir : hourly R)
      (mean_csi : list R) (params : hourly copula_params) (seed : Z) (scale noneg : bool) : result (list (list fl)) :=
    let n := length mean_csi in
    let! _ := check_hours n times in
    let! _ := check_hours n params in
    let! multi_dir := (match cloud_dir with Single _ => Ok false | Many _ => check_numbers n cloud_dir end) in
    let! multi_spd := (match cloud_dir with Single _ => Ok false | Many _ => check_numbers n cloud_spd end) in
    let! hours := mapM (fun i =>
        let time := match times with Many l => nth i l [] | Single t => t end in
        let param := match params with Many l => nth i l default_params | Single q => q end in
        let spd := if multi_spd : bool then [nth i (as_list cloud_spd) 0] else as_list cloud_spd in
        let dir := if multi_dir : bool then nth i (as_list cloud_dir) 0 else nth 0 (as_list cloud_dir) 0 in
        downscale time e_pos n_pos spd dir (nth i mean_csi 0) param seed scale noneg) (seq 0 n) in
    match hours with [] => Err ValueError | _ => Ok (concat hours) end.
End Copula.
Arguments Single {A} a.
Arguments Many {A} l.
