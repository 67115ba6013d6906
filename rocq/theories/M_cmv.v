(** Model of src/solarspatialtools/cmv.py.
    Numbers are exact reals with IEEE specials ([fl]); rounding is not modelled here
    (M_cmv_float.v has the binary64 angle reduction). scipy's minimize_scalar, leastsq, shgo and
    linear_sum_assignment and the delay backends of signalproc.py are parameters. *)
From Coq Require Import String Ascii.
From Verif Require Import Prelude RealBase Fl RealStat M_spatial.
Local Open Scope R_scope.

(** cmv.py:15-27 Flag *)
Inductive Flag : Type :=
  GOOD | NOSIGNAL | LOWVAR_S | LOWCCF | OVERCAST | NOLAG | LOWCORR | STATS | VELLIMIT | ALLBAD | TREND | SAME.
Definition flag_eqb (a b : Flag) : bool :=
  match a, b with
  | GOOD, GOOD | NOSIGNAL, NOSIGNAL | LOWVAR_S, LOWVAR_S | LOWCCF, LOWCCF | OVERCAST, OVERCAST
  | NOLAG, NOLAG | LOWCORR, LOWCORR | STATS, STATS | VELLIMIT, VELLIMIT | ALLBAD, ALLBAD
  | TREND, TREND | SAME, SAME => true
  | _, _ => false
  end.

(** itertools.combinations_with_replacement(l, 2) and itertools.combinations(l, 2) *)
Fixpoint combinations_wr {K} (l : list K) : list (K * K) :=
  match l with [] => [] | x :: r => map (fun y => (x, y)) (x :: r) ++ combinations_wr r end.
Fixpoint combinations {K} (l : list K) : list (K * K) :=
  match l with [] => [] | x :: r => map (fun y => (x, y)) r ++ combinations r end.

(** cmv.py:82-130 _get_pairs *)
Definition get_pairs {K} `{Label K} (all_points : list K) (must_contain : option (list K)) (replacement : bool)
  : list (K * K) :=
  let pairs_all := if replacement then combinations_wr all_points else combinations all_points in
  match must_contain with
  | Some refs => filter (fun p => lab_mem (fst p) refs || lab_mem (snd p) refs) pairs_all
  | None => pairs_all
  end.

(** cmv.py:232-242 reference_id: None, one id, or an iterable of ids *)
Inductive refarg (K : Type) : Type := RefNone | RefOne (k : K) | RefMany (ks : list K).
Arguments RefNone {K}. Arguments RefOne {K}. Arguments RefMany {K}.
Definition ref_ids {K} (point_ids : list K) (r : refarg K) : list K :=
  match r with RefNone => point_ids | RefOne k => [k] | RefMany ks => ks end.

(** str.lower on ASCII strings *)
Definition lower_ascii (c : ascii) : ascii :=
  let n := nat_of_ascii c in
  if (Nat.leb 65 n && Nat.leb n 90)%bool then ascii_of_nat (n + 32) else c.
Fixpoint lower (s : string) : string :=
  match s with EmptyString => EmptyString | String c r => String (lower_ascii c) (lower r) end.

(** An options dictionary: keys with numeric values, in insertion order. *)
Definition opts : Type := list (string * fl).

(** cmv.py:617-647 the defaults of each method *)
Definition method_defaults (method : string) : option opts :=
  if String.eqb method "jamaly" then
    Some [("minvelocity"%string, Fin 0); ("maxvelocity"%string, Fin 70); ("var_s_lim"%string, Fin 0.05);
          ("ktlim"%string, Fin 0.4); ("mincorr"%string, Fin 0.8)]
  else if String.eqb method "gagne" then Some [("ktlim"%string, Fin 0.4)]
  else None.

(** cmv.py:591-655 _validate_method_options: the dictionary it returns, which is also the
    caller's dictionary after the call (a new one when the caller passed None). The method_out
    skeleton is not modelled here. *)
Definition validate_method_options (method : string) (options : option opts) : result opts :=
  let options := match options with None => [] | Some o => o end in
  match method_defaults method with
  | None => Err ValueError
  | Some defaults =>
      if forallb (fun kv => dmem defaults (fst kv)) options then
        Ok (fold_left (fun o kv => if dmem o (fst kv) then o else dset o (fst kv) (snd kv)) defaults options)
      else Err ValueError
  end.

(** One analysed pair: its ids, the two signals (None = NaN sample), the spacing and the
    delay/correlation figures the delay backend reported for it. *)
Record prow (K : Type) : Type := mkRow {
  p_ids : K * K; p_a : list (option R); p_b : list (option R);
  p_spacing : fl; p_delay : fl; p_peak : fl; p_mean : fl }.
Arguments mkRow {K}. Arguments p_ids {K}. Arguments p_a {K}. Arguments p_b {K}.
Arguments p_spacing {K}. Arguments p_delay {K}. Arguments p_peak {K}. Arguments p_mean {K}.

(** pair_flags[mask] = f *)
Definition set_where {A} (mask : A -> bool) (f : Flag) (rows : list A) (flags : list Flag) : list Flag :=
  map2 (fun r g => if mask r then f else g) rows flags.

(** options[key] *)
Definition opt_get (o : opts) (k : string) : result fl :=
  match dget o k with Some v => Ok v | None => Err KeyError end.

(** cmv.py:553-554 variation ratio of a signal *)
Definition var_s (s : list (option R)) : fl := fsub (Fin 1) (fdiv (nanmean s) (nanmax s)).
(** cmv.py:569 *)
Definition r_qc {K} (r : prow K) : fl := fsub (Fin 1) (fdiv (p_mean r) (p_peak r)).
(** cmv.py:580 *)
Definition pair_speed {K} (r : prow K) : fl := fdiv (p_spacing r) (p_delay r).

(** cmv.py:488-588 _pairwise_qc after the options were validated (its method_out is [qc_figures]). *)
Definition pairwise_qc {K} `{Label K} (method : string) (options : opts) (rows : list (prow K)) : result (list Flag) :=
  let flags := map (fun _ => GOOD) rows in
  let flags := set_where (fun r => lab_eqb (fst (p_ids r)) (snd (p_ids r))) SAME rows flags in
  let flags := set_where (fun r => fltb (nanstd (p_a r)) (Fin 0.001) || fltb (nanstd (p_b r)) (Fin 0.001)) NOSIGNAL rows flags in
  let flags := set_where (fun r => feqb (p_delay r) (Fin 0)) NOLAG rows flags in
  let flags := set_where (fun r => is_nan (p_peak r)) LOWCORR rows flags in
  let flags := set_where (fun r => is_nan (p_mean r)) LOWCORR rows flags in
  let! ktlim := opt_get options "ktlim" in
  let flags := set_where (fun r => fltb (nanmax (p_a r)) ktlim || fltb (nanmax (p_b r)) ktlim) OVERCAST rows flags in
  if String.eqb method "jamaly" then
    let! var_s_lim := opt_get options "var_s_lim" in
    let flags := set_where (fun r => fltb (var_s (p_a r)) var_s_lim || fltb (var_s (p_b r)) var_s_lim) LOWVAR_S rows flags in
    let! corr_min := opt_get options "mincorr" in
    let flags := set_where (fun r => fltb (p_peak r) corr_min || fltb (r_qc r) corr_min) LOWCORR rows flags in
    let! min_v := opt_get options "minvelocity" in
    let! max_v := opt_get options "maxvelocity" in
    Ok (set_where (fun r => negb (fltb min_v (fabs (pair_speed r)) && fltb (fabs (pair_speed r)) max_v)) VELLIMIT rows flags)
  else Ok flags.

(** cmv.py:553-555, 569-571 method_out['var_s'] and ['r_qc'] of the jamaly checks: per pair the variation ratios of its two
    signals and its correlation ratio. *)
Definition qc_figures {K} (rows : list (prow K)) : list (fl * fl * fl) :=
  map (fun r => (var_s (p_a r), var_s (p_b r), r_qc r)) rows.

Definition is_good (f : Flag) : bool := flag_eqb f GOOD.
(** sum(mask[pair_flags == GOOD]) *)
Definition count_good (mask : list bool) (flags : list Flag) : nat :=
  List.length (filter (fun p => is_good (snd p) && fst p) (combine mask flags)).
(** corr_lag >= t *)
Definition corr_at_least (t : R) (peaks : list fl) : list bool := map (fun p => fleb (Fin t) p) peaks.

(** cmv.py:275-285 the gagne correlation cascade: overall flag and pair flags *)
Definition gagne_cascade (peaks : list fl) (flags : list Flag) : Flag * list Flag :=
  let corr_inds := corr_at_least 0.99 peaks in
  let corr_inds := if Nat.ltb (count_good corr_inds flags) 12 then corr_at_least 0.95 peaks else corr_inds in
  let corr_inds := if Nat.ltb (count_good corr_inds flags) 12 then corr_at_least 0.9 peaks else corr_inds in
  let overall := if Nat.ltb (count_good corr_inds flags) 12 then ALLBAD else GOOD in
  (overall, map2 (fun (b : bool) g => if b then g else LOWCORR) corr_inds flags).

(** a[pair_flags == GOOD] *)
Definition good_only {A} (flags : list Flag) (l : list A) : list A :=
  map snd (filter (fun p => is_good (fst p)) (combine flags l)).

(** cmv.py:305-309, 323-327 velocity of each pair along theta, infinities set to NaN *)
Definition drop_inf (a : fl) : fl := match a with Pinf | Ninf => Nan | _ => a end.
Definition pair_velocity (lag : list fl) (vecs : list (R * R)) (theta : R) : list fl :=
  map drop_inf (map2 fdiv (project_vectors vecs (pol2rect 1 theta)) lag).
(** cmv.py:302-314 vel_variance *)
Definition vel_variance (lag : list fl) (vecs : list (R * R)) (theta : R) : fl :=
  nan_reduce Rvar (fin_part (pair_velocity lag vecs theta)).

(** cmv.py:354-358 resid *)
Definition gagne_resid (lag : list fl) (vecs : list (R * R)) (ax ay : R) : list fl :=
  map2 (fun l v => fsub l (Fin (fst v * ax + snd v * ay))) lag vecs.

(** spatial.magnitude and np.arctan2 on possibly NaN components; the infinite cases do not arise
    (cmv.py:365-366 yields two finite or two NaN numbers). *)
Definition magnitude_fl (x y : fl) : fl := match x, y with Fin a, Fin b => Fin (magnitude (a, b)) | _, _ => Nan end.
Definition arctan2_fl (y x : fl) : fl := match y, x with Fin a, Fin b => Fin (arctan2 a b) | _, _ => Nan end.

(** a % (2*pi) on reals: Python's modulo with a positive divisor *)
Definition mod_2pi (a : R) : R := a - 2 * PI * IZR (Int_part (a / (2 * PI))).
Definition mod_2pi_fl (a : fl) : fl := match a with Fin r => Fin (mod_2pi r) | _ => Nan end.

(** cmv.py:373-377 *)
Definition normalise_cmv (vel theta : fl) : fl * fl :=
  let '(vel, theta) :=
    if fltb vel (Fin 0) then (fmul vel (Fin (-1)), fadd theta (Fin PI)) else (vel, theta) in
  (vel, mod_2pi_fl theta).

(** project_vectors onto pol2rect(1, theta), theta possibly NaN *)
Definition project_angle (vecs : list (R * R)) (theta : fl) : list fl :=
  match theta with Fin t => project_vectors vecs (pol2rect 1 t) | _ => map (fun _ => Nan) vecs end.

(** All entries as reals, if they are finite. *)
Fixpoint all_finite (l : list fl) : option (list R) :=
  match l with
  | [] => Some []
  | Fin r :: l => option_map (cons r) (all_finite l)
  | _ => None
  end.
(** scipy.stats.linregress(x, y) on reals: correlation coefficient and standard error of the slope. Equal x values (more
    than one) and empty input raise ValueError. *)
Definition linregress_fin (x y : list R) : result (fl * fl) :=
  let n := List.length x in
  if Nat.eqb n 0 then Err ValueError
  else if (Nat.ltb 1 n && Reqb (Rmax_of x) (Rmin_of x))%bool then Err ValueError
  else
    let ssxm := Rvar x in
    let ssym := Rvar y in
    let ssxym := Rmean (map2 (fun a b => (a - Rmean x) * (b - Rmean y)) x y) in
    let r := if (Reqb ssxm 0 || Reqb ssym 0)%bool then 0
             else let r := ssxym / sqrt (ssxm * ssym) in if Rltb 1 r then 1 else if Rltb r (-1) then -1 else r in
    let slope_stderr := if Nat.eqb n 2 then Fin 0
                        else if Nat.eqb n 1 then Nan
                        else Fin (sqrt ((1 - r ^ 2) * ssym / ssxm / (INR n - 2))) in
    Ok (Fin r, slope_stderr).
(** The same on floats: with an entry that is not finite the figures are NaN. Simplified: scipy still reports 0 as the standard
    error of two points, and raises ValueError for delays all equal to one infinity; no delay backend reports an infinity, and
    a NaN delay never passes the jamaly checks. *)
Definition linregress (x y : list fl) : result (fl * fl) :=
  match all_finite x, all_finite y with
  | Some x, Some y => linregress_fin x y
  | _, _ => Ok (Nan, Nan)
  end.

(** cmv.py:44-56 WindspeedData; the fields left None by the early exit are grouped in [fitdata].
    method_data: v60, v40, error_index, velocity, ngood, r_corr, stderr_corr, and per pair var_s and r_qc (jamaly; the
    covariance matrix gagne keeps is not modelled). *)
Record jamaly_out : Type := mkJam {
  j_v60 : fl; j_v40 : fl; j_err : fl; j_velocity : list fl; j_ngood : nat; j_rcorr : fl; j_stderr : fl;
  j_qc : list (fl * fl * fl) }.
Record fitdata : Type := mkFit {
  w_pair_lag : list fl; w_pair_coh : option (list fl); w_corr_raw : option (list fl); w_corr_lag : list fl;
  w_pair_dists : list fl; w_wind_angle : fl; w_wind_speed : fl; w_method_data : option jamaly_out }.
Record windspeed (K : Type) : Type := mkWind {
  w_flag : Flag; w_pair_flag : list Flag; w_allpairs : list (K * K); w_fit : option fitdata }.
Arguments mkWind {K}. Arguments w_flag {K}. Arguments w_pair_flag {K}. Arguments w_allpairs {K}. Arguments w_fit {K}.

(** What a delay backend reports for the two lists of signals. *)
Record delay_out : Type := mkDelay {
  d_delay : list fl; d_peak : list fl; d_mean : list fl; d_zero : option (list fl); d_coh : option (list fl) }.

Section ComputeCmv.
  Context {K : Type} `{Label K}.
  (** signalproc.compute_delays(A, B, 'loop', scaling='coeff') and compute_delays_tf(A, B, ...) *)
  Variable delays_xcorr delays_tf : list (list (option R)) -> list (list (option R)) -> result delay_out.
  (** minimize_scalar(f).x and leastsq(resid, [1, 1])[0] *)
  Variable minimize_scalar : (R -> fl) -> R.
  Variable leastsq : (R -> R -> list fl) -> fl * fl.

  (** cmv.py:300-350 the jamaly fit: speed, angle, TREND or the given flag, method data. *)
  Definition fit_jamaly (flag : Flag) (qc : list (fl * fl * fl)) (lag : list fl) (vecs : list (R * R)) : fl * fl * Flag * option jamaly_out :=
    let theta := minimize_scalar (vel_variance lag vecs) in
    let velocity := pair_velocity lag vecs theta in
    let vel := nan_reduce median (fin_part velocity) in
    let v60 := nan_reduce (quantile 0.6) (fin_part velocity) in
    let v40 := nan_reduce (quantile 0.4) (fin_part velocity) in
    let err := fdiv (fsub v60 v40) vel in
    let flag := if fltb (Fin 0.4) (fabs err) then TREND else flag in
    let stats := match linregress lag (project_vectors vecs (pol2rect 1 theta)) with Ok rs => rs | Err _ => (Fin 0, Fin 0) end in
    (vel, Fin theta, flag, Some (mkJam v60 v40 err velocity (List.length vecs) (fabs (fst stats)) (snd stats) qc)).

  (** cmv.py:352-369 the gagne fit *)
  Definition fit_gagne (flag : Flag) (lag : list fl) (vecs : list (R * R)) : fl * fl * Flag * option jamaly_out :=
    let '(ax, ay) := leastsq (gagne_resid lag vecs) in
    let s2 := fadd (fmul ax ax) (fmul ay ay) in
    let vx := fmul (fdiv (Fin 1) s2) ax in
    let vy := fmul (fdiv (Fin 1) s2) ay in
    (magnitude_fl vx vy, arctan2_fl vy vx, flag, None).

  (** ts[pairs[:, i]] and positions.loc[pairs[:, i]]: KeyError for an unknown label *)
  Definition lookup {V} (d : list (K * V)) (k : K) : result V :=
    match dget d k with Some v => Ok v | None => Err KeyError end.

  (** cmv.py:287-395: from the flags on *)
  Definition finish_cmv (jamaly : bool) (qc : list (fl * fl * fl)) (overall : Flag) (flags : list Flag) (pairs : list (K * K))
                        (vecs : list (R * R)) (d : delay_out) : fl * fl * windspeed K :=
    if Nat.leb (List.length (filter is_good flags)) 1 then
      (Fin 0, Fin 0, mkWind ALLBAD flags pairs None)
    else
      let lag_good := good_only flags (d_delay d) in
      let vecs_good := good_only flags vecs in
      let '(vel, theta, flag, md) :=
        if jamaly then fit_jamaly overall qc lag_good vecs_good else fit_gagne overall lag_good vecs_good in
      let '(vel, theta) := normalise_cmv vel theta in
      (vel, theta, mkWind flag flags pairs
         (Some (mkFit (d_delay d) (d_coh d) (d_zero d) (d_peak d) (project_angle vecs theta) theta vel md))).

  Definition row_of (x : K * K * (list (option R) * list (option R)) * (R * R) * (fl * fl * fl)) : prow K :=
    let '(p, (a, b), v, (dl, pk, mn)) := x in mkRow p a b (Fin (magnitude v)) dl pk mn.

  (** cmv.py:133-395 compute_cmv. Site positions are finite reals (first two columns). On success
      the caller's options dictionary afterwards is returned too; on an exception it is unchanged. *)
  Definition compute_cmv (timeseries : list (K * list (option R))) (positions : list (K * (R * R)))
      (reference_id : refarg K) (method : string) (options : option opts) (delay_backend : string)
    : result ((fl * fl * windspeed K) * opts) :=
    let method := lower method in
    if negb (String.eqb method "jamaly" || String.eqb method "gagne") then Err ValueError else
    let delay_backend := lower delay_backend in
    if negb (String.eqb delay_backend "xcorr" || String.eqb delay_backend "tf") then Err ValueError else
    let point_ids := map fst positions in
    let pairs := get_pairs point_ids (Some (ref_ids point_ids reference_id)) true in
    (* np.array([])[:, 0] *)
    match pairs with [] => Err IndexError | _ :: _ =>
    let! A := mapM (fun p => lookup timeseries (fst p)) pairs in
    let! B := mapM (fun p => lookup timeseries (snd p)) pairs in
    let! d := (if String.eqb delay_backend "xcorr" then delays_xcorr A B else delays_tf A B) in
    let! Pb := mapM (fun p => lookup positions (snd p)) pairs in
    let! Pa := mapM (fun p => lookup positions (fst p)) pairs in
    let vecs := map2 (fun b a => (fst b - fst a, snd b - snd a)) Pb Pa in
    let! options := validate_method_options method options in
    let rows := map row_of (combine (combine (combine pairs (combine A B)) vecs)
                                    (combine (combine (d_delay d) (d_peak d)) (d_mean d))) in
    let! flags := pairwise_qc method options rows in
    let '(overall, flags) := if String.eqb method "gagne" then gagne_cascade (d_peak d) flags else (GOOD, flags) in
    Ok (finish_cmv (String.eqb method "jamaly") (qc_figures rows) overall flags pairs vecs d, options)
    end.
End ComputeCmv.

Section Optimum.
  (** scipy.optimize.linear_sum_assignment on an n x m matrix (row_ind, col_ind) and
      shgo(f, [(0, b)]).x[0] *)
  Variable lsa : nat -> list (list R) -> list nat * list nat.
  Variable shgo : (R -> R) -> R -> R.

  (** cmv.py:453-454 *)
  Definition ideal_vecs (n : nat) (ang0 : R) : list (R * R) :=
    map (fun i => let a := INR i / INR n * PI + ang0 in (cos a, sin a)) (seq 0 n).
  (** cmv.py:459-460 *)
  Definition subset_cost (n : nat) (vecs : list (R * R)) (ang0 : R) : list (list R) :=
    map (fun w => map (fun v => - Rabs (dot v w)) vecs) (ideal_vecs n ang0).
  (** cmv.py:438-467 calc_cost *)
  Definition calc_cost (n : nat) (vecs : list (R * R)) (ang0 : R) : R * list nat :=
    let dots := subset_cost n vecs ang0 in
    let '(r_ind, c_ind) := lsa (List.length vecs) dots in
    (Rsum (map (fun rc => nth (snd rc) (nth (fst rc) dots []) 0) (combine r_ind c_ind)), c_ind).
  (** cmv.py:398-485 optimum_subset. A zero CMV gives NaN unit vectors, which
      linear_sum_assignment rejects (ValueError); n = 0 divides by zero (ZeroDivisionError),
      but only after the components were divided by the speeds, which needs equal lengths. *)
  Definition optimum_subset (cmvx cmvy : list R) (n : nat) : result (list nat) :=
    if negb (Nat.eqb (List.length cmvx) (List.length cmvy)) then Err ValueError else
    if Nat.eqb n 0 then Err ZeroDivisionError else
    let cmvs := combine cmvx cmvy in
    if existsb (fun v => Reqb (magnitude v) 0) cmvs then Err ValueError else
    let unit_vecs := map (fun v => (fst v / magnitude v, snd v / magnitude v)) cmvs in
    let y := shgo (fun a => fst (calc_cost n unit_vecs a)) (PI / INR n) in
    Ok (snd (calc_cost n unit_vecs y)).
End Optimum.
