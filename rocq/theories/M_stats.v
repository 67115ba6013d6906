(** Model of src/solarspatialtools/stats.py: error metrics, variability score, variability index,
    daily aggregate ramp rate. Exact real arithmetic; NaN is [None] in data and [Nan] in results. *)
From Coq Require Import String.
From Verif Require Import Prelude RealBase Fl RealStat M_spatial.
Local Open Scope R_scope.

(** ** Error metrics on numpy arrays *)

(** [a - b] on one-dimensional arrays with numpy broadcasting (a length-1 array stretches). *)
Definition array_sub (a b : list R) : result (list R) :=
  if Nat.eqb (length a) (length b) then Ok (map2 Rminus a b)
  else match a, b with
       | [x], _ => Ok (map (fun y => x - y) b)
       | _, [y] => Ok (map (fun x => x - y) a)
       | _, _ => Err ValueError
       end.
Definition fsqrt (a : fl) : fl :=
  match a with Fin r => if Rltb r 0 then Nan else Fin (sqrt r) | Pinf => Pinf | Ninf | Nan => Nan end.

(** stats.py:131-149 bias_error, array case: [estimation - baseline]. *)
Definition bias_error (baseline estimation : list R) : result (list R) := array_sub estimation baseline.
(** stats.py:48-66 squared_error *)
Definition squared_error (baseline estimation : list R) : result (list R) :=
  rmap (map (fun e => e ^ 2)) (bias_error baseline estimation).
(** stats.py:89-108 absolute_error *)
Definition absolute_error (baseline estimation : list R) : result (list R) :=
  rmap (map Rabs) (bias_error baseline estimation).
(** stats.py:27-45 mse (np.mean of an empty array is NaN) *)
Definition mse (baseline estimation : list R) : result fl :=
  rmap (nan_reduce Rmean) (squared_error baseline estimation).
(** stats.py:5-24 rmse *)
Definition rmse (baseline estimation : list R) : result fl := rmap fsqrt (mse baseline estimation).
(** stats.py:68-86 mae *)
Definition mae (baseline estimation : list R) : result fl :=
  rmap (nan_reduce Rmean) (absolute_error baseline estimation).
(** stats.py:110-128 mbe *)
Definition mbe (baseline estimation : list R) : result fl :=
  rmap (nan_reduce Rmean) (bias_error baseline estimation).

(** ** Error metrics on pandas Series *)
Section Series.
  Context {K : Type} `{Label K}.
  Definition ser : Type := list (K * option R).

  Definition opt2 (f : R -> R -> R) (a b : option R) : option R :=
    match a, b with Some x, Some y => Some (f x y) | _, _ => None end.
  (** A Series read at a label: missing when the label is absent. *)
  Definition ser_at (s : ser) (k : K) : option R := match dget s k with Some v => v | None => None end.
  (** Labels of either operand, sorted (pandas outer join of two unique indexes). *)
  Definition label_union (a b : list K) : list K :=
    sort_by lab_leb (a ++ filter (fun k => negb (lab_mem k a)) b).
  Fixpoint labs_eqb (a b : list K) : bool :=
    match a, b with
    | [], [] => true
    | x :: xs, y :: ys => lab_eqb x y && labs_eqb xs ys
    | _, _ => false
    end.
  (** Series subtraction: row by row when the indexes are identical, otherwise on the union of labels.
      Simplification: unique labels (repeated ones are in M_stats_dup.v). *)
  Definition ser_sub (a b : ser) : ser :=
    if labs_eqb (map fst a) (map fst b)
    then combine (map fst a) (map2 (opt2 Rminus) (map snd a) (map snd b))
    else map (fun k => (k, opt2 Rminus (ser_at a k) (ser_at b k))) (label_union (map fst a) (map fst b)).
  Definition ser_map (f : R -> R) (s : ser) : ser := map (fun r => (fst r, option_map f (snd r))) s.
  (** np.mean on a Series is Series.mean, which skips missing values. *)
  Definition ser_mean (s : ser) : fl := nanmean (map snd s).

  (** stats.py:131-149 bias_error, Series case *)
  Definition ser_bias_error (baseline estimation : ser) : ser := ser_sub estimation baseline.
  (** stats.py:48-66 *)
  Definition ser_squared_error (baseline estimation : ser) : ser :=
    ser_map (fun e => e ^ 2) (ser_bias_error baseline estimation).
  (** stats.py:89-108 *)
  Definition ser_absolute_error (baseline estimation : ser) : ser :=
    ser_map Rabs (ser_bias_error baseline estimation).
  (** stats.py:27-45 *)
  Definition ser_mse (baseline estimation : ser) : fl := ser_mean (ser_squared_error baseline estimation).
  (** stats.py:5-24 *)
  Definition ser_rmse (baseline estimation : ser) : fl := fsqrt (ser_mse baseline estimation).
  (** stats.py:68-86 *)
  Definition ser_mae (baseline estimation : ser) : fl := ser_mean (ser_absolute_error baseline estimation).
  (** stats.py:110-128 *)
  Definition ser_mbe (baseline estimation : ser) : fl := ser_mean (ser_bias_error baseline estimation).
End Series.
Arguments ser : clear implicits.

(** ** Time series *)

(** A Series on a DatetimeIndex: timestamps in integer nanoseconds, ascending. A DataFrame is handled
    column by column by every pandas call below, so one column is modelled. *)
Definition tser : Type := list (Z * option R).
Definition stamps (s : tser) : list Z := map fst s.
Definition values (s : tser) : list (option R) := map snd s.
Definition ns : Z := 1000000000.
Definition day_ns : Z := 86400 * ns.

(** Series.diff(tau): entry i minus entry i - tau; missing where that entry does not exist.
    Integer tau here; a tau that is not whole is modelled in M_stats_tau.v. *)
Definition sdiff (tau : Z) (l : list (option R)) : list (option R) :=
  map (fun i =>
         let j := (Z.of_nat i - tau)%Z in
         if ((0 <=? j) && (j <? Z.of_nat (length l)))%Z
         then opt2 Rminus (nth i l None) (nth (Z.to_nat j) l None) else None)
      (seq 0 (length l)).

Fixpoint Zdiffs (l : list Z) : list Z :=
  match l with x :: ((y :: _) as t) => (y - x)%Z :: Zdiffs t | _ => [] end.
(** np.nanmedian(index.diff().total_seconds()); NaN ([None]) when there are fewer than two rows. *)
Definition index_step (idx : list Z) : option R :=
  match Zdiffs idx with [] => None | ds => Some (median (map (fun d => IZR d / IZR ns) ds)) end.

Definition Zmin_of (l : list Z) : Z := match l with [] => 0%Z | x :: xs => fold_left Z.min xs x end.
Definition Zmax_of (l : list Z) : Z := match l with [] => 0%Z | x :: xs => fold_left Z.max xs x end.
(** series.resample(str(w)+'s').mean(): bins [o + k w, o + (k+1) w) labelled on the left, counted from
    midnight [o] of the first day, from the bin of the first sample to the bin of the last; empty bins
    are missing. A zero width raises ZeroDivisionError (an integer modulo inside pandas). *)
Definition resample_mean (w : Z) (s : tser) : result tser :=
  if (w <=? 0)%Z then Err ZeroDivisionError
  else match stamps s with
       | [] => Ok []
       | _ =>
         let W := (w * ns)%Z in
         let o := (day_ns * (Zmin_of (stamps s) / day_ns))%Z in
         let k0 := ((Zmin_of (stamps s) - o) / W)%Z in
         let k1 := ((Zmax_of (stamps s) - o) / W)%Z in
         Ok (map (fun i =>
                    let left := (o + (k0 + Z.of_nat i) * W)%Z in
                    let inbin := present (map snd (filter (fun r => ((left <=? fst r) && (fst r <? left + W))%Z) s)) in
                    (left, match inbin with [] => None | l => Some (Rmean l) end))
                 (seq 0 (Z.to_nat (k1 - k0 + 1))))
       end.
(** Lines 191-192, 242-245, 297-298: resample to int(tau*dt) seconds; int(NaN) raises ValueError. *)
Definition block_average (tau : Z) (step : option R) (s : tser) : result tser :=
  match step with
  | None => Err ValueError
  | Some dt => resample_mean (py_int (IZR tau * dt)) s
  end.

(** Series.rank(pct=True): mean of the 1-based positions the value takes in sorted order, over the count. *)
Definition rank_pct (l : list R) (a : R) : R :=
  Rmean (map (fun i => INR i + 1) (filter (fun i => Reqb (nth i (rsort l) 0) a) (seq 0 (length l))))
  / INR (length l).
(** stats.py:198-201: (|x| * (1 - rank)).max(), missing ramps skipped. *)
Definition vs_core (tau : Z) (l : list (option R)) : fl :=
  let x := map Rabs (present (sdiff tau l)) in
  nan_reduce Rmax_of (map (fun a => a * (1 - rank_pct x a)) x).
(** stats.py:194-201: without moving average. *)
Definition vs_plain (tau : Z) (pct : bool) (l : list (option R)) : fl :=
  if pct then fmul (Fin (100 / 1000)) (vs_core tau l) else vs_core tau l.
(** stats.py:152-201 variability_score *)
Definition variability_score (s : tser) (tau : Z) (moving_avg pct : bool) : result fl :=
  if moving_avg && (1 <? tau)%Z
  then let! rs := block_average tau (index_step (stamps s)) s in Ok (vs_plain 1 pct (values rs))
  else Ok (vs_plain tau pct (values s)).

(** First argument of variability_index and darr: pandas data or anything else. *)
Inductive pd_arg : Type := Pandas (s : tser) | NotPandas.

(** stats.py:247-248: sum of sqrt(diff^2 + dt^2), missing skipped. *)
Definition path_length (dt : R) (l : list (option R)) : R :=
  Rsum (map (fun d => sqrt (d ^ 2 + dt ^ 2)) (present (sdiff 1 l))).
(** stats.py:246-253: without moving average. With fewer than two ghi rows dt is NaN, every term is
    NaN, both sums are 0 and the quotient is NaN. *)
Definition vi_core (ghi clearsky : tser) (norm : bool) : fl :=
  match index_step (stamps ghi) with
  | None => Nan
  | Some step =>
    let dt := step / 60 in
    let vi := fdiv (Fin (path_length dt (values ghi))) (Fin (path_length dt (values clearsky))) in
    if norm then fmul vi (fsqrt (Fin dt)) else vi
  end.
(** stats.py:204-254 variability_index *)
Definition variability_index (ghi : pd_arg) (clearsky : tser) (moving_avg_tau : Z) (norm : bool) : result fl :=
  match ghi with
  | NotPandas => Err TypeError
  | Pandas g =>
    if (1 <? moving_avg_tau)%Z
    then let step := index_step (stamps g) in
         let! rs := block_average moving_avg_tau step g in
         let! cs := block_average moving_avg_tau step clearsky in
         Ok (vi_core rs cs norm)
    else Ok (vi_core g clearsky norm)
  end.

(** stats.py:304: sum of |diff(tau)|, missing skipped (the empty sum is 0). *)
Definition darr_core (tau : Z) (l : list (option R)) : R := Rsum (map Rabs (present (sdiff tau l))).
(** stats.py:301-304 *)
Definition darr_plain (tau : Z) (pct : bool) (l : list (option R)) : R :=
  if pct then darr_core tau (map (option_map (fun x => x * 100 / 1000)) l) else darr_core tau l.
(** stats.py:256-306 darr *)
Definition darr (series : pd_arg) (tau : Z) (moving_avg pct : bool) : result R :=
  match series with
  | NotPandas => Err TypeError
  | Pandas s =>
    if moving_avg && (1 <? tau)%Z
    then let! rs := block_average tau (index_step (stamps s)) s in Ok (darr_plain 1 pct (values rs))
    else Ok (darr_plain tau pct (values s))
  end.

(** ** calc_quantile *)

(** One input row: (day number, time of day in ns) and the value. Simplification: tz-naive index (M_quantile_tz.v has time zones). *)
Definition qrow : Type := ((Z * Z) * option R)%type.
Definition stamp_leb (a b : Z * Z) : bool :=
  ((fst a <? fst b) || ((fst a =? fst b) && (snd a <=? snd b)))%Z.
Definition stamp_eqb (a b : Z * Z) : bool := ((fst a =? fst b) && (snd a =? snd b))%Z.
(** pd.unique *)
Fixpoint uniq_from (seen l : list Z) : list Z :=
  match l with
  | [] => []
  | x :: xs => if lab_mem x seen then uniq_from seen xs else x :: uniq_from (x :: seen) xs
  end.
Definition uniq (l : list Z) : list Z := uniq_from [] l.
Definition find_row (rows : list qrow) (st : Z * Z) : option (option R) :=
  option_map snd (find (fun r => stamp_eqb (fst r) st) rows).
Fixpoint has_dup (l : list (Z * Z)) : bool :=
  match l with [] => false | x :: xs => existsb (stamp_eqb x) xs || has_dup xs end.

(** stats.py:364: ts[date_start:date_end] on a sorted index; both bounds are midnight, inclusive. *)
Definition window (rows : list qrow) (d0 d1 : Z) : list qrow :=
  filter (fun r => stamp_leb (d0, 0%Z) (fst r) && stamp_leb (fst r) (d1, 0%Z)) rows.
(** stats.py:365-374: pivot on time of day x date; a repeated (time, date) raises ValueError. *)
Definition pivot (w : list qrow) : result (list (Z * list (option R))) :=
  if has_dup (map fst w) then Err ValueError
  else
    let dates := sort_by Z.leb (uniq (map (fun r => fst (fst r)) w)) in
    let times := sort_by Z.leb (uniq (map (fun r => snd (fst r)) w)) in
    Ok (map (fun t => (t, map (fun d => match find_row w (d, t) with Some v => v | None => None end) dates)) times).
(** stats.py:376-384: quantile along each time row, skipping missing, stamped date_end + time. *)
Definition window_quantile (q : R) (date_end : Z) (w : list qrow) : result (list qrow) :=
  let! piv := pivot w in
  if Rltb q 0 || Rltb 1 q then Err ValueError
  else Ok (map (fun r => ((date_end, fst r),
                          match present (snd r) with [] => None | l => Some (quantile q l) end)) piv).
(** stats.py:354-390: the loop over days with its break. *)
Fixpoint quantile_loop (rows : list qrow) (n : Z) (q : R) (end_day : Z) (days : list Z) (out : list qrow)
  : result (list qrow) :=
  match days with
  | [] => Ok out
  | d :: ds =>
    let date_end := (d + n)%Z in
    if (end_day <? date_end)%Z then Ok out
    else let! p := window_quantile q date_end (window rows d date_end) in
         quantile_loop rows n q end_day ds (out ++ p)
  end.
(** Name(s) of the input: Series.name, or the DataFrame's columns ([None]: not a string). *)
Inductive ts_name : Type := SeriesName (s : option string) | FrameCols (l : list (option string)).
(** stats.py:394-402 *)
Definition quant_name (nm : ts_name) : result string :=
  match nm with
  | SeriesName (Some s) => Ok (s ++ "_quant")%string
  | SeriesName None => Ok "quantile"%string
  | FrameCols [Some s] => Ok (s ++ "_quant")%string
  | FrameCols [None] => Err TypeError
  | FrameCols _ => Err ValueError
  end.
(** stats.py:309-404 calc_quantile; [n] is the number of whole days of the n_days timedelta (date + timedelta
    ignores the rest). A frame with other than one column fails (369: the flattened data has the wrong
    length; 395: the wrong number of names). *)
Definition calc_quantile (rows : list qrow) (nm : ts_name) (n : Z) (q : R) : result (string * list qrow) :=
  match rev rows with
  | [] => Err IndexError
  | last :: _ =>
    match nm with
    | FrameCols ([] | _ :: _ :: _) => Err ValueError
    | _ =>
      let! out := quantile_loop rows n q (fst (fst last)) (uniq (map (fun r => fst (fst r)) rows)) [] in
      let re := map (fun r => (fst r, match find_row out (fst r) with Some v => v | None => None end)) rows in
      let! name := quant_name nm in
      Ok (name, re)
    end
  end.

(** ** irradiance.py *)

(** np.maximum / np.minimum: NaN propagates. *)
Definition fmaximum (a b : fl) : fl :=
  if is_nan a || is_nan b then Nan else if fleb a b then b else a.
Definition fminimum (a b : fl) : fl :=
  if is_nan a || is_nan b then Nan else if fleb a b then a else b.
(** pvlib.irradiance.clearsky_index, element by element (library code, modelled from its documentation
    and source: divide, non-finite -> 0, non-finite input -> NaN, clip below at 0 and above at the bound). *)
Definition pvlib_csi (ghi clearsky mx : fl) : fl :=
  let k := fdiv ghi clearsky in
  let k := if is_finite k then k else Fin 0 in
  let k := if negb (is_finite ghi) || negb (is_finite clearsky) then Nan else k in
  fminimum (fmaximum k (Fin 0)) mx.
Inductive csi_data : Type := Col (l : list fl) | Table (cols : list (list fl)).
(** irradiance.py:6-38 clearsky_index; ghi and clear-sky are equally long (same index). *)
Definition clearsky_index (ghi : csi_data) (clearsky : list fl) (mx : fl) : csi_data :=
  match ghi with
  | Table cols => Table (map (fun c => map2 (fun g k => pvlib_csi g k (Fin 2)) c clearsky) cols)
  | Col c => Col (map2 (fun g k => pvlib_csi g k mx) c clearsky)
  end.
