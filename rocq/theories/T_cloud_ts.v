(** Property theorems. Series read from a cloud field, statistics of a series, and the whole generator.
    Proofs are in the X_ file of the same name. *)
From Verif Require Import Prelude PreludeFacts RealBase Fl RealStat Spec_stats M_stats P_stats P_list P_quantile X_stats_err Spec_copula M_cloudfield Spec_cloudfield
  X_copula_down X_field_pos X_cloud_random X_cloud_weights X_cloud_mask X_cloud_edges X_cloud_scale.
Local Open Scope R_scope.
From Verif Require Import X_cloud_ts.

(** C76. Sample k is the field at row x + k, one column, as long as k does not exceed the duration and the row exists; x, y and the duration are
    truncated, and columns count from the end when y is negative. *)
Theorem C76_ts_value :
  forall r c field e n speed duration x y d col, shaped r c field -> (0 < r)%nat -> speed <> 0 ->
  truncates (e / speed) x -> truncates (n / speed) y -> truncates duration d ->
  (0 <= x)%Z -> (0 <= d)%Z -> (col < c)%nat -> (y = Z.of_nat col \/ y = Z.of_nat col - Z.of_nat c)%Z ->
  exists series, get_positional_ts (e, n) field speed duration = Ok series /\
    forall k v, nth_error series k = Some v <-> (Z.of_nat k <= d)%Z /\ cell_at field (Z.to_nat x + k) col v.
Proof. exact (@ts_value). Qed.
Print Assumptions C76_ts_value.

(** C76. The series has duration + 1 samples when they fit and silently fewer when they do not. *)
Theorem C76_ts_length :
  forall r c field e n speed duration x y d, shaped r c field -> (0 < r)%nat -> speed <> 0 ->
  truncates (e / speed) x -> truncates (n / speed) y -> truncates duration d ->
  (0 <= x)%Z -> (0 <= d)%Z -> (- Z.of_nat c <= y < Z.of_nat c)%Z ->
  exists series, get_positional_ts (e, n) field speed duration = Ok series /\
    Z.of_nat (length series) = Z.min (d + 1) (Z.max 0 (Z.of_nat r - x)).
Proof. exact (@ts_length). Qed.
Print Assumptions C76_ts_length.

(** C76. Frozen field: a target k steps further along the motion records at time t what the first one records at time t + k. *)
Theorem C76_ts_shift :
  forall r c field e n speed duration x y d k, shaped r c field -> (0 < r)%nat -> 0 < speed -> 0 <= e ->
  truncates (e / speed) x -> truncates (n / speed) y -> truncates duration d -> (0 <= d)%Z -> (- Z.of_nat c <= y < Z.of_nat c)%Z ->
  exists here there, get_positional_ts (e, n) field speed duration = Ok here /\ get_positional_ts (e + INR k * speed, n) field speed duration = Ok there /\
    forall t, (Z.of_nat (t + k) <= d)%Z -> nth_error there t = nth_error here (t + k).
Proof. exact (@ts_shift). Qed.
Print Assumptions C76_ts_shift.

(** C76. A column outside the field raises; speed 0 divides by zero. *)
Theorem C76_ts_errors :
  forall r c field e n speed duration, shaped r c field -> (0 < r)%nat ->
  get_positional_ts (e, n) field 0 duration = Err ZeroDivisionError /\
  (forall y, speed <> 0 -> truncates (n / speed) y -> (y < - Z.of_nat c \/ Z.of_nat c <= y)%Z -> get_positional_ts (e, n) field speed duration = Err IndexError).
Proof. exact (@ts_errors). Qed.
Print Assumptions C76_ts_errors.

(** C76. A target before the start of the field: positions at most duration + 1 rows before it give nothing at all, earlier ones wrap around to the end. *)
Theorem C76_ts_negative :
  forall r c field e n speed duration m y d, shaped r c field -> (0 < r)%nat -> speed <> 0 ->
  truncates (e / speed) (- m) -> truncates (n / speed) y -> truncates duration d -> (- Z.of_nat c <= y < Z.of_nat c)%Z ->
  (0 < m <= Z.of_nat r)%Z -> (0 <= d < Z.of_nat r)%Z ->
  ((m <= d + 1)%Z -> get_positional_ts (e, n) field speed duration = Ok []) /\
  ((d + 1 < m)%Z -> get_positional_ts (e, n) field speed duration = get_positional_ts (IZR (Z.of_nat r - m) * speed, n) field speed duration).
Proof. exact (@ts_negative). Qed.
Print Assumptions C76_ts_negative.

Example C76_ts_example :
  get_positional_ts (7, 3) [[1; 2]; [3; 4]; [5; 6]; [7; 8]; [9; 10]] 3 2 = Ok [6; 8; 10].
Proof. exact (@ts_example). Qed.

(** C77. The statistics of a series with at least one present value. *)
Theorem C77_stats_value :
  forall wavelet kt threshold, present (values kt) <> [] ->
  exists st m p x s, get_timeseries_stats wavelet kt threshold = Ok st /\
    st_mean st = Fin m /\ m = avg (present (values kt)) /\
    st_pct st = Fin p /\ is_quantile (1 / 100) (present (values kt)) p /\
    st_max st = Fin x /\ largest (present (values kt)) x /\
    st_clear st = Fin s /\ s = INR (length (filter (Rltb threshold) (present (values kt)))) / INR (length kt) /\ 0 <= s <= 1 /\
    (forall v, variability_score kt 1 true false = Ok v -> st_vs st = fmul v (Fin 10000)) /\
    m <= x /\ p <= x.
Proof. exact (@stats_value). Qed.
Print Assumptions C77_stats_value.

(** C77. A series without any present value: NaN mean, percentile and maximum. *)
Theorem C77_stats_missing :
  forall wavelet kt threshold, present (values kt) = [] ->
  exists st, get_timeseries_stats wavelet kt threshold = Ok st /\ st_mean st = Nan /\ st_pct st = Nan /\ st_max st = Nan /\ st_clear st = match kt with [] => Nan | _ => Fin 0 end.
Proof. exact (@stats_missing). Qed.
Print Assumptions C77_stats_missing.

(** C77. One scale 1, 2, .. and one weight per wavelet except the steady one; the weights are shares of the mean squares. *)
Theorem C77_stats_weights :
  forall wavelet kt threshold, length (fst (wavelet kt)) = length (snd (wavelet kt)) ->
  exists st m, get_timeseries_stats wavelet kt threshold = Ok st /\ m = (length (snd (wavelet kt)) - 1)%nat /\
    length (st_weights st) = m /\ length (st_scales st) = m /\ (forall i s, nth_error (st_scales st) i = Some s -> s = (Z.of_nat i + 1)%Z) /\
    (let waves := firstn m (fst (wavelet kt)) in
     (forall w, In w waves -> present w <> []) -> (exists w x, In w waves /\ In (Some x) w /\ x <> 0) ->
     exists ws, st_weights st = map Fin ws /\ convex ws /\
       ws = map (fun w => avg (map (fun x => x ^ 2) (present w)) / Rsum (map (fun w => avg (map (fun x => x ^ 2) (present w))) waves)) waves).
Proof. exact (@stats_weights). Qed.
Print Assumptions C77_stats_weights.

(** C84. A generated field has the requested size, and its clear part covers the requested fraction (up to the self-check tolerance) with value exactly 1.
    Where the clear part lies depends only on the second half of the random draws. *)
Theorem C84_field_clear_part :
  forall rnd weights scales n m frac ktmean ktmax kt1pct scaling smoothing out,
  cloudfield_timeseries rnd weights scales (n, m) frac ktmean ktmax kt1pct scaling smoothing = Ok out ->
  length weights = length scales /\ (scaling = Original \/ scaling = Basic) /\ 0 <= frac <= 1 /\ shaped n m out /\
  exists mask, shaped n m mask /\ (forall v, In v (concat mask) -> v = 0 \/ v = 1) /\
    Rabs (frac - avg (concat mask)) <= 1 / 100000000 + 1 / 1000 * Rabs (avg (concat mask)) /\
    forall rnd', (forall k a b, (length scales <= k)%nat -> rnd' k a b = rnd k a b) ->
    forall scaling' ktmean' ktmax' kt1pct' out', cloudfield_timeseries rnd' weights scales (n, m) frac ktmean' ktmax' kt1pct' scaling' smoothing = Ok out' ->
      forall i j, cell_at mask i j 1 -> cell_at out' i j (Fin 1).
Proof. exact (@field_clear_part). Qed.
Print Assumptions C84_field_clear_part.

(** C84. Original scaling: outside the clear part, pixels next to a change of the clear mask are brightened into 1 .. ktmax, all others carry the inverted,
    clipped cloud brightness times one common non-negative factor. *)
Theorem C84_field_original :
  forall rnd weights scales n m frac ktmean ktmax kt1pct smoothing out,
  cloudfield_timeseries rnd weights scales (n, m) frac ktmean ktmax kt1pct Original smoothing = Ok out ->
  exists clouds cover mask, stack_random_field rnd 0 weights scales (n, m) false = Ok clouds /\
    stack_random_field rnd (length scales) weights scales (n, m) false = Ok cover /\ calc_clear_mask cover frac = Ok mask /\
    forall top lo hi, is_quantile (99 / 100) (outside clouds mask) top -> top <> 0 ->
      smallest (map (lave_cloud kt1pct top) (concat clouds)) lo -> largest (map (lave_cloud kt1pct top) (concat clouds)) hi -> lo < hi ->
      exists s, 0 <= s /\ forall i j g v, around mask n m i j g -> cell_at mask i j 0 -> cell_at clouds i j v ->
        (0 < gradient2 g -> cell_at out i j (Fin (1 + (lave_cloud kt1pct top v - lo) / (hi - lo) * (ktmax - 1)))) /\
        (gradient2 g = 0 -> cell_at out i j (Fin (s * lave_cloud kt1pct top v)) \/ cell_at out i j Nan /\ lave_cloud kt1pct top v = 0).
Proof. exact (@field_original). Qed.
Print Assumptions C84_field_original.

(** C84. Basic scaling: outside the clear part, pixels near a change of the mask (smoothed over the window) are brightened, all others lie on one increasing line
    through kt1pct. *)
Theorem C84_field_basic :
  forall rnd weights scales n m frac ktmean ktmax kt1pct smoothing out, (0 < smoothing)%nat ->
  cloudfield_timeseries rnd weights scales (n, m) frac ktmean ktmax kt1pct Basic smoothing = Ok out ->
  exists clouds cover mask edges marked, stack_random_field rnd 0 weights scales (n, m) false = Ok clouds /\
    stack_random_field rnd (length scales) weights scales (n, m) false = Ok cover /\ calc_clear_mask cover frac = Ok mask /\
    find_edges mask smoothing 0 = Ok (edges, marked) /\
    forall top bot, is_quantile (999 / 1000) (outside clouds mask) top -> is_quantile (1 / 1000) (outside clouds mask) bot -> bot < top ->
      exists s, (0 < s \/ s = 1 - kt1pct) /\ forall i j w v, window_mean edges n m smoothing i j w -> cell_at mask i j 0 -> cell_at clouds i j v ->
        (1 / 100000 <= w -> cell_at out i j (Fin (basic_share false bot top v * (ktmax - 1) + 1))) /\
        (w < 1 / 100000 -> cell_at out i j (Fin (basic_share false bot top v * s + kt1pct))).
Proof. exact (@field_basic). Qed.
Print Assumptions C84_field_basic.

(** C84. A request without clear sky always succeeds. *)
Theorem C84_field_overcast :
  forall rnd weights scales n m ktmean ktmax kt1pct scaling smoothing, length weights = length scales -> (0 < n)%nat -> (0 < m)%nat ->
  scaling = Original \/ scaling = Basic ->
  exists out, cloudfield_timeseries rnd weights scales (n, m) 0 ktmean ktmax kt1pct scaling smoothing = Ok out.
Proof. exact (@field_overcast). Qed.
Print Assumptions C84_field_overcast.

(** C84. A fully clear sky cannot be requested: fraction 1 always fails. *)
Theorem C84_field_all_clear_refuted :
  forall rnd weights scales n m ktmean ktmax kt1pct scaling smoothing, length weights = length scales -> (0 < n)%nat -> (0 < m)%nat ->
  cloudfield_timeseries rnd weights scales (n, m) 1 ktmean ktmax kt1pct scaling smoothing = Err (match scaling with OtherScaling => ValueError | _ => IndexError end).
Proof. exact (@field_all_clear_refuted). Qed.
Print Assumptions C84_field_all_clear_refuted.

(** C84. Unequal numbers of weights and scales, and fractions outside [0, 1], are refused. *)
Theorem C84_field_errors :
  forall rnd weights scales size frac ktmean ktmax kt1pct scaling smoothing,
  (length weights <> length scales -> cloudfield_timeseries rnd weights scales size frac ktmean ktmax kt1pct scaling smoothing = Err ValueError) /\
  (length weights = length scales -> frac < 0 \/ 1 < frac -> cloudfield_timeseries rnd weights scales size frac ktmean ktmax kt1pct scaling smoothing = Err ValueError).
Proof. exact (@field_errors). Qed.
Print Assumptions C84_field_errors.

