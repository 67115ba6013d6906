(** Property theorems. Scale weights and the stacked field.
    Proofs are in the X_ file of the same name. *)
From Verif Require Import Prelude PreludeFacts RealBase Fl RealStat Spec_stats M_stats P_stats P_list X_stats_err Spec_copula M_cloudfield Spec_cloudfield X_copula_down X_field_pos X_cloud_random.
Local Open Scope R_scope.
From Verif Require Import X_cloud_weights.

(** C70. For 0 < vs < 180 and positive scales the weights are positive, sum to one and follow a power of the scale. *)
Theorem C70_vs_weights_value :
  forall scales vs, 0 < vs < 180 -> scales <> [] -> (forall s, In s scales -> 0 < s) ->
  exists ws, calc_vs_weights scales vs = Ok (map Fin ws) /\ length ws = length scales /\ convex ws /\
    forall i j si sj wi wj, nth_error scales i = Some si -> nth_error scales j = Some sj -> nth_error ws i = Some wi -> nth_error ws j = Some wj ->
      0 < wi /\ wi / wj = Rpower (si / sj) (- (6 / 10) / ln (1 - vs / 180)) /\ (wi < wj <-> si < sj).
Proof. exact (@vs_weights_value). Qed.
Print Assumptions C70_vs_weights_value.

(** C70. Outside that range: negative scores are refused, at 180 the weights are equal (also for a scale of 0), above 180 all are NaN, unless
    every scale is 1. *)
Theorem C70_vs_weights_edges :
  forall scales vs, (forall s, In s scales -> 0 <= s) ->
  (vs < 0 -> calc_vs_weights scales vs = Err ValueError) /\
  (vs = 180 -> calc_vs_weights scales vs = Ok (map (fun _ => Fin (1 / INR (length scales))) scales)) /\
  (180 < vs -> (exists s, In s scales /\ s <> 1) -> calc_vs_weights scales vs = Ok (map (fun _ => Nan) scales)) /\
  (180 < vs -> (forall s, In s scales -> s = 1) -> calc_vs_weights scales vs = Ok (map (fun _ => Fin (1 / INR (length scales))) scales)).
Proof. exact (@vs_weights_edges). Qed.
Print Assumptions C70_vs_weights_edges.

(** C70. Refuted: a score of exactly 0 puts all weight on scale 1, although weights move to the largest scale as the score falls to 0. *)
Theorem C70_vs_zero_refuted :
  forall rest, rest <> [] -> (forall s, In s rest -> 1 < s) ->
  calc_vs_weights (1 :: rest) 0 = Ok (Fin 1 :: map (fun _ => Fin 0) rest) /\
  (forall vs, 0 < vs < 180 -> exists w1 ws, calc_vs_weights (1 :: rest) vs = Ok (Fin w1 :: map Fin ws) /\ forall w, In w ws -> w1 < w).
Proof. exact (@vs_zero_refuted). Qed.
Print Assumptions C70_vs_zero_refuted.

(** C70. Wavelet weights are the shares of the mean squares: non-negative, summing to one. *)
Theorem C70_wavelet_weights_value :
  forall waves, (forall w, In w waves -> present w <> []) -> (exists w x, In w waves /\ In (Some x) w /\ x <> 0) ->
  exists ws, calc_wavelet_weights waves = map Fin ws /\ convex ws /\
    ws = map (fun w => avg (map (fun x => x ^ 2) (present w)) / Rsum (map (fun w => avg (map (fun x => x ^ 2) (present w))) waves)) waves.
Proof. exact (@wavelet_weights_value). Qed.
Print Assumptions C70_wavelet_weights_value.

(** C70. One empty (all missing) wavelet, or only zeros, makes every weight NaN. *)
Theorem C70_wavelet_weights_nan :
  forall waves,
  ((exists w, In w waves /\ present w = []) \/ (forall w x, In w waves -> In (Some x) w -> x = 0)) ->
  calc_wavelet_weights waves = map (fun _ => Nan) waves.
Proof. exact (@wavelet_weights_nan). Qed.
Print Assumptions C70_wavelet_weights_nan.

Example C70_weights_example :
  calc_vs_weights [1; 2; 3] 90 <> Err ValueError /\ exists ws, calc_wavelet_weights [[Some 1; None]; [Some 1; Some 1]] = map Fin ws /\ ws = [1 / 2; 1 / 2].
Proof. exact (@weights_example). Qed.

(** C71. Without normalisation the field is the weighted sum of one interpolated field per scale, scale s drawn at 2^(1-s) of the size. *)
Theorem C71_stack_value :
  forall rnd k weights scales n m, length weights = length scales ->
  exists field layers, stack_random_field rnd k weights scales (n, m) false = Ok field /\ shaped n m field /\ length layers = length scales /\
    (forall l s, nth_error scales l = Some s -> exists A B, IZR A <= INR n * Rpower 2 (1 - s) < IZR A + 1 /\ IZR B <= INR m * Rpower 2 (1 - s) < IZR B + 1 /\
       nth_error layers l = Some (snd (random_at_scale rnd (k + l) (A, B) (n, m)))) /\
    forall i j vs, (i < n)%nat -> (j < m)%nat -> Forall2 (fun F v => cell_at F i j v) layers vs ->
      cell_at field i j (Rsum (map2 Rmult weights vs)).
Proof. exact (@stack_value). Qed.
Print Assumptions C71_stack_value.

(** C71. With convex weights every value of the unnormalised field lies in [0, 1). *)
Theorem C71_stack_range :
  forall rnd k weights scales n m field, generator rnd -> length weights = length scales -> convex weights ->
  stack_random_field rnd k weights scales (n, m) false = Ok field -> forall v, In v (concat field) -> 0 <= v < 1.
Proof. exact (@stack_range). Qed.
Print Assumptions C71_stack_range.

(** C71. Unequal lists are refused. *)
Theorem C71_stack_unequal :
  forall rnd k weights scales size normalize, length weights <> length scales ->
  stack_random_field rnd k weights scales size normalize = Err ValueError.
Proof. exact (@stack_unequal). Qed.
Print Assumptions C71_stack_unequal.

(** C71. Normalisation maps the range of the field onto [0, 1] by one increasing straight line; constant fields and empty ones are refused. *)
Theorem C71_stack_normalized :
  forall rnd k weights scales size field, stack_random_field rnd k weights scales size false = Ok field ->
  (forall lo hi, In lo (concat field) -> In hi (concat field) -> within lo hi field -> lo < hi ->
     stack_random_field rnd k weights scales size true = Ok (map (map (fun v => (v - lo) / (hi - lo))) field)) /\
  (forall c, In c (concat field) -> within c c field -> stack_random_field rnd k weights scales size true = Err AssertionError) /\
  (concat field = [] -> stack_random_field rnd k weights scales size true = Err ValueError).
Proof. exact (@stack_normalized). Qed.
Print Assumptions C71_stack_normalized.

(** C71. So a non-constant field comes out with minimum 0, maximum 1 and its order unchanged. *)
Theorem C71_stack_normalized_range :
  forall rnd k weights scales size field x y, stack_random_field rnd k weights scales size false = Ok field ->
  In x (concat field) -> In y (concat field) -> x <> y ->
  exists g out, stack_random_field rnd k weights scales size true = Ok out /\ out = map (map g) field /\ (forall a b, a < b <-> g a < g b) /\
    within 0 1 out /\ In 0 (concat out) /\ In 1 (concat out).
Proof. exact (@stack_normalized_range). Qed.
Print Assumptions C71_stack_normalized_range.

Example C71_stack_example :
  exists rnd field, generator rnd /\ stack_random_field rnd 0 [1] [1] (2, 2)%nat false = Ok field /\ In 0 (concat field) /\ In (1 / 2) (concat field).
Proof. exact (@stack_example). Qed.

