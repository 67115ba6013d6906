(** Property theorems. Covariance, downscale and downscale_multihour.
    Proofs are in the X_ file of the same name. *)
From Verif Require Import Prelude PreludeFacts RealBase Fl RealStat M_spatial Spec_spatial Spec_stats M_copula Spec_copula P_plane X_spatial_time
  X_stats_err P_list X_copula_params X_copula_inverse.
Local Open Scope R_scope.
From Verif Require Import X_copula_down.

(** C65. The matrix handed to the sampler holds exp(-k distance) for every pair of site-times. *)
Theorem C65_copula_cov :
  forall e n times spd dir D x cdf k, spacetime_distances e n times spd dir = Ok D ->
  exists cov, site_time_cov k e n times spd dir cov /\
    forall mvn Phi seed, space_time_copula mvn Phi D x cdf k seed = map (fun z => inverse_sample x cdf (Phi z)) (mvn seed cov).
Proof. exact (@copula_cov). Qed.
Print Assumptions C65_copula_cov.

(** C65. It is a correlation matrix: symmetric, 1 on the diagonal, entries in (0, 1], smaller for larger distance, and 1 exactly for
    site-times connected by the cloud motion. *)
Theorem C65_cov_correlation :
  forall k e n times spd dir cov, 0 < k -> length e = length n -> times <> [] -> site_time_cov k e n times spd dir cov ->
  (forall a, (a < length cov)%nat -> entry cov a a = Some 1) /\
  (forall a b, (a < length cov)%nat -> (b < length cov)%nat -> exists c, entry cov a b = Some c /\ entry cov b a = Some c /\ 0 < c <= 1) /\
  (forall i j a b ei ni ej nj ta tb, nth_error e i = Some ei -> nth_error n i = Some ni -> nth_error times a = Some ta ->
     nth_error e j = Some ej -> nth_error n j = Some nj -> nth_error times b = Some tb ->
     (entry cov (i * length times + a) (j * length times + b) = Some 1 <->
      sub2 (ej, nj) (ei, ni) = scale2 (spd * (tb - ta)) (cos dir, sin dir))) /\
  (forall i j a b i' j' a' b' ei ni ej nj ta tb ei' ni' ej' nj' ta' tb' t0 c c', nth_error times 0 = Some t0 ->
     nth_error e i = Some ei -> nth_error n i = Some ni -> nth_error times a = Some ta ->
     nth_error e j = Some ej -> nth_error n j = Some nj -> nth_error times b = Some tb ->
     nth_error e i' = Some ei' -> nth_error n i' = Some ni' -> nth_error times a' = Some ta' ->
     nth_error e j' = Some ej' -> nth_error n j' = Some nj' -> nth_error times b' = Some tb' ->
     entry cov (i * length times + a) (j * length times + b) = Some c -> entry cov (i' * length times + a') (j' * length times + b') = Some c' ->
     (c < c' <-> dist2 (moved_back (ei', ni') spd dir (ta' - t0)) (moved_back (ej', nj') spd dir (tb' - t0))
               < dist2 (moved_back (ei, ni) spd dir (ta - t0)) (moved_back (ej, nj) spd dir (tb - t0)))).
Proof. exact (@cov_correlation). Qed.
Print Assumptions C65_cov_correlation.

Example C65_copula_cov_example :
  exists D, spacetime_distances [0; 10] [0; 5] [0; 1; 2] 4 (PI / 3) = Ok D.
Proof. exact (@copula_cov_example). Qed.

(** C67. Routing: the value at row t, column s comes from the variate whose covariance row describes site s at time t. *)
Theorem C67_downscale_routing :
  forall mvn Phi times e n spd dir K q seed, sampler mvn -> proper q -> times <> [] -> length e = length n ->
  exists pdf cdf k cov out, solar_gmm csi_grid K q = Ok (pdf, cdf, k) /\ site_time_cov k e n times spd dir cov /\
    downscale mvn Phi times e n [spd] dir K q seed false false = Ok out /\
    forall t s, (t < length times)%nat -> (s < length e)%nat ->
      exists z, nth_error (mvn seed cov) (s * length times + t) = Some z /\ cell_at out t s (Fin (inverse_sample csi_grid cdf (Phi z))).
Proof. exact (@downscale_routing). Qed.
Print Assumptions C67_downscale_routing.

Example C67_downscale_routing_example :
  sampler (fun _ cov => map (fun _ => 0) cov) /\ proper default_params.
Proof. exact (@downscale_routing_example). Qed.

(** C66. Shape for every option; range with both options off. *)
Theorem C66_downscale_shape :
  forall mvn Phi times e n spd dir K q seed scale noneg, sampler mvn -> proper q -> times <> [] -> length e = length n ->
  exists out, downscale mvn Phi times e n [spd] dir K q seed scale noneg = Ok out /\ shaped (length times) (length e) out /\
    (scale = false -> forall v, In v (concat out) -> exists x, v = Fin x /\ -2 <= x <= 2 /\ (noneg = true -> 0 <= x)).
Proof. exact (@downscale_shape). Qed.
Print Assumptions C66_downscale_shape.

(** C66. noneg replaces every negative value by 0 and leaves the rest. *)
Theorem C66_downscale_noneg :
  forall mvn Phi times e n spd dir K q seed, sampler mvn -> proper q -> times <> [] -> length e = length n ->
  exists m, downscale mvn Phi times e n [spd] dir K q seed false false = Ok (map (map Fin) m) /\
    downscale mvn Phi times e n [spd] dir K q seed false true = Ok (map (map (fun v => Fin (Rmax 0 v))) m).
Proof. exact (@downscale_noneg). Qed.
Print Assumptions C66_downscale_noneg.

(** C66. scale multiplies by mean_csi over the mean, so the overall mean becomes mean_csi exactly; with a zero mean nothing finite is left. *)
Theorem C66_downscale_scale :
  forall mvn Phi times e n spd dir K q seed noneg, sampler mvn -> proper q -> times <> [] -> length e = length n -> e <> [] ->
  exists m, downscale mvn Phi times e n [spd] dir K q seed false noneg = Ok (map (map Fin) m) /\ concat m <> [] /\
    (avg (concat m) <> 0 -> exists m', m' = map (map (fun v => v * (K / avg (concat m)))) m /\
       downscale mvn Phi times e n [spd] dir K q seed true noneg = Ok (map (map Fin) m') /\ avg (concat m') = K /\
       (noneg = true -> 0 <= K -> forall v, In v (concat m') -> 0 <= v)) /\
    (avg (concat m) = 0 -> exists out, downscale mvn Phi times e n [spd] dir K q seed true noneg = Ok out /\ forall v, In v (concat out) -> is_finite v = false).
Proof. exact (@downscale_scale). Qed.
Print Assumptions C66_downscale_scale.

(** C66. Refused: sites of unequal length, no times; parameters whose cloudy deviation is zero. *)
Theorem C66_downscale_errors :
  forall mvn Phi times e n spd dir K q seed scale noneg, proper q ->
  (times <> [] -> length e <> length n -> downscale mvn Phi times e n [spd] dir K q seed scale noneg = Err ValueError) /\
  downscale mvn Phi [] e n [spd] dir K q seed scale noneg = Err IndexError.
Proof. exact (@downscale_errors). Qed.
Print Assumptions C66_downscale_errors.

Example C66_downscale_example :
  exists out, downscale (fun _ cov => map (fun _ => 0) cov) (fun _ => 1) [0; 1] [0; 5; 9] [0; 0; 1] [3] 0 (1/2) default_params 7 true true = Ok out /\
  shaped 2 3 out /\ (forall row, In row out -> forall v, In v row -> v = Fin (1/2)).
Proof. exact (@downscale_example). Qed.

(** C68. With speed and direction given alike, the result is the concatenation of the single-hour results, each with its own hour's arguments. *)
Theorem C68_multihour_value :
  forall mvn Phi times e n spd dir csi params seed scale noneg out, fits (length csi) times -> fits (length csi) params ->
  number_fits (length csi) spd -> number_fits (length csi) dir -> same_kind spd dir ->
  (downscale_multihour mvn Phi times e n spd dir csi params seed scale noneg = Ok out <->
   csi <> [] /\ exists hours, out = concat hours /\ length hours = length csi /\
     forall i K t q v d, nth_error csi i = Some K -> at_hour times i t -> at_hour params i q -> number_at_hour spd i v -> number_at_hour dir i d ->
       exists h, nth_error hours i = Some h /\ downscale mvn Phi t e n [v] d K q seed scale noneg = Ok h).
Proof. exact (@multihour_value). Qed.
Print Assumptions C68_multihour_value.

(** C68. It succeeds for proper parameters and non-empty times, with one row per time of each hour and one column per site. *)
Theorem C68_multihour_shape :
  forall mvn Phi (times : list (list R)) e n spd dir csi params seed scale noneg, sampler mvn -> csi <> [] ->
  length times = length csi -> fits (length csi) params -> number_fits (length csi) spd -> number_fits (length csi) dir -> same_kind spd dir ->
  (forall t, In t times -> t <> []) -> (forall i q, at_hour params i q -> proper q) -> length e = length n ->
  exists out, downscale_multihour mvn Phi (Many times) e n spd dir csi params seed scale noneg = Ok out /\
    shaped (list_sum (map (@length R) times)) (length e) out.
Proof. exact (@multihour_shape). Qed.
Print Assumptions C68_multihour_shape.

(** C68. Hours with equal arguments are identical: the seed is used afresh for each hour. *)
Theorem C68_multihour_repeats :
  forall mvn Phi t e n spd dir csi q seed scale noneg out, (forall K, In K csi -> K = nth 0 csi 0) ->
  downscale_multihour mvn Phi (Single t) e n (Single spd) (Single dir) csi (Single q) seed scale noneg = Ok out ->
  exists h, downscale mvn Phi t e n [spd] dir (nth 0 csi 0) q seed scale noneg = Ok h /\ out = concat (repeat h (length csi)).
Proof. exact (@multihour_repeats). Qed.
Print Assumptions C68_multihour_repeats.

(** C68. What is refused. *)
Theorem C68_multihour_errors :
  forall mvn Phi times e n spd dir csi params seed scale noneg,
  let call := downscale_multihour mvn Phi times e n spd dir csi params seed scale noneg in let h := length csi in
  (~ fits h times -> call = Err ValueError) /\
  (fits h times -> ~ fits h params -> call = Err ValueError) /\
  (fits h times -> fits h params -> ~ number_fits h dir -> call = Err ValueError) /\
  (fits h times -> fits h params -> number_fits h dir -> same_kind spd dir -> ~ number_fits h spd -> call = Err ValueError) /\
  (fits h times -> fits h params -> number_fits h dir -> (exists l s, dir = Many l /\ spd = Single s) -> call = Err TypeError) /\
  (fits h times -> fits h params -> number_fits h dir -> number_fits h spd -> same_kind spd dir -> csi = [] -> call = Err ValueError).
Proof. exact (@multihour_errors). Qed.
Print Assumptions C68_multihour_errors.

(** C68. Refuted: hourly speeds with one direction for all hours are not split by hour. Speed is validated by the type of direction, so
    the whole sequence reaches every hour, where it fails unless its length happens to equal the number of times. *)
Theorem C68_multihour_speeds_refuted :
  forall mvn Phi t e n speeds dir csi q seed scale noneg, proper q -> csi <> [] -> t <> [] ->
  length speeds = length csi -> length speeds <> 1%nat -> length speeds <> length t ->
  downscale_multihour mvn Phi (Single t) e n (Many speeds) (Single dir) csi (Single q) seed scale noneg = Err ValueError.
Proof. exact (@multihour_speeds_refuted). Qed.
Print Assumptions C68_multihour_speeds_refuted.

Example C68_multihour_example :
  exists out, downscale_multihour (fun _ cov => map (fun _ => 0) cov) (fun _ => 1 / 2) (Many [[0; 1; 2]; [3; 4]]) [0; 5] [0; 1]
  (Many [3; 4]) (Many [0]) [1 / 2; 3 / 4] (Single default_params) 7 true true = Ok out /\ shaped 5 2 out.
Proof. exact (@multihour_example). Qed.

