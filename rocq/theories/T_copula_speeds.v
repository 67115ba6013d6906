(** Property theorems. Cloud speeds given as a sequence.
    Proofs are in the X_ file of the same name. *)
From Verif Require Import Prelude PreludeFacts RealBase Fl RealStat M_spatial Spec_spatial Spec_stats M_copula Spec_copula P_plane X_spatial_time
  X_stats_err P_list X_copula_params X_copula_inverse X_copula_down Spec_copula_speeds.
Local Open Scope R_scope.
From Verif Require Import X_copula_speeds.

(** C13. With a sequence of speeds: one speed serves all times, otherwise there must be one per time; everything else is refused. *)
Theorem C13_speeds_outcome :
  forall x y times cs cd,
  ((exists D, spacetime_speeds x y times cs cd = Ok D) <-> times <> [] /\ length x = length y /\ (length cs = 1%nat \/ length cs = length times)) /\
  (times = [] -> spacetime_speeds x y times cs cd = Err IndexError) /\
  (times <> [] -> length x <> length y \/ (length cs <> 1%nat /\ length cs <> length times) -> spacetime_speeds x y times cs cd = Err ValueError).
Proof. exact (@speeds_outcome). Qed.
Print Assumptions C13_speeds_outcome.

(** C13. Every entry, each time with its own speed. *)
Theorem C13_speeds_entry :
  forall x y times cs cd D, spacetime_speeds x y times cs cd = Ok D ->
  length D = (length x * length times)%nat /\ (forall row, In row D -> length row = length D) /\
  forall i j k l xi yi xj yj tk tl ck cl t0, nth_error times 0 = Some t0 ->
    nth_error x i = Some xi -> nth_error y i = Some yi -> nth_error times k = Some tk -> speed_at cs k ck ->
    nth_error x j = Some xj -> nth_error y j = Some yj -> nth_error times l = Some tl -> speed_at cs l cl ->
    entry D (i * length times + k) (j * length times + l) =
      Some (dist2 (moved_back (xi, yi) ck cd (tk - t0)) (moved_back (xj, yj) cl cd (tl - t0))).
Proof. exact (@speeds_entry). Qed.
Print Assumptions C13_speeds_entry.

(** C13. Two sites, three times, three speeds. *)
Example C13_speeds_example :
  exists D, spacetime_speeds [0; 10] [0; 5] [0; 1; 2] [4; 5; 6] (PI / 3) = Ok D.
Proof. exact (@speeds_example). Qed.

(** C67. Routing with a sequence of speeds: the value at row t, column s comes from the variate whose covariance row
    describes site s at time t, moved with the speed listed for that time. *)
Theorem C67_downscale_speeds :
  forall mvn Phi times e n spds dir K q seed, sampler mvn -> proper q -> times <> [] -> length e = length n ->
  length spds = 1%nat \/ length spds = length times ->
  exists pdf cdf k cov out, solar_gmm csi_grid K q = Ok (pdf, cdf, k) /\ site_time_cov_speeds k e n times spds dir cov /\
    downscale mvn Phi times e n spds dir K q seed false false = Ok out /\ shaped (length times) (length e) out /\
    forall t s, (t < length times)%nat -> (s < length e)%nat ->
      exists z, nth_error (mvn seed cov) (s * length times + t) = Some z /\ cell_at out t s (Fin (inverse_sample csi_grid cdf (Phi z))).
Proof. exact (@downscale_speeds). Qed.
Print Assumptions C67_downscale_speeds.

(** C68. Hourly speeds given with one direction for all hours are not split: every hour is computed from the whole sequence, so
    when the number of hours happens to equal the number of times the call succeeds, using the i-th hour's speed for the i-th time
    of every hour. *)
Theorem C68_multihour_speeds_misread :
  forall mvn Phi t e n speeds dir csi q seed, proper q -> csi <> [] -> t <> [] -> length e = length n ->
  length speeds = length csi -> length speeds = length t -> sampler mvn ->
  exists hours, downscale_multihour mvn Phi (Single t) e n (Many speeds) (Single dir) csi (Single q) seed false false = Ok (concat hours) /\
    length hours = length csi /\
    forall i K, nth_error csi i = Some K -> exists h, nth_error hours i = Some h /\ downscale mvn Phi t e n speeds dir K q seed false false = Ok h.
Proof. exact (@multihour_speeds_misread). Qed.
Print Assumptions C68_multihour_speeds_misread.

(** C68. Three hours of three times each. *)
Example C68_multihour_misread_example :
  exists out, downscale_multihour (fun _ cov => map (fun _ => 0) cov) (fun _ => 1 / 2) (Single [0; 1; 2]) [0; 5] [0; 1]
  (Many [3; 4; 5]) (Single 0) [1 / 2; 3 / 4; 1] (Single default_params) 7 false false = Ok out.
Proof. exact (@multihour_misread_example). Qed.

