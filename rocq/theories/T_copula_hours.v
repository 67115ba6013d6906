(** Property theorems. C117 over several hours: copies within an hour, and hours that repeat.
    Proofs are in the X_ file of the same name. *)
From Verif Require Import Prelude PreludeFacts RealBase Fl RealStat M_spatial Spec_spatial Spec_stats M_copula Spec_copula P_plane X_spatial_time
  X_stats_err P_list X_copula_params X_copula_inverse X_copula_down Spec_copula_frozen X_copula_frozen.
Local Open Scope R_scope.
From Verif Require Import X_copula_hours.

(** C117. Over several hours, each with its own times, mean, parameters, speed and direction: within every hour the value recorded at a site when the clouds arrive is the one recorded before at the upwind site. The rows of an hour follow those of the hours before it. *)
Theorem C117_multihour_frozen :
  forall mvn Phi (times : list (list R)) e n spd dir csi params seed scale noneg, sampler mvn -> csi <> [] ->
  length times = length csi -> fits (length csi) params -> number_fits (length csi) spd -> number_fits (length csi) dir -> same_kind spd dir ->
  (forall t, In t times -> t <> []) -> (forall i q, at_hour params i q -> proper q) -> length e = length n ->
  (forall h t v d k cov, nth_error times h = Some t -> number_at_hour spd h v -> number_at_hour dir h d -> 0 < k -> site_time_cov k e n t v d cov ->
     gaussian_draw cov (mvn seed cov)) ->
  exists out, downscale_multihour mvn Phi (Many times) e n spd dir csi params seed scale noneg = Ok out /\
    forall h t v d i j a b dt, nth_error times h = Some t -> number_at_hour spd h v -> number_at_hour dir h d ->
      downwind e n d i j (v * dt) -> elapsed t a b dt ->
      let first := list_sum (map (@length R) (firstn h times)) in
      exists c, cell_at out (first + a) i c /\ cell_at out (first + b) j c.
Proof. exact (@multihour_frozen). Qed.
Print Assumptions C117_multihour_frozen.

(** C117. Only differences of times matter to downscale: starting all times later changes nothing. *)
Theorem C117_downscale_later :
  forall mvn Phi times e n spd dir K q seed scale noneg c,
  downscale mvn Phi (map (fun t => t + c) times) e n [spd] dir K q seed scale noneg = downscale mvn Phi times e n [spd] dir K q seed scale noneg.
Proof. exact (@downscale_later). Qed.
Print Assumptions C117_downscale_later.

(** C117. The cloud field does not go on from one hour to the next: with the same mean, parameters, speed and direction every hour the records of the first hour come again and again, however far the clouds have moved. *)
Theorem C117_multihour_restarts :
  forall mvn Phi t shifts e n spd dir K q seed scale noneg out, shifts <> [] ->
  downscale_multihour mvn Phi (Many (map (fun c => map (fun x => x + c) t) shifts)) e n (Single spd) (Single dir) (repeat K (length shifts)) (Single q) seed scale noneg = Ok out ->
  exists h, downscale mvn Phi t e n [spd] dir K q seed scale noneg = Ok h /\ out = concat (repeat h (length shifts)).
Proof. exact (@multihour_restarts). Qed.
Print Assumptions C117_multihour_restarts.

(** C117. Two hours of two seconds: inputs that meet the hypotheses of both theorems. *)
Example C117_hours_example :
  exists out, downscale_multihour pair_draw (fun _ => 1 / 2) (Many (map (fun c => map (fun x => x + c) [0; 1]) [0; 2])) [0; 1] [0; 0]
    (Single 1) (Single 0) (repeat (1 / 2) (length [0; 2])) (Single default_params) 7 true true = Ok out /\ length out = 4%nat /\
  forall h t v d k cov, nth_error [[0; 1]; [0 + 2; 1 + 2]] h = Some t -> number_at_hour (Single 1) h v -> number_at_hour (Single 0) h d -> 0 < k ->
    site_time_cov k [0; 1] [0; 0] t v d cov -> gaussian_draw cov (pair_draw 7 cov).
Proof. exact (@hours_example). Qed.

