(** Property theorems. Aligned sites record the same series with a delay; where the correlation between two sites peaks.
    Proofs are in the X_ file of the same name. *)
From Verif Require Import Prelude PreludeFacts RealBase Fl RealStat M_spatial Spec_spatial Spec_stats M_copula Spec_copula P_plane X_spatial_time
  X_stats_err P_list X_copula_params X_copula_inverse X_copula_down Spec_copula_frozen.
Local Open Scope R_scope.
From Verif Require Import X_copula_frozen.

(** C117. The clear-sky index recorded at a site when the clouds arrive from an upwind site is the value recorded there before: same value
    at site i, time a and at site j, time b whenever j lies downwind of i at the distance travelled in between, for every option. *)
Theorem C117_frozen_copy :
  forall mvn Phi times e n spd dir K q seed scale noneg, sampler mvn -> proper q -> times <> [] -> length e = length n ->
  (forall k cov, 0 < k -> site_time_cov k e n times spd dir cov -> gaussian_draw cov (mvn seed cov)) ->
  exists out, downscale mvn Phi times e n [spd] dir K q seed scale noneg = Ok out /\ shaped (length times) (length e) out /\
    forall i j a b dt, downwind e n dir i j (spd * dt) -> elapsed times a b dt -> exists v, cell_at out a i v /\ cell_at out b j v.
Proof. exact (@frozen_copy). Qed.
Print Assumptions C117_frozen_copy.

(** C117. On evenly spaced times the downwind series is the upwind series delayed by a whole number of rows. *)
Theorem C117_frozen_delay :
  forall mvn Phi times e n spd dir K q seed scale noneg step i j m, sampler mvn -> proper q -> times <> [] -> length e = length n ->
  (forall k cov, 0 < k -> site_time_cov k e n times spd dir cov -> gaussian_draw cov (mvn seed cov)) ->
  (forall r, (S r < length times)%nat -> elapsed times r (S r) step) -> downwind e n dir i j (spd * (INR m * step)) ->
  exists out, downscale mvn Phi times e n [spd] dir K q seed scale noneg = Ok out /\
    forall r, (r + m < length times)%nat -> exists v, cell_at out r i v /\ cell_at out (r + m) j v.
Proof. exact (@frozen_delay). Qed.
Print Assumptions C117_frozen_delay.

(** C117. The correlation between two sites depends on how far the second lies along and across the motion; it never exceeds the value
    set by the distance across, and reaches it exactly at the delay the clouds need for the distance along. *)
Theorem C117_correlation_peak :
  forall k e n times spd dir cov i j a b along across dt, 0 < k -> length e = length n -> site_time_cov k e n times spd dir cov ->
  offset e n dir i j along across -> elapsed times a b dt ->
  exists c, entry cov (i * length times + a) (j * length times + b) = Some c /\
    c = exp (- (k * sqrt ((along - spd * dt) ^ 2 + across ^ 2))) /\
    c <= exp (- (k * Rabs across)) /\ (c = exp (- (k * Rabs across)) <-> spd * dt = along).
Proof. exact (@correlation_peak). Qed.
Print Assumptions C117_correlation_peak.

(** C117. demos/synthetic_copula_demo.py: with times 15 s apart the downwind site repeats the upwind site 30 rows (450 s) later, while the
    northward site is most correlated with the upwind site at equal times. *)
Theorem C117_demo_delay :
  forall mvn Phi times K seed, sampler mvn -> times <> [] ->
  (forall k cov, 0 < k -> site_time_cov k demo_e demo_n times 1 0 cov -> gaussian_draw cov (mvn seed cov)) ->
  (forall r, (S r < length times)%nat -> elapsed times r (S r) 15) ->
  (exists out, downscale mvn Phi times demo_e demo_n [1] 0 K default_params seed true true = Ok out /\
    forall r, (r + 30 < length times)%nat -> exists v, cell_at out r 0 v /\ cell_at out (r + 30) 1 v) /\
  forall k cov a b dt, 0 < k -> site_time_cov k demo_e demo_n times 1 0 cov -> elapsed times a b dt ->
    exists c, entry cov (0 * length times + a) (2 * length times + b) = Some c /\ c <= exp (- (k * 450)) /\ (c = exp (- (k * 450)) <-> dt = 0).
Proof. exact (@demo_delay). Qed.
Print Assumptions C117_demo_delay.

(** C117. A sampler that meets the hypothesis, with a draw that is not constant. *)
Example C117_frozen_example :
  sampler pair_draw /\
  (forall k cov, 0 < k -> site_time_cov k [0; 1] [0; 0] [0; 1] 1 0 cov -> gaussian_draw cov (pair_draw 7 cov)) /\
  downwind [0; 1] [0; 0] 0 0 1 (1 * 1) /\ elapsed [0; 1] 0 1 1 /\
  forall k cov, 0 < k -> site_time_cov k [0; 1] [0; 0] [0; 1] 1 0 cov -> nth_error (pair_draw 7 cov) 1 <> nth_error (pair_draw 7 cov) 0.
Proof. exact (@frozen_example). Qed.

