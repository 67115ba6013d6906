(** Property theorems. cmv.py: normalised output, and recovery of a frozen advecting field by both methods.
    Proofs are in the X_ file of the same name. *)
From Coq Require Import String Permutation.
From Verif Require Import Prelude PreludeFacts RealBase Fl RealStat M_spatial M_cmv Spec_spatial Spec_cmv P_cmv P_plane X_cmv_options X_cmv_pairs X_cmv_qc X_cmv_cascade.
Local Open Scope R_scope.
From Verif Require Import X_cmv_motion.

(** C20. Normalisation keeps the fitted vector and makes the speed non-negative and the angle lie in [0, 2 pi). *)
Theorem C20_normalised_fit :
  forall speed angle : R, exists speed' angle',
  normalise_cmv (Fin speed) (Fin angle) = (Fin speed', Fin angle') /\
  0 <= speed' /\ 0 <= angle' < 2 * PI /\ polar speed' angle' = polar speed angle /\ speed' = Rabs speed.
Proof. exact (@normalised_fit). Qed.
Print Assumptions C20_normalised_fit.

(** C20. Whatever compute_cmv returns: the speed is a real >= 0 or NaN, the direction a real in [0, 2 pi) or NaN,
    and with 'jamaly' the direction is always a real number. *)
Theorem C20_cmv_output_normalised :
  forall (K : Type) (HK : Label K) dx dt ms lsq ts (pos : list (K * (R * R))) ref m o bk v t w o',
  compute_cmv dx dt ms lsq ts pos ref m o bk = Ok ((v, t, w), o') ->
  (v = Nan \/ exists a, v = Fin a /\ 0 <= a) /\ (t = Nan \/ exists b, t = Fin b /\ 0 <= b < 2 * PI) /\
  (lower m = "jamaly"%string -> exists b, t = Fin b /\ 0 <= b < 2 * PI).
Proof. exact (@cmv_output_normalised). Qed.
Print Assumptions C20_cmv_output_normalised.

Example C20_normalise_example :
  exists a,
  normalise_cmv (Fin (-3)) (Fin (- PI)) = (Fin 3, Fin a) /\ polar 3 a = (3, 0).
Proof. exact (@normalise_example). Qed.

(** C21. Frozen field of velocity [vel], passing separations spanning the plane, and a scalar minimiser
    that finds a global minimum of the variance of apparent speeds: 'jamaly' returns the speed
    |vel|, the direction of [vel] in [0, 2 pi), error index 0 and no TREND flag. *)
Theorem C21_jamaly_recovers :
  forall (K : Type) (HK : Label K) dx dt ms lsq ts (pos : list (K * (R * R))) ref m o bk v t w o' f (vel : R * R),
  one_answer_per_pair dx -> one_answer_per_pair dt -> lower m = "jamaly"%string ->
  compute_cmv dx dt ms lsq ts pos ref m o bk = Ok ((v, t, w), o') -> w_fit w = Some f ->
  vel <> (0, 0) ->
  frozen_field pos vel (w_allpairs w) (w_pair_flag w) (w_pair_lag f) ->
  spanning (good_separations pos (w_allpairs w) (w_pair_flag w)) ->
  minimises ms (speed_variance (good_separations pos (w_allpairs w) (w_pair_flag w)) vel) ->
  exists a, v = Fin (len vel) /\ t = Fin a /\ 0 <= a < 2 * PI /\ polar (len vel) a = vel /\
    w_flag w = GOOD /\ exists md, w_method_data f = Some md /\ j_err md = Fin 0.
Proof. exact (@jamaly_recovers). Qed.
Print Assumptions C21_jamaly_recovers.

(** C22. Frozen field of velocity [vel], passing separations spanning the plane and a least-squares
    routine that finds a minimum of the sum of squared residuals: 'gagne' returns |vel| and the direction of [vel]. *)
Theorem C22_gagne_recovers :
  forall (K : Type) (HK : Label K) dx dt ms lsq ts (pos : list (K * (R * R))) ref m o bk v t w o' f (vel : R * R),
  one_answer_per_pair dx -> one_answer_per_pair dt -> lower m = "gagne"%string ->
  compute_cmv dx dt ms lsq ts pos ref m o bk = Ok ((v, t, w), o') -> w_fit w = Some f ->
  vel <> (0, 0) ->
  frozen_field pos vel (w_allpairs w) (w_pair_flag w) (w_pair_lag f) ->
  spanning (good_separations pos (w_allpairs w) (w_pair_flag w)) ->
  least_squares_solves lsq (slowness_misfit (good_separations pos (w_allpairs w) (w_pair_flag w)) vel) ->
  exists a, v = Fin (len vel) /\ t = Fin a /\ 0 <= a < 2 * PI /\ polar (len vel) a = vel.
Proof. exact (@gagne_recovers). Qed.
Print Assumptions C22_gagne_recovers.

Example C21_jamaly_example :
  exists ms lsq v t w o f,
  one_answer_per_pair demo_backend /\
  compute_cmv demo_backend demo_backend ms lsq demo_ts demo_pos RefNone "jamaly" None "xcorr" = Ok ((v, t, w), o) /\ w_fit w = Some f /\
  frozen_field demo_pos (10, 0) (w_allpairs w) (w_pair_flag w) (w_pair_lag f) /\
  spanning (good_separations demo_pos (w_allpairs w) (w_pair_flag w)) /\
  minimises ms (speed_variance (good_separations demo_pos (w_allpairs w) (w_pair_flag w)) (10, 0)).
Proof. exact (@jamaly_example). Qed.

Example C22_gagne_example :
  exists ms lsq v t w o f,
  one_answer_per_pair demo_backend /\
  compute_cmv demo_backend demo_backend ms lsq demo_ts demo_pos RefNone "gagne" None "xcorr" = Ok ((v, t, w), o) /\ w_fit w = Some f /\
  frozen_field demo_pos (10, 0) (w_allpairs w) (w_pair_flag w) (w_pair_lag f) /\
  spanning (good_separations demo_pos (w_allpairs w) (w_pair_flag w)) /\
  least_squares_solves lsq (slowness_misfit (good_separations demo_pos (w_allpairs w) (w_pair_flag w)) (10, 0)).
Proof. exact (@gagne_example). Qed.

(** C19. Both exits are reached: a fit for three sites, the failure exit for a single site. *)
Example C19_exits_example :
  one_answer_per_pair demo_backend /\ one_answer_per_pair zero_backend /\
  (exists ms lsq v t w o f, compute_cmv demo_backend demo_backend ms lsq demo_ts demo_pos RefNone "jamaly" None "xcorr" = Ok ((v, t, w), o) /\ w_fit w = Some f) /\
  (exists ms lsq v t w o, compute_cmv zero_backend zero_backend ms lsq demo_ts [(0%nat, (0, 0))] RefNone "jamaly" None "xcorr" = Ok ((v, t, w), o) /\ w_fit w = None).
Proof. exact (@exits_example). Qed.

