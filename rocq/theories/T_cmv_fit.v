(** Property theorems. cmv.py: what the two fits return on any data, frozen field or not.
    Proofs are in the X_ file of the same name. *)
From Coq Require Import String Permutation.
From Verif Require Import Prelude PreludeFacts RealBase Fl RealStat M_spatial M_cmv Spec_spatial Spec_cmv P_cmv P_plane X_cmv_options X_cmv_pairs X_cmv_qc X_cmv_cascade X_cmv_motion.
Local Open Scope R_scope.
From Verif Require Import X_cmv_fit.

(** C89. Jamaly, on any data whose passing pairs have finite delays: no passing pair has delay 0, the reported
    velocities are the apparent speeds of the passing pairs along the direction chosen by the minimiser, which is
    handed their variance; speed is the magnitude of their median, the direction is turned by half a turn when the
    median is negative, the spread index is (60% quantile - 40% quantile) / median, and the result is flagged TREND
    exactly when the index exceeds 0.4 in magnitude (an infinite index counts, a NaN one does not). *)
Theorem C89_jamaly_value :
  forall (K : Type) (HK : Label K) dx dt ms lsq ts (pos : list (K * (R * R))) ref m o bk v t w o' f,
  one_answer_per_pair dx -> one_answer_per_pair dt -> lower m = "jamaly"%string ->
  compute_cmv dx dt ms lsq ts pos ref m o bk = Ok ((v, t, w), o') -> w_fit w = Some f ->
  finite_delays (w_pair_flag w) (w_pair_lag f) ->
  let ps := used_pairs pos (w_allpairs w) (w_pair_flag w) (w_pair_lag f) in
  (2 <= length ps)%nat /\ (forall p, In p ps -> snd p <> 0) /\
  exists objective th a jm,
    (forall x, objective x = Fin (Rvar (apparent_speeds ps x))) /\ th = ms objective /\
    let med := median (apparent_speeds ps th) in
    v = Fin (Rabs med) /\ t = Fin a /\ 0 <= a < 2 * PI /\ polar (Rabs med) a = polar med th /\
    w_method_data f = Some jm /\ j_velocity jm = map Fin (apparent_speeds ps th) /\ j_ngood jm = length ps /\
    j_v60 jm = Fin (quantile (6 / 10) (apparent_speeds ps th)) /\ j_v40 jm = Fin (quantile (4 / 10) (apparent_speeds ps th)) /\
    j_err jm = fdiv (Fin (quantile (6 / 10) (apparent_speeds ps th) - quantile (4 / 10) (apparent_speeds ps th))) (Fin med) /\
    (w_flag w = TREND \/ w_flag w = GOOD) /\
    (w_flag w = TREND <-> below (Fin (4 / 10)) (fabs (j_err jm))).
Proof. exact (@jamaly_value). Qed.
Print Assumptions C89_jamaly_value.

(** C89. Gagne, on any data whose passing pairs have finite delays: the least-squares routine is handed the residuals
    delay - separation . a; if it answers a <> 0 the motion returned is a / |a|^2: speed 1/|a|, direction of a;
    if it answers 0 both are NaN. *)
Theorem C89_gagne_value :
  forall (K : Type) (HK : Label K) dx dt ms lsq ts (pos : list (K * (R * R))) ref m o bk v t w o' f,
  one_answer_per_pair dx -> one_answer_per_pair dt -> lower m = "gagne"%string ->
  compute_cmv dx dt ms lsq ts pos ref m o bk = Ok ((v, t, w), o') -> w_fit w = Some f ->
  finite_delays (w_pair_flag w) (w_pair_lag f) ->
  let ps := used_pairs pos (w_allpairs w) (w_pair_flag w) (w_pair_lag f) in
  (2 <= length ps)%nat /\ w_method_data f = None /\
  exists residuals,
    (forall a, residuals (fst a) (snd a) = map (fun p => Fin (snd p - inner (fst p) a)) ps) /\
    (forall a, lsq residuals = (Fin (fst a), Fin (snd a)) -> a <> (0, 0) ->
       exists ang, v = Fin (/ len a) /\ t = Fin ang /\ 0 <= ang < 2 * PI /\ polar (len a) ang = a) /\
    (lsq residuals = (Fin 0, Fin 0) -> v = Nan /\ t = Nan).
Proof. exact (@gagne_value). Qed.
Print Assumptions C89_gagne_value.

(** C89. Two sites disagree on the direction tried: speed 0, infinite spread, TREND. *)
Example C89_jamaly_value_example :
  exists ms lsq v t w o f,
  compute_cmv demo_backend demo_backend ms lsq demo_ts demo_pos RefNone "jamaly" None "xcorr" = Ok ((v, t, w), o) /\ w_fit w = Some f /\
  finite_delays (w_pair_flag w) (w_pair_lag f) /\ v = Fin 0 /\ w_flag w = TREND.
Proof. exact (@jamaly_value_example). Qed.

Example C89_gagne_value_example :
  exists ms lsq v t w o f,
  compute_cmv demo_backend demo_backend ms lsq demo_ts demo_pos RefNone "gagne" None "xcorr" = Ok ((v, t, w), o) /\ w_fit w = Some f /\
  finite_delays (w_pair_flag w) (w_pair_lag f) /\ (exists a, t = Fin a) /\ v = Fin (1 / 5).
Proof. exact (@gagne_value_example). Qed.

