(** Property theorems. compute_cmv joined to the delay estimators, end to end: a pattern moving over the sites is measured exactly.
    Proofs are in the X_ file of the same name. *)
From Coq Require Import String Lra Psatz.
From Verif Require Import Prelude PreludeFacts RealBase Fl RealStat P_list M_spatial M_cmv M_signal_corr M_signal_tf M_link Spec_spatial Spec_signal Spec_cmv P_signal P_corr P_delay P_plane P_cmv X_signal_corr X_signal_delay X_signal_tfx X_cmv_options X_cmv_qc X_cmv_cascade X_cmv_motion X_cmv_rows X_cmv_total X_link_delay X_link_good.
From Verif Require M_cmv M_signal_corr.
Local Open Scope R_scope.
From Verif Require Import X_link_recover.

(** C94. Two records of one disturbance: the normalised cross-correlation is 1 at minus the lateness, and smaller elsewhere. *)
Theorem C94_pattern_best :
  forall g c n k k' x y, (exists j, g j <> 0) -> records g c n k x -> records g c n k' y ->
  best_lag n x y (k - k') /\ ncc x y (k - k') = 1 /\ forall L, lag_of n n L -> L <> (k - k')%Z -> ncc x y L < 1.
Proof. exact (@pattern_best). Qed.
Print Assumptions C94_pattern_best.

(** C94. End to end, 'xcorr' delays: if one disturbance moves over all sites, every reported delay is the exact travel time and
    every reported peak correlation is 1. *)
Theorem C94_pattern_delays :
  forall (K : Type) (HK : Label K) ls win dtr ms lsq dt n ts (pos : list (K * (R * R))) ref m o bk v t w o' f vel,
  keeps_count ls -> 0 < dt -> (2 <= n)%nat -> lower bk = "xcorr"%string ->
  cmv ls win dtr ms lsq dt n ts pos ref m o bk = Ok ((v, t, w), o') -> w_fit w = Some f -> moving_pattern dt n ts pos vel ->
  forall i p, nth_error (w_allpairs w) i = Some p -> exists s, separation pos p = Some s /\
    nth_error (w_pair_lag f) i = Some (Fin (inner s vel / inner vel vel)) /\ nth_error (w_corr_lag f) i = Some (Fin 1).
Proof. exact (@pattern_delays). Qed.
Print Assumptions C94_pattern_delays.

(** C94. So both methods return the true speed and direction, given two independent passing pairs and the optimiser's contract. *)
Theorem C94_pattern_recovered :
  forall (K : Type) (HK : Label K) ls win dtr ms lsq dt n ts (pos : list (K * (R * R))) ref m o bk v t w o' f vel,
  keeps_count ls -> 0 < dt -> (2 <= n)%nat -> lower bk = "xcorr"%string ->
  cmv ls win dtr ms lsq dt n ts pos ref m o bk = Ok ((v, t, w), o') -> w_fit w = Some f -> moving_pattern dt n ts pos vel -> vel <> (0, 0) ->
  spanning (good_separations pos (w_allpairs w) (w_pair_flag w)) ->
  (lower m = "jamaly"%string -> minimises ms (speed_variance (good_separations pos (w_allpairs w) (w_pair_flag w)) vel)) ->
  (lower m = "gagne"%string -> least_squares_solves lsq (slowness_misfit (good_separations pos (w_allpairs w) (w_pair_flag w)) vel)) ->
  exists a, v = Fin (len vel) /\ t = Fin a /\ 0 <= a < 2 * PI /\ polar (len vel) a = vel.
Proof. exact (@pattern_recovered). Qed.
Print Assumptions C94_pattern_recovered.

(** C94. and with 'jamaly' the passing pairs are those of distinct, adequate signals whose travel time is not zero and whose
    apparent speed, |v|^2 times distance over |separation . v|, is within limits *)
Theorem C94_pattern_good :
  forall (K : Type) (HK : Label K) ls win dtr ms lsq dt n ts (pos : list (K * (R * R))) ref m o bk v t w o' kt vs mc lo hi vel,
  keeps_count ls -> 0 < dt -> (2 <= n)%nat -> lower m = "jamaly"%string -> lower bk = "xcorr"%string ->
  cmv ls win dtr ms lsq dt n ts pos ref m o bk = Ok ((v, t, w), o') -> jamaly_options o' kt vs mc lo hi -> 0 < kt -> / 10 ^ 10 <= mc <= 1 ->
  moving_pattern dt n ts pos vel ->
  forall i p, nth_error (w_allpairs w) i = Some p -> exists x y s, dget ts (fst p) = Some (map Some x) /\ dget ts (snd p) = Some (map Some y) /\ separation pos p = Some s /\
    (nth_error (w_pair_flag w) i = Some GOOD <->
     fst p <> snd p /\ signal_ok kt vs x /\ signal_ok kt vs y /\ inner s vel / inner vel vel <> 0 /\ lo < len s / Rabs (inner s vel / inner vel vel) < hi).
Proof. exact (@pattern_good). Qed.
Print Assumptions C94_pattern_good.

