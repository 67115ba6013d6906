(** Property theorems. compute_cmv joined to the delay estimators: success, a complete run, and where recovery fails.
    Proofs are in the X_ file of the same name. *)
From Coq Require Import String Lra Psatz.
From Verif Require Import Prelude PreludeFacts RealBase Fl RealStat P_list M_spatial M_cmv M_signal_corr M_signal_tf M_link Spec_spatial Spec_signal Spec_cmv P_signal P_corr P_delay P_plane P_cmv X_signal_corr X_signal_delay X_signal_tfx X_cmv_options X_cmv_qc X_cmv_cascade X_cmv_motion X_cmv_pairs X_cmv_rows X_cmv_total X_link_delay X_link_good X_link_recover.
From Verif Require M_cmv M_signal_corr.
Local Open Scope R_scope.
From Verif Require Import X_link_demo.

(** C94. With 'xcorr' delays the joined compute_cmv succeeds on every table of at least two rows with a column for every site,
    a reference site, a known method and admissible options. *)
Theorem C94_xcorr_succeeds :
  forall (K : Type) (HK : Label K) ls win dtr ms lsq dt n ts (pos : list (K * (R * R))) ref m o bk,
  dt <> 0 -> (2 <= n)%nat -> table_of n ts -> known_method (lower m) -> lower bk = "xcorr"%string -> some_reference (map fst pos) ref ->
  (forall k, In k (map fst pos) -> dget ts k <> None) -> admissible (lower m) (options_of o) ->
  exists v t w o', cmv ls win dtr ms lsq dt n ts pos ref m o bk = Ok ((v, t, w), o').
Proof. exact (@xcorr_succeeds). Qed.
Print Assumptions C94_xcorr_succeeds.

(** C94. An exactly shifted disturbance inside the record is not always given its delay: the 'coeff' scaling removes the means
    first, and [1,1,1,0] against [0,1,1,1] (one step late) is reported three steps early. (A disturbance whose record mean
    is the background level, as in the recovery theorem, does not suffer from this.) *)
Theorem C94_shift_refuted :
  ~ (forall dt n a b k, 0 < dt -> (2 <= n)%nat -> length a = n -> delayed_by a b k -> ~ constant a -> ~ constant b ->
     exists d, xcorr_backend dt n [map Some a] [map Some b] = Ok d /\ M_cmv.d_delay d = [Fin (IZR k * dt)]).
Proof. exact (@shift_refuted). Qed.
Print Assumptions C94_shift_refuted.

(** C94. A complete run of the joined model, no delay given: the hypotheses of all theorems above hold, and the velocity is
    found from the four-sample records. *)
Example C94_run_example :
  exists ls win dtr ms lsq v t w o f a,
  keeps_count ls /\ table_of 4 run_ts /\ moving_pattern 1 4 run_ts run_pos (5, 5) /\
  cmv ls win dtr ms lsq 1 4 run_ts run_pos RefNone "jamaly" None "xcorr" = Ok ((v, t, w), o) /\
  jamaly_options o (4 / 10) (5 / 100) (8 / 10) 0 70 /\ w_fit w = Some f /\
  spanning (good_separations run_pos (w_allpairs w) (w_pair_flag w)) /\
  minimises ms (speed_variance (good_separations run_pos (w_allpairs w) (w_pair_flag w)) (5, 5)) /\
  v = Fin (len (5, 5)) /\ t = Fin a /\ polar (len (5, 5)) a = (5, 5).
Proof. exact (@run_example). Qed.

(** C95. On the three sites above: each of the exceptions, and success. *)
Example C95_outcomes_example :
  forall ls win dtr ms lsq,
  cmv ls win dtr ms lsq 1 4 run_ts run_pos RefNone "best" None "xcorr" = Err ValueError /\
  cmv ls win dtr ms lsq 1 4 run_ts run_pos RefNone "jamaly" None "fft" = Err ValueError /\
  cmv ls win dtr ms lsq 1 4 run_ts run_pos (RefOne 7%nat) "jamaly" None "xcorr" = Err IndexError /\
  cmv ls win dtr ms lsq 1 4 (tl run_ts) run_pos RefNone "jamaly" None "xcorr" = Err KeyError /\
  cmv ls win dtr ms lsq 1 4 run_ts run_pos RefNone "jamaly" (Some [("speed"%string, Fin 1)]) "xcorr" = Err ValueError /\
  exists v t w o, cmv ls win dtr ms lsq 1 4 run_ts run_pos RefNone "jamaly" None "xcorr" = Ok ((v, t, w), o).
Proof. exact (@outcomes_example). Qed.

