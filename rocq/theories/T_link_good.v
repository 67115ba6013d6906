(** Property theorems. compute_cmv joined to the delay estimators: which pairs of signals pass, in terms of the data.
    Proofs are in the X_ file of the same name. *)
From Coq Require Import String Lra Psatz.
From Verif Require Import Prelude PreludeFacts RealBase Fl RealStat P_list M_spatial M_cmv M_signal_corr M_signal_tf M_link Spec_spatial Spec_signal Spec_welch Spec_cmv P_signal P_corr P_delay P_plane P_cmv X_signal_corr X_signal_delay X_signal_tf X_signal_tfx X_cmv_options X_cmv_qc X_cmv_cascade X_cmv_rows X_link_delay.
From Verif Require M_cmv M_signal_corr.
Local Open Scope R_scope.
From Verif Require Import X_link_good.

(** C94. 'jamaly' with 'xcorr' delays, on gap-free or gappy records of n samples: a pair passes exactly if its sites differ,
    both signals are free of gaps, vary, are not overcast and dip, and at the lag of largest cross-correlation the
    correlation reaches mincorr, the lag is not zero and the apparent speed is within limits. The documented second
    correlation criterion, 1 - mean/peak >= mincorr, plays no part (the mean is always 0) for any mincorr up to 1. *)
Theorem C94_xcorr_good :
  forall (K : Type) (HK : Label K) ls win dtr ms lsq dt n ts (pos : list (K * (R * R))) ref m o bk v t w o' kt vs mc lo hi,
  keeps_count ls -> 0 < dt -> (2 <= n)%nat -> table_of n ts -> lower m = "jamaly"%string -> lower bk = "xcorr"%string ->
  cmv ls win dtr ms lsq dt n ts pos ref m o bk = Ok ((v, t, w), o') -> jamaly_options o' kt vs mc lo hi -> 0 < kt -> / 10 ^ 10 <= mc <= 1 ->
  forall i p, nth_error (w_allpairs w) i = Some p -> exists a b s, dget ts (fst p) = Some a /\ dget ts (snd p) = Some b /\ separation pos p = Some s /\
    (nth_error (w_pair_flag w) i = Some GOOD <->
     fst p <> snd p /\ exists x y L, a = map Some x /\ b = map Some y /\ best_lag n x y L /\
       pair_ok kt vs mc lo hi (len s) x y (- (IZR L * dt)) (ncc x y L)).
Proof. exact (@xcorr_good). Qed.
Print Assumptions C94_xcorr_good.

(** C94. so with 'xcorr' delays a pair whose sites are farther apart than maxvelocity times the duration of the record never passes *)
Theorem C94_xcorr_reach :
  forall (K : Type) (HK : Label K) ls win dtr ms lsq dt n ts (pos : list (K * (R * R))) ref m o bk v t w o' kt vs mc lo hi,
  keeps_count ls -> 0 < dt -> (2 <= n)%nat -> table_of n ts -> lower m = "jamaly"%string -> lower bk = "xcorr"%string ->
  cmv ls win dtr ms lsq dt n ts pos ref m o bk = Ok ((v, t, w), o') -> jamaly_options o' kt vs mc lo hi -> 0 < kt -> / 10 ^ 10 <= mc <= 1 ->
  forall i p s, nth_error (w_allpairs w) i = Some p -> separation pos p = Some s -> nth_error (w_pair_flag w) i = Some GOOD ->
  len s < hi * (INR (n - 1) * dt) /\ lo * dt < len s.
Proof. exact (@xcorr_reach). Qed.
Print Assumptions C94_xcorr_reach.

