(** Property theorems. compute_cmv joined to the delay estimators: what compute_cmv is told about a pair of signals.
    Proofs are in the X_ file of the same name. *)
From Coq Require Import String Lra Psatz.
From Verif Require Import Prelude PreludeFacts RealBase Fl RealStat P_list M_spatial M_cmv M_signal_corr M_signal_tf M_link Spec_signal Spec_welch Spec_cmv P_signal P_corr P_delay X_signal_corr X_signal_delay X_signal_tf X_signal_tfx.
From Verif Require M_cmv M_signal_corr.
Local Open Scope R_scope.
From Verif Require Import X_link_delay.

(** C94. What the 'xcorr' backend tells compute_cmv about each pair of equally long records. Two gap-free, non-constant
    signals: the delay is minus the smallest lag of largest normalised cross-correlation (0 for a peak below 1e-10), the
    peak is that correlation, the mean correlation is exactly 0 whatever the data, the zero-lag value is Pearson's
    coefficient. Any other pair: NaN figures with a spurious delay of (n - 1) steps. *)
Theorem C94_xcorr_backend_tells :
  forall dt n A B, dt <> 0 -> (2 <= n)%nat -> length A = length B -> A <> [] -> samples n A -> samples n B ->
  exists d zs, xcorr_backend dt n A B = Ok d /\ M_cmv.d_zero d = Some zs /\ d_coh d = None /\
    length (M_cmv.d_delay d) = length A /\ length (M_cmv.d_peak d) = length A /\ length (M_cmv.d_mean d) = length A /\ length zs = length A /\
    forall i a b, nth_error A i = Some a -> nth_error B i = Some b ->
      (forall x y, informative a b x y -> exists L, best_lag n x y L /\
         nth_error (M_cmv.d_delay d) i = Some (Fin (if Rlt_dec (ncc x y L) (/ 10 ^ 10) then 0 else - (IZR L * dt))) /\
         nth_error (M_cmv.d_peak d) i = Some (Fin (ncc x y L)) /\ nth_error (M_cmv.d_mean d) i = Some (Fin 0) /\
         nth_error zs i = Some (Fin (pearson x y))) /\
      ((forall x y, ~ informative a b x y) ->
         nth_error (M_cmv.d_delay d) i = Some (Fin (INR (n - 1) * dt)) /\ nth_error (M_cmv.d_peak d) i = Some Nan /\
         nth_error (M_cmv.d_mean d) i = Some Nan /\ nth_error zs i = Some Nan).
Proof. exact (@xcorr_backend_tells). Qed.
Print Assumptions C94_xcorr_backend_tells.

(** C94. Both backends answer once per pair, whatever the tables (the solver keeping its number of parameters). *)
Theorem C94_backends_answer :
  forall dt n ls win dtr,
  one_answer_per_pair (xcorr_backend dt n) /\ (keeps_count ls -> one_answer_per_pair (tf_backend ls win dtr dt n)).
Proof. exact (@backends_answer). Qed.
Print Assumptions C94_backends_answer.

