(** Property theorems. compute_cmv joined to the spectral delay estimator: what it is told, and which pairs pass.
    Proofs are in the X_ file of the same name. *)
From Coq Require Import String Lra Psatz.
From Verif Require Import Prelude PreludeFacts RealBase Fl RealStat P_list M_spatial M_cmv M_signal_corr M_signal_tf M_link Spec_spatial Spec_signal Spec_welch Spec_cmv P_signal P_corr P_delay P_plane P_cmv X_signal_corr X_signal_delay X_signal_tf X_signal_tfx X_cmv_options X_cmv_qc X_cmv_cascade X_cmv_rows X_link_delay X_link_good.
From Verif Require M_cmv M_signal_corr.
Local Open Scope R_scope.
From Verif Require Import X_link_tf.

(** C94. What the spectral backend tells compute_cmv. Gap-free, non-constant pair: mean correlation exactly 0, zero-lag value
    Pearson's coefficient, and as peak the normalised cross-correlation interpolated at minus the delay, NaN when there is
    no delay or it exceeds the record. Any other pair: NaN figures. *)
Theorem C94_tf_backend_tells :
  forall ls win dtr dt n A B d, 0 < dt -> (2 <= n)%nat -> keeps_count ls -> length A = length B -> samples n A -> samples n B ->
  tf_backend ls win dtr dt n A B = Ok d ->
  exists zs cs, M_cmv.d_zero d = Some zs /\ d_coh d = Some cs /\
    forall i a b, nth_error A i = Some a -> nth_error B i = Some b -> exists dl, nth_error (M_cmv.d_delay d) i = Some dl /\ (dl = Nan \/ exists r, dl = Fin r) /\
      (forall x y, informative a b x y -> exists pk, nth_error (M_cmv.d_peak d) i = Some pk /\
         nth_error (M_cmv.d_mean d) i = Some (Fin 0) /\ nth_error zs i = Some (Fin (pearson x y)) /\
         (dl = Nan -> pk = Nan) /\ forall r, dl = Fin r ->
           (INR (n - 1) * dt < Rabs r -> pk = Nan) /\
           (forall L, lag_of n n L -> r = - (IZR L * dt) -> pk = Fin (ncc x y L)) /\
           (forall L, lag_of n n L -> lag_of n n (L + 1) -> IZR L * dt <= - r <= IZR (L + 1) * dt ->
              pk = Fin (ncc x y L + (ncc x y (L + 1) - ncc x y L) * (- r / dt - IZR L)))) /\
      ((forall x y, ~ informative a b x y) ->
         nth_error (M_cmv.d_peak d) i = Some Nan /\ nth_error (M_cmv.d_mean d) i = Some Nan /\ nth_error zs i = Some Nan).
Proof. exact (@tf_backend_tells). Qed.
Print Assumptions C94_tf_backend_tells.

(** C94. 'jamaly' with spectral delays: a pair passes exactly if its sites differ, both signals are gap-free and good enough,
    the delay reported for it lies inside the record and the cross-correlation interpolated there reaches mincorr, the
    delay is not zero and the apparent speed is within limits. Again 1 - mean/peak plays no part. *)
Theorem C94_tf_good :
  forall (K : Type) (HK : Label K) ls win dtr ms lsq dt n ts (pos : list (K * (R * R))) ref m o bk v t w o' kt vs mc lo hi,
  keeps_count ls -> 0 < dt -> (2 <= n)%nat -> table_of n ts -> lower m = "jamaly"%string -> lower bk <> "xcorr"%string ->
  cmv ls win dtr ms lsq dt n ts pos ref m o bk = Ok ((v, t, w), o') -> jamaly_options o' kt vs mc lo hi -> 0 < kt -> 0 < mc <= 1 ->
  exists A B d, Forall2 (fun p a => dget ts (fst p) = Some a) (w_allpairs w) A /\ Forall2 (fun p b => dget ts (snd p) = Some b) (w_allpairs w) B /\
  tf_backend ls win dtr dt n A B = Ok d /\ (forall f, w_fit w = Some f -> w_pair_lag f = M_cmv.d_delay d) /\
  forall i p a b dl, nth_error (w_allpairs w) i = Some p -> nth_error A i = Some a -> nth_error B i = Some b -> nth_error (M_cmv.d_delay d) i = Some dl ->
  exists s, separation pos p = Some s /\
    (nth_error (w_pair_flag w) i = Some GOOD <->
     fst p <> snd p /\ exists x y r pk, a = map Some x /\ b = map Some y /\ dl = Fin r /\ Rabs r <= INR (n - 1) * dt /\ nth_error (M_cmv.d_peak d) i = Some (Fin pk) /\
       pair_ok kt vs mc lo hi (len s) x y r pk).
Proof. exact (@tf_good). Qed.
Print Assumptions C94_tf_good.

