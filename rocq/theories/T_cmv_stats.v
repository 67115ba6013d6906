(** Property theorems. cmv.py: the regression figures and per-pair figures in method_data (C104).
    Proofs are in the X_ file of the same name. *)
From Coq Require Import String Permutation.
From Verif Require Import Prelude PreludeFacts RealBase Fl RealStat M_spatial M_cmv Spec_spatial Spec_cmv Spec_cmv_stats P_cmv P_plane X_cmv_options X_cmv_pairs X_cmv_qc X_cmv_cascade X_cmv_motion X_cmv_fit X_cmv_rows.
From Coq Require Import Lra Psatz.
Local Open Scope R_scope.
From Verif Require Import X_cmv_stats.

(** C104. linregress as used here: with no point or with more than one point and only one delay it raises ValueError; otherwise, with at least two points, it returns
    the usual regression figures (the correlation coefficient up to its sign). *)
Theorem C104_linregress_value :
  forall pts : list (R * R),
  (linregress (map Fin (map fst pts)) (map Fin (map snd pts)) = Err ValueError <-> pts = [] \/ ((2 <= length pts)%nat /\ all_same (map fst pts))) /\
  ((2 <= length pts)%nat -> ~ all_same (map fst pts) ->
     exists r se, linregress (map Fin (map fst pts)) (map Fin (map snd pts)) = Ok (Fin r, Fin se) /\ -1 <= r <= 1 /\ 0 <= se /\
       regression_figures pts (Rabs r) se /\ (0 < r <-> 0 < sxy pts)).
Proof. exact (@linregress_value). Qed.
Print Assumptions C104_linregress_value.

(** C104. the two figures are determined by the points, and swapping all distances to their negatives (reading the direction the other way round) changes neither *)
Theorem C104_figures_determined :
  forall pts r se r' se', regression_figures pts r se ->
  regression_figures pts r' se' \/ regression_figures (map (fun p => (fst p, - snd p)) pts) r' se' -> r' = r /\ se' = se.
Proof. exact (@figures_determined). Qed.
Print Assumptions C104_figures_determined.

(** C104. what they tell, if not all delays are equal: r is at most 1, and is 1 exactly when all points lie on one sloping line; the standard error is 0 exactly when there
    are only two points or all points lie on one line *)
Theorem C104_figures_meaning :
  forall pts r se, regression_figures pts r se -> ~ all_same (map fst pts) ->
  0 <= r <= 1 /\ 0 <= se /\
  (r = 1 <-> exists a b, on_line pts a b /\ b <> 0) /\
  (se = 0 <-> length pts = 2%nat \/ exists a b, on_line pts a b).
Proof. exact (@figures_meaning). Qed.
Print Assumptions C104_figures_meaning.

(** C104. in every successful jamaly fit whose passing pairs have finite delays, r_corr and stderr_corr are the regression figures of the passing pairs' distances along
    the reported direction against their delays *)
Theorem C104_cmv_regression :
  forall (K : Type) (HK : Label K) dx dt ms lsq ts (pos : list (K * (R * R))) ref m o bk v t w o' f,
  one_answer_per_pair dx -> one_answer_per_pair dt -> lower m = "jamaly"%string ->
  compute_cmv dx dt ms lsq ts pos ref m o bk = Ok ((v, t, w), o') -> w_fit w = Some f ->
  finite_delays (w_pair_flag w) (w_pair_lag f) ->
  let ps := used_pairs pos (w_allpairs w) (w_pair_flag w) (w_pair_lag f) in
  exists jm a r se, w_method_data f = Some jm /\ t = Fin a /\ j_ngood jm = length ps /\ j_rcorr jm = Fin r /\ j_stderr jm = Fin se /\
    regression_figures (delay_points ps a) r se.
Proof. exact (@cmv_regression). Qed.
Print Assumptions C104_cmv_regression.

(** C104. the per-pair figures beside them: for every pair, used or not, the variation ratios of its two signals and one minus mean over peak correlation *)
Theorem C104_cmv_qc_figures :
  forall (K : Type) (HK : Label K) dx dt ms lsq ts (pos : list (K * (R * R))) ref m o bk v t w o' f,
  one_answer_per_pair dx -> one_answer_per_pair dt -> lower m = "jamaly"%string ->
  compute_cmv dx dt ms lsq ts pos ref m o bk = Ok ((v, t, w), o') -> w_fit w = Some f ->
  exists jm A B d, w_method_data f = Some jm /\
    Forall2 (fun p a => dget ts (fst p) = Some a) (w_allpairs w) A /\ Forall2 (fun p b => dget ts (snd p) = Some b) (w_allpairs w) B /\
    (if String.eqb (lower bk) "xcorr" then dx A B else dt A B) = Ok d /\ length (j_qc jm) = length (w_allpairs w) /\
    forall i a b pk mn, nth_error A i = Some a -> nth_error B i = Some b -> nth_error (d_peak d) i = Some pk -> nth_error (d_mean d) i = Some mn ->
      nth_error (j_qc jm) i = Some (variation a, variation b, fsub (Fin 1) (fdiv mn pk)).
Proof. exact (@cmv_qc_figures). Qed.
Print Assumptions C104_cmv_qc_figures.

(** C104. if jamaly recovers a constant motion (as in C21) from pairs with at least two different delays, then r_corr is 1 and stderr_corr is 0 *)
Theorem C104_figures_of_constant_motion :
  forall (K : Type) (HK : Label K) dx dt ms lsq ts (pos : list (K * (R * R))) ref m o bk v t w o' f (vel : R * R),
  one_answer_per_pair dx -> one_answer_per_pair dt -> lower m = "jamaly"%string ->
  compute_cmv dx dt ms lsq ts pos ref m o bk = Ok ((v, t, w), o') -> w_fit w = Some f ->
  vel <> (0, 0) ->
  frozen_field pos vel (w_allpairs w) (w_pair_flag w) (w_pair_lag f) ->
  spanning (good_separations pos (w_allpairs w) (w_pair_flag w)) ->
  minimises ms (speed_variance (good_separations pos (w_allpairs w) (w_pair_flag w)) vel) ->
  exists jm, w_method_data f = Some jm /\
    (~ all_same (map snd (used_pairs pos (w_allpairs w) (w_pair_flag w) (w_pair_lag f))) -> j_rcorr jm = Fin 1 /\ j_stderr jm = Fin 0) /\
    (all_same (map snd (used_pairs pos (w_allpairs w) (w_pair_flag w) (w_pair_lag f))) -> j_rcorr jm = Fin 0 /\ j_stderr jm = Fin 0).
Proof. exact (@figures_of_constant_motion). Qed.
Print Assumptions C104_figures_of_constant_motion.

(** C104. the figures do not certify the motion: both are perfect for pairs whose apparent speeds differ by a common clock offset, and for any two pairs with different delays and distances *)
Theorem C104_perfect_figures_refuted :
  ~ (forall pts, regression_figures pts 1 0 -> exists s, forall p, In p pts -> snd p = s * fst p) /\
  (forall p q, fst p <> fst q -> snd p <> snd q -> regression_figures [p; q] 1 0).
Proof. exact (@perfect_figures_refuted). Qed.
Print Assumptions C104_perfect_figures_refuted.

(** C104. nor does exact constant motion imply r_corr = 1: with equal delays at all passing pairs the figures are 0 *)
Theorem C104_constant_motion_refuted :
  exists ms lsq v t w o f jm,
  compute_cmv demo_backend demo_backend ms lsq demo_ts demo_pos RefNone "jamaly" None "xcorr" = Ok ((v, t, w), o) /\ w_fit w = Some f /\
  frozen_field demo_pos (10, 0) (w_allpairs w) (w_pair_flag w) (w_pair_lag f) /\ v = Fin 10 /\
  w_method_data f = Some jm /\ j_rcorr jm = Fin 0 /\ j_stderr jm = Fin 0.
Proof. exact (@constant_motion_refuted). Qed.
Print Assumptions C104_constant_motion_refuted.

(** C104. the field moving at (6, 2) over the three sites: r_corr is 1 and stderr_corr is 0 *)
Example C104_figures_example :
  exists ms lsq v t w o f jm,
  one_answer_per_pair slant_backend /\
  compute_cmv slant_backend slant_backend ms lsq demo_ts demo_pos RefNone "jamaly" None "xcorr" = Ok ((v, t, w), o) /\ w_fit w = Some f /\
  frozen_field demo_pos (6, 2) (w_allpairs w) (w_pair_flag w) (w_pair_lag f) /\
  spanning (good_separations demo_pos (w_allpairs w) (w_pair_flag w)) /\
  minimises ms (speed_variance (good_separations demo_pos (w_allpairs w) (w_pair_flag w)) (6, 2)) /\
  finite_delays (w_pair_flag w) (w_pair_lag f) /\
  ~ all_same (map snd (used_pairs demo_pos (w_allpairs w) (w_pair_flag w) (w_pair_lag f))) /\
  w_method_data f = Some jm /\ j_rcorr jm = Fin 1 /\ j_stderr jm = Fin 0.
Proof. exact (@figures_example). Qed.

