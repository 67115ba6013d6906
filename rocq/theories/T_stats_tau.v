(** Property theorems. stats.py: the variability metrics with a number of timesteps that need not be whole.
    Proofs are in the X_ file of the same name. *)
From Verif Require Import Prelude RealBase Fl RealStat M_spatial M_stats Spec_stats P_resample P_stats X_spatial_zone X_stats_vs X_stats_vi M_stats_tau.
Local Open Scope R_scope.
From Verif Require Import X_stats_tau.

(** C119. A whole number given as a float means what the integer means, for all three metrics. *)
Theorem C119_whole_tau :
  forall strict n,
  (forall s mavg pct, variability_score_tau strict s (IZR n) mavg pct = variability_score s n mavg pct) /\
  (forall g cs norm, variability_index_tau g cs (IZR n) norm = variability_index g cs n norm) /\
  (forall g mavg pct, darr_tau strict g (IZR n) mavg pct = darr g n mavg pct).
Proof. exact (@whole_tau). Qed.
Print Assumptions C119_whole_tau.

(** C119. Averaging over any tau > 1, whole or not: the bins are the whole seconds in tau median steps, and the
    metric is that of the averaged series with one-sample ramps. *)
Theorem C119_fractional_average :
  forall strict s dt tau w, 1 < tau -> median_step s dt -> (0 < w)%Z -> IZR w <= tau * dt < IZR w + 1 ->
  exists rs, binned w s rs /\
    (forall pct, variability_score_tau strict s tau true pct = variability_score rs 1 false pct) /\
    (forall pct, darr_tau strict (Pandas s) tau true pct = darr (Pandas rs) 1 false pct) /\
    (forall cs norm, cs <> [] -> exists rc, binned w cs rc /\
       variability_index_tau (Pandas s) cs tau norm = variability_index (Pandas rs) rc 1 norm).
Proof. exact (@fractional_average). Qed.
Print Assumptions C119_fractional_average.

(** C119. When averaging is asked for it fails exactly so: ValueError with fewer than two samples, ZeroDivisionError when
    tau steps are less than a second. *)
Theorem C119_fractional_failure :
  forall strict s tau, 1 < tau ->
  ((length s < 2)%nat -> forall pct cs norm,
     variability_score_tau strict s tau true pct = Err ValueError /\ darr_tau strict (Pandas s) tau true pct = Err ValueError /\
     variability_index_tau (Pandas s) cs tau norm = Err ValueError) /\
  (forall dt, median_step s dt -> 0 <= tau * dt < 1 -> forall pct cs norm,
     variability_score_tau strict s tau true pct = Err ZeroDivisionError /\
     darr_tau strict (Pandas s) tau true pct = Err ZeroDivisionError /\
     variability_index_tau (Pandas s) cs tau norm = Err ZeroDivisionError).
Proof. exact (@fractional_failure). Qed.
Print Assumptions C119_fractional_failure.

(** C119. Without averaging (switched off, or tau at most 1) a tau that is not whole is refused by a frame; a series
    of an earlier pandas release silently uses the whole part, toward zero. *)
Theorem C119_fractional_ramps :
  forall s tau mavg pct, (forall z, tau <> IZR z) -> mavg = false \/ tau <= 1 ->
  variability_score_tau true s tau mavg pct = Err ValueError /\
  darr_tau true (Pandas s) tau mavg pct = Err ValueError /\
  forall z, Rabs (tau - IZR z) < 1 -> Rabs (IZR z) <= Rabs tau ->
    variability_score_tau false s tau mavg pct = variability_score s z false pct /\
    darr_tau false (Pandas s) tau mavg pct = darr (Pandas s) z false pct.
Proof. exact (@fractional_ramps). Qed.
Print Assumptions C119_fractional_ramps.

(** C119. The variability index takes any tau up to 1 as "no averaging". *)
Theorem C119_fractional_index :
  forall g cs tau norm, tau <= 1 ->
  variability_index_tau (Pandas g) cs tau norm = variability_index (Pandas g) cs 1 norm.
Proof. exact (@fractional_index). Qed.
Print Assumptions C119_fractional_index.

(** C119. Asking for a period: on a grid of d seconds, tau = T/d averages over bins of T seconds exactly, for every whole
    T above d, a multiple of d or not. *)
Theorem C119_period_average :
  forall strict s t0 d T, regular t0 d s -> (0 < d)%Z -> (2 <= length s)%nat -> (d < T)%Z ->
  exists rs, binned T s rs /\
    (forall pct, variability_score_tau strict s (IZR T / IZR d) true pct = variability_score rs 1 false pct) /\
    (forall pct, darr_tau strict (Pandas s) (IZR T / IZR d) true pct = darr (Pandas rs) 1 false pct).
Proof. exact (@period_average). Qed.
Print Assumptions C119_period_average.

(** C119. Too little to average: on a grid of d seconds every tau with 1 < tau and tau * d < d + 1 -- for one-second data
    every tau below 2 -- gives the values of tau = 1. *)
Theorem C119_tau_without_effect :
  forall strict s t0 d tau pct, regular t0 d s -> (0 < d)%Z -> (2 <= length s)%nat ->
  ((t0 - one_day * (t0 / one_day)) mod (d * ns) = 0)%Z -> 1 < tau -> tau * IZR d < IZR d + 1 ->
  variability_score_tau strict s tau true pct = variability_score s 1 true pct /\
  darr_tau strict (Pandas s) tau true pct = darr (Pandas s) 1 true pct.
Proof. exact (@tau_without_effect). Qed.
Print Assumptions C119_tau_without_effect.

(** C119. Five samples, one per 2 s: 5-second averages with tau = 2.5; tau = 1.4 changes nothing. *)
Example C119_tau_example :
  let s := [(0%Z, Some 0); ((2 * ns)%Z, Some 4); ((4 * ns)%Z, Some 2); ((6 * ns)%Z, Some 9); ((8 * ns)%Z, Some 9)] in
  regular 0 2 s /\ (exists rs, binned 5 s rs /\ darr_tau true (Pandas s) (5 / 2) true false = darr (Pandas rs) 1 false false) /\
  darr_tau true (Pandas s) 1.4 true false = Ok 13.
Proof. exact (@tau_example). Qed.

