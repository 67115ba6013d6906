(** stats.py: the variability metrics with a number of timesteps that need not be whole (tau is documented as
    "numeric"; demos/signalproc_demo.py passes 5/dt). Built on the pieces of M_stats.v. No proofs here. *)
From Verif Require Import Prelude RealBase Fl RealStat M_spatial M_stats.
Local Open Scope R_scope.

(** Series.diff(tau) / DataFrame.diff(tau) with a float: a whole number is used as it is. Otherwise DataFrame.diff (and
    Series.diff of recent pandas releases) raises ValueError("periods must be an integer") -- [strict] -- while
    Series.diff of earlier releases truncates it with int(). *)
Definition diff_periods (strict : bool) (tau : R) : result Z :=
  if Reqb (IZR (py_int tau)) tau then Ok (py_int tau)
  else if strict then Err ValueError else Ok (py_int tau).

(** stats.py:191-192, 241-245, 297-298: resample to int(tau*dt) seconds; int(NaN) raises ValueError. *)
Definition average_tau (tau : R) (step : option R) (s : tser) : result tser :=
  match step with
  | None => Err ValueError
  | Some dt => resample_mean (py_int (tau * dt)) s
  end.

(** stats.py:152-201 variability_score *)
Definition variability_score_tau (strict : bool) (s : tser) (tau : R) (moving_avg pct : bool) : result fl :=
  if moving_avg && Rltb 1 tau
  then let! rs := average_tau tau (index_step (stamps s)) s in Ok (vs_plain 1 pct (values rs))
  else let! p := diff_periods strict tau in Ok (vs_plain p pct (values s)).

(** stats.py:204-254 variability_index *)
Definition variability_index_tau (ghi : pd_arg) (clearsky : tser) (moving_avg_tau : R) (norm : bool) : result fl :=
  match ghi with
  | NotPandas => Err TypeError
  | Pandas g =>
    if Rltb 1 moving_avg_tau
    then let step := index_step (stamps g) in
         let! rs := average_tau moving_avg_tau step g in
         let! cs := average_tau moving_avg_tau step clearsky in
         Ok (vi_core rs cs norm)
    else Ok (vi_core g clearsky norm)
  end.

(** stats.py:256-306 darr *)
Definition darr_tau (strict : bool) (series : pd_arg) (tau : R) (moving_avg pct : bool) : result R :=
  match series with
  | NotPandas => Err TypeError
  | Pandas s =>
    if moving_avg && Rltb 1 tau
    then let! rs := average_tau tau (index_step (stamps s)) s in Ok (darr_plain 1 pct (values rs))
    else let! p := diff_periods strict tau in Ok (darr_plain p pct (values s))
  end.
