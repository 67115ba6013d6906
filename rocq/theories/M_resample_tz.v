(** Model of the averaging step of the variability metrics (src/solarspatialtools/stats.py) on an index with a time zone. M_stats.v and
    M_stats_tau.v have the case without one. Instants are numbers of nanoseconds; [local] and [locate] are the clock of the zone as in
    M_quantile_tz.v. Simplification: in variability_index both series are in the same zone. No proofs here. *)
From Verif Require Import Prelude RealBase Fl RealStat M_spatial M_stats M_stats_tau.
Local Open Scope R_scope.

Section Zone.
  Variable local : Z -> Z * Z.
  Variable locate : Z * Z -> option Z.

  (** series.resample(str(w)+'s').mean() (stats.py:192, 243-244, 298) as pandas does it with a time zone: the bins are equally long in
      absolute time and counted from the instant at which the clock shows midnight of the first sample's day; Timestamp.normalize raises
      when that reading does not occur exactly once. The rest is as in M_stats.resample_mean. *)
  Definition resample_mean_tz (w : Z) (s : tser) : result tser :=
    match stamps s with
    | [] => if (w <=? 0)%Z then Err ZeroDivisionError else Ok []
    | _ =>
      match locate (fst (local (Zmin_of (stamps s))), 0%Z) with
      | None => Err OtherError
      | Some o =>
        if (w <=? 0)%Z then Err ZeroDivisionError
        else
          let W := (w * ns)%Z in
          let k0 := ((Zmin_of (stamps s) - o) / W)%Z in
          let k1 := ((Zmax_of (stamps s) - o) / W)%Z in
          Ok (map (fun i =>
                     let left := (o + (k0 + Z.of_nat i) * W)%Z in
                     let inbin := present (map snd (filter (fun r => ((left <=? fst r) && (fst r <? left + W))%Z) s)) in
                     (left, match inbin with [] => None | l => Some (Rmean l) end))
                  (seq 0 (Z.to_nat (k1 - k0 + 1))))
      end
    end.
  (** stats.py:191-192, 241-244, 297-298: int(tau*dt) seconds; the step is a difference of instants. *)
  Definition average_tz (tau : R) (step : option R) (s : tser) : result tser :=
    match step with None => Err ValueError | Some dt => resample_mean_tz (py_int (tau * dt)) s end.
  (** stats.py:152-201 variability_score *)
  Definition variability_score_tz (strict : bool) (s : tser) (tau : R) (moving_avg pct : bool) : result fl :=
    if moving_avg && Rltb 1 tau
    then let! rs := average_tz tau (index_step (stamps s)) s in Ok (vs_plain 1 pct (values rs))
    else let! p := diff_periods strict tau in Ok (vs_plain p pct (values s)).
  (** stats.py:204-254 variability_index *)
  Definition variability_index_tz (ghi : pd_arg) (clearsky : tser) (moving_avg_tau : R) (norm : bool) : result fl :=
    match ghi with
    | NotPandas => Err TypeError
    | Pandas g =>
      if Rltb 1 moving_avg_tau
      then let step := index_step (stamps g) in
           let! rs := average_tz moving_avg_tau step g in
           let! cs := average_tz moving_avg_tau step clearsky in
           Ok (vi_core rs cs norm)
      else Ok (vi_core g clearsky norm)
    end.
  (** stats.py:256-306 darr *)
  Definition darr_tz (strict : bool) (series : pd_arg) (tau : R) (moving_avg pct : bool) : result R :=
    match series with
    | NotPandas => Err TypeError
    | Pandas s =>
      if moving_avg && Rltb 1 tau
      then let! rs := average_tz tau (index_step (stamps s)) s in Ok (darr_plain 1 pct (values rs))
      else let! p := diff_periods strict tau in Ok (darr_plain p pct (values s))
    end.
End Zone.
