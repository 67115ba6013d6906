(** Property theorems. Averaging on an index with a time zone: lemmas and demonstration data.
    Proofs are in the X_ file of the same name. *)
From Coq Require Import Permutation.
From Verif Require Import Prelude PreludeFacts RealBase Fl RealStat M_spatial M_stats Spec_stats Spec_quantile_tz Spec_resample_tz
  X_spatial_zone X_stats_err P_stats P_resample X_stats_vs X_stats_vi X_stats_tau X_quantile_tz M_stats_tau M_resample_tz.
Local Open Scope R_scope.
From Verif Require Import X_resample_tz.

(** C127. What is averaged over: bins equally long in absolute time, counted from the instant at which the clock of the zone shows midnight of the day of
    the earliest sample; the metric is that of the averages without averaging. Changes of the clock after that midnight play no part. *)
Theorem C127_tz_averages :
  forall local locate strict s first o dt tau w, locates local locate -> starts s first ->
  (forall j, local j = (fst (local first), 0%Z) <-> j = o) ->
  1 < tau -> median_step s dt -> (0 < w)%Z -> IZR w <= tau * dt < IZR w + 1 ->
  exists rs, binned_from o w s rs /\
    (forall pct, variability_score_tz local locate strict s tau true pct = variability_score rs 1 false pct) /\
    (forall pct, darr_tz local locate strict (Pandas s) tau true pct = darr (Pandas rs) 1 false pct) /\
    (forall cs firstc oc norm, starts cs firstc -> (forall j, local j = (fst (local firstc), 0%Z) <-> j = oc) -> exists rc, binned_from oc w cs rc /\
       variability_index_tz local locate (Pandas s) cs tau norm = variability_index (Pandas rs) rc 1 norm).
Proof. exact (@tz_averages). Qed.
Print Assumptions C127_tz_averages.

(** C127. When midnight of the first day is a reading that the zone skips or repeats, averaging fails; so does it for the clear-sky series of
    variability_index. *)
Theorem C127_tz_no_midnight :
  forall local locate strict s first dt tau, locates local locate -> starts s first ->
  ~ (exists o, forall j, local j = (fst (local first), 0%Z) <-> j = o) -> 1 < tau -> median_step s dt ->
  (forall pct, variability_score_tz local locate strict s tau true pct = Err OtherError) /\
  (forall pct, darr_tz local locate strict (Pandas s) tau true pct = Err OtherError) /\
  (forall cs norm, variability_index_tz local locate (Pandas s) cs tau norm = Err OtherError) /\
  (forall g norm, exists e, variability_index_tz local locate (Pandas g) s tau norm = Err e).
Proof. exact (@tz_no_midnight). Qed.
Print Assumptions C127_tz_no_midnight.

(** C127. Without a time zone (a clock with neither offset nor changes) this is the averaging of C35, C37, C38 and C119. *)
Theorem C127_tz_plain :
  forall strict tau,
  (forall s mavg pct, variability_score_tz plain plain_find strict s tau mavg pct = variability_score_tau strict s tau mavg pct) /\
  (forall g cs norm, variability_index_tz plain plain_find g cs tau norm = variability_index_tau g cs tau norm) /\
  (forall g mavg pct, darr_tz plain plain_find strict g tau mavg pct = darr_tau strict g tau mavg pct).
Proof. exact (@tz_plain). Qed.
Print Assumptions C127_tz_plain.

(** C127. Reading the clock: in a zone whose clock changes once, the metrics are those of the clock readings without a time zone, as if the offset in
    force at midnight of the first day had stayed (a change later on does not move the bins). With no change at all they are those of the
    readings. *)
Theorem C127_tz_readings :
  forall a b T c strict s first tau, starts s first -> no_second_midnight a b T -> offset_for a b T c first ->
  (forall mavg pct, variability_score_tz (switching a b T) (find_reading a b T) strict s tau mavg pct = variability_score_tau strict (moved c s) tau mavg pct) /\
  (forall mavg pct, darr_tz (switching a b T) (find_reading a b T) strict (Pandas s) tau mavg pct = darr_tau strict (Pandas (moved c s)) tau mavg pct) /\
  (forall cs firstc c' norm, starts cs firstc -> offset_for a b T c' firstc ->
     variability_index_tz (switching a b T) (find_reading a b T) (Pandas s) cs tau norm = variability_index_tau (Pandas (moved c s)) (moved c' cs) tau norm).
Proof. exact (@tz_readings). Qed.
Print Assumptions C127_tz_readings.

(** C127. Independence of the zone: if in two zones every midnight is shown exactly once and falls on a whole multiple of the bin width, the metrics are the
    same in both (and the same as for the index converted to UTC, when the width divides a day). *)
Theorem C127_tz_free :
  forall l1 f1 l2 f2 strict s dt tau w, locates l1 f1 -> locates l2 f2 ->
  midnights_on (w * 1000000000) l1 -> midnights_on (w * 1000000000) l2 ->
  1 < tau -> median_step s dt -> (0 < w)%Z -> IZR w <= tau * dt < IZR w + 1 ->
  (forall pct, variability_score_tz l1 f1 strict s tau true pct = variability_score_tz l2 f2 strict s tau true pct) /\
  (forall pct, darr_tz l1 f1 strict (Pandas s) tau true pct = darr_tz l2 f2 strict (Pandas s) tau true pct) /\
  (forall cs norm, variability_index_tz l1 f1 (Pandas s) cs tau norm = variability_index_tz l2 f2 (Pandas s) cs tau norm).
Proof. exact (@tz_free). Qed.
Print Assumptions C127_tz_free.

(** C127. Which zones that covers: those whose offsets, like a day, are whole multiples of the width, with clocks not changed around midnight. *)
Theorem C127_tz_grid :
  forall a b T W, (W | a)%Z -> (W | b)%Z -> (W | one_day)%Z -> single_midnights a b T -> midnights_on W (switching a b T).
Proof. exact (@tz_grid). Qed.
Print Assumptions C127_tz_grid.

(** C127. Without that condition the zone decides: half-hourly samples averaged over hours ramp by 8 in UTC, by 4 on an index five and a half
    hours ahead. *)
Theorem C127_tz_free_refuted :
  exists l1 f1 l2 f2 s, locates l1 f1 /\ locates l2 f2 /\ median_step s 1800 /\
  darr_tz l1 f1 true (Pandas s) 2 true false = Ok 8 /\ darr_tz l2 f2 true (Pandas s) 2 true false = Ok 4.
Proof. exact (@tz_free_refuted). Qed.
Print Assumptions C127_tz_free_refuted.

(** C127. A series that begins before the change and runs across it; half-hourly bins, for which the zone does not matter; and a zone that skips a
    midnight, where averaging fails. *)
Example C127_tz_example :
  locates summer summer_find /\ single_midnights hour_ns (2 * hour_ns) hour_ns /\
  starts half_hours 0 /\ offset_for hour_ns (2 * hour_ns) hour_ns hour_ns 0 /\
  midnights_on (1800 * 1000000000) summer /\ midnights_on (1800 * 1000000000) half_zone /\
  (exists rs, binned_from (- hour_ns) 3600 half_hours rs /\ darr_tz summer summer_find true (Pandas half_hours) 2 true false = darr (Pandas rs) 1 false false) /\
  ~ (exists o, forall j, switching (-1) hour_ns 1 j = (fst (switching (-1) hour_ns 1 1), 0%Z) <-> j = o).
Proof. exact (@tz_example). Qed.

