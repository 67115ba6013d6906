(** Property theorems. Sensor series read from a synthetic cloud field by the demo (C114).
    Proofs are in the X_ file of the same name. *)
From Verif Require Import Prelude PreludeFacts RealBase Fl RealStat M_spatial M_cloudfield Spec_copula Spec_cloudfield M_cloud_demo Spec_cloud_demo
  X_cloud_random X_cloud_ts.
From Coq Require Import Lra Psatz.
Local Open Scope R_scope.
From Verif Require Import X_cloud_demo.

(** C114. If neither the extent along the wind nor the extent across it is a whole number of seconds of cloud motion, the demo finds a full series for
    every sensor: sample k is the field at row (distance to the most downwind sensor / speed, truncated) + k and column (distance to the rightmost
    sensor / speed, truncated) *)
Theorem C114_demo_reads :
  forall K (gen : nat * nat -> result (list (list fl))) (pos : list (K * (R * R))) spd dir t0 T loA hiA loB hiB nx ny field,
  0 < spd -> (1 <= T)%nat -> ranges (along dir) pos loA hiA -> ranges (across dir) pos loB hiB ->
  covers nx ((hiA - loA) / spd + INR T) -> covers ny ((hiB - loB) / spd) -> gen (nx, ny) = Ok field -> shaped nx ny field ->
  ~ whole ((hiA - loA) / spd) -> ~ whole ((hiB - loB) / spd) ->
  exists out, clouds_demo gen pos spd dir (every_second t0 T) = Ok out /\ map fst out = map fst pos /\
    forall i k p, nth_error pos i = Some (k, p) ->
      exists s a b, nth_error out i = Some (k, s) /\ fits a ((hiA - along dir p) / spd) /\ fits b ((across dir p - loB) / spd) /\ length s = (T + 1)%nat /\
        forall t v, nth_error s t = Some v <-> (t <= T)%nat /\ cell_at field (a + t) b v.
Proof. exact (@demo_reads). Qed.
Print Assumptions C114_demo_reads.

(** C114. Otherwise it stops with an error: IndexError if only the extent across the wind is a whole number of seconds, ValueError if only the extent along
    it is, one of the two if both are (a single sensor, for one). The generator's own errors are passed on *)
Theorem C114_demo_fails :
  forall K (gen : nat * nat -> result (list (list fl))) (pos : list (K * (R * R))) spd dir t0 T loA hiA loB hiB nx ny,
  0 < spd -> (1 <= T)%nat -> ranges (along dir) pos loA hiA -> ranges (across dir) pos loB hiB ->
  covers nx ((hiA - loA) / spd + INR T) -> covers ny ((hiB - loB) / spd) ->
  (forall e, gen (nx, ny) = Err e -> clouds_demo gen pos spd dir (every_second t0 T) = Err e) /\
  (forall field, gen (nx, ny) = Ok field -> shaped nx ny field -> whole ((hiA - loA) / spd) \/ whole ((hiB - loB) / spd) ->
    exists e, clouds_demo gen pos spd dir (every_second t0 T) = Err e /\
      (e = IndexError /\ whole ((hiB - loB) / spd) \/ e = ValueError /\ whole ((hiA - loA) / spd))).
Proof. exact (@demo_fails). Qed.
Print Assumptions C114_demo_fails.

(** C114. Downwind shows later: of two sensors in the same column of the field, the one further downwind records d samples later what the other records,
    where d is within one second of their along-wind separation over the speed, and equal to it if that is a whole number of seconds *)
Theorem C114_demo_delay :
  forall K (gen : nat * nat -> result (list (list fl))) (pos : list (K * (R * R))) spd dir t0 T loA hiA loB hiB nx ny field out i j ku kd pu pd su sd b,
  0 < spd -> (1 <= T)%nat -> ranges (along dir) pos loA hiA -> ranges (across dir) pos loB hiB ->
  covers nx ((hiA - loA) / spd + INR T) -> covers ny ((hiB - loB) / spd) -> gen (nx, ny) = Ok field -> shaped nx ny field ->
  clouds_demo gen pos spd dir (every_second t0 T) = Ok out ->
  nth_error pos i = Some (ku, pu) -> nth_error pos j = Some (kd, pd) -> nth_error out i = Some (ku, su) -> nth_error out j = Some (kd, sd) ->
  fits b ((across dir pu - loB) / spd) -> fits b ((across dir pd - loB) / spd) -> along dir pu <= along dir pd ->
  exists d, Rabs (INR d - (along dir pd - along dir pu) / spd) < 1 /\ (whole ((along dir pd - along dir pu) / spd) -> INR d = (along dir pd - along dir pu) / spd) /\
    forall t, (t + d <= T)%nat -> nth_error sd (t + d) = nth_error su t /\ exists v, nth_error su t = Some v.
Proof. exact (@demo_delay). Qed.
Print Assumptions C114_demo_delay.

(** C114. Only relative positions matter: moving every sensor by the same vector changes nothing *)
Theorem C114_demo_moved :
  forall K (gen : nat * nat -> result (list (list fl))) (pos : list (K * (R * R))) spd dir t0 T v,
  0 < spd -> (1 <= T)%nat -> clouds_demo gen (moved v pos) spd dir (every_second t0 T) = clouds_demo gen pos spd dir (every_second t0 T).
Proof. exact (@demo_moved). Qed.
Print Assumptions C114_demo_moved.

(** C114. Fewer than two times: IndexError. No sensor: ValueError *)
Theorem C114_demo_refused :
  forall K (gen : nat * nat -> result (list (list fl))) (pos : list (K * (R * R))) spd dir twin,
  clouds_demo gen (@nil (K * (R * R))) spd dir twin = Err ValueError /\
  (pos <> [] -> (length twin < 2)%nat -> clouds_demo gen pos spd dir twin = Err IndexError).
Proof. exact (@demo_refused). Qed.
Print Assumptions C114_demo_refused.

(** C114. The field generator of the package delivers the size asked for, so all this applies to it *)
Theorem C114_demo_generator :
  forall rnd weights scales frac ktmean ktmax kt1pct nx ny field,
  cloudfield_timeseries rnd weights scales (nx, ny) frac ktmean ktmax kt1pct Original 3 = Ok field -> shaped nx ny field.
Proof. exact (@demo_generator). Qed.
Print Assumptions C114_demo_generator.

(** C114. Three sensors, wind to the east at 1 m/s, two seconds: extents of 1.5 s give a field of 4 rows and 2 columns. The sensor 1.5 m downwind is one second
    behind the one at the origin *)
Example C114_demo_example :
  ranges (along 0) demo_sensors 0 (3 / 2) /\ ranges (across 0) demo_sensors 0 (3 / 2) /\
  covers 4 ((3 / 2 - 0) / 1 + INR 2) /\ covers 2 ((3 / 2 - 0) / 1) /\ ~ whole ((3 / 2 - 0) / 1) /\
  (exists field, demo_rows (4, 2)%nat = Ok field /\ shaped 4 2 field) /\
  clouds_demo demo_rows demo_sensors 1 0 (every_second 100 2) =
    Ok [(60%nat, [Fin (INR 10); Fin (INR 20); Fin (INR 30)]); (70%nat, [Fin (INR 0); Fin (INR 10); Fin (INR 20)]); (18%nat, [Fin (INR 11); Fin (INR 21); Fin (INR 31)])].
Proof. exact (@demo_example). Qed.

