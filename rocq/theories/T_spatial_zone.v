(** Property theorems. spatial.py _calc_zone: the UTM zone of a longitude, exact and in binary64.
    Proofs are in the X_ file of the same name. *)
From Flocq Require Import Core.
From Verif Require Import Prelude RealBase M_spatial M_spatial_float.
Local Open Scope R_scope.
From Verif Require Import X_spatial_zone.

(** C01. The zone is the 6-degree band containing the longitude. *)
Theorem C01_zone_is_band :
  forall lon : R, -180 <= lon < 180 ->
  (1 <= calc_zone lon <= 60)%Z /\
  -180 + 6 * (IZR (calc_zone lon) - 1) <= lon < -180 + 6 * IZR (calc_zone lon).
Proof. exact (@zone_is_band). Qed.
Print Assumptions C01_zone_is_band.

(** C01. Longitude +180 is zone 60, and anything beyond is clamped to 60. *)
Theorem C01_zone_upper_clamp :
  forall lon : R, 180 <= lon -> calc_zone lon = 60%Z.
Proof. exact (@zone_upper_clamp). Qed.
Print Assumptions C01_zone_upper_clamp.

(** C01. The zone never decreases with longitude (on all reals). *)
Theorem C01_zone_monotone :
  forall a b : R, a <= b -> (calc_zone a <= calc_zone b)%Z.
Proof. exact (@zone_monotone). Qed.
Print Assumptions C01_zone_monotone.

(** C01. There is no lower clamp: west of -180 the zone is silently not a UTM zone. *)
Theorem C01_zone_no_lower_clamp :
  forall lon : R, lon < -180 -> (calc_zone lon <= 0)%Z.
Proof. exact (@zone_no_lower_clamp). Qed.
Print Assumptions C01_zone_no_lower_clamp.

Example C01_zone_boulder :
  -180 <= -105.27 < 180 /\ calc_zone (-105.27) = 13%Z.
Proof. exact (@zone_boulder). Qed.

(** C01. In binary64 the zone is still always a UTM zone, for every longitude in range. *)
Theorem C01_zone_b64_range :
  forall lon : R, -180 <= lon <= 180 -> (1 <= calc_zone_b64 lon <= 60)%Z.
Proof. exact (@zone_b64_range). Qed.
Print Assumptions C01_zone_b64_range.

(** C01. In binary64 the zone is still non-decreasing in the longitude. *)
Theorem C01_zone_b64_monotone :
  forall a b : R, a <= b -> (calc_zone_b64 a <= calc_zone_b64 b)%Z.
Proof. exact (@zone_b64_monotone). Qed.
Print Assumptions C01_zone_b64_monotone.

(** C01. The binary64 zone is the true zone, or the next one, and the latter only when the
    longitude is within 2^-43 degrees below the next band edge. *)
Theorem C01_zone_b64_close :
  forall lon : R, -180 <= lon < 180 ->
  calc_zone_b64 lon = calc_zone lon \/
  (calc_zone_b64 lon = calc_zone lon + 1)%Z /\ -180 + 6 * IZR (calc_zone lon) - / 2 ^ 43 <= lon.
Proof. exact (@zone_b64_close). Qed.
Print Assumptions C01_zone_b64_close.

(** C01. The exact band statement is false in binary64: a longitude just west of Greenwich is
    given the zone east of it. *)
Theorem C01_zone_b64_band_refuted :
  exists lon : R, is_b64 lon /\ -180 <= lon < 180 /\
  ~ (-180 + 6 * (IZR (calc_zone_b64 lon) - 1) <= lon < -180 + 6 * IZR (calc_zone_b64 lon)).
Proof. exact (@zone_b64_band_refuted). Qed.
Print Assumptions C01_zone_b64_band_refuted.

