(** Property theorems. spatial.py latlon2utm, utm2latlon, latlon2lcs, lcs2latlon: element-wise behaviour,
    round trips and the zone rule.
    Proofs are in the X_ file of the same name. *)
From Verif Require Import Prelude PreludeFacts RealBase Fl M_spatial Spec_spatial.
Local Open Scope R_scope.
From Verif Require Import X_spatial_utm.

(** C02. One point: the zone is the caller's or that of the longitude, the hemisphere is
    southern exactly for negative latitude. *)
Theorem C02_utm_point :
  forall (K : Type) fwd (lat lon : R) (zone : option Z),
  exists z s e n, latlon2utm (K := K) fwd (CScalar lat) (CScalar lon) zone = Ok (SScalar (e, n, z)) /\
    (zone = Some z \/ zone = None /\ z = calc_zone lon) /\ southern lat s /\ (e, n) = fwd z s lon lat.
Proof. exact (@utm_point). Qed.
Print Assumptions C02_utm_point.

(** C02. Sequences: same number of rows, in order, each equal to the scalar call; the index of a
    Series is kept. *)
Theorem C02_utm_elementwise :
  forall (K : Type) fwd (lat lon : coord K) (zone : option Z),
  is_sequence lat -> is_sequence lon -> length (coord_vals lat) = length (coord_vals lon) -> ~ empty_series lat ->
  exists s, latlon2utm fwd lat lon zone = Ok s /\ same_shape lat s /\
    length (rows_of s) = length (coord_vals lat) /\
    forall i la lo, nth_error (coord_vals lat) i = Some la -> nth_error (coord_vals lon) i = Some lo ->
      exists r, nth_error (rows_of s) i = Some r /\
                latlon2utm (K := K) fwd (CScalar la) (CScalar lo) zone = Ok (SScalar r).
Proof. exact (@utm_elementwise). Qed.
Print Assumptions C02_utm_elementwise.

(** C02. Sequences of different lengths and an empty Series raise ValueError, and nothing else does. *)
Theorem C02_utm_length_mismatch :
  forall (K : Type) fwd (lat lon : coord K) (zone : option Z),
  is_sequence lat -> is_sequence lon ->
  (latlon2utm fwd lat lon zone = Err ValueError <-> length (coord_vals lat) <> length (coord_vals lon) \/ empty_series lat).
Proof. exact (@utm_length_mismatch). Qed.
Print Assumptions C02_utm_length_mismatch.

(** C02. A sequence with a single number, either way round, raises TypeError. *)
Theorem C02_utm_mixed :
  forall (K : Type) fwd (lat lon : coord K) (zone : option Z),
  (is_sequence lat <-> ~ is_sequence lon) -> latlon2utm fwd lat lon zone = Err TypeError.
Proof. exact (@utm_mixed). Qed.
Print Assumptions C02_utm_mixed.

Example C02_utm_two_sites :
  exists s, latlon2utm (K := nat) eq_fwd (CSeries [7; 9]%nat [40; -30]) (CArray [-105; 10]) None = Ok (SFrame [7; 9]%nat s) /\ length s = 2%nat.
Proof. exact (@utm_two_sites). Qed.

(** C03. utm2latlon of sequences: one row per position, in order, each the scalar call; a Series keeps its index and anything else
    gives a list; other lengths raise ValueError, a sequence with a scalar TypeError. *)
Theorem C03_utm_inverse_rows :
  forall (K : Type) inv (e n : coord K) z s,
  (forall ee nn, utm2latlon (K := K) inv (CScalar ee) (CScalar nn) z s = Ok (SScalar (snd (inv z s ee nn), fst (inv z s ee nn)))) /\
  (is_sequence e -> is_sequence n -> length (coord_vals e) = length (coord_vals n) ->
     exists out, utm2latlon inv e n z s = Ok out /\ same_shape e out /\ length (rows_of out) = length (coord_vals e) /\
       forall i ee nn, nth_error (coord_vals e) i = Some ee -> nth_error (coord_vals n) i = Some nn ->
         nth_error (rows_of out) i = Some (snd (inv z s ee nn), fst (inv z s ee nn))) /\
  (is_sequence e -> is_sequence n -> length (coord_vals e) <> length (coord_vals n) -> utm2latlon inv e n z s = Err ValueError) /\
  (is_sequence e <-> ~ is_sequence n -> utm2latlon inv e n z s = Err TypeError).
Proof. exact (@utm_inverse_rows). Qed.
Print Assumptions C03_utm_inverse_rows.

(** C03. Scalar round trip, for the matching hemisphere. *)
Theorem C03_utm_round_trip :
  forall (K : Type) fwd inv (lat lon : R) (zone : option Z) e n z s,
  latlon2utm (K := K) fwd (CScalar lat) (CScalar lon) zone = Ok (SScalar (e, n, z)) ->
  southern lat s -> undoes fwd inv z s lat lon ->
  utm2latlon (K := K) inv (CScalar e) (CScalar n) z s = Ok (SScalar (lat, lon)).
Proof. exact (@utm_round_trip). Qed.
Print Assumptions C03_utm_round_trip.

(** C03. Sequence round trip: all sites in one hemisphere, converted in one explicit zone. *)
Theorem C03_utm_round_trip_sequence :
  forall (K : Type) fwd inv (lats lons : list R) z s,
  length lats = length lons ->
  (forall la lo, In (la, lo) (combine lats lons) -> southern la s /\ undoes fwd inv z s la lo) ->
  exists rows, latlon2utm (K := K) fwd (CArray lats) (CArray lons) (Some z) = Ok (SArray rows) /\
    utm2latlon (K := K) inv (CArray (map (fun r => fst (fst r)) rows)) (CArray (map (fun r => snd (fst r)) rows)) z s
      = Ok (SArray (combine lats lons)).
Proof. exact (@utm_round_trip_sequence). Qed.
Print Assumptions C03_utm_round_trip_sequence.

(** C03. With the default south=False a southern site does not come back, even for a
    perfectly invertible projection. *)
Theorem C03_utm_default_hemisphere_refuted :
  exists fwd inv, (forall z s lat lon, undoes fwd inv z s lat lon) /\
  exists lat lon e n z, latlon2utm (K := nat) fwd (CScalar lat) (CScalar lon) None = Ok (SScalar (e, n, z)) /\
    utm2latlon (K := nat) inv (CScalar e) (CScalar n) z false <> Ok (SScalar (lat, lon)).
Proof. exact (@utm_default_hemisphere_refuted). Qed.
Print Assumptions C03_utm_default_hemisphere_refuted.

Example C03_utm_round_trip_hyp :
  southern (-30) true /\ southern 40 false /\ undoes eq_fwd eq_inv 13 true (-30) (-105).
Proof. exact (@utm_round_trip_hyp). Qed.

(** C04. LCS coordinates are the target's UTM coordinates minus the origin's, element by element;
    each point is projected in the explicit zone or else in its own. *)
Theorem C04_lcs_is_utm_minus_origin :
  forall (K : Type) fwd (lat lon : coord K) (olat olon : R) (zone : option Z) oe on oz s,
  latlon2utm (K := K) fwd (CScalar olat) (CScalar olon) zone = Ok (SScalar (oe, on, oz)) ->
  latlon2utm fwd lat lon zone = Ok s -> rows_of s <> [] ->
  exists out, latlon2lcs fwd lat lon olat olon zone = Ok out /\ same_shape lat out /\
    length (rows_of out) = length (rows_of s) /\
    forall i e n z, nth_error (rows_of s) i = Some (e, n, z) ->
      nth_error (rows_of out) i = Some (e - oe, n - on).
Proof. exact (@lcs_is_utm_minus_origin). Qed.
Print Assumptions C04_lcs_is_utm_minus_origin.

(** C04. The origin maps to (0, 0). *)
Theorem C04_lcs_origin_zero :
  forall (K : Type) fwd (olat olon : R) (zone : option Z),
  latlon2lcs (K := K) fwd (CScalar olat) (CScalar olon) olat olon zone = Ok (SScalar (0, 0)).
Proof. exact (@lcs_origin_zero). Qed.
Print Assumptions C04_lcs_origin_zero.

(** C04. The displacement between two targets does not depend on the origin. *)
Theorem C04_lcs_displacement_origin_free :
  forall (K : Type) fwd (a b o p : R * R) (zone : option Z) xa xb ya yb,
  let lcs := fun t g => latlon2lcs (K := K) fwd (CScalar (fst t)) (CScalar (snd t)) (fst g) (snd g) zone in
  lcs a o = Ok (SScalar xa) -> lcs b o = Ok (SScalar xb) ->
  lcs a p = Ok (SScalar ya) -> lcs b p = Ok (SScalar yb) ->
  sub2 xa xb = sub2 ya yb.
Proof. exact (@lcs_displacement_origin_free). Qed.
Print Assumptions C04_lcs_displacement_origin_free.

(** C04. The documented rule "zone obtained from origin longitude if not specified" is false: a
    target in the next zone is projected in its own zone. *)
Theorem C04_lcs_zone_from_origin_refuted :
  exists fwd inv, (forall z s lat lon, undoes fwd inv z s lat lon) /\
  exists lat lon olat olon,
    latlon2lcs (K := nat) fwd (CScalar lat) (CScalar lon) olat olon None <>
    latlon2lcs (K := nat) fwd (CScalar lat) (CScalar lon) olat olon (Some (calc_zone olon)).
Proof. exact (@lcs_zone_from_origin_refuted). Qed.
Print Assumptions C04_lcs_zone_from_origin_refuted.

Example C04_lcs_example :
  exists oe on s,
  latlon2utm (K := nat) eq_fwd (CScalar 40) (CScalar (-103)) (Some 13%Z) = Ok (SScalar (oe, on, 13%Z)) /\
  latlon2utm (K := nat) eq_fwd (CArray [41; 39]) (CArray [-102; -104]) (Some 13%Z) = Ok s /\ rows_of s <> [].
Proof. exact (@lcs_example). Qed.

(** C05. Round trip when target and origin share the hemisphere and the zone used for both is the
    origin's own zone (none given and target in the same zone, or given explicitly). *)
Theorem C05_lcs_round_trip :
  forall (K : Type) fwd inv (lat lon olat olon : R) (zone : option Z) e n s,
  southern lat s -> southern olat s ->
  (zone = None /\ calc_zone lon = calc_zone olon \/ zone = Some (calc_zone olon)) ->
  undoes fwd inv (calc_zone olon) s lat lon ->
  latlon2lcs (K := K) fwd (CScalar lat) (CScalar lon) olat olon zone = Ok (SScalar (e, n)) ->
  lcs2latlon (K := K) fwd inv (CScalar e) (CScalar n) olat olon zone = Ok (LPoint lat lon).
Proof. exact (@lcs_round_trip). Qed.
Print Assumptions C05_lcs_round_trip.

(** C05. With an explicit zone other than the origin's, the round trip fails even for a
    perfectly invertible projection: the origin is converted in its own zone. *)
Theorem C05_lcs_explicit_zone_refuted :
  exists fwd inv, (forall z s lat lon, undoes fwd inv z s lat lon) /\
  exists lat lon olat olon z e n,
    latlon2lcs (K := nat) fwd (CScalar lat) (CScalar lon) olat olon (Some z) = Ok (SScalar (e, n)) /\
    lcs2latlon (K := nat) fwd inv (CScalar e) (CScalar n) olat olon (Some z) <> Ok (LPoint lat lon).
Proof. exact (@lcs_explicit_zone_refuted). Qed.
Print Assumptions C05_lcs_explicit_zone_refuted.

(** C05. lcs2latlon is not vectorised: an array of targets is rejected unless it has exactly two
    rows, in which case the two rows are returned in place of (lats, lons). *)
Theorem C05_lcs_array_unsupported :
  forall (K : Type) fwd inv (es ns : list R) (olat olon : R) (zone : option Z),
  length es = length ns ->
  (length es <> 2%nat -> lcs2latlon (K := K) fwd inv (CArray es) (CArray ns) olat olon zone = Err ValueError) /\
  (forall e1 e2 n1 n2, es = [e1; e2] -> ns = [n1; n2] ->
     exists p q, lcs2latlon (K := K) fwd inv (CScalar e1) (CScalar n1) olat olon zone = Ok (LPoint (fst p) (snd p)) /\
       lcs2latlon (K := K) fwd inv (CScalar e2) (CScalar n2) olat olon zone = Ok (LPoint (fst q) (snd q)) /\
       lcs2latlon (K := K) fwd inv (CArray es) (CArray ns) olat olon zone = Ok (LTwoRows p q)).
Proof. exact (@lcs_array_unsupported). Qed.
Print Assumptions C05_lcs_array_unsupported.

Example C05_lcs_round_trip_hyp :
  southern 40 false /\ southern 41 false /\
  Some (calc_zone (-103)) = Some (calc_zone (-103)) /\ undoes eq_fwd eq_inv (calc_zone (-103)) false 41 (-101).
Proof. exact (@lcs_round_trip_hyp). Qed.

