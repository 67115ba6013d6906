(** Property theorems. spatial.py lla2flat: the flat-earth projection.
    Proofs are in the X_ file of the same name. *)
From Coq Require Import String.
From Verif Require Import Prelude PreludeFacts RealBase Fl M_spatial Spec_spatial.
Local Open Scope R_scope.
From Verif Require Import X_spatial_flat.

(** C06. The matlab method: metres per degree are the WGS84 radii of curvature at the reference
    latitude; East depends only on longitude, North only on latitude. *)
Theorem C06_flat_is_affine :
  forall tmerc (lat lon latref lonref : R),
  lla2flat tmerc lat lon latref lonref "matlab" =
  Ok (prime_vertical_radius (latref * (PI / 180)) * cos (latref * (PI / 180)) * (PI / 180) * (lon - lonref),
      meridian_radius (latref * (PI / 180)) * (PI / 180) * (lat - latref)).
Proof. exact (@flat_is_affine). Qed.
Print Assumptions C06_flat_is_affine.

(** C06. Radii: meridional at most transverse, both between the extreme WGS84 curvature radii. *)
Theorem C06_flat_radii :
  forall mu : R,
  meridian_radius mu <= prime_vertical_radius mu /\
  wgs84_a * (1 - wgs84_f) ^ 2 <= meridian_radius mu <= wgs84_a / (1 - wgs84_f) /\
  wgs84_a <= prime_vertical_radius mu <= wgs84_a / (1 - wgs84_f).
Proof. exact (@flat_radii). Qed.
Print Assumptions C06_flat_radii.

(** C06. Orientation: more northern sites get larger North, more eastern sites get larger East
    (away from the poles); the reference maps to the origin; hence the map is injective. *)
Theorem C06_flat_oriented :
  forall tmerc (latref lonref lat lon lat' lon' E N E' N' : R),
  -90 < latref < 90 ->
  lla2flat tmerc lat lon latref lonref "matlab" = Ok (E, N) ->
  lla2flat tmerc lat' lon' latref lonref "matlab" = Ok (E', N') ->
  (lat < lat' <-> N < N') /\ (lon < lon' <-> E < E') /\
  ((E, N) = (0, 0) <-> (lat, lon) = (latref, lonref)).
Proof. exact (@flat_oriented). Qed.
Print Assumptions C06_flat_oriented.

(** C06. Longitudes are not wrapped: two sites a fifth of a degree apart across the antimeridian
    are placed more than 38 000 km apart. *)
Theorem C06_flat_antimeridian :
  forall tmerc : R -> R -> R -> R -> R * R, exists E N,
  lla2flat tmerc 0 (-179.9) 0 179.9 "matlab" = Ok (E, N) /\ E < -38000000.
Proof. exact (@flat_antimeridian). Qed.
Print Assumptions C06_flat_antimeridian.

(** C06. Method selection: tmerc delegates to the projection centred on the reference, any other
    name raises ValueError. *)
Theorem C06_flat_methods :
  forall tmerc (lat lon latref lonref : R) (m : string),
  (m = "tmerc"%string -> lla2flat tmerc lat lon latref lonref m = Ok (tmerc latref lonref lon lat)) /\
  (lla2flat tmerc lat lon latref lonref m = Err ValueError <-> m <> "matlab"%string /\ m <> "tmerc"%string).
Proof. exact (@flat_methods). Qed.
Print Assumptions C06_flat_methods.

Example C06_flat_example :
  -90 < 40 < 90 /\ exists E N, lla2flat (fun _ _ _ _ => (0, 0)) 41 (-105) 40 (-104) "matlab" = Ok (E, N) /\ E < 0 < N.
Proof. exact (@flat_example). Qed.

