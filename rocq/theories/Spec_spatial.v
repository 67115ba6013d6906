(** Independent vocabulary for the properties of spatial.py. *)
From Verif Require Import Prelude RealBase Fl M_spatial.
Local Open Scope R_scope.

(** The answer has the shape of the argument: a sequence answers a sequence, a Series
    answers with the same index. *)
Definition same_shape {K A} (c : coord K) (s : shaped K A) : Prop :=
  match c, s with
  | CScalar _, SScalar _ => True
  | CArray _, SArray _ => True
  | CSeries i _, SFrame j _ => i = j
  | _, _ => False
  end.
Definition rows_of {K A} (s : shaped K A) : list A :=
  match s with SScalar a => [a] | SArray l => l | SFrame _ l => l end.
Definition is_sequence {K} (c : coord K) : Prop :=
  match c with CScalar _ => False | _ => True end.

(** A pandas Series without entries. *)
Definition empty_series {K} (c : coord K) : Prop := exists idx, c = CSeries idx [].

(** The projection library undoes itself at this point, zone and hemisphere. *)
Definition undoes (fwd inv : Z -> bool -> R -> R -> R * R) (z : Z) (s : bool) (lat lon : R) : Prop :=
  inv z s (fst (fwd z s lon lat)) (snd (fwd z s lon lat)) = (lon, lat).

(** Southern hemisphere. *)
Definition southern (lat : R) (s : bool) : Prop := s = true <-> lat < 0.

(** Plane geometry, independently of the modelled helpers. *)
Definition inner (a b : R * R) : R := fst a * fst b + snd a * snd b.
Definition len (a : R * R) : R := sqrt (inner a a).
Definition cross (a b : R * R) : R := fst a * snd b - snd a * fst b.
Definition sub2 (a b : R * R) : R * R := (fst a - fst b, snd a - snd b).
Definition add2 (a b : R * R) : R * R := (fst a + fst b, snd a + snd b).
Definition scale2 (k : R) (a : R * R) : R * R := (k * fst a, k * snd a).
Definition dist2 (a b : R * R) : R := len (sub2 a b).
Definition parallel (a b : R * R) : Prop := cross a b = 0.

(** [c] lies on the line through the tip of [a] perpendicular to [a]. *)
Definition on_tip_perpendicular (a c : R * R) : Prop := inner (sub2 c a) a = 0.

(** Where the air over [p] at elapsed time [0] came from: position moved back along the motion. *)
Definition moved_back (p : R * R) (speed dir elapsed : R) : R * R :=
  sub2 p (scale2 (speed * elapsed) (cos dir, sin dir)).

(** Textbook WGS84 ellipsoid: semi-major axis, flattening, and the radii of curvature in the
    meridian and in the prime vertical at geodetic latitude [mu] (radians). *)
Definition wgs84_a : R := 6378137.
Definition wgs84_f : R := 1 / 298.257223563.
Definition wgs84_e2 : R := wgs84_f * (2 - wgs84_f).
Definition wgs84_W (mu : R) : R := sqrt (1 - wgs84_e2 * (sin mu) ^ 2).
Definition prime_vertical_radius (mu : R) : R := wgs84_a / wgs84_W mu.
Definition meridian_radius (mu : R) : R := wgs84_a * (1 - wgs84_e2) / (wgs84_W mu) ^ 3.

(** Entry of a matrix given by rows. *)
Definition entry {A} (D : list (list A)) (a b : nat) : option A :=
  match nth_error D a with Some row => nth_error row b | None => None end.
