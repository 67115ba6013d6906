(** Property theorems. spatial.py distances in floating point.
    Proofs are in the X_ file of the same name. *)
From Flocq Require Import Core Relative.
From Verif Require Import Prelude PreludeFacts RealBase M_spatial M_spatial_float X_spatial_zone X_trunc_float Spec_spatial P_plane X_spatial_time Spec_dist_float M_dist_float.
Local Open Scope R_scope.
From Verif Require Import X_dist_float.

(** C134. The computed length of a vector is its length to within a little over two rounding units, unless a square
    leaves the range of a double. *)
Theorem C134_magnitude_relative :
  forall v, ordinary (fst v) -> ordinary (snd v) -> within_rel (2 * u + u ^ 2) (magnitude_b64 v) (len v).
Proof. exact (@magnitude_relative). Qed.
Print Assumptions C134_magnitude_relative.

(** C134. In the same range only the zero vector has computed length zero, and no intermediate value overflows. *)
Theorem C134_magnitude_zero :
  forall v, ordinary (fst v) -> ordinary (snd v) ->
  (magnitude_b64 v = 0 <-> v = (0, 0)) /\ b64 (b64 (fst v * fst v) + b64 (snd v * snd v)) < bpow radix2 1002.
Proof. exact (@magnitude_zero). Qed.
Print Assumptions C134_magnitude_zero.

(** C134. Reversing or swapping the components leaves the computed length unchanged, bit for bit, and it is never negative. *)
Theorem C134_magnitude_symmetric :
  forall a b, magnitude_b64 (- a, b) = magnitude_b64 (a, b) /\
  magnitude_b64 (b, a) = magnitude_b64 (a, b) /\ 0 <= magnitude_b64 (a, b).
Proof. exact (@magnitude_symmetric). Qed.
Print Assumptions C134_magnitude_symmetric.

(** C134. Whatever the components, the computed length is off by at most a little over two rounding units of the length
    and 2^-500. *)
Theorem C134_magnitude_absolute :
  forall v, Rabs (magnitude_b64 v - len v) <= (2 * u + u ^ 2) * len v + bpow radix2 (-500).
Proof. exact (@magnitude_absolute). Qed.
Print Assumptions C134_magnitude_absolute.

(** C134. The computed unit vector is the exact one to within 2^-51 in each component. *)
Theorem C134_unit_close :
  forall v, ordinary (fst v) -> ordinary (snd v) -> v <> (0, 0) ->
  Rabs (fst (unit_b64 v) - fst v / len v) <= / 2 ^ 51 /\ Rabs (snd (unit_b64 v) - snd v / len v) <= / 2 ^ 51.
Proof. exact (@unit_close). Qed.
Print Assumptions C134_unit_close.

(** C134. The matrix of space-time distances computed in floating point is square with one row per site and time, exactly
    symmetric, exactly zero on the diagonal and nowhere negative. *)
Theorem C134_spacetime_float_shape :
  forall (x y dur : list R) (cs c s : R) (D : list (list R)),
  spacetime_distances_b64 x y dur cs c s = Ok D ->
  length D = (length x * length dur)%nat /\ (forall row, In row D -> length row = (length x * length dur)%nat) /\
  forall a b, (a < length x * length dur)%nat -> (b < length x * length dur)%nat ->
    exists d, entry D a b = Some d /\ entry D b a = Some d /\ 0 <= d /\ (a = b -> d = 0).
Proof. exact (@spacetime_float_shape). Qed.
Print Assumptions C134_spacetime_float_shape.

(** C134. Within a million metres: every entry is the exact distance between the two drifted sites to within 2^-26 metre
    (15 nanometres), whatever the sites, times, speed and direction. *)
Theorem C134_spacetime_float_close :
  forall (x y dur : list R) (cs cd c s : R) (i j k l : nat) xi yi xj yj dk dl,
  length x = length y ->
  nth_error x i = Some xi -> nth_error y i = Some yi -> nth_error dur k = Some dk ->
  nth_error x j = Some xj -> nth_error y j = Some yj -> nth_error dur l = Some dl ->
  Forall (fun v => Rabs v <= 2 ^ 20) (x ++ y) -> Forall (fun d => Rabs (cs * d) <= 2 ^ 20) dur ->
  Rabs (c - cos cd) <= u -> Rabs (s - sin cd) <= u ->
  exists D d, spacetime_distances_b64 x y dur cs c s = Ok D /\
    entry D (i * length dur + k) (j * length dur + l) = Some d /\
    Rabs (d - dist2 (moved_back (xi, yi) cs cd dk) (moved_back (xj, yj) cs cd dl)) <= / 2 ^ 26.
Proof. exact (@spacetime_float_close). Qed.
Print Assumptions C134_spacetime_float_close.

(** C134. Refuted: "two sites are equally far apart at every time". Exactly they are; once the drift is large enough to
    absorb their separation the computed distance is zero. *)
Theorem C134_spacetime_float_refuted :
  exists x y dur cs D,
  spacetime_distances_b64 x y dur cs 1 0 = Ok D /\ length dur = 2%nat /\ length x = 2%nat /\
  entry D (0 * 2 + 0) (1 * 2 + 0) = Some (1 / 4) /\ entry D (0 * 2 + 1) (1 * 2 + 1) = Some 0.
Proof. exact (@spacetime_float_refuted). Qed.
Print Assumptions C134_spacetime_float_refuted.

(** C134. Refuted without the range: a nonzero vector whose computed length is zero. *)
Theorem C134_magnitude_zero_refuted :
  exists a, is_b64 a /\ a <> 0 /\ magnitude_b64 (a, 0) = 0.
Proof. exact (@magnitude_zero_refuted). Qed.
Print Assumptions C134_magnitude_zero_refuted.

(** C134. The vector (3, 4) is ordinary, its computed length is exactly 5; two sites, two times and a speed of 10 m/s along
    the first axis meet the conditions of the accuracy theorem. *)
Example C134_dist_float_example :
  ordinary 3 /\ ordinary 4 /\ magnitude_b64 (3, 4) = 5 /\
  Forall (fun v => Rabs v <= 2 ^ 20) ([0; 300] ++ [0; 400]) /\ Forall (fun d => Rabs (10 * d) <= 2 ^ 20) [0; 60] /\
  Rabs (1 - cos 0) <= u /\ Rabs (0 - sin 0) <= u /\
  exists D, spacetime_distances_b64 [0; 300] [0; 400] [0; 60] 10 1 0 = Ok D /\ length D = 4%nat.
Proof. exact (@dist_float_example). Qed.

