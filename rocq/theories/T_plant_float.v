(** Property theorems. The axis and the sites of get_1d_plant in binary64.
    Proofs are in the X_ file of the same name. *)
From Coq Require Import String.
From Flocq Require Import Core Relative Mult_error.
From Verif Require Import Prelude RealBase M_spatial M_spatial_float X_spatial_zone M_cmv M_signal_plant X_stats_float M_trunc_float X_trunc_float M_plant_float.
Local Open Scope R_scope.
From Verif Require Import X_plant_float.

(** C126. Exactness: when the grid step (halved), the site width (halved), the reference and the centers are whole multiples of some
    power of two 2^-k and, in units of it, nothing exceeds 2^50, the axis and the plant computed with rounding are those of exact
    arithmetic. Whole and half metres, quarters, and the default step of 1 are all covered. *)
Theorem C126_plant_exact :
  forall k centers ref width (triangle : bool) dx xmax, (k <= 1000)%nat -> 0 < dx -> (0 <= xmax)%Z ->
  dyadic k (dx / 2) -> dyadic k (IZR xmax) -> dyadic k ref -> Forall (dyadic k) centers ->
  (forall w, width = Some w -> dyadic k (w / 2)) ->
  get_1d_plant (map Some centers) ref width (if triangle then "triangle" else "square")%string dx (IZR xmax) =
  Ok (get_1d_plant_b64 centers ref width triangle dx xmax).
Proof. exact (@plant_exact). Qed.
Print Assumptions C126_plant_exact.

(** C126. The number of points, for every positive step not longer than the span of the axis: the exact ceiling of the span divided
    by the step, or one less, and that only when the quotient exceeds the whole number below it by no more than a relative 2^-53. *)
Theorem C126_axis_count :
  forall xmax dx, (2 <= xmax <= 2 ^ 53)%Z -> 0 < dx ->
  let q := (IZR (xmax / 2) - IZR (- xmax / 2)) / dx in 1 <= q <= 2 ^ 52 ->
  let n := length (plant_axis_b64 xmax dx) in
  (INR n - 1 < q <= INR n) \/ (INR n < q /\ q * (1 - / 2 ^ 53) <= INR n).
Proof. exact (@axis_count). Qed.
Print Assumptions C126_axis_count.

(** C126. The drift, for every positive step: on an axis of half-width at most 2^e, with a step of at most half of that, the point
    with number i lies within (i + 4) 2^(e-52) of its nominal place; and if twice that is less than the step at the far end, the points are
    strictly increasing. *)
Theorem C126_axis_drift :
  forall e xmax dx, (1 <= e <= 50)%nat -> (0 <= xmax)%Z -> IZR xmax + 1 <= 2 ^ S e -> 0 < dx -> 2 * dx <= 2 ^ e ->
  let xs := plant_axis_b64 xmax dx in INR (length xs) <= 2 ^ 51 ->
  (forall i, (i < length xs)%nat -> Rabs (nth i xs 0 - (IZR (- xmax / 2) + INR i * dx)) <= (INR i + 4) * 2 ^ e * / 2 ^ 52) /\
  (2 * ((INR (length xs) + 3) * 2 ^ e * / 2 ^ 52) < dx ->
   forall i j, (i < j < length xs)%nat -> nth i xs 0 < nth j xs 0).
Proof. exact (@axis_drift). Qed.
Print Assumptions C126_axis_drift.

(** C126. The drift is real: on the default axis with a step written 0.1 the last but one of the 5000000 points is almost 0.03 millimetres
    beyond the place that exact multiples of the step give. *)
Theorem C126_axis_drift_refuted :
  let dx := b64 (1 / 10) in let xs := plant_axis_b64 500000 dx in
  INR (length xs) = 5000000 /\ nth (Z.to_nat 4999998) xs 0 > -250000 + 4999998 * dx + 29 / 1000000.
Proof. exact (@axis_drift_refuted). Qed.
Print Assumptions C126_axis_drift_refuted.

Example C126_plant_float_example :
  dyadic 2 (1 / 2 / 2) /\ dyadic 2 (IZR 10) /\ Forall (dyadic 2) [1 / 4; -3] /\
  length (plant_axis_b64 10 (1 / 2)) = 20%nat /\
  snd (get_1d_plant_b64 [1 / 4; -3] 0 None false (1 / 2) 10) = map (fun i => -5 + INR i * (1 / 2)) (seq 0 20).
Proof. exact (@plant_float_example). Qed.

