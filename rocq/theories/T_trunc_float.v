(** Property theorems. Sizes obtained by truncation, in binary64.
    Proofs are in the X_ file of the same name. *)
From Flocq Require Import Core Relative Mult_error.
From Verif Require Import Prelude RealBase M_spatial M_spatial_float X_spatial_zone M_signal_plant X_stats_float X_vis_hist M_trunc_float.
Local Open Scope R_scope.
From Verif Require Import X_trunc_float.

(** C122. The overlap of the spectral segments: for every binary64 fraction below one it is shorter than the segment, so the
    segments always advance; half of a segment is exact; otherwise it is the exact truncation or, when the product is within a
    relative 2^-53 of the next whole number, that number. *)
Theorem C122_overlap_shorter :
  forall n o w, (1 <= n <= 2 ^ 53)%Z -> is_b64 o -> 0 <= o < 1 -> IZR w <= IZR n * o < IZR w + 1 ->
  (0 <= noverlap_b64 n o < n)%Z /\ noverlap_b64 n (1 / 2) = (n / 2)%Z /\
  (noverlap_b64 n o = w \/ (noverlap_b64 n o = (w + 1)%Z /\ (IZR w + 1) * (1 - / 2 ^ 53) < IZR n * o)).
Proof. exact (@overlap_shorter). Qed.
Print Assumptions C122_overlap_shorter.

(** C122. The pixel a sensor falls on, for a positive speed and positions that are not negative: it never decreases with the
    position, is exact for positions that are a whole number of pixels, and is otherwise the exact one or, within a relative 2^-53
    of the next pixel, that one. *)
Theorem C122_pixel_rounding :
  forall p q s k w, 0 < s -> 0 <= p <= q ->
  (pixel_b64 p s <= pixel_b64 q s)%Z /\
  ((0 <= k <= 2 ^ 53)%Z -> p = IZR k * s -> pixel_b64 p s = k) /\
  ((w + 1 <= 2 ^ 53)%Z -> IZR w <= p / s < IZR w + 1 ->
     pixel_b64 p s = w \/ (pixel_b64 p s = (w + 1)%Z /\ (IZR w + 1) * (1 - / 2 ^ 53) < p / s)).
Proof. exact (@pixel_rounding). Qed.
Print Assumptions C122_pixel_rounding.

(** C122. The layers of the cloud field: for whole-number scales from 1 on, the size of a layer is the whole part of the field's size
    divided by the power of two, without rounding error. *)
Theorem C122_layer_exact :
  forall size scale, (0 <= size <= 2 ^ 53)%Z -> (1 <= scale <= 1000)%Z ->
  layer_b64 size scale = (size / 2 ^ (scale - 1))%Z.
Proof. exact (@layer_exact). Qed.
Print Assumptions C122_layer_exact.

(** C122. The edges of the histograms: multiples of 0.25 without rounding error, symmetric, and reaching strictly beyond the
    largest sample, by at most one bin. *)
Theorem C122_hist_edges_exact :
  forall m, is_b64 m -> 0 <= m <= 2 ^ 40 -> exists k : nat,
  m < INR k / 4 <= m + 1 / 4 /\ length (hist_edges_b64 m) = (2 * k + 1)%nat /\
  (forall i, (i <= 2 * k)%nat -> nth i (hist_edges_b64 m) 0 = (INR i - INR k) / 4).
Proof. exact (@hist_edges_exact). Qed.
Print Assumptions C122_hist_edges_exact.

(** C122. The grid on which the copula tabulates its distribution: 400 points, starting at -2 exactly, in order, each within 10^-12
    of -2 + i/100 (so the last one is below 2). *)
Theorem C122_csi_grid_rounding :
  length csi_grid_b64 = Z.to_nat 400 /\ nth 0 csi_grid_b64 0 = -2 /\
  (forall i, (i < length csi_grid_b64)%nat -> Rabs (nth i csi_grid_b64 0 - (-2 + INR i / 100)) <= / 10 ^ 12) /\
  (forall i j, (i < j < length csi_grid_b64)%nat -> nth i csi_grid_b64 0 < nth j csi_grid_b64 0).
Proof. exact (@csi_grid_rounding). Qed.
Print Assumptions C122_csi_grid_rounding.

Example C122_trunc_example :
  is_b64 (1 / 2) /\ noverlap_b64 101 (1 / 2) = 50%Z /\ pixel_b64 30 10 = 3%Z /\ layer_b64 100 4 = 12%Z.
Proof. exact (@trunc_example). Qed.

(** C122. The decimal reading fails: an overlap written 0.29 of a segment of 100 samples is 28 samples, not 29. *)
Theorem C122_overlap_decimal_refuted :
  noverlap_b64 100 (b64 (29 / 100)) = 28%Z.
Proof. exact (@overlap_decimal_refuted). Qed.
Print Assumptions C122_overlap_decimal_refuted.

