(** Property theorems. The Marcos filter as it is stored, in single precision (C139).
    Proofs are in the X_ file of the same name. *)
From Coq Require Import ZArith.
From Flocq Require Import Core Relative.
From Verif Require Import Prelude PreludeFacts RealBase M_signal_plant M_marcos32 X_signal_marcos.
From Coq Require Import Lra Psatz.
From Coquelicot Require Import Complex.
Local Open Scope R_scope.
From Verif Require Import X_marcos32.

(** C139. For s > 0 there is one stored value per frequency, in order, and each part of it differs from the ideal one-pole response by at most half a unit in the last place
    of single precision: 2^-24 of the part itself, plus 2^-149 for tiny parts. *)
Theorem C139_stored_close :
  forall s freq, 0 < s ->
  map fst (get_marcosfilter32 s (Some freq)) = freq /\
  forall i f v, nth_error (get_marcosfilter32 s (Some freq)) i = Some (f, v) -> exists re im, v = Some (re, im) /\
    let q := rel_freq s f in
    Rabs (re - / (1 + q ^ 2)) <= / 2 ^ 24 * Rabs (/ (1 + q ^ 2)) + / 2 ^ 149 /\
    Rabs (im - - q / (1 + q ^ 2)) <= / 2 ^ 24 * Rabs (- q / (1 + q ^ 2)) + / 2 ^ 149.
Proof. exact (@stored_close). Qed.
Print Assumptions C139_stored_close.

(** C139. Both stored parts are single precision numbers: whole numbers of at most 24 binary digits times a power of two. *)
Theorem C139_stored_single :
  forall s freq i f re im, 0 < s -> nth_error (get_marcosfilter32 s (Some freq)) i = Some (f, Some (re, im)) ->
  forall v, v = re \/ v = im -> exists m e : Z, v = IZR m * powerRZ 2 e /\ (Z.abs m < 2 ^ 24)%Z /\ (-149 <= e)%Z.
Proof. exact (@stored_single). Qed.
Print Assumptions C139_stored_single.

(** C139. The stored real part lies in [0, 1] and the imaginary part in [-1/2, 1/2]; the imaginary part is never positive for frequencies that are not negative;
    at frequency 0 the value is exactly 1; the value at -f is the conjugate of that at f. *)
Theorem C139_stored_shape :
  forall s freq i f re im, 0 < s -> nth_error (get_marcosfilter32 s (Some freq)) i = Some (f, Some (re, im)) ->
  0 <= re <= 1 /\ - / 2 <= im <= / 2 /\ (0 <= f -> im <= 0) /\ (f = 0 -> re = 1 /\ im = 0) /\
  forall freq' j v, nth_error (get_marcosfilter32 s (Some freq')) j = Some (- f, v) -> v = Some (re, - im).
Proof. exact (@stored_shape). Qed.
Print Assumptions C139_stored_shape.

(** C139. Rounding does not disturb the order: at a frequency further from zero, or for a larger plant, the stored real part is not larger. *)
Theorem C139_stored_monotone :
  forall s freq i f re im s' freq' j f' re' im', 0 < s -> s <= s' -> Rabs f <= Rabs f' ->
  nth_error (get_marcosfilter32 s (Some freq)) i = Some (f, Some (re, im)) ->
  nth_error (get_marcosfilter32 s' (Some freq')) j = Some (f', Some (re', im')) -> re' <= re.
Proof. exact (@stored_monotone). Qed.
Print Assumptions C139_stored_monotone.

(** C139. A plant of no size stores exactly 1 everywhere, a negative size stores NaN, and leaving the frequencies out means 100 frequencies evenly over 0 .. 0.5. *)
Theorem C139_stored_degenerate :
  forall s freq,
  get_marcosfilter32 0 (Some freq) = map (fun f => (f, Some (RtoC 1))) freq /\
  (s < 0 -> get_marcosfilter32 s (Some freq) = map (fun f => (f, None)) freq) /\
  (0 < s -> get_marcosfilter32 s None = get_marcosfilter32 s (Some (map (fun i => INR i / 99 * 0.5) (seq 0 100)))).
Proof. exact (@stored_degenerate). Qed.
Print Assumptions C139_stored_degenerate.

(** C139. The stored gain exceeds 1 by at most 2^-23. *)
Theorem C139_stored_gain :
  forall s freq i f z, 0 < s -> nth_error (get_marcosfilter32 s (Some freq)) i = Some (f, Some z) -> Cmod z <= 1 + / 2 ^ 23.
Proof. exact (@stored_gain). Qed.
Print Assumptions C139_stored_gain.

(** C139. The ideal gain never exceeds 1 (C59), the stored one does: for a plant of one hectare, at 2^-13 of the cut-off frequency, the stored gain is greater than 1. *)
Theorem C139_stored_gain_refuted :
  exists z, nth_error (get_marcosfilter32 1 (Some [0.02 * / 2 ^ 13])) 0 = Some (0.02 * / 2 ^ 13, Some z) /\ 1 < Cmod z.
Proof. exact (@stored_gain_refuted). Qed.
Print Assumptions C139_stored_gain_refuted.

(** C139. a plant of one hectare at frequency zero and at the cut-off: 1, and exactly 1/2 - i/2 *)
Example C139_marcos32_example :
  get_marcosfilter32 1 (Some [0; 0.02]) = [(0, Some (RtoC 1)); (0.02, Some (/ 2, - / 2))].
Proof. exact (@marcos32_example). Qed.

