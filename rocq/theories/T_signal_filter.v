(** Property theorems. Applying a filter to a signal (C58).
    Proofs are in the X_ file of the same name. *)
From Verif Require Import Prelude PreludeFacts RealBase Fl RealStat Dft Phase M_spatial M_cmv M_signal_corr M_signal_tf M_signal_plant Spec_welch Spec_plant P_list P_dft P_welch P_signal P_phase P_fft P_parseval P_plant P_cam X_signal_interp P_filter.
From Coquelicot Require Import Complex.
From Coq Require Import Lra Psatz Permutation.
Local Open Scope R_scope.
From Verif Require Import X_signal_filter.

(** C58. The filter read at the signal's own frequencies multiplies the signal's spectrum. *)
Theorem C58_apply_value :
  forall dt sig filt (H : nat -> C), (2 <= length sig)%nat -> dt <> 0 -> NoDup (map fst filt) -> (2 <= length filt)%nat ->
  (forall k, (k < length sig)%nat -> in_range filt (bin_frequency (length sig) k dt) /\ interp_tf_at filt (bin_frequency (length sig) k dt) = Ok (H k)) ->
  apply_filter dt sig filt = Ok (spectral_product sig H).
Proof. exact (@apply_value). Qed.
Print Assumptions C58_apply_value.

(** C58. When the call fails: fewer than two samples, no time step, or a frequency of the signal outside the filter's range
   (both the explicit check of the maximum and the interpolation raise ValueError). *)
Theorem C58_apply_outcome :
  forall dt sig filt,
  ((length sig < 2)%nat -> apply_filter dt sig filt = Err IndexError) /\
  ((2 <= length sig)%nat -> dt = 0 -> apply_filter dt sig filt = Err ZeroDivisionError) /\
  ((2 <= length sig)%nat -> dt <> 0 -> NoDup (map fst filt) -> (2 <= length filt)%nat ->
     ((forall k, (k < length sig)%nat -> in_range filt (bin_frequency (length sig) k dt)) -> exists out, apply_filter dt sig filt = Ok out /\ length out = length sig) /\
     (forall k, (k < length sig)%nat -> ~ in_range filt (bin_frequency (length sig) k dt) -> apply_filter dt sig filt = Err ValueError)) /\
  ((2 <= length sig)%nat -> dt <> 0 -> filt = [] -> apply_filter dt sig filt = Err ValueError).
Proof. exact (@apply_outcome). Qed.
Print Assumptions C58_apply_outcome.

(** C58. A flat filter over the signal's frequencies scales the signal: gain 1 is the identity. *)
Theorem C58_apply_flat :
  forall dt sig filt c, (2 <= length sig)%nat -> dt <> 0 -> NoDup (map fst filt) -> (2 <= length filt)%nat ->
  (forall f z, In (f, z) filt -> z = c) -> (forall k, (k < length sig)%nat -> in_range filt (bin_frequency (length sig) k dt)) ->
  apply_filter dt sig filt = Ok (map (fun v => fst c * v) sig).
Proof. exact (@apply_flat). Qed.
Print Assumptions C58_apply_flat.

(** C58. A filter given at the signal's own frequencies f as gain c and delay of m whole samples, c exp(-2 pi i f m dt),
   moves the signal m samples around its record and scales it. *)
Theorem C58_apply_shift :
  forall dt sig filt c m, (2 <= length sig)%nat -> dt <> 0 -> NoDup (map fst filt) -> (2 <= length filt)%nat ->
  (forall k, (k < length sig)%nat -> let f := bin_frequency (length sig) k dt in In (f, Cmult (RtoC c) (phasor (- (2 * PI * f * (IZR m * dt))))) filt) ->
  apply_filter dt sig filt = Ok (map (fun v => c * v) (delayed m sig)).
Proof. exact (@apply_shift). Qed.
Print Assumptions C58_apply_shift.

(** C58. Filtering is linear in the signal. *)
Theorem C58_apply_linear :
  forall dt s1 s2 filt o1 o2 a b, NoDup (map fst filt) -> (2 <= length filt)%nat -> length s1 = length s2 ->
  apply_filter dt s1 filt = Ok o1 -> apply_filter dt s2 filt = Ok o2 ->
  apply_filter dt (map2 Rplus (map (Rmult a) s1) (map (Rmult b) s2)) filt = Ok (map2 Rplus (map (Rmult a) o1) (map (Rmult b) o2)).
Proof. exact (@apply_linear). Qed.
Print Assumptions C58_apply_linear.

(** C58. A filter with gains at most g raises the signal's energy at most by the factor g^2: a passive filter never raises it. *)
Theorem C58_apply_energy :
  forall dt sig filt out g, NoDup (map fst filt) -> (2 <= length filt)%nat ->
  (forall f z, In (f, z) filt -> Cmod z <= g) -> apply_filter dt sig filt = Ok out ->
  Rsum (map (fun v => v ^ 2) out) <= g ^ 2 * Rsum (map (fun v => v ^ 2) sig).
Proof. exact (@apply_energy). Qed.
Print Assumptions C58_apply_energy.

(** C58. The filter's value at frequency 0 scales the mean: unit gain there keeps it. *)
Theorem C58_apply_mean :
  forall dt sig filt out z, NoDup (map fst filt) -> (2 <= length filt)%nat -> In (0, z) filt ->
  apply_filter dt sig filt = Ok out -> Rmean out = fst z * Rmean sig.
Proof. exact (@apply_mean). Qed.
Print Assumptions C58_apply_mean.

(** C58. A vibration at one of the record's frequencies comes out multiplied by the filter's value there,
   provided the filter has the conjugate value at the opposite frequency. *)
Theorem C58_apply_tone :
  forall dt n m a filt h, NoDup (map fst filt) -> dt <> 0 -> (0 < m)%nat -> (2 * m < n)%nat ->
  let f := INR m / (INR n * dt) in In (f, h) filt -> In (- f, Cconj h) filt ->
  (forall k, (k < n)%nat -> in_range filt (bin_frequency n k dt)) ->
  apply_filter dt (vibration n m a) filt = Ok (vibration n m (Cmult a h)).
Proof. exact (@apply_tone). Qed.
Print Assumptions C58_apply_tone.

(** C58. A one-sided filter cannot be applied to any signal: every record has a negative frequency. *)
Theorem C58_apply_one_sided :
  forall dt sig filt, (2 <= length sig)%nat -> 0 < dt -> NoDup (map fst filt) -> (2 <= length filt)%nat ->
  (forall f z, In (f, z) filt -> 0 <= f) -> apply_filter dt sig filt = Err ValueError.
Proof. exact (@apply_one_sided). Qed.
Print Assumptions C58_apply_one_sided.

(** C58. A flat gain of 2 over -1..1 Hz on four samples one second apart. *)
Example C58_apply_example :
  apply_filter 1 [5; -1; 0; 3] [(-1, RtoC 2); (1, RtoC 2)] = Ok [10; -2; 0; 6].
Proof. exact (@apply_example). Qed.

