(** Property theorems. Delays from cross-correlation (C44, C45).
    Proofs are in the X_ file of the same name. *)
From Coq Require Import String.
From Verif Require Import Prelude RealBase Fl RealStat Spec_signal M_cmv M_signal_corr P_signal P_corr P_delay.
From Coq Require Import Lra Psatz.
Local Open Scope R_scope.
From Verif Require Import X_signal_delay.

(** C44. xcorr_delay: minus the first lag at which the correlation is largest, a whole number of steps inside the lag range, with the value there *)
Theorem C44_xcorr_delay_best :
  forall dt a b s r, (2 <= length a)%nat -> b <> [] -> correlation a b s = Ok r ->
  Forall (fun v => exists x, v = Fin x) (fst r) ->
  exists L p, xcorr_delay dt a b s = Ok (- (IZR L * dt), Fin p) /\ first_peak r L p /\
    lag_of (length a) (length b) L /\
    (length b = length a -> 0 <= dt -> Rabs (- (IZR L * dt)) <= INR (length a - 1) * dt).
Proof. exact (@xcorr_delay_best). Qed.
Print Assumptions C44_xcorr_delay_best.

(** C44. it fails exactly for unknown scalings (ValueError) and for a single sample (IndexError) *)
Theorem C44_xcorr_delay_fails :
  forall dt a b s, a <> [] -> b <> [] ->
  (~ known_scaling (lower s) -> xcorr_delay dt a b s = Err ValueError) /\
  (known_scaling (lower s) -> (length a < 2)%nat -> xcorr_delay dt a b s = Err IndexError) /\
  (known_scaling (lower s) -> (2 <= length a)%nat -> exists d p, xcorr_delay dt a b s = Ok (d, p)).
Proof. exact (@xcorr_delay_fails). Qed.
Print Assumptions C44_xcorr_delay_fails.

(** C44. a constant signal under 'coeff': NaN, and the spurious delay of all available steps *)
Theorem C44_xcorr_delay_constant :
  forall dt a b, (2 <= length a)%nat -> b <> [] -> constant a \/ constant b ->
  xcorr_delay dt a b "coeff" = Ok (INR (length b - 1) * dt, Nan).
Proof. exact (@xcorr_delay_constant). Qed.
Print Assumptions C44_xcorr_delay_constant.

(** C44. compute_delays (loop) on equally shaped tables reports for every pair what xcorr_delay reports, with delays of quiet peaks (< 1e-10) set to 0 *)
Theorem C44_delays_loop :
  forall dt n ins outs s, dt <> 0 -> (2 <= n)%nat ->
  length ins = length outs -> ins <> [] -> table n ins -> table n outs ->
  (s = "coeff" \/ s = "none")%string ->
  exists D zero, compute_delays dt n n ins outs "loop" s = Ok D /\ d_zero D = Flat zero /\
    length (d_delay D) = length ins /\ length (d_peak D) = length ins /\ length (d_mean D) = length ins /\
    length zero = length ins /\
    forall i a b, nth_error ins i = Some a -> nth_error outs i = Some b ->
      exists r d p z, correlation a b s = Ok r /\ xcorr_delay dt a b s = Ok (d, p) /\ at_lag r 0 z /\
        nth_error (d_peak D) i = Some p /\
        nth_error (d_delay D) i = Some (if fltb p (Fin (/ 10 ^ 10)) then 0 else d) /\
        nth_error (d_mean D) i = Some (fl_mean (fst r)) /\
        nth_error zero i = Some z.
Proof. exact (@delays_loop). Qed.
Print Assumptions C44_delays_loop.

(** C44. so for every pair with a finite peak, peak_corr is at least zero_corr and at least mean_corr *)
Theorem C44_delays_peak_dominates :
  forall dt n ins outs s D zero i p, dt <> 0 -> (2 <= n)%nat ->
  length ins = length outs -> ins <> [] -> table n ins -> table n outs ->
  (s = "coeff" \/ s = "none")%string ->
  compute_delays dt n n ins outs "loop" s = Ok D -> d_zero D = Flat zero ->
  nth_error (d_peak D) i = Some (Fin p) ->
  exists z m, nth_error zero i = Some (Fin z) /\ nth_error (d_mean D) i = Some (Fin m) /\ z <= p /\ m <= p.
Proof. exact (@delays_peak_dominates). Qed.
Print Assumptions C44_delays_peak_dominates.

(** C44. a constant column under 'coeff' is reported as NaN metrics with the spurious delay (n-1) steps, not 0 *)
Theorem C44_delays_constant :
  forall dt n ins outs D zero i a b, dt <> 0 -> (2 <= n)%nat ->
  length ins = length outs -> ins <> [] -> table n ins -> table n outs ->
  compute_delays dt n n ins outs "loop" "coeff" = Ok D -> d_zero D = Flat zero ->
  nth_error ins i = Some a -> nth_error outs i = Some b -> constant a \/ constant b ->
  nth_error (d_delay D) i = Some (INR (n - 1) * dt) /\ nth_error (d_peak D) i = Some Nan /\
  nth_error (d_mean D) i = Some Nan /\ nth_error zero i = Some Nan.
Proof. exact (@delays_constant). Qed.
Print Assumptions C44_delays_constant.

(** C44. under 'coeff' the reported mean_corr is 0 for every pair of non-constant columns, whatever the data *)
Theorem C44_delays_mean_zero :
  forall dt n ins outs D i a b, dt <> 0 -> (2 <= n)%nat ->
  length ins = length outs -> ins <> [] -> table n ins -> table n outs ->
  compute_delays dt n n ins outs "loop" "coeff" = Ok D ->
  nth_error ins i = Some a -> nth_error outs i = Some b -> ~ constant a -> ~ constant b ->
  nth_error (d_mean D) i = Some (Fin 0).
Proof. exact (@delays_mean_zero). Qed.
Print Assumptions C44_delays_mean_zero.

(** C44. refusals of compute_delays: a single row, an unknown scaling (case-sensitive here), an unknown mode, an empty table *)
Theorem C44_delays_refused :
  forall dt n m ins outs mode s,
  ((n < 2)%nat -> compute_delays dt n m ins outs mode s = Err IndexError) /\
  ((2 <= n)%nat -> s <> "coeff"%string -> s <> "none"%string -> compute_delays dt n m ins outs mode s = Err ValueError) /\
  ((2 <= n)%nat -> length ins = length outs -> (s = "coeff" \/ s = "none")%string ->
     mode <> "loop"%string -> mode <> "fft"%string -> compute_delays dt n m ins outs mode s = Err ValueError) /\
  ((2 <= n)%nat -> (s = "coeff" \/ s = "none")%string -> compute_delays dt n m [] [] "loop" s = Err IndexError).
Proof. exact (@delays_refused). Qed.
Print Assumptions C44_delays_refused.

(** C45. the raw correlation of a signal with its delayed copy is strictly largest at lag -s, with the energy as value *)
Theorem C45_shift_peak :
  forall a b s sc, 0 < energy a -> delayed_by a b s -> lower sc = "none"%string ->
  exists r, correlation a b sc = Ok r /\ at_lag r (- s) (Fin (energy a)) /\
    forall L v, at_lag r L v -> L <> (- s)%Z -> exists x, v = Fin x /\ x < energy a.
Proof. exact (@shift_peak). Qed.
Print Assumptions C45_shift_peak.

(** C45. xcorr_delay recovers the delay exactly (scalings 'none' and 'energy'), peak value the energy or 1 *)
Theorem C45_shift_xcorr :
  forall dt a b s sc, 0 < energy a -> delayed_by a b s -> (2 <= length a)%nat ->
  (lower sc = "none"%string -> xcorr_delay dt a b sc = Ok (IZR s * dt, Fin (energy a))) /\
  (lower sc = "energy"%string -> xcorr_delay dt a b sc = Ok (IZR s * dt, Fin 1)).
Proof. exact (@shift_xcorr). Qed.
Print Assumptions C45_shift_xcorr.

(** C45. and compute_delays (loop, 'none') recovers it for every such pair of a table, unless the energy is below 1e-10 *)
Theorem C45_shift_delays :
  forall dt n ins outs D i a b s, dt <> 0 -> (2 <= n)%nat ->
  length ins = length outs -> ins <> [] -> table n ins -> table n outs ->
  compute_delays dt n n ins outs "loop" "none" = Ok D ->
  nth_error ins i = Some a -> nth_error outs i = Some b -> delayed_by a b s -> / 10 ^ 10 <= energy a ->
  nth_error (d_delay D) i = Some (IZR s * dt) /\ nth_error (d_peak D) i = Some (Fin (energy a)).
Proof. exact (@shift_delays). Qed.
Print Assumptions C45_shift_delays.

(** C44. two columns, one of them constant: the constant one gets delay 4 steps and NaN *)
Example C44_delays_ex :
  table 5 two_in /\ table 5 two_out /\
  exists D, compute_delays 1 5 5 two_in two_out "loop" "coeff" = Ok D /\
  nth_error (d_delay D) 1 = Some 4 /\ nth_error (d_peak D) 1 = Some Nan.
Proof. exact (@delays_ex). Qed.

(** C45. a pulse delayed by two samples at one sample per 10 s: delay 20 s *)
Example C45_shift_ex :
  delayed_by [0; 1; 2; 0; 0] [0; 0; 0; 1; 2] 2 /\
  xcorr_delay 10 [0; 1; 2; 0; 0] [0; 0; 0; 1; 2] "none" = Ok (2 * 10, Fin (energy [0; 1; 2; 0; 0])).
Proof. exact (@shift_ex). Qed.

