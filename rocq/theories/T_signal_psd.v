(** Property theorems. averaged_psd: value, errors, Series against DataFrame (C47), total power (C88).
    Proofs are in the X_ file of the same name. *)
From Coq Require Import String.
From Verif Require Import Prelude PreludeFacts RealBase Fl RealStat Dft Phase Spec_welch M_cmv M_signal_corr M_signal_tf P_signal P_corr P_dft P_welch P_parseval.
From Coq Require Import Lra Psatz.
From Coquelicot Require Import Complex.
Local Open Scope R_scope.
From Verif Require Import X_signal_psd.

(** C47. what averaged_psd returns for a table: frequencies k/(N dt), and at bin k the (one-sided) mean over the segments of the squared Fourier sum of the windowed, detrended segment, times the normalisation of the requested scaling *)
Theorem C47_psd_value :
  forall win dtr dt n navgs overlap window d scaling N V K c cols,
  windows win -> keeps_length dtr -> (2 <= n)%nat -> dt <> 0 -> welch_grid n navgs overlap N V -> segments_fit n N V K ->
  norm_is (win window N) dt scaling c -> Forall (fun col => length (snd col) = n) cols -> cols <> [] ->
  exists out, averaged_psd win dtr dt n (Frame cols) (Z.of_nat navgs) overlap window d scaling
      = Ok (map (fun k => INR k / (INR N * dt)) (seq 0 (N / 2 + 1)), out) /\
    map fst out = map fst cols /\
    forall i nm x, nth_error cols i = Some (nm, x) ->
      exists v, nth_error out i = Some (nm, v) /\ length v = (N / 2 + 1)%nat /\
        forall k, (k <= N / 2)%nat ->
          nth k v 0 = sides N k * c * avg K (fun s => Cmod (seg_spectrum (win window N) (detrend_by dtr d) x N V s k) ^ 2).
Proof. exact (@psd_value). Qed.
Print Assumptions C47_psd_value.

(** C47. a Series gives what its one-column table gives under 'density', whatever scaling is asked for *)
Theorem C47_psd_series :
  forall win dtr dt n nm x navgs overlap window d scaling,
  averaged_psd win dtr dt n (Ser nm x) navgs overlap window d scaling
  = averaged_psd win dtr dt n (Frame [(nm, x)]) navgs overlap window d "density".
Proof. exact (@psd_series). Qed.
Print Assumptions C47_psd_series.

(** C47. so a Series and its table disagree under 'spectrum': every value differs by the factor (window power) / (dt (window sum)^2) *)
Theorem C47_psd_series_ratio :
  forall win dtr dt n navgs overlap window d N V nm x f f' v v',
  windows win -> keeps_length dtr -> (2 <= n)%nat -> dt <> 0 -> welch_grid n navgs overlap N V -> length x = n ->
  power (win window N) <> 0 -> Rsum (win window N) <> 0 ->
  averaged_psd win dtr dt n (Ser nm x) (Z.of_nat navgs) overlap window d "spectrum" = Ok (f, [(nm, v)]) ->
  averaged_psd win dtr dt n (Frame [(nm, x)]) (Z.of_nat navgs) overlap window d "spectrum" = Ok (f', [(nm, v')]) ->
  f' = f /\ v' = map (fun p => p * (power (win window N) / (dt * Rsum (win window N) ^ 2))) v.
Proof. exact (@psd_series_ratio). Qed.
Print Assumptions C47_psd_series_ratio.

(** C47. a two-sample record shows the difference: 1/4 at every bin asked for as 'spectrum', but 1/2 from the Series *)
Theorem C47_psd_series_refuted :
  ~ (forall win dtr dt n nm x navgs overlap window d scaling, windows win -> keeps_length dtr ->
     averaged_psd win dtr dt n (Ser nm x) navgs overlap window d scaling
     = averaged_psd win dtr dt n (Frame [(nm, x)]) navgs overlap window d scaling).
Proof. exact (@psd_series_refuted). Qed.
Print Assumptions C47_psd_series_refuted.

(** C47. the errors, in the order they are met *)
Theorem C47_psd_errors :
  forall win dtr dt n cols navgs overlap window d scaling,
  ((n < 2)%nat -> averaged_psd win dtr dt n (Frame cols) navgs overlap window d scaling = Err IndexError) /\
  ((2 <= n)%nat -> dt = 0 -> averaged_psd win dtr dt n (Frame cols) navgs overlap window d scaling = Err ZeroDivisionError) /\
  ((2 <= n)%nat -> dt <> 0 -> navgs = 0%Z -> averaged_psd win dtr dt n (Frame cols) navgs overlap window d scaling = Err ZeroDivisionError) /\
  ((2 <= n)%nat -> dt <> 0 -> (navgs < 0 \/ Z.of_nat n < navgs)%Z -> averaged_psd win dtr dt n (Frame cols) navgs overlap window d scaling = Err ValueError) /\
  ((2 <= n)%nat -> dt <> 0 -> (1 <= navgs)%Z -> 1 <= overlap -> averaged_psd win dtr dt n (Frame cols) navgs overlap window d scaling = Err ValueError) /\
  ((2 <= n)%nat -> dt <> 0 -> (1 <= navgs)%Z -> scaling <> "density"%string -> scaling <> "spectrum"%string ->
     averaged_psd win dtr dt n (Frame cols) navgs overlap window d scaling = Err ValueError) /\
  ((2 <= n)%nat -> dt <> 0 -> navgs <> 0%Z -> averaged_psd win dtr dt n (Frame []) navgs overlap window d scaling = Err ValueError).
Proof. exact (@psd_errors). Qed.
Print Assumptions C47_psd_errors.

(** C47. an object that is neither Series nor DataFrame is refused *)
Theorem C47_psd_other :
  forall win dtr dt n navgs overlap window d scaling r,
  averaged_psd win dtr dt n Other navgs overlap window d scaling <> Ok r.
Proof. exact (@psd_other). Qed.
Print Assumptions C47_psd_other.

(** C88. spectral densities are never negative *)
Theorem C88_psd_nonneg :
  forall win dtr dt n navgs overlap window d N V cols out f,
  windows win -> keeps_length dtr -> (2 <= n)%nat -> 0 < dt -> welch_grid n navgs overlap N V -> power (win window N) <> 0 ->
  Forall (fun col => length (snd col) = n) cols ->
  averaged_psd win dtr dt n (Frame cols) (Z.of_nat navgs) overlap window d "density" = Ok (f, out) ->
  forall nm v p, In (nm, v) out -> In p v -> 0 <= p.
Proof. exact (@psd_nonneg). Qed.
Print Assumptions C88_psd_nonneg.

(** C88. the density integrates (sum times frequency step) to the mean over the segments of the windowed signal power *)
Theorem C88_psd_total_power :
  forall win dtr dt n navgs overlap window d N V K nm x f v,
  windows win -> keeps_length dtr -> (2 <= n)%nat -> dt <> 0 -> welch_grid n navgs overlap N V -> segments_fit n N V K ->
  power (win window N) <> 0 -> length x = n ->
  averaged_psd win dtr dt n (Frame [(nm, x)]) (Z.of_nat navgs) overlap window d "density" = Ok (f, [(nm, v)]) ->
  Rsum v * (1 / (INR N * dt))
  = avg K (fun s => power (tapered (win window N) (detrend_by dtr d (chunk x (s * (N - V)) N)))) / power (win window N).
Proof. exact (@psd_total_power). Qed.
Print Assumptions C88_psd_total_power.

(** C88. the hypotheses are met by a two-sample record with a rectangular window: the density sums to the mean square *)
Example C88_psd_power_example :
  exists f v,
  averaged_psd box_win no_dtr 1 2 (Frame [("a"%string, [3; 4])]) 1 (/ 2) "boxcar" None "density" = Ok (f, [("a"%string, v)]) /\
  Rsum v * (1 / (INR 2 * 1)) = 25 / 2.
Proof. exact (@psd_power_example). Qed.

