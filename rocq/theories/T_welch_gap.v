(** Property theorems. Negative overlaps: segments with samples skipped between them (C47), and one first column under 'coeff' (C87).
    Proofs are in the X_ file of the same name. *)
From Coq Require Import String.
From Verif Require Import Prelude RealBase Fl RealStat Dft Phase Spec_signal Spec_welch M_cmv M_signal_corr M_signal_tf P_signal P_corr P_delay P_fft P_dft P_welch X_signal_psd X_signal_shape.
From Coq Require Import Lra Psatz.
From Coquelicot Require Import Complex.
Local Open Scope R_scope.
From Verif Require Import X_welch_gap.

(** C47. a negative overlap skips samples: with N samples per segment and G = |N overlap| truncated, segment s starts at sample s (N + G), the K segments
    that fit are averaged, and frequencies and normalisation are those of N samples *)
Theorem C47_psd_gap :
  forall win dtr dt n navgs overlap window d scaling N G K c cols,
  windows win -> keeps_length dtr -> (2 <= n)%nat -> dt <> 0 ->
  (1 <= navgs)%nat -> (navgs * N <= n)%nat -> (n < navgs * (N + 1))%nat -> (1 <= N)%nat ->
  INR G <= - (INR N * overlap) < INR G + 1 ->
  (1 <= K)%nat -> ((K - 1) * (N + G) + N <= n)%nat -> (n < K * (N + G) + N)%nat ->
  norm_is (win window N) dt scaling c -> Forall (fun col => length (snd col) = n) cols -> cols <> [] ->
  exists out, averaged_psd win dtr dt n (Frame cols) (Z.of_nat navgs) overlap window d scaling
      = Ok (map (fun k => INR k / (INR N * dt)) (seq 0 (N / 2 + 1)), out) /\
    map fst out = map fst cols /\
    forall i nm x, nth_error cols i = Some (nm, x) ->
      exists v, nth_error out i = Some (nm, v) /\ length v = (N / 2 + 1)%nat /\
        forall k, (k <= N / 2)%nat ->
          nth k v 0 = sides N k * c * avg K (fun s => Cmod (fourier (tapered (win window N) (detrend_by dtr d (chunk x (s * (N + G)) N))) k) ^ 2).
Proof. exact (@psd_gap). Qed.
Print Assumptions C47_psd_gap.

(** C47. five samples, two segments of two, overlap -3/4: the segments are samples 0-1 and 3-4, sample 2 is skipped (G = 1) *)
Example C47_gap_example :
  (2 * 2 <= 5)%nat /\ (5 < 2 * (2 + 1))%nat /\ INR 1 <= - (INR 2 * (- 3 / 4)) < INR 1 + 1 /\
  ((2 - 1) * (2 + 1) + 2 <= 5)%nat /\ (5 < 2 * (2 + 1) + 2)%nat /\ chunk [7; 8; 9; 10; 11] (1 * (2 + 1)) 2 = [10; 11].
Proof. exact (@gap_example). Qed.

(** C87. a single first column under 'coeff' against two or more second columns is not spread over them: 'loop' mode stops with IndexError, as it
    does when the second table has no column *)
Theorem C87_coeff_one_in :
  forall dt n a outs, dt <> 0 -> (2 <= n)%nat -> length a = n -> table n outs -> length outs <> 1%nat ->
  compute_delays dt n n [a] outs "loop" "coeff" = Err IndexError.
Proof. exact (@coeff_one_in). Qed.
Print Assumptions C87_coeff_one_in.

