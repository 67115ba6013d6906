(** Property theorems. averaged_tf on tables with different numbers of rows (C103).
    Proofs are in the X_ file of the same name. *)
From Coq Require Import String.
From Verif Require Import Prelude PreludeFacts RealBase Fl RealStat Dft Phase Spec_welch Spec_window M_cmv M_signal_corr M_signal_tf M_window M_tf_rows P_signal P_corr P_dft P_welch P_parseval P_tf P_window X_signal_psd X_signal_tf X_window.
From Coq Require Import Lra Psatz.
From Coquelicot Require Import Complex.
Local Open Scope string_scope.
Local Open Scope R_scope.
From Verif Require Import X_tf_rows.

(** C103. when the output has at least one segment's worth of rows: the input spectrum is averaged over the input's segments, the output spectrum over the output's, but the cross spectrum over those of the longer table, with rows the shorter one lacks counted as zeros *)
Theorem C103_rows_value :
  forall win dtr dt n m ins outs navgs overlap window d N V Kx Ky K,
  windows win -> keeps_length dtr -> (2 <= n)%nat -> dt <> 0 -> welch_grid n navgs overlap N V -> (N <= m)%nat ->
  segments_fit n N V Kx -> segments_fit m N V Ky -> segments_fit (Nat.max n m) N V K ->
  power (win window N) <> 0 -> Forall (fun col => length (snd col) = n) ins -> Forall (fun col => length (snd col) = m) outs ->
  matchable ins outs -> ins <> [] -> outs <> [] ->
  exists out, averaged_tf_rows win dtr dt n m ins outs (Z.of_nat navgs) overlap window d
      = Ok (map (fun k => INR k / (INR N * dt)) (seq 0 (N / 2 + 1)), out) /\
    length out = Nat.max (length ins) (length outs) /\
    forall i, (i < length out)%nat -> exists a x b y tf coh,
      partner ins i = Some (a, x) /\ partner outs i = Some (b, y) /\
      nth_error out i = Some ((a ++ "_" ++ b)%string, (tf, coh)) /\ length tf = (N / 2 + 1)%nat /\ length coh = (N / 2 + 1)%nat /\
      forall k, (k <= N / 2)%nat ->
        let X := fun s => seg_spectrum (win window N) (detrend_by dtr d) x N V s k in
        let Y := fun s => seg_spectrum (win window N) (detrend_by dtr d) y N V s k in
        nth k tf None = (if Req_EM_T (auto Kx X) 0 then None else Some (Cdiv (cross K X Y) (RtoC (auto Kx X)))) /\
        nth k coh None = (if Req_EM_T (auto Kx X * auto Ky Y) 0 then None else Some (Cmod (cross K X Y) ^ 2 / (auto Kx X * auto Ky Y))).
Proof. exact (@rows_value). Qed.
Print Assumptions C103_rows_value.

(** C103. an output shorter than one segment: a ValueError if it is not longer than the overlap, or if it gives a different number of frequencies (other than one) *)
Theorem C103_rows_short :
  forall win dtr dt n m ins outs navgs overlap window d N V,
  windows win -> (2 <= n)%nat -> dt <> 0 -> welch_grid n navgs overlap N V -> (1 <= m < N)%nat -> matchable ins outs -> ins <> [] -> outs <> [] ->
  (m <= V)%nat \/ (2 <= m)%nat /\ (m / 2 <> N / 2)%nat ->
  averaged_tf_rows win dtr dt n m ins outs (Z.of_nat navgs) overlap window d = Err ValueError.
Proof. exact (@rows_short). Qed.
Print Assumptions C103_rows_short.

(** C103. the remaining short outputs are accepted, and their coherence is off by a ratio of windows *)
Theorem C103_rows_short_accepted :
  forall win dtr dt n m x y a b navgs overlap window d N V Kx,
  windows win -> keeps_length dtr -> (2 <= n)%nat -> dt <> 0 -> welch_grid n navgs overlap N V -> (V < m < N)%nat -> m = 1%nat \/ (m / 2 = N / 2)%nat ->
  segments_fit n N V Kx -> power (win window N) <> 0 -> power (win window m) <> 0 -> length x = n -> length y = m ->
  exists f tf coh, averaged_tf_rows win dtr dt n m [(a, x)] [(b, y)] (Z.of_nat navgs) overlap window d = Ok (f, [((a ++ "_" ++ b)%string, (tf, coh))]) /\
    forall k, (k <= N / 2)%nat ->
      let ky := if Nat.eqb (m / 2) (N / 2) then k else 0%nat in
      let X := fun s => seg_spectrum (win window N) (detrend_by dtr d) x N V s k in
      let Y := fun s => seg_spectrum (win window N) (detrend_by dtr d) y N V s k in
      let whole := fourier (tapered (win window m) (detrend_by dtr d (chunk y 0 m))) ky in
      nth k tf None = (if Req_EM_T (auto Kx X) 0 then None else Some (Cdiv (cross Kx X Y) (RtoC (auto Kx X)))) /\
      nth k coh None = (if Req_EM_T (auto Kx X * Cmod whole ^ 2) 0 then None
        else Some (Cmod (cross Kx X Y) ^ 2 / (auto Kx X * Cmod whole ^ 2) * (sides N k * power (win window m) / (sides m ky * power (win window N))))).
Proof. exact (@rows_short_accepted). Qed.
Print Assumptions C103_rows_short_accepted.

(** C103. with equal row counts this is averaged_tf *)
Theorem C103_rows_same :
  forall win dtr dt n ins outs navgs overlap window d, Forall (fun col => length (snd col) = n) (ins ++ outs) ->
  averaged_tf_rows win dtr dt n n ins outs navgs overlap window d = averaged_tf win dtr dt n (Frame ins) (Frame outs) navgs overlap window d.
Proof. exact (@rows_same). Qed.
Print Assumptions C103_rows_same.

(** C103. so rows the output has beyond the input dilute the transfer function: if the output is g times the input where both have rows, the estimate is g times (segments of the input) / (segments of the output), not g *)
Theorem C103_extra_rows_dilute :
  forall win dtr dt n m x y a b g navgs window N Kx Ky k f nm tf coh h,
  windows win -> keeps_length dtr -> (2 <= n)%nat -> dt <> 0 -> welch_grid n navgs 0 N 0 -> power (win window N) <> 0 ->
  n = (Kx * N)%nat -> segments_fit m N 0 Ky -> (n <= m)%nat -> length x = n -> length y = m ->
  (forall i, (i < n)%nat -> nth i y 0 = g * nth i x 0) ->
  averaged_tf_rows win dtr dt n m [(a, x)] [(b, y)] (Z.of_nat navgs) 0 window None = Ok (f, [(nm, (tf, coh))]) ->
  nth_error tf k = Some (Some h) -> h = RtoC (g * INR Kx / INR Ky).
Proof. exact (@extra_rows_dilute). Qed.
Print Assumptions C103_extra_rows_dilute.

(** C103. and coherence is no longer bounded by one: five input rows against six output rows, where the last input row lies in no whole segment of the input, give coherence 10000/3 *)
Theorem C103_rows_coherence_refuted :
  ~ (forall dt n m x y a b navgs overlap window d f nm tf coh c, (1 <= m)%nat -> length x = n -> length y = m ->
     averaged_tf_rows std_win std_dtr dt n m [(a, x)] [(b, y)] navgs overlap window d = Ok (f, [(nm, (tf, coh))]) -> In (Some c) coh -> 0 <= c <= 1).
Proof. exact (@rows_coherence_refuted). Qed.
Print Assumptions C103_rows_coherence_refuted.

(** C103. four input rows against eight output rows, the output twice the input: the estimate at frequency zero is 1, not 2 *)
Example C103_rows_example :
  exists f tf coh,
  averaged_tf_rows std_win std_dtr 1 4 8 [("a", [1; 2; 3; 4])] [("b", [2; 4; 6; 8; 0; 0; 0; 0])] 2 0 "boxcar" None = Ok (f, [("a_b", (tf, coh))]) /\ nth_error tf 0 = Some (Some (RtoC 1)).
Proof. exact (@rows_example). Qed.

