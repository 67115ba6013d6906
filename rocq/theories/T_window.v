(** Property theorems. Detrending in averaged_psd and averaged_tf: least-squares residual, trends leave no trace (C100); the usual windows and the default calls (C101).
    Proofs are in the X_ file of the same name. *)
From Coq Require Import String.
From Verif Require Import Prelude PreludeFacts RealBase Fl RealStat Dft Phase Spec_welch Spec_window M_cmv M_signal_corr M_signal_tf M_window P_signal P_corr P_dft P_welch P_parseval P_tf P_window X_signal_psd X_signal_tf.
From Coq Require Import Lra Psatz.
From Coquelicot Require Import Complex.
Local Open Scope string_scope.
Local Open Scope R_scope.
From Verif Require Import X_window.

(** C100. 'linear' detrending returns the one residual of the least-squares line: it differs from the segment by a line, is orthogonal to all lines, nothing else is, and no other line leaves less *)
Theorem C100_detrend_linear :
  forall s x, s = "linear" \/ s = "l" ->
  off_line x (std_dtr s x) /\ (forall r, off_line x r -> r = std_dtr s x) /\
  (forall a b, sq_size (std_dtr s x) <= sq_size (with_line a b x)).
Proof. exact (@detrend_linear). Qed.
Print Assumptions C100_detrend_linear.

(** C100. 'constant' detrending returns the segment minus its mean, and no other constant leaves less *)
Theorem C100_detrend_constant :
  forall s x, s = "constant" \/ s = "c" ->
  off_mean x (std_dtr s x) /\ (forall r, off_mean x r -> r = std_dtr s x) /\
  (forall a, sq_size (std_dtr s x) <= sq_size (with_line a 0 x)).
Proof. exact (@detrend_constant). Qed.
Print Assumptions C100_detrend_constant.

(** C100. under 'linear' a straight line added to any of the signals changes no spectral density, no transfer function and no coherence, whatever the window, the averages and the overlap; errors are the same too *)
Theorem C100_trend_leaves_no_trace :
  forall win dt n ins ins' outs outs' navgs overlap window scaling,
  Forall2 adds_line ins ins' -> Forall2 adds_line outs outs' ->
  averaged_psd win std_dtr dt n (Frame ins') navgs overlap window (Some "linear") scaling = averaged_psd win std_dtr dt n (Frame ins) navgs overlap window (Some "linear") scaling /\
  averaged_tf win std_dtr dt n (Frame ins') (Frame outs') navgs overlap window (Some "linear") = averaged_tf win std_dtr dt n (Frame ins) (Frame outs) navgs overlap window (Some "linear").
Proof. exact (@trend_leaves_no_trace). Qed.
Print Assumptions C100_trend_leaves_no_trace.

(** C100. under 'constant' the same holds of a constant added to any of the signals *)
Theorem C100_offset_leaves_no_trace :
  forall win dt n ins ins' outs outs' navgs overlap window scaling,
  Forall2 adds_constant ins ins' -> Forall2 adds_constant outs outs' ->
  averaged_psd win std_dtr dt n (Frame ins') navgs overlap window (Some "constant") scaling = averaged_psd win std_dtr dt n (Frame ins) navgs overlap window (Some "constant") scaling /\
  averaged_tf win std_dtr dt n (Frame ins') (Frame outs') navgs overlap window (Some "constant") = averaged_tf win std_dtr dt n (Frame ins) (Frame outs) navgs overlap window (Some "constant").
Proof. exact (@offset_leaves_no_trace). Qed.
Print Assumptions C100_offset_leaves_no_trace.

(** C100. a signal that is nothing but a straight line has density zero at every frequency under 'linear', and its transfer function and coherence with anything are undefined everywhere *)
Theorem C100_line_has_no_spectrum :
  forall win dt n a b y nx ny navgs overlap window scaling m,
  (forall f v, averaged_psd win std_dtr dt n (Frame [(nx, with_line a b (repeat 0 m))]) navgs overlap window (Some "linear") scaling = Ok (f, [(nx, v)]) ->
     forall p, In p v -> p = 0) /\
  (forall f nm tf coh, averaged_tf win std_dtr dt n (Frame [(nx, with_line a b (repeat 0 m))]) (Frame [(ny, y)]) navgs overlap window (Some "linear") = Ok (f, [(nm, (tf, coh))]) ->
     (forall h, In h tf -> h = None) /\ (forall c, In c coh -> c = None)).
Proof. exact (@line_has_no_spectrum). Qed.
Print Assumptions C100_line_has_no_spectrum.

(** C100. 'constant' does not remove a slope: the two-sample ramp 0, 1 keeps a positive density *)
Theorem C100_slope_survives_constant_refuted :
  ~ (forall x a b f f' v v', averaged_psd std_win std_dtr 1 (length x) (Frame [("x", x)]) 1 0 "boxcar" (Some "constant") "density" = Ok (f, [("x", v)]) ->
     averaged_psd std_win std_dtr 1 (length x) (Frame [("x", with_line a b x)]) 1 0 "boxcar" (Some "constant") "density" = Ok (f', [("x", v')]) -> v' = v).
Proof. exact (@slope_survives_constant_refuted). Qed.
Print Assumptions C100_slope_survives_constant_refuted.

(** C100. the hypotheses are met: a wiggle and the same wiggle on a ramp have the same transfer function to the wiggle with an offset, with the real Hamming window *)
Example C100_trend_example :
  let w := [0; 1; 0; -1; 0; 1; 0; -1] in
  with_line 5 2 w = [5; 8; 9; 10; 13; 16; 17; 18] /\
  averaged_tf std_win std_dtr 1 8 (Frame [("a", with_line 5 2 w)]) (Frame [("b", with_line 7 0 w)]) 2 (1 / 2) "hamming" (Some "linear")
  = averaged_tf std_win std_dtr 1 8 (Frame [("a", w)]) (Frame [("b", w)]) 2 (1 / 2) "hamming" (Some "linear").
Proof. exact (@trend_example). Qed.

(** C101. the weights of the usual windows of at least two samples, and that a one-sample window is 1 *)
Theorem C101_window_weights :
  forall N j, (j < N)%nat ->
  nth j (std_win "boxcar" N) 0 = 1 /\
  (N = 1%nat -> nth j (std_win "hamming" N) 0 = 1 /\ nth j (std_win "hann" N) 0 = 1 /\ nth j (std_win "blackman" N) 0 = 1) /\
  ((2 <= N)%nat ->
     nth j (std_win "hamming" N) 0 = 54 / 100 - 46 / 100 * cos (2 * PI * INR j / INR N) /\
     nth j (std_win "hann" N) 0 = (1 - cos (2 * PI * INR j / INR N)) / 2 /\
     nth j (std_win "blackman" N) 0 = 42 / 100 - cos (2 * PI * INR j / INR N) / 2 + 8 / 100 * cos (4 * PI * INR j / INR N)).
Proof. exact (@window_weights). Qed.
Print Assumptions C101_window_weights.

(** C101. every usual window has as many weights as samples, all between 0 and 1, reads the same forwards and backwards (periodically), and has positive sum and positive power *)
Theorem C101_window_facts :
  forall s N, usual_window s -> (1 <= N)%nat ->
  length (std_win s N) = N /\ (forall w, In w (std_win s N) -> 0 <= w <= 1) /\
  (forall j, (1 <= j < N)%nat -> nth (N - j) (std_win s N) 0 = nth j (std_win s N) 0) /\
  0 < Rsum (std_win s N) /\ 0 < power (std_win s N).
Proof. exact (@window_facts). Qed.
Print Assumptions C101_window_facts.

(** C101. with a usual window, any detrending scipy offers, 1 to n averages and an overlap below one, averaged_psd always succeeds; it gives n/navgs/2 + 1 values per column, in the order and under the names of the columns, none negative *)
Theorem C101_psd_always_works :
  forall dt n cols navgs overlap s d scaling, usual_window s -> (2 <= n)%nat -> 0 < dt -> (1 <= navgs <= n)%nat -> 0 <= overlap < 1 ->
  scaling = "density" \/ scaling = "spectrum" -> Forall (fun col => length (snd col) = n) cols -> cols <> [] ->
  exists f out, averaged_psd std_win std_dtr dt n (Frame cols) (Z.of_nat navgs) overlap s d scaling = Ok (f, out) /\
    length f = (n / navgs / 2 + 1)%nat /\ map fst out = map fst cols /\
    forall nm v, In (nm, v) out -> length v = length f /\ forall p, In p v -> 0 <= p.
Proof. exact (@psd_always_works). Qed.
Print Assumptions C101_psd_always_works.

(** C101. the same for averaged_tf with column counts it accepts: it always succeeds, and every coherence it reports is between 0 and 1 *)
Theorem C101_tf_always_works :
  forall dt n ins outs navgs overlap s d, usual_window s -> (2 <= n)%nat -> 0 < dt -> (1 <= navgs <= n)%nat -> 0 <= overlap < 1 ->
  Forall (fun col => length (snd col) = n) (ins ++ outs) -> matchable ins outs -> ins <> [] -> outs <> [] ->
  exists f out, averaged_tf std_win std_dtr dt n (Frame ins) (Frame outs) (Z.of_nat navgs) overlap s d = Ok (f, out) /\
    length f = (n / navgs / 2 + 1)%nat /\ length out = Nat.max (length ins) (length outs) /\
    forall nm tf coh, In (nm, (tf, coh)) out -> length tf = length f /\ length coh = length f /\ forall c, In (Some c) coh -> 0 <= c <= 1.
Proof. exact (@tf_always_works). Qed.
Print Assumptions C101_tf_always_works.

(** C101. the documented default call on a short record: hamming, linear, half overlap, two averages *)
Example C101_default_example :
  exists f out,
  averaged_psd std_win std_dtr 1 8 (Frame [("a", [0; 1; 0; -1; 0; 1; 0; -1]); ("b", [1; 2; 3; 4; 5; 6; 7; 8])]) 2 (1 / 2) "hamming" (Some "linear") "density" = Ok (f, out) /\
  length f = 3%nat /\ map fst out = ["a"; "b"].
Proof. exact (@default_example). Qed.

