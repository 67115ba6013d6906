(** Property theorems. averaged_tf: pairing of columns (C48), transfer function and coherence (C49).
    Proofs are in the X_ file of the same name. *)
From Coq Require Import String.
From Verif Require Import Prelude PreludeFacts RealBase Fl RealStat Dft Phase Spec_welch M_cmv M_signal_corr M_signal_tf P_signal P_corr P_dft P_welch P_parseval P_tf X_signal_psd.
From Coq Require Import Lra Psatz.
From Coquelicot Require Import Complex.
Local Open Scope R_scope.
From Verif Require Import X_signal_tf.

(** C48. the result has one column per pair: column i of one table with column i of the other, a single column with every column of the other; it is named in_out, and holds at each frequency k/(N dt) the H1 estimate and the coherence of that pair *)
Theorem C48_tf_value :
  forall win dtr dt n ins outs navgs overlap window d N V K,
  windows win -> keeps_length dtr -> (2 <= n)%nat -> dt <> 0 -> welch_grid n navgs overlap N V -> segments_fit n N V K ->
  power (win window N) <> 0 -> Forall (fun col => length (snd col) = n) (ins ++ outs) ->
  matchable ins outs -> ins <> [] -> outs <> [] ->
  exists out, averaged_tf win dtr dt n (Frame ins) (Frame outs) (Z.of_nat navgs) overlap window d
      = Ok (map (fun k => INR k / (INR N * dt)) (seq 0 (N / 2 + 1)), out) /\
    length out = Nat.max (length ins) (length outs) /\
    forall i, (i < length out)%nat -> exists a x b y tf coh,
      partner ins i = Some (a, x) /\ partner outs i = Some (b, y) /\
      nth_error out i = Some ((a ++ "_" ++ b)%string, (tf, coh)) /\ length tf = (N / 2 + 1)%nat /\ length coh = (N / 2 + 1)%nat /\
      forall k, (k <= N / 2)%nat ->
        let X := fun s => seg_spectrum (win window N) (detrend_by dtr d) x N V s k in
        let Y := fun s => seg_spectrum (win window N) (detrend_by dtr d) y N V s k in
        nth k tf None = (if Req_EM_T (auto K X) 0 then None else Some (Cdiv (cross K X Y) (RtoC (auto K X)))) /\
        nth k coh None = (if Req_EM_T (auto K X * auto K Y) 0 then None else Some (Cmod (cross K X Y) ^ 2 / (auto K X * auto K Y))).
Proof. exact (@tf_value). Qed.
Print Assumptions C48_tf_value.

(** C48. a Series counts as the table holding only it; another output type is a ValueError, another input type is refused *)
Theorem C48_tf_series :
  forall win dtr dt n nm x s navgs overlap window d,
  averaged_tf win dtr dt n (Ser nm x) s navgs overlap window d = averaged_tf win dtr dt n (Frame [(nm, x)]) s navgs overlap window d /\
  (s <> Other -> averaged_tf win dtr dt n s (Ser nm x) navgs overlap window d = averaged_tf win dtr dt n s (Frame [(nm, x)]) navgs overlap window d) /\
  ((2 <= n)%nat -> dt <> 0 -> s <> Other -> averaged_tf win dtr dt n s Other navgs overlap window d = Err ValueError) /\
  (forall r, averaged_tf win dtr dt n Other s navgs overlap window d <> Ok r).
Proof. exact (@tf_series). Qed.
Print Assumptions C48_tf_series.

(** C48. any other combination of column counts is a ValueError *)
Theorem C48_tf_counts :
  forall win dtr dt n ins outs navgs overlap window d, (2 <= n)%nat -> dt <> 0 ->
  length ins <> length outs -> length ins <> 1%nat -> length outs <> 1%nat ->
  averaged_tf win dtr dt n (Frame ins) (Frame outs) navgs overlap window d = Err ValueError.
Proof. exact (@tf_counts). Qed.
Print Assumptions C48_tf_counts.

(** C48. compute_delays_tf rejects the same combinations, before looking at anything else *)
Theorem C48_delays_tf_counts :
  forall ls win dtr dt n ins outs navgs cl fl method overlap window xc,
  ins <> [] -> outs <> [] -> length ins <> length outs -> length ins <> 1%nat -> length outs <> 1%nat ->
  compute_delays_tf ls win dtr dt n ins outs navgs cl fl method overlap window xc = Err ValueError.
Proof. exact (@delays_tf_counts). Qed.
Print Assumptions C48_delays_tf_counts.

(** C48. the remaining errors: too few rows, no time step, no segments, no columns *)
Theorem C48_tf_errors :
  forall win dtr dt n ins outs navgs overlap window d,
  ((n < 2)%nat -> averaged_tf win dtr dt n (Frame ins) (Frame outs) navgs overlap window d = Err IndexError) /\
  ((2 <= n)%nat -> dt = 0 -> averaged_tf win dtr dt n (Frame ins) (Frame outs) navgs overlap window d = Err ZeroDivisionError) /\
  ((2 <= n)%nat -> dt <> 0 -> matchable ins outs -> ins <> [] -> outs <> [] -> navgs = 0%Z ->
     averaged_tf win dtr dt n (Frame ins) (Frame outs) navgs overlap window d = Err ZeroDivisionError) /\
  ((2 <= n)%nat -> dt <> 0 -> matchable ins outs -> ins <> [] -> outs <> [] ->
     ((navgs < 0 \/ Z.of_nat n < navgs)%Z \/ (0 < navgs)%Z /\ 1 <= overlap) ->
     averaged_tf win dtr dt n (Frame ins) (Frame outs) navgs overlap window d = Err ValueError) /\
  ((2 <= n)%nat -> dt <> 0 -> ins = [] \/ outs = [] -> navgs <> 0%Z ->
     averaged_tf win dtr dt n (Frame ins) (Frame outs) navgs overlap window d = Err ValueError).
Proof. exact (@tf_errors). Qed.
Print Assumptions C48_tf_errors.

(** C48. distinct input names and distinct output names do not make the result names distinct *)
Theorem C48_tf_names_refuted :
  ~ (forall win dtr dt n ins outs navgs overlap window d f out,
     NoDup (map fst ins) -> NoDup (map fst outs) ->
     averaged_tf win dtr dt n (Frame ins) (Frame outs) navgs overlap window d = Ok (f, out) -> NoDup (map fst out)).
Proof. exact (@tf_names_refuted). Qed.
Print Assumptions C48_tf_names_refuted.

(** C49. coherence lies between 0 and 1 wherever it is defined *)
Theorem C49_coherence_range :
  forall win dtr dt n x y navgs overlap window d N V k h c,
  windows win -> keeps_length dtr -> (2 <= n)%nat -> dt <> 0 -> welch_grid n navgs overlap N V ->
  power (win window N) <> 0 -> length x = n -> length y = n ->
  entry_at win dtr dt n x y navgs overlap window d k h (Some c) -> 0 <= c <= 1.
Proof. exact (@coherence_range). Qed.
Print Assumptions C49_coherence_range.

(** C49. with a single segment coherence is 1 wherever it is defined, however unrelated the signals *)
Theorem C49_coherence_single :
  forall win dtr dt n x y overlap window d N V k h c,
  windows win -> keeps_length dtr -> (2 <= n)%nat -> dt <> 0 -> welch_grid n 1 overlap N V ->
  power (win window N) <> 0 -> length x = n -> length y = n ->
  entry_at win dtr dt n x y 1 overlap window d k h (Some c) -> c = 1.
Proof. exact (@coherence_single). Qed.
Print Assumptions C49_coherence_single.

(** C49. the transfer function is the H1 estimate: among all complex gains it leaves the least mean squared residual over the segments, and that residual is the fraction 1 - coherence of the output spectrum *)
Theorem C49_tf_least_squares :
  forall win dtr dt n x y navgs overlap window d N V K k H c,
  windows win -> keeps_length dtr -> (2 <= n)%nat -> dt <> 0 -> welch_grid n navgs overlap N V -> segments_fit n N V K ->
  power (win window N) <> 0 -> length x = n -> length y = n ->
  entry_at win dtr dt n x y navgs overlap window d k (Some H) c ->
  let X := fun s => seg_spectrum (win window N) (detrend_by dtr d) x N V s k in
  let Y := fun s => seg_spectrum (win window N) (detrend_by dtr d) y N V s k in
  let miss := fun g => avg K (fun s => Cmod (Cminus (Y s) (Cmult g (X s))) ^ 2) in
  (forall g, g <> H -> miss H < miss g) /\
  (forall v, c = Some v -> miss H = (1 - v) * auto K Y).
Proof. exact (@tf_least_squares). Qed.
Print Assumptions C49_tf_least_squares.

(** C49. where the output spectra are one constant multiple of the input spectra, the transfer function is that multiple and coherence is 1 *)
Theorem C49_tf_recovers_gain :
  forall win dtr dt n x y navgs overlap window d N V K k h c g,
  windows win -> keeps_length dtr -> (2 <= n)%nat -> dt <> 0 -> welch_grid n navgs overlap N V -> segments_fit n N V K ->
  power (win window N) <> 0 -> length x = n -> length y = n ->
  entry_at win dtr dt n x y navgs overlap window d k h c ->
  (forall s, (s < K)%nat -> seg_spectrum (win window N) (detrend_by dtr d) y N V s k = Cmult g (seg_spectrum (win window N) (detrend_by dtr d) x N V s k)) ->
  (exists s, (s < K)%nat /\ seg_spectrum (win window N) (detrend_by dtr d) x N V s k <> RtoC 0) ->
  h = Some g /\ (g <> RtoC 0 -> c = Some 1) /\ (g = RtoC 0 -> c = None).
Proof. exact (@tf_recovers_gain). Qed.
Print Assumptions C49_tf_recovers_gain.

(** C49. in particular an output equal to g times the input gives the transfer function g (and coherence 1) wherever the input has energy; and an entry is missing exactly where the input has none *)
Theorem C49_tf_of_scaled :
  forall win dtr dt n x navgs overlap window d N V k h c g,
  windows win -> keeps_length dtr -> homogeneous dtr -> (2 <= n)%nat -> dt <> 0 -> welch_grid n navgs overlap N V ->
  power (win window N) <> 0 -> length x = n -> g <> 0 ->
  entry_at win dtr dt n x (map (Rmult g) x) navgs overlap window d k h c ->
  (h = None /\ c = None) \/ (h = Some (RtoC g) /\ c = Some 1).
Proof. exact (@tf_of_scaled). Qed.
Print Assumptions C49_tf_of_scaled.

(** C49. every frequency bin of every admissible call has such an entry *)
Theorem C49_tf_entry_exists :
  forall win dtr dt n x y navgs overlap window d N V k,
  windows win -> keeps_length dtr -> (2 <= n)%nat -> dt <> 0 -> welch_grid n navgs overlap N V ->
  power (win window N) <> 0 -> length x = n -> length y = n -> (k <= N / 2)%nat ->
  exists h c, entry_at win dtr dt n x y navgs overlap window d k h c.
Proof. exact (@tf_entry_exists). Qed.
Print Assumptions C49_tf_entry_exists.

(** C49. two segments whose output changes sign: transfer function and coherence are both 0 at frequency zero *)
Example C49_coherence_example :
  entry_at box_win no_dtr 1 4 [1; 0; 1; 0] [1; 0; -1; 0] 2 0 "boxcar" None 0 (Some (RtoC 0)) (Some 0).
Proof. exact (@coherence_example). Qed.

