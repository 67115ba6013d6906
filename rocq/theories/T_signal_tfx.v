(** Property theorems. compute_delays_tf: composition, mean coherence and correlation metrics (C52, C53).
    Proofs are in the X_ file of the same name. *)
From Coq Require Import String.
From Verif Require Import Prelude PreludeFacts RealBase Fl RealStat Dft Phase Spec_signal Spec_welch Spec_tfdelay M_cmv M_signal_corr M_signal_tf P_signal P_corr P_delay P_dft P_welch P_tf P_phase P_list P_tfdelay P_tfx X_signal_corr X_signal_psd X_signal_tf X_signal_tfdelay.
From Coq Require Import Lra Psatz.
From Coquelicot Require Import Complex Rcomplements.
Local Open Scope string_scope.
Local Open Scope R_scope.
From Verif Require Import X_signal_tfx.

(** C52. compute_delays_tf with method 'multi' is averaged_tf (without detrending) followed by one tf_delay of all columns;
    with 'fit' and distinct column names it is one tf_delay per column. *)
Theorem C52_delays_tf_multi :
  forall ls win dtr dt n ins outs navgs cl lim overlap window xc freqs tfs,
  matchable ins outs -> averaged_tf win dtr dt n (Frame ins) (Frame outs) navgs overlap window None = Ok (freqs, tfs) ->
  forall delay ex, compute_delays_tf ls win dtr dt n ins outs navgs cl (Some lim) "multi" overlap window xc = Ok (delay, ex) ->
  tf_delay ls freqs (map snd tfs) cl (Some lim) "multi" = Ok (delay, te_ix ex).
Proof. exact (@delays_tf_multi). Qed.
Print Assumptions C52_delays_tf_multi.

Theorem C52_delays_tf_fit :
  forall ls win dtr dt n ins outs navgs cl lim overlap window xc freqs tfs,
  matchable ins outs -> averaged_tf win dtr dt n (Frame ins) (Frame outs) navgs overlap window None = Ok (freqs, tfs) -> NoDup (map fst tfs) ->
  forall delay ex, compute_delays_tf ls win dtr dt n ins outs navgs cl (Some lim) "fit" overlap window xc = Ok (delay, ex) ->
  length delay = length tfs /\ length (te_ix ex) = length tfs /\
  forall i nm col, nth_error tfs i = Some (nm, col) -> exists d m, nth_error delay i = Some d /\ nth_error (te_ix ex) i = Some m /\
    tf_delay ls freqs [col] cl (Some lim) "fit" = Ok ([d], [m]).
Proof. exact (@delays_tf_fit). Qed.
Print Assumptions C52_delays_tf_fit.

(** C52. with 'fit', two result columns of the same name make the call fail (ValueError, or IndexError with a single
    frequency), although averaged_tf itself succeeds. *)
Theorem C52_delays_tf_collision :
  forall ls win dtr dt n ins outs navgs cl fl overlap window xc freqs tfs,
  matchable ins outs -> averaged_tf win dtr dt n (Frame ins) (Frame outs) navgs overlap window None = Ok (freqs, tfs) -> ~ NoDup (map fst tfs) ->
  compute_delays_tf ls win dtr dt n ins outs navgs cl fl "fit" overlap window xc = Err (if Nat.eqb (length freqs) 1 then IndexError else ValueError).
Proof. exact (@delays_tf_collision). Qed.
Print Assumptions C52_delays_tf_collision.

(** C52. freq_limit = None is refused: after a successful delay computation with a TypeError; an unknown method is a
    ValueError; an error of averaged_tf is passed on. *)
Theorem C52_delays_tf_refused :
  forall ls win dtr dt n ins outs navgs cl overlap window xc, matchable ins outs ->
  (forall method r, compute_delays_tf ls win dtr dt n ins outs navgs cl None method overlap window xc <> Ok r) /\
  (forall freqs tfs, ins <> [] -> outs <> [] -> averaged_tf win dtr dt n (Frame ins) (Frame outs) navgs overlap window None = Ok (freqs, tfs) ->
     tfs <> [] -> compute_delays_tf ls win dtr dt n ins outs navgs cl None "multi" overlap window xc = Err TypeError) /\
  (forall freqs tfs method fl, averaged_tf win dtr dt n (Frame ins) (Frame outs) navgs overlap window None = Ok (freqs, tfs) ->
     method <> "fit" -> method <> "multi" -> compute_delays_tf ls win dtr dt n ins outs navgs cl fl method overlap window xc = Err ValueError) /\
  (forall e method fl, averaged_tf win dtr dt n (Frame ins) (Frame outs) navgs overlap window None = Err e ->
     compute_delays_tf ls win dtr dt n ins outs navgs cl fl method overlap window xc = Err e).
Proof. exact (@delays_tf_refused). Qed.
Print Assumptions C52_delays_tf_refused.

(** C52. mean_coh of each pair is the average coherence over all bins below freq_limit, a missing coherence counting 0;
    it is NaN exactly when there is no such bin. *)
Theorem C52_mean_coh_value :
  forall ls win dtr dt n ins outs navgs cl lim method overlap window xc freqs tfs delay ex,
  matchable ins outs -> averaged_tf win dtr dt n (Frame ins) (Frame outs) navgs overlap window None = Ok (freqs, tfs) ->
  compute_delays_tf ls win dtr dt n ins outs navgs cl (Some lim) method overlap window xc = Ok (delay, ex) ->
  length (te_coh ex) = length tfs /\
  forall i nm tf coh, nth_error tfs i = Some (nm, (tf, coh)) -> nth_error (te_coh ex) i = Some (average_coherence lim (bins_of freqs tf coh)).
Proof. exact (@mean_coh_value). Qed.
Print Assumptions C52_mean_coh_value.

(** C52. so mean_coh lies in [0,1] whenever defined *)
Theorem C52_mean_coh_range :
  forall ls win dtr dt n ins outs navgs cl lim method overlap window xc N V delay ex i v,
  windows win -> keeps_length dtr -> (2 <= n)%nat -> dt <> 0 -> welch_grid n navgs overlap N V ->
  power (win window N) <> 0 -> Forall (fun col => length (snd col) = n) (ins ++ outs) -> matchable ins outs -> ins <> [] -> outs <> [] ->
  compute_delays_tf ls win dtr dt n ins outs (Z.of_nat navgs) cl (Some lim) method overlap window xc = Ok (delay, ex) ->
  nth_error (te_coh ex) i = Some (Some v) -> 0 <= v <= 1.
Proof. exact (@mean_coh_range). Qed.
Print Assumptions C52_mean_coh_range.

(** C52. mean_coh and the correlation at zero lag and on average do not depend on coh_limit, method or solver *)
Theorem C52_extras_independent :
  forall ls ls' win dtr dt n ins outs navgs cl cl' lim method method' overlap window xc delay ex delay' ex',
  compute_delays_tf ls win dtr dt n ins outs navgs cl (Some lim) method overlap window xc = Ok (delay, ex) ->
  compute_delays_tf ls' win dtr dt n ins outs navgs cl' (Some lim) method' overlap window xc = Ok (delay', ex') ->
  te_coh ex = te_coh ex' /\
  (xc = true -> exists pk pk' mn zr, te_xcorr ex = Some (pk, mn, zr) /\ te_xcorr ex' = Some (pk', mn, zr)) /\
  (xc = false -> te_xcorr ex = None).
Proof. exact (@extras_independent). Qed.
Print Assumptions C52_extras_independent.

(** C53. with compute_xcorr, for every pair of non-constant signals: zero_corr is Pearson's coefficient, mean_corr is
    always 0, and peak_corr is the normalised cross-correlation at minus the estimated delay: the curve's value at a
    whole lag, the straight line between the two neighbouring lags elsewhere, NaN for a missing delay and for
    delays beyond the record. *)
Theorem C53_xcorr_value :
  forall ls win dtr dt n ins outs navgs cl lim method overlap window delay ex i a x b y,
  compute_delays_tf ls win dtr dt n ins outs navgs cl (Some lim) method overlap window true = Ok (delay, ex) ->
  0 < dt -> partner ins i = Some (a, x) -> partner outs i = Some (b, y) -> (i < Nat.max (length ins) (length outs))%nat ->
  length x = n -> length y = n -> ~ constant x -> ~ constant y ->
  exists pk, metrics_of ex i pk (Fin 0) (Fin (pearson x y)) /\
  (nth i delay None = None -> pk = Nan) /\
  forall d, nth i delay None = Some d ->
    (INR (n - 1) * dt < Rabs d -> pk = Nan) /\
    (forall L, lag_of n n L -> - d = IZR L * dt -> pk = Fin (ncc x y L)) /\
    (forall L, lag_of n n L -> lag_of n n (L + 1) -> IZR L * dt <= - d <= IZR (L + 1) * dt ->
       pk = Fin (ncc x y L + (ncc x y (L + 1) - ncc x y L) * (- d / dt - IZR L))).
Proof. exact (@xcorr_value). Qed.
Print Assumptions C53_xcorr_value.

(** C53. so a finite peak_corr lies between the two neighbouring values of the curve, in [-1,1], and never above the
    curve's maximum; every delay within the record gives a finite one. *)
Theorem C53_xcorr_bounded :
  forall ls win dtr dt n ins outs navgs cl lim method overlap window delay ex i a x b y d,
  compute_delays_tf ls win dtr dt n ins outs navgs cl (Some lim) method overlap window true = Ok (delay, ex) ->
  0 < dt -> partner ins i = Some (a, x) -> partner outs i = Some (b, y) -> (i < Nat.max (length ins) (length outs))%nat ->
  length x = n -> length y = n -> ~ constant x -> ~ constant y ->
  nth i delay None = Some d -> Rabs d <= INR (n - 1) * dt ->
  exists pk mn zr, metrics_of ex i (Fin pk) mn zr /\ -1 <= pk <= 1 /\
    exists L L', lag_of n n L /\ lag_of n n L' /\ ncc x y L <= pk <= ncc x y L' /\ (Rabs (IZR L * dt + d) <= dt /\ Rabs (IZR L' * dt + d) <= dt).
Proof. exact (@xcorr_bounded). Qed.
Print Assumptions C53_xcorr_bounded.

(** C53. a constant signal makes all three metrics NaN *)
Theorem C53_xcorr_constant :
  forall ls win dtr dt n ins outs navgs cl lim method overlap window delay ex i a x b y,
  compute_delays_tf ls win dtr dt n ins outs navgs cl (Some lim) method overlap window true = Ok (delay, ex) ->
  dt <> 0 -> partner ins i = Some (a, x) -> partner outs i = Some (b, y) -> (i < Nat.max (length ins) (length outs))%nat ->
  length x = n -> length y = n -> (0 < n)%nat -> constant x \/ constant y -> metrics_of ex i Nan Nan Nan.
Proof. exact (@xcorr_constant). Qed.
Print Assumptions C53_xcorr_constant.

(** C53. two shifted pulses (the estimated delay is left open): the call succeeds and the metrics are those of the theorem *)
Example C53_xcorr_example :
  forall ls delay ex,
  compute_delays_tf ls box_win no_dtr 1 4 [("a", [0; 1; 0; 0])] [("b", [0; 0; 1; 0])] 2 None (Some 1) "multi" 0 "boxcar" true = Ok (delay, ex) ->
  exists pk, metrics_of ex 0 pk (Fin 0) (Fin (- (1 / 3))) /\ ~ constant [0; 1; 0; 0] /\ ~ constant [0; 0; 1; 0].
Proof. exact (@xcorr_example). Qed.

