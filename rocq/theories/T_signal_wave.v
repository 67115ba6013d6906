(** Property theorems. A periodic signal and its delayed, amplified copy: averaged_tf gives the pure delay and tf_delay recovers it (C98).
    Proofs are in the X_ file of the same name. *)
From Coq Require Import String.
From Verif Require Import Prelude PreludeFacts RealBase Fl RealStat Dft Phase Spec_welch Spec_tfdelay M_cmv M_signal_corr M_signal_tf M_field_delays P_signal P_corr P_dft P_phase P_list P_welch P_tf P_tfdelay X_signal_psd X_signal_tf X_signal_tfdelay X_signal_tfx X_field_delays.
From Coq Require Import Lra Psatz.
From Coquelicot Require Import Complex.
Local Open Scope string_scope.
Local Open Scope R_scope.
From Verif Require Import X_signal_wave.

(** C98. A periodic signal and its copy arriving m samples later with gain g, segments being whole periods, rectangular window, no
    detrending: at every frequency at which the signal has energy the transfer function is g times the pure delay m dt and
    coherence is 1; elsewhere both are missing. *)
Theorem C98_wave_tf :
  forall win dtr dt n f m g a b navgs overlap window N V,
  windows win -> keeps_length dtr -> flat (win window N) -> (2 <= n)%nat -> dt <> 0 -> g <> 0 ->
  welch_grid n navgs overlap N V -> periodic f N ->
  exists tf coh,
    averaged_tf win dtr dt n (Frame [(a, arriving f n 0 1)]) (Frame [(b, arriving f n m g)]) (Z.of_nat navgs) overlap window None
      = Ok (map (fun k => INR k / (INR N * dt)) (seq 0 (N / 2 + 1)), [((a ++ "_" ++ b)%string, (tf, coh))]) /\
    length tf = (N / 2 + 1)%nat /\ length coh = (N / 2 + 1)%nat /\
    forall k, (k <= N / 2)%nat ->
      (energetic f N k -> nth k tf None = Some (Cmult (RtoC g) (cis (- (2 * PI * (INR k / (INR N * dt)) * (IZR m * dt))))) /\ nth k coh None = Some 1) /\
      (~ energetic f N k -> nth k tf None = None /\ nth k coh None = None).
Proof. exact (@wave_tf). Qed.
Print Assumptions C98_wave_tf.

(** C98. Consequently each method of tf_delay, applied to the result of averaged_tf, returns the delay m dt exactly (for m taken in
    the half-open period around zero), whatever the positive gain, provided the signal has energy at all frequencies looked at
    ('diff' looks at all, 'multi' and 'fit' at those below the limit), the limit admits the first non-zero frequency and the
    coherence limit is below 1. *)
Theorem C98_wave_delay :
  forall ls win dtr dt n f m m' q g a b navgs overlap window N V cl fl method tfs,
  solver ls -> windows win -> keeps_length dtr -> flat (win window N) -> (2 <= n)%nat -> 0 < dt -> 0 < g -> (2 <= N)%nat ->
  welch_grid n navgs overlap N V -> periodic f N -> m = (m' + q * Z.of_nat N)%Z -> (2 * Z.abs m' < Z.of_nat N)%Z ->
  asks_less cl 1 -> admits fl (1 / (INR N * dt)) ->
  In method ["multi"; "fit"; "diff"] ->
  (forall k, (k <= N / 2)%nat -> method = "diff" \/ admits fl (INR k / (INR N * dt)) -> energetic f N k) ->
  averaged_tf win dtr dt n (Frame [(a, arriving f n 0 1)]) (Frame [(b, arriving f n m g)]) (Z.of_nat navgs) overlap window None = Ok tfs ->
  exists ix, tf_delay ls (fst tfs) (map snd (snd tfs)) cl fl method = Ok ([Some (IZR m' * dt)], ix).
Proof. exact (@wave_delay). Qed.
Print Assumptions C98_wave_delay.

(** C98. The same for compute_delays_tf on a whole table (methods 'multi' and 'fit', rectangular window): when each column is the periodic
    reference signal arriving m samples later with its own positive gain, the delays are exactly those, and every mean
    coherence is 1. *)
Theorem C98_wave_table :
  forall ls win dtr dt n f a navgs overlap window N V cl lim method (cols : list (string * (Z * Z * R))),
  solver ls -> windows win -> keeps_length dtr -> flat (win window N) -> (2 <= n)%nat -> 0 < dt -> (2 <= N)%nat ->
  welch_grid n navgs overlap N V -> periodic f N -> asks_less cl 1 -> 1 / (INR N * dt) < lim -> method = "fit" \/ method = "multi" ->
  (forall k, (k <= N / 2)%nat -> INR k / (INR N * dt) < lim -> energetic f N k) ->
  cols <> [] -> NoDup (map fst cols) ->
  (forall nm m q g, In (nm, (m, q, g)) cols -> 0 < g /\ (2 * Z.abs m < Z.of_nat N)%Z) ->
  exists ex,
    compute_delays_tf ls win dtr dt n [(a, arriving f n 0 1)] (map (fun c => let '(nm, (m, q, g)) := c in (nm, arriving f n (m + q * Z.of_nat N) g)) cols)
      (Z.of_nat navgs) cl (Some lim) method overlap window false
    = Ok (map (fun c => let '(nm, (m, q, g)) := c in Some (IZR m * dt)) cols, ex) /\
    te_coh ex = map (fun _ => Some 1) cols.
Proof. exact (@wave_table). Qed.
Print Assumptions C98_wave_table.

(** C98. A train of pulses, repeated five samples later at twice the height: every method reports a delay of one sample, which is five up to
    a period. *)
Example C98_wave_example :
  exists ls, solver ls /\ periodic pulse 4 /\ (forall k, energetic pulse 4 k) /\ welch_grid 8 2 0 4 0 /\ flat (box_win "boxcar" 4) /\
  arriving pulse 8 5 2 = [0; 2; 0; 0; 0; 2; 0; 0] /\
  forall method, In method ["multi"; "fit"; "diff"] -> exists tfs ix,
    averaged_tf box_win no_dtr 1 8 (Frame [("a", arriving pulse 8 0 1)]) (Frame [("b", arriving pulse 8 5 2)]) 2 0 "boxcar" None = Ok tfs /\
    tf_delay ls (fst tfs) (map snd (snd tfs)) (Some (1 / 2)) (Some (1 / 2)) method = Ok ([Some 1], ix).
Proof. exact (@wave_example). Qed.

(** C98. Three columns of pulses: on time, five samples late and one sample early. *)
Example C98_wave_table_example :
  forall ls, solver ls -> exists ex,
  compute_delays_tf ls box_win no_dtr 1 8 [("a", arriving pulse 8 0 1)]
    [("a", arriving pulse 8 0 1); ("b", arriving pulse 8 5 2); ("c", arriving pulse 8 (-1) 3)] 2 (Some (6 / 10)) (Some (1 / 2)) "multi" 0 "boxcar" false
  = Ok ([Some (0 * 1); Some (1 * 1); Some (-1 * 1)], ex) /\ te_coh ex = [Some 1; Some 1; Some 1].
Proof. exact (@wave_table_example). Qed.

