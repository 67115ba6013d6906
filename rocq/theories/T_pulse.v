(** Property theorems. One pulse per segment length, any window with positive weights (such as the default Hamming window): the delay is still recovered exactly (C98).
    Proofs are in the X_ file of the same name. *)
From Coq Require Import String.
From Verif Require Import Prelude PreludeFacts RealBase Fl RealStat Dft Phase Spec_welch Spec_tfdelay Spec_window M_cmv M_signal_corr M_signal_tf M_window M_field_delays P_signal P_corr P_dft P_phase P_list P_welch P_tf P_tfdelay P_window X_signal_psd X_signal_tf X_signal_tfdelay X_signal_tfx X_field_delays X_signal_wave X_window.
From Coq Require Import Lra Psatz.
From Coquelicot Require Import Complex.
Local Open Scope string_scope.
Local Open Scope R_scope.
From Verif Require Import X_pulse.

(** C98. A train of one pulse per segment length and its copy arriving m samples later with gain g, under any window with positive weights and any
    overlap: at every frequency the transfer function is the pure delay m dt times a positive number (for g > 0), and coherence is the same
    number at all frequencies, given by the weights with which the segments see the pulses. *)
Theorem C98_pulse_tf :
  forall win dtr dt n A m g a b navgs overlap window N V K,
  windows win -> keeps_length dtr -> (forall v, In v (win window N) -> 0 < v) -> (2 <= n)%nat -> dt <> 0 -> g <> 0 -> A <> 0 ->
  welch_grid n navgs overlap N V -> segments_fit n N V K ->
  exists tf coh,
    averaged_tf win dtr dt n (Frame [(a, arriving (train A N) n 0 1)]) (Frame [(b, arriving (train A N) n m g)]) (Z.of_nat navgs) overlap window None
      = Ok (map (fun k => INR k / (INR N * dt)) (seq 0 (N / 2 + 1)), [((a ++ "_" ++ b)%string, (tf, coh))]) /\
    length tf = (N / 2 + 1)%nat /\ length coh = (N / 2 + 1)%nat /\
    exists r, 0 < r /\ forall k, (k <= N / 2)%nat ->
      nth k tf None = Some (Cmult (RtoC (g * r)) (cis (- (2 * PI * (INR k / (INR N * dt)) * (IZR m * dt))))) /\
      nth k coh None = Some (pulse_coherence (win window N) N V K m).
Proof. exact (@pulse_tf). Qed.
Print Assumptions C98_pulse_tf.

(** C98. What tf_delay needs of a transfer function, wherever it comes from: if at every frequency looked at it is a positive number times the pure
    delay m dt, with a coherence above the limit, all three methods return m dt exactly. *)
Theorem C98_pure_delay_found :
  forall ls dt N m' (tf : list (option C)) (coh : list (option R)) cl fl method,
  solver ls -> 0 < dt -> (2 <= N)%nat -> length tf = (N / 2 + 1)%nat -> length coh = (N / 2 + 1)%nat -> (2 * Z.abs m' < Z.of_nat N)%Z ->
  admits fl (1 / (INR N * dt)) -> In method ["multi"; "fit"; "diff"] ->
  (forall k, (k <= N / 2)%nat -> method = "diff" \/ admits fl (INR k / (INR N * dt)) ->
     exists r c, 0 < r /\ nth k tf None = Some (Cmult (RtoC r) (cis (- (2 * PI * (INR k / (INR N * dt)) * (IZR m' * dt))))) /\ nth k coh None = Some c /\ asks_less cl c) ->
  exists ix, tf_delay ls (map (fun k => INR k / (INR N * dt)) (seq 0 (N / 2 + 1))) [(tf, coh)] cl fl method = Ok ([Some (IZR m' * dt)], ix).
Proof. exact (@pure_delay_found). Qed.
Print Assumptions C98_pure_delay_found.

(** C98. Hence for a train of pulses the delay is exact under the default Hamming window and any overlap as well, if the coherence limit lies below
    the coherence of the pulses. *)
Theorem C98_pulse_delay :
  forall ls win dtr dt n A m m' q g a b navgs overlap window N V K cl fl method tfs,
  solver ls -> windows win -> keeps_length dtr -> (forall v, In v (win window N) -> 0 < v) -> (2 <= n)%nat -> 0 < dt -> 0 < g -> A <> 0 -> (2 <= N)%nat ->
  welch_grid n navgs overlap N V -> segments_fit n N V K -> m = (m' + q * Z.of_nat N)%Z -> (2 * Z.abs m' < Z.of_nat N)%Z ->
  asks_less cl (pulse_coherence (win window N) N V K m') -> admits fl (1 / (INR N * dt)) ->
  In method ["multi"; "fit"; "diff"] ->
  averaged_tf win dtr dt n (Frame [(a, arriving (train A N) n 0 1)]) (Frame [(b, arriving (train A N) n m g)]) (Z.of_nat navgs) overlap window None = Ok tfs ->
  exists ix, tf_delay ls (fst tfs) (map snd (snd tfs)) cl fl method = Ok ([Some (IZR m' * dt)], ix).
Proof. exact (@pulse_delay). Qed.
Print Assumptions C98_pulse_delay.

(** C98. The coherence of the pulses is positive and at most 1, and is 1 for segments without overlap. *)
Theorem C98_pulse_coherence_range :
  forall w N V K m, length w = N -> (1 <= N)%nat -> (1 <= K)%nat -> (forall v, In v w -> 0 < v) ->
  0 < pulse_coherence w N V K m <= 1 /\ (V = 0%nat -> pulse_coherence w N V K m = 1).
Proof. exact (@pulse_coherence_range). Qed.
Print Assumptions C98_pulse_coherence_range.

(** C98. The library's default processing (Hamming window, half-overlapping segments): a pulse every four samples and a copy one sample later at
    three times the height. The pulses have coherence 841/1899, so with a limit of 2/5 each method returns exactly one sample. *)
Example C98_pulse_example :
  exists ls, solver ls /\ welch_grid 8 2 (1 / 2) 4 2 /\ segments_fit 8 4 2 3 /\ (forall v, In v (std_win "hamming" 4) -> 0 < v) /\
  pulse_coherence (std_win "hamming" 4) 4 2 3 1 = 841 / 1899 /\
  forall method, In method ["multi"; "fit"; "diff"] -> exists tfs ix,
    averaged_tf std_win std_dtr 1 8 (Frame [("a", arriving (train 1 4) 8 0 1)]) (Frame [("b", arriving (train 1 4) 8 1 3)]) 2 (1 / 2) "hamming" None = Ok tfs /\
    tf_delay ls (fst tfs) (map snd (snd tfs)) (Some (2 / 5)) (Some (1 / 2)) method = Ok ([Some 1], ix).
Proof. exact (@pulse_example). Qed.

