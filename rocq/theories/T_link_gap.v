(** Property theorems. Gaps in the records given to compute_cmv with its spectral delay estimator (C94).
    Proofs are in the X_ file of the same name. *)
From Coq Require Import String.
From Verif Require Import Prelude PreludeFacts RealBase Fl RealStat Dft Phase Spec_welch Spec_tfdelay M_spatial M_cmv M_signal_corr M_signal_tf M_link P_list P_dft P_tf P_tfdelay P_welch X_signal_psd X_signal_tf X_signal_tfdelay X_signal_tfx X_field_delays X_signal_wave Spec_cmv Spec_spatial X_link_delay X_link_good Spec_gap P_gap X_predict.
From Verif Require M_cmv M_signal_corr.
From Coq Require Import Lra Psatz.
Local Open Scope string_scope.
Local Open Scope R_scope.
From Verif Require Import X_link_gap.

(** C94. Gaps and the spectral backend: each pair's delay and coherence are what compute_delays_tf gives for that pair alone, samples in rows that no segment
    reads (five averages, half overlap) may be missing or hold anything, and a gap in a row that is read makes the delay NaN and the coherence 0. *)
Theorem C94_tf_backend_gaps :
  forall ls win dtr dt n A B d, solver ls -> length A = length B -> samples n A -> samples n B ->
  tf_backend ls win dtr dt n A B = Ok d -> exists cs, d_coh d = Some cs /\
  forall i a b, nth_error A i = Some a -> nth_error B i = Some b -> exists dl c, nth_error (M_cmv.d_delay d) i = Some dl /\ nth_error cs i = Some c /\
    (forall x y, same_where_read n 5 (1 / 2) a x -> same_where_read n 5 (1 / 2) b y -> exists d' c' ex,
       compute_delays_tf ls win dtr dt n [("", x)] [("", y)] 5 (Some (6 / 10)) (Some (2 / 100)) "multi" (1 / 2) "hamming" false = Ok ([d'], ex) /\ te_coh ex = [c'] /\
       dl = of_option d' /\ c = of_option c') /\
    (gap_read n 5 (1 / 2) a \/ gap_read n 5 (1 / 2) b -> dl = Nan /\ c = Fin 0).
Proof. exact (@tf_backend_gaps). Qed.
Print Assumptions C94_tf_backend_gaps.

(** C94. 21 rows in segments of four, half overlapping: the last row is not read. *)
Example C94_tf_gaps_example :
  samples 21 [late_gap; early_gap] /\ (forall z, same_where_read 21 5 (1 / 2) late_gap (ramp20 ++ [z])%list) /\
  gap_read 21 5 (1 / 2) early_gap /\ ~ gap_read 21 5 (1 / 2) late_gap.
Proof. exact (@tf_gaps_example). Qed.

