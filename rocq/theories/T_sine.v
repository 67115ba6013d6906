(** Property theorems. A sinusoid with a whole number of cycles per segment: what averaged_psd reads (C102).
    Proofs are in the X_ file of the same name. *)
From Coq Require Import String.
From Verif Require Import Prelude PreludeFacts RealBase Fl RealStat Dft Phase Spec_welch Spec_window M_cmv M_signal_corr M_signal_tf M_window P_signal P_corr P_dft P_welch P_parseval P_tf P_window X_signal_psd X_signal_tf X_window.
From Coq Require Import Lra Psatz.
From Coquelicot Require Import Complex.
Local Open Scope string_scope.
Local Open Scope R_scope.
From Verif Require Import X_sine.

(** C102. a sinusoid of amplitude A making k0 whole cycles per segment reads A^2/2 in its own bin under 'spectrum', at frequency k0/(N dt), and exactly zero in every bin further away than the window reaches - whatever its phase, the overlap and the number of averages, without detrending or with 'constant' *)
Theorem C102_sine_reading :
  forall dt n navgs overlap s d N V A p k0 nm f v, usual_window s -> d = None \/ d = Some "constant" -> (2 <= n)%nat -> dt <> 0 ->
  welch_grid n navgs overlap N V -> (reach s < 2 * k0)%nat -> (2 * k0 + reach s < N)%nat ->
  averaged_psd std_win std_dtr dt n (Frame [(nm, sinusoid A p k0 N n)]) (Z.of_nat navgs) overlap s d "spectrum" = Ok (f, [(nm, v)]) ->
  nth k0 f 0 = INR k0 / (INR N * dt) /\ nth k0 v 0 = A ^ 2 / 2 /\
  forall k, (k <= N / 2)%nat -> (reach s < k - k0 \/ reach s < k0 - k)%nat -> (reach s < k + k0)%nat -> (k + k0 + reach s < N)%nat -> nth k v 0 = 0.
Proof. exact (@sine_reading). Qed.
Print Assumptions C102_sine_reading.

(** C102. under 'density' the same bin reads A^2/2 divided by the window's equivalent noise bandwidth (power / (dt sum^2)) *)
Theorem C102_sine_density :
  forall dt n navgs overlap s d N V A p k0 nm f v, usual_window s -> d = None \/ d = Some "constant" -> (2 <= n)%nat -> dt <> 0 ->
  welch_grid n navgs overlap N V -> (reach s < 2 * k0)%nat -> (2 * k0 + reach s < N)%nat ->
  averaged_psd std_win std_dtr dt n (Frame [(nm, sinusoid A p k0 N n)]) (Z.of_nat navgs) overlap s d "density" = Ok (f, [(nm, v)]) ->
  nth k0 v 0 = A ^ 2 / 2 / (power (std_win s N) / (dt * Rsum (std_win s N) ^ 2)).
Proof. exact (@sine_density). Qed.
Print Assumptions C102_sine_density.

(** C102. amplitude 3, two cycles in each 8-sample Hamming segment of a 16-sample record *)
Example C102_sine_example :
  forall p, exists f v,
  averaged_psd std_win std_dtr 1 16 (Frame [("a", sinusoid 3 p 2 8 16)]) 2 (1 / 2) "hamming" (Some "constant") "spectrum" = Ok (f, [("a", v)]) /\
  nth 2 f 0 = 1 / 4 /\ nth 2 v 0 = 9 / 2 /\ nth 4 v 0 = 0.
Proof. exact (@sine_example). Qed.

