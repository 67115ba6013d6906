(** Property theorems. The Marcos low-pass filter and cleanfreq (C59, C60).
    Proofs are in the X_ file of the same name. *)
From Verif Require Import Prelude PreludeFacts RealBase Fl RealStat Dft Phase M_spatial M_cmv M_signal_corr M_signal_tf M_signal_plant Spec_welch Spec_plant P_list P_dft P_welch P_signal P_parseval P_plant P_cam X_signal_interp P_filter X_signal_filter.
From Coquelicot Require Import Complex.
From Coq Require Import Lra Psatz Permutation.
Local Open Scope R_scope.
From Verif Require Import X_signal_marcos.

(** C59. The filter for a plant of s > 0 hectares: 1/(1 + i q) with q = f/fc, fc = 0.02/sqrt(s), on the given frequencies,
   or on 100 frequencies spread evenly over 0 .. 0.5. *)
Theorem C59_marcos_value :
  forall s freq, 0 < s ->
  let q f := f / (0.02 / sqrt s) in
  get_marcosfilter s (Some freq) = map (fun f => (f, Some (/ (1 + q f ^ 2), - q f / (1 + q f ^ 2)))) freq /\
  get_marcosfilter s None = get_marcosfilter s (Some (map (fun i => INR i / 99 * 0.5) (seq 0 100))).
Proof. exact (@marcos_value). Qed.
Print Assumptions C59_marcos_value.

(** C59. Zero size: no filtering; negative size: every value is missing. *)
Theorem C59_marcos_degenerate :
  forall s freq,
  get_marcosfilter 0 (Some freq) = map (fun f => (f, Some (RtoC 1))) freq /\
  (s < 0 -> get_marcosfilter s (Some freq) = map (fun f => (f, None)) freq).
Proof. exact (@marcos_degenerate). Qed.
Print Assumptions C59_marcos_degenerate.

(** C59. Magnitude 1/sqrt(1 + (f/fc)^2), so 1 at frequency 0, at most 1 everywhere, and half power at fc. *)
Theorem C59_marcos_magnitude :
  forall s f z, 0 < s -> get_marcosfilter s (Some [f]) = [(f, Some z)] ->
  let fc := 0.02 / sqrt s in
  Cmod z = 1 / sqrt (1 + (f / fc) ^ 2) /\ Cmod z <= 1 /\ (f = 0 -> z = RtoC 1) /\ (f = fc -> Cmod z ^ 2 = 1 / 2).
Proof. exact (@marcos_magnitude). Qed.
Print Assumptions C59_marcos_magnitude.

(** C59. It falls with frequency and with plant size, and the value at -f is the conjugate of that at f. *)
Theorem C59_marcos_monotone :
  forall s f z s' f' z', 0 < s -> 0 < s' ->
  get_marcosfilter s (Some [f]) = [(f, Some z)] -> get_marcosfilter s' (Some [f']) = [(f', Some z')] ->
  (Rabs f <= Rabs f' -> s <= s' -> Cmod z' <= Cmod z) /\
  (Rabs f < Rabs f' -> s <= s' -> Cmod z' < Cmod z) /\
  (f <> 0 -> Rabs f <= Rabs f' -> s < s' -> Cmod z' < Cmod z) /\
  (s' = s -> f' = - f -> z' = Cconj z).
Proof. exact (@marcos_monotone). Qed.
Print Assumptions C59_marcos_monotone.

(** C59. The default filter is one-sided, so applying it to a signal always fails. *)
Theorem C59_marcos_default_unusable :
  forall s dt sig filt, (2 <= length sig)%nat -> 0 < dt ->
  get_marcosfilter s None = map (fun r => (fst r, Some (snd r))) filt -> apply_filter dt sig filt = Err ValueError.
Proof. exact (@marcos_default_unusable). Qed.
Print Assumptions C59_marcos_default_unusable.

(** C60. cleanfreq returns nothing, keeps the length, the values and every label except the one at position n//2, which becomes missing. *)
Theorem C60_clean_effect :
  forall L V (sig : list (option L * V)), sig <> [] ->
  exists after, cleanfreq sig = Ok (tt, after) /\ length after = length sig /\ map snd after = map snd sig /\
    forall i, nth_error (map fst after) i = (if Nat.eqb i (length sig / 2) then Some None else nth_error (map fst sig) i).
Proof. exact (@clean_effect). Qed.
Print Assumptions C60_clean_effect.

(** C60. An empty object is an IndexError; a second call changes nothing more. *)
Theorem C60_clean_again :
  forall L V (sig after : list (option L * V)),
  (cleanfreq sig = Err IndexError <-> sig = []) /\ (cleanfreq sig = Ok (tt, after) -> cleanfreq after = Ok (tt, after)).
Proof. exact (@clean_again). Qed.
Print Assumptions C60_clean_again.

(** C60. Four bins: the first negative frequency loses its label. *)
Example C60_clean_example :
  cleanfreq [(Some 0, 10); (Some 1, 20); (Some (-2), 30); (Some (-1), 40)] =
  Ok (tt, [(Some 0, 10); (Some 1, 20); (None, 30); (Some (-1), 40)]).
Proof. exact (@clean_example). Qed.

(** C59. One hectare at 0.02 Hz. *)
Example C59_marcos_example :
  get_marcosfilter 1 (Some [0; 0.02]) = [(0, Some (RtoC 1)); (0.02, Some (1 / 2, - (1 / 2)))].
Proof. exact (@marcos_example). Qed.

