(** Property theorems. Cross-correlation: values, lags, scalings (C41-C43).
    Proofs are in the X_ file of the same name. *)
From Coq Require Import String.
From Verif Require Import Prelude RealBase Fl RealStat Spec_signal M_cmv M_signal_corr P_signal P_corr.
From Coq Require Import Lra Psatz.
Local Open Scope R_scope.
From Verif Require Import X_signal_corr.

(** C41. the full lag axis in increasing order, one value per lag, for every accepted scaling *)
Theorem C41_corr_axis :
  forall a b s r, a <> [] -> b <> [] -> correlation a b s = Ok r ->
  length (snd r) = (length a + length b - 1)%nat /\ length (fst r) = length (snd r) /\
  forall k, (k < length (snd r))%nat ->
    nth_error (snd r) k = Some (Z.of_nat k - (Z.of_nat (length b) - 1))%Z.
Proof. exact (@corr_axis). Qed.
Print Assumptions C41_corr_axis.

(** C41. unscaled: the value at lag L is the overlap sum, at every lag -(len b - 1) .. len a - 1 and at no other *)
Theorem C41_corr_none :
  forall a b s, a <> [] -> b <> [] -> lower s = "none"%string ->
  exists r, correlation a b s = Ok r /\
    forall L v, at_lag r L v <-> lag_of (length a) (length b) L /\ v = Fin (lag_sum a b L).
Proof. exact (@corr_none). Qed.
Print Assumptions C41_corr_none.

(** C41. swapping the signals reverses the lag axis and the values *)
Theorem C41_corr_swap :
  forall a b s r r', a <> [] -> b <> [] -> lower s = "none"%string ->
  correlation a b s = Ok r -> correlation b a s = Ok r' ->
  fst r' = rev (fst r) /\ (forall L v, at_lag r' L v <-> at_lag r (- L) v).
Proof. exact (@corr_swap). Qed.
Print Assumptions C41_corr_swap.

(** C42. scaling names: case does not matter, the five names succeed, every other name is a ValueError *)
Theorem C42_corr_names :
  forall a b s, a <> [] -> b <> [] ->
  correlation a b s = correlation a b (lower s) /\
  (known_scaling (lower s) -> exists r, correlation a b s = Ok r) /\
  (~ known_scaling (lower s) -> correlation a b s = Err ValueError).
Proof. exact (@corr_names). Qed.
Print Assumptions C42_corr_names.

(** C42. 'coeff' of equally long non-constant signals: the normalised overlap of the deviations from the mean *)
Theorem C42_corr_coeff :
  forall a b s, length b = length a -> ~ constant a -> ~ constant b -> lower s = "coeff"%string ->
  exists r, correlation a b s = Ok r /\
    forall L v, at_lag r L v <-> lag_of (length a) (length b) L /\
      v = Fin (lag_sum (centred a) (centred b) L / (sqrt (energy (centred a)) * sqrt (energy (centred b)))).
Proof. exact (@corr_coeff). Qed.
Print Assumptions C42_corr_coeff.

(** C42. its values lie in [-1,1] and the value at lag 0 is Pearson's coefficient *)
Theorem C42_corr_coeff_bounded :
  forall a b s r, length b = length a -> ~ constant a -> ~ constant b ->
  lower s = "coeff"%string -> correlation a b s = Ok r ->
  (forall L v, at_lag r L v -> exists x, v = Fin x /\ -1 <= x <= 1) /\
  at_lag r 0 (Fin (pearson a b)).
Proof. exact (@corr_coeff_bounded). Qed.
Print Assumptions C42_corr_coeff_bounded.

(** C42. a non-constant signal correlates with itself with value 1 at lag 0, the largest value *)
Theorem C42_corr_coeff_auto :
  forall a s r, ~ constant a -> lower s = "coeff"%string -> correlation a a s = Ok r ->
  at_lag r 0 (Fin 1) /\ (forall L v, at_lag r L v -> exists x, v = Fin x /\ x <= 1).
Proof. exact (@corr_coeff_auto). Qed.
Print Assumptions C42_corr_coeff_auto.

(** C42. adding constants to, or positively rescaling, either signal changes nothing; negative rescaling flips every sign *)
Theorem C42_corr_coeff_affine :
  forall a b s c d, a <> [] -> b <> [] ->
  lower s = "coeff"%string \/ lower s = "unbiased_coeff"%string ->
  (0 < c -> correlation (map (fun x => c * x + d) a) b s = correlation a b s) /\
  (0 < c -> correlation a (map (fun x => c * x + d) b) s = correlation a b s) /\
  (c < 0 -> forall r, correlation a b s = Ok r ->
     correlation (map (fun x => c * x + d) a) b s = Ok (map fopp (fst r), snd r)).
Proof. exact (@corr_coeff_affine). Qed.
Print Assumptions C42_corr_coeff_affine.

(** C42. a constant signal makes every 'coeff' value NaN, whatever the other signal *)
Theorem C42_corr_coeff_constant :
  forall a b s, a <> [] -> b <> [] -> constant a \/ constant b ->
  lower s = "coeff"%string ->
  exists r, correlation a b s = Ok r /\ Forall (fun v => v = Nan) (fst r).
Proof. exact (@corr_coeff_constant). Qed.
Print Assumptions C42_corr_coeff_constant.

(** C42. 'energy' divides the overlap sums by the energy of the first signal; an all-zero first signal gives NaN *)
Theorem C42_corr_energy :
  forall a b s, a <> [] -> b <> [] -> lower s = "energy"%string ->
  exists r, correlation a b s = Ok r /\
    (energy a <> 0 -> forall L v, at_lag r L v <-> lag_of (length a) (length b) L /\ v = Fin (lag_sum a b L / energy a)) /\
    (energy a = 0 -> Forall (fun v => v = Nan) (fst r)).
Proof. exact (@corr_energy). Qed.
Print Assumptions C42_corr_energy.

(** C42. so a signal that is not all zero has 'energy' autocorrelation 1 at lag 0 and at most 1 elsewhere *)
Theorem C42_corr_energy_auto :
  forall a s r, energy a <> 0 -> lower s = "energy"%string -> correlation a a s = Ok r ->
  at_lag r 0 (Fin 1) /\ (forall L v, at_lag r L v -> exists x, v = Fin x /\ -1 <= x <= 1).
Proof. exact (@corr_energy_auto). Qed.
Print Assumptions C42_corr_energy_auto.

(** C43. for equally long signals 'unbiased_..' multiplies each finite biased value by N/(N-|lag|) and keeps NaN *)
Theorem C43_corr_unbiased :
  forall a b s base r u, a <> [] -> length b = length a ->
  (base = "energy" \/ base = "coeff")%string -> lower s = ("unbiased_" ++ base)%string ->
  correlation a b base = Ok r -> correlation a b s = Ok u ->
  snd u = snd r /\
  (forall L x, at_lag r L (Fin x) -> at_lag u L (Fin (x * (INR (length a) / (INR (length a) - Rabs (IZR L)))))) /\
  (forall L, at_lag r L Nan -> at_lag u L Nan).
Proof. exact (@corr_unbiased). Qed.
Print Assumptions C43_corr_unbiased.

(** C43. hence lag 0 is unchanged and no magnitude shrinks *)
Theorem C43_corr_unbiased_grows :
  forall a b s base r u, a <> [] -> length b = length a ->
  (base = "energy" \/ base = "coeff")%string -> lower s = ("unbiased_" ++ base)%string ->
  correlation a b base = Ok r -> correlation a b s = Ok u ->
  (forall x, at_lag r 0 (Fin x) -> at_lag u 0 (Fin x)) /\
  (forall L x, at_lag r L (Fin x) -> exists y, at_lag u L (Fin y) /\ Rabs x <= Rabs y).
Proof. exact (@corr_unbiased_grows). Qed.
Print Assumptions C43_corr_unbiased_grows.

(** C43. with a second signal longer than the first, the value at lag -len(first) is never a number, and beyond it the sign is reversed *)
Theorem C43_corr_unbiased_unequal_refuted :
  forall a b s base r u, a <> [] -> (length a < length b)%nat ->
  (base = "energy" \/ base = "coeff")%string -> lower s = ("unbiased_" ++ base)%string ->
  correlation a b base = Ok r -> correlation a b s = Ok u ->
  (exists v, at_lag u (- Z.of_nat (length a)) v /\ forall y, v <> Fin y) /\
  (forall L x, (L < - Z.of_nat (length a))%Z -> at_lag r L (Fin x) -> exists y, at_lag u L (Fin y) /\ x * y <= 0 /\ (x <> 0 -> x * y < 0)).
Proof. exact (@corr_unbiased_unequal_refuted). Qed.
Print Assumptions C43_corr_unbiased_unequal_refuted.

(** C41. three samples against three: five lags; lag 1 sums a[1]b[0] + a[2]b[1] *)
Example C41_corr_none_ex :
  exists r, correlation sig1 sig2 "None" = Ok r /\ snd r = [-2; -1; 0; 1; 2]%Z /\ at_lag r 1 (Fin 12).
Proof. exact (@corr_none_ex). Qed.

(** C42. the hypotheses of the coefficient laws hold for two ordinary records *)
Example C42_corr_coeff_ex :
  ~ constant sig1 /\ ~ constant sig2 /\ length sig2 = length sig1 /\
  exists r, correlation sig1 sig2 "Coeff" = Ok r /\ at_lag r 0 (Fin (pearson sig1 sig2)).
Proof. exact (@corr_coeff_ex). Qed.

(** C43. the unbiased value can exceed 1: [1,0,1] against itself at lag 2 gives 3/2 *)
Example C43_corr_unbiased_ex :
  exists u, correlation [1; 0; 1] [1; 0; 1] "unbiased_energy" = Ok u /\ at_lag u 2 (Fin (3 / 2)).
Proof. exact (@corr_unbiased_ex). Qed.

(** C43. two samples against three, 'unbiased_energy': infinity at lag -2 *)
Example C43_corr_unbiased_unequal_ex :
  exists u, correlation [1; 1] [1; 1; 1] "unbiased_energy" = Ok u /\ at_lag u (-2) Pinf.
Proof. exact (@corr_unbiased_unequal_ex). Qed.

