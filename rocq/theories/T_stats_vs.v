(** Property theorems. Variability score (stats.py).
    Proofs are in the X_ file of the same name. *)
From Coq Require Import Permutation Sorted.
From Verif Require Import Prelude PreludeFacts RealBase Fl RealStat M_spatial M_stats Spec_stats X_stats_err P_stats P_resample.
Local Open Scope R_scope.
From Verif Require Import X_stats_vs.

(** C35. The score: NaN without ramps, otherwise the largest ramp size times the fraction of larger ramps, each other
    tied ramp counting half. *)
Theorem C35_vs_value :
  forall s tau mavg, (mavg = true -> tau <= 1)%Z ->
  let A := map Rabs (ramps (Z.abs_nat tau) (values s)) in
  (A = [] -> variability_score s tau mavg false = Ok Nan) /\
  (A <> [] -> exists v, variability_score s tau mavg false = Ok (Fin v) /\
     largest (map (fun a => a * exceedance_ties a A) A) v).
Proof. exact (@vs_value). Qed.
Print Assumptions C35_vs_value.

(** C35. With pairwise different ramp sizes it is exactly the documented definition. *)
Theorem C35_vs_distinct :
  forall s tau mavg v, (mavg = true -> tau <= 1)%Z ->
  let A := map Rabs (ramps (Z.abs_nat tau) (values s)) in
  NoDup A -> variability_score s tau mavg false = Ok (Fin v) ->
  largest (map (fun a => a * exceedance a A) A) v.
Proof. exact (@vs_distinct). Qed.
Print Assumptions C35_vs_distinct.

(** C35. Bounds: between the documented definition and the largest ramp times (1 - 1/number of ramps). *)
Theorem C35_vs_bounds :
  forall s tau mavg v, (mavg = true -> tau <= 1)%Z ->
  let A := map Rabs (ramps (Z.abs_nat tau) (values s)) in
  variability_score s tau mavg false = Ok (Fin v) ->
  0 <= v /\ (exists a, In a A /\ v <= a * (1 - / INR (length A))) /\
  (forall a, In a A -> a * exceedance a A <= v).
Proof. exact (@vs_bounds). Qed.
Print Assumptions C35_vs_bounds.

(** C35. Ties: a steady ramp of n equal steps k scores |k| (n - 1) / (2 n), where the documented definition gives 0. *)
Theorem C35_vs_steady :
  forall s c k n, (0 < n)%nat -> values s = steady c k n ->
  variability_score s 1 true false = Ok (Fin (Rabs k * ((INR n - 1) / (2 * INR n)))) /\
  forall a, In a (map Rabs (ramps 1 (values s))) -> a * exceedance a (map Rabs (ramps 1 (values s))) = 0.
Proof. exact (@vs_steady). Qed.
Print Assumptions C35_vs_steady.

(** C35. Refuted: that the score is always the documented product of a ramp and the fraction of larger ramps. *)
Theorem C35_vs_documented_refuted :
  exists s v,
  variability_score s 1 true false = Ok (Fin v) /\
  ~ exists a, In a (map Rabs (ramps 1 (values s))) /\ v = a * exceedance a (map Rabs (ramps 1 (values s))).
Proof. exact (@vs_documented_refuted). Qed.
Print Assumptions C35_vs_documented_refuted.

Example C35_vs_example :
  let s := [(0%Z, Some 0); (1%Z, Some 1); (2%Z, Some 4); (3%Z, Some 2)] in
  NoDup (map Rabs (ramps 1 (values s))) /\ exists v, variability_score s 1 true false = Ok (Fin v).
Proof. exact (@vs_example). Qed.

(** C36. Affine changes: adding a constant changes nothing, a factor k (also negative) scales the score by |k|. Holds for
    every tau, with and without block averaging, as a percentage or not. *)
Theorem C36_vs_affine :
  forall s k c tau mavg pct,
  variability_score (smap (fun x => k * x + c) s) tau mavg pct = rmap (fmul (Fin (Rabs k))) (variability_score s tau mavg pct).
Proof. exact (@vs_affine). Qed.
Print Assumptions C36_vs_affine.

(** C36. In particular a shift and a change of sign leave every result as it is. *)
Theorem C36_vs_shift_negate :
  forall s c tau mavg pct,
  variability_score (smap (fun x => x + c) s) tau mavg pct = variability_score s tau mavg pct /\
  variability_score (smap Ropp s) tau mavg pct = variability_score s tau mavg pct.
Proof. exact (@vs_shift_negate). Qed.
Print Assumptions C36_vs_shift_negate.

(** C36. Time reversal leaves the score as it is (no block averaging). *)
Theorem C36_vs_reverse :
  forall s s' tau pct, values s' = rev (values s) ->
  variability_score s' tau false pct = variability_score s tau false pct.
Proof. exact (@vs_reverse). Qed.
Print Assumptions C36_vs_reverse.

(** C36. A constant series scores 0; looking ahead instead of back makes no difference. *)
Theorem C36_vs_constant :
  forall s c tau pct,
  ((exists r, In r (ramps (Z.abs_nat tau) (values s))) -> (forall x, In (Some x) (values s) -> x = c) ->
     variability_score s tau false pct = Ok (Fin 0)) /\
  variability_score s (- tau) false pct = variability_score s tau false pct.
Proof. exact (@vs_constant). Qed.
Print Assumptions C36_vs_constant.

(** C36. pct=True multiplies the score by 1/10, for every tau with and without block averaging. *)
Theorem C36_vs_percent :
  forall s tau mavg,
  variability_score s tau mavg true = rmap (fmul (Fin (1 / 10))) (variability_score s tau mavg false).
Proof. exact (@vs_percent). Qed.
Print Assumptions C36_vs_percent.

(** C36. Block averaging: the tau = 1 score of the series averaged over bins of int(tau * median step) seconds; it fails
    when there are fewer than two samples or that width is zero. *)
Theorem C36_vs_block_average :
  forall s tau pct, (1 < tau)%Z ->
  ((length s < 2)%nat -> variability_score s tau true pct = Err ValueError) /\
  (forall dt w, median_step s dt -> (0 < w)%Z -> IZR w <= IZR tau * dt < IZR w + 1 ->
     exists rs, binned w s rs /\ variability_score s tau true pct = variability_score rs 1 false pct) /\
  (forall dt, median_step s dt -> 0 <= IZR tau * dt < 1 -> variability_score s tau true pct = Err ZeroDivisionError).
Proof. exact (@vs_block_average). Qed.
Print Assumptions C36_vs_block_average.

(** C36. On a regular grid aligned with the averaging period the bins are blocks of tau consecutive samples. *)
Theorem C36_vs_blocks :
  forall s t0 d k pct, regular t0 d s -> (0 < d)%Z -> (2 <= k)%nat -> (2 <= length s)%nat ->
  ((t0 - one_day * (t0 / one_day)) mod (Z.of_nat k * d * ns) = 0)%Z ->
  exists rs, block_averages k (values s) (values rs) /\
    variability_score s (Z.of_nat k) true pct = variability_score rs 1 false pct.
Proof. exact (@vs_blocks). Qed.
Print Assumptions C36_vs_blocks.

Example C36_vs_blocks_example :
  let s := [(0%Z, Some 0); (ns, Some 2); ((2 * ns)%Z, Some 7); ((3 * ns)%Z, Some 9)] in
  regular 0 1 s /\ exists rs, block_averages 2 (values s) (values rs) /\ variability_score s 2 true false = variability_score rs 1 false false.
Proof. exact (@vs_blocks_example). Qed.

