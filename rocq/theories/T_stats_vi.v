(** Property theorems. Variability index and daily aggregate ramp rate (stats.py).
    Proofs are in the X_ file of the same name. *)
From Coq Require Import Permutation Sorted.
From Verif Require Import Prelude PreludeFacts RealBase Fl RealStat M_spatial M_stats Spec_stats X_stats_err P_stats P_resample X_stats_vs.
Local Open Scope R_scope.
From Verif Require Import X_stats_vi.

(** C37. Non-pandas input raises TypeError; fewer than two ghi samples give NaN. *)
Theorem C37_vi_edge :
  forall g cs tau norm,
  variability_index NotPandas cs tau norm = Err TypeError /\
  ((length g < 2)%nat -> (tau <= 1)%Z -> variability_index (Pandas g) cs tau norm = Ok Nan).
Proof. exact (@vi_edge). Qed.
Print Assumptions C37_vi_edge.

(** C37. The index is the ratio of path lengths with the ghi step (in minutes), times the square root of the step if normalised. *)
Theorem C37_vi_value :
  forall g cs tau norm st, (tau <= 1)%Z -> median_step g st -> 0 <= st ->
  let dt := st / 60 in
  let num := path dt (ramps 1 (values g)) in let den := path dt (ramps 1 (values cs)) in
  (den <> 0 -> variability_index (Pandas g) cs tau norm = Ok (Fin (if norm then num / den * sqrt dt else num / den))) /\
  (den = 0 -> forall r, variability_index (Pandas g) cs tau norm <> Ok (Fin r)).
Proof. exact (@vi_value). Qed.
Print Assumptions C37_vi_value.

(** C37. Against itself the index is 1, or sqrt(dt) with norm; in general it is positive. *)
Theorem C37_vi_self :
  forall g cs tau norm st, (tau <= 1)%Z -> median_step g st -> 0 < st -> ramps 1 (values g) <> [] ->
  variability_index (Pandas g) g tau norm = Ok (Fin (if norm then sqrt (st / 60) else 1)) /\
  (ramps 1 (values cs) <> [] -> exists v, variability_index (Pandas g) cs tau norm = Ok (Fin v) /\ 0 < v).
Proof. exact (@vi_self). Qed.
Print Assumptions C37_vi_self.

(** C37. At least 1 when the clear-sky series is constant over as many steps. *)
Theorem C37_vi_constant_sky :
  forall g cs tau st, (tau <= 1)%Z -> median_step g st -> 0 < st ->
  ramps 1 (values g) <> [] -> length (ramps 1 (values cs)) = length (ramps 1 (values g)) ->
  (forall r, In r (ramps 1 (values cs)) -> r = 0) ->
  exists v, variability_index (Pandas g) cs tau false = Ok (Fin v) /\ 1 <= v.
Proof. exact (@vi_constant_sky). Qed.
Print Assumptions C37_vi_constant_sky.

(** C37. Larger ghi ramps give a larger index, larger clear-sky ramps a smaller one. *)
Theorem C37_vi_monotone :
  forall g g' cs cs' tau norm st v v', (tau <= 1)%Z -> median_step g st -> median_step g' st -> 0 < st ->
  Forall2 (fun r r' => Rabs r <= Rabs r') (ramps 1 (values g)) (ramps 1 (values g')) ->
  Forall2 (fun r r' => Rabs r' <= Rabs r) (ramps 1 (values cs)) (ramps 1 (values cs')) ->
  variability_index (Pandas g) cs tau norm = Ok (Fin v) -> variability_index (Pandas g') cs' tau norm = Ok (Fin v') ->
  v <= v'.
Proof. exact (@vi_monotone). Qed.
Print Assumptions C37_vi_monotone.

(** C37. Constants added to either input change nothing, for every averaging period. *)
Theorem C37_vi_shift :
  forall g cs a b tau norm,
  variability_index (Pandas (smap (fun x => x + a) g)) (smap (fun x => x + b) cs) tau norm = variability_index (Pandas g) cs tau norm.
Proof. exact (@vi_shift). Qed.
Print Assumptions C37_vi_shift.

(** C37. Block averaging: both series are averaged over bins of int(tau * median ghi step) seconds. *)
Theorem C37_vi_block_average :
  forall g cs tau norm, (1 < tau)%Z ->
  ((length g < 2)%nat -> variability_index (Pandas g) cs tau norm = Err ValueError) /\
  (forall dt w, median_step g dt -> (0 < w)%Z -> IZR w <= IZR tau * dt < IZR w + 1 -> cs <> [] ->
     exists rg rc, binned w g rg /\ binned w cs rc /\
       variability_index (Pandas g) cs tau norm = variability_index (Pandas rg) rc 1 norm) /\
  (forall dt, median_step g dt -> 0 <= IZR tau * dt < 1 -> variability_index (Pandas g) cs tau norm = Err ZeroDivisionError).
Proof. exact (@vi_block_average). Qed.
Print Assumptions C37_vi_block_average.

Example C37_vi_example :
  let g := [(0%Z, Some 0); ((60 * ns)%Z, Some 3); ((120 * ns)%Z, Some 1)] in
  median_step g 60 /\ ramps 1 (values g) <> [].
Proof. exact (@vi_example). Qed.

(** C38. The value: the sum of ramp sizes; never negative; TypeError for non-pandas input. *)
Theorem C38_darr_value :
  forall s tau mavg pct,
  darr NotPandas tau mavg pct = Err TypeError /\
  ((mavg = true -> tau <= 1)%Z ->
     darr (Pandas s) tau mavg false = Ok (Rsum (map Rabs (ramps (Z.abs_nat tau) (values s))))) /\
  (forall v, darr (Pandas s) tau mavg pct = Ok v -> 0 <= v).
Proof. exact (@darr_value). Qed.
Print Assumptions C38_darr_value.

(** C38. Affine changes: constants drop out, a factor k scales by |k|; for every option. *)
Theorem C38_darr_affine :
  forall s k c tau mavg pct,
  darr (Pandas (smap (fun x => k * x + c) s)) tau mavg pct = rmap (Rmult (Rabs k)) (darr (Pandas s) tau mavg pct).
Proof. exact (@darr_affine). Qed.
Print Assumptions C38_darr_affine.

(** C38. pct=True is a tenth of the value. *)
Theorem C38_darr_percent :
  forall s tau mavg,
  darr (Pandas s) tau mavg true = rmap (fun v => v / 10) (darr (Pandas s) tau mavg false).
Proof. exact (@darr_percent). Qed.
Print Assumptions C38_darr_percent.

(** C38. Additive when two stretches share a sample. *)
Theorem C38_darr_additive :
  forall s s1 s2 a m b mavg, values s = a ++ m :: b -> values s1 = a ++ [m] -> values s2 = m :: b ->
  exists v1 v2, darr (Pandas s1) 1 mavg false = Ok v1 /\ darr (Pandas s2) 1 mavg false = Ok v2 /\
    darr (Pandas s) 1 mavg false = Ok (v1 + v2).
Proof. exact (@darr_additive). Qed.
Print Assumptions C38_darr_additive.

(** C38. Without gaps: at least the net change, with equality exactly for monotone series; zero exactly for constant series. *)
Theorem C38_darr_ends :
  forall s x l mavg, values s = map Some (x :: l) ->
  exists v, darr (Pandas s) 1 mavg false = Ok v /\ Rabs (last (x :: l) 0 - x) <= v /\
    (v = Rabs (last (x :: l) 0 - x) <-> rising (x :: l) \/ falling (x :: l)) /\
    (v = 0 <-> forall y, In y l -> y = x).
Proof. exact (@darr_ends). Qed.
Print Assumptions C38_darr_ends.

(** C38. Ramps over k samples add up to at most k times the one-sample value (no averaging, no gaps). *)
Theorem C38_darr_tau :
  forall s l k mavg, values s = map Some l ->
  exists v1 vk, darr (Pandas s) 1 mavg false = Ok v1 /\ darr (Pandas s) (Z.of_nat k) false false = Ok vk /\ vk <= INR k * v1.
Proof. exact (@darr_tau). Qed.
Print Assumptions C38_darr_tau.

(** C38. Block averaging: the value of the block averages with one-sample ramps. *)
Theorem C38_darr_block_average :
  forall s tau pct, (1 < tau)%Z ->
  ((length s < 2)%nat -> darr (Pandas s) tau true pct = Err ValueError) /\
  (forall dt w, median_step s dt -> (0 < w)%Z -> IZR w <= IZR tau * dt < IZR w + 1 ->
     exists rs, binned w s rs /\ darr (Pandas s) tau true pct = darr (Pandas rs) 1 false pct) /\
  (forall dt, median_step s dt -> 0 <= IZR tau * dt < 1 -> darr (Pandas s) tau true pct = Err ZeroDivisionError).
Proof. exact (@darr_block_average). Qed.
Print Assumptions C38_darr_block_average.

(** C38. Regular sampling: the value of the averages of consecutive blocks of k samples. *)
Theorem C38_darr_blocks :
  forall s t0 d k pct, regular t0 d s -> (0 < d)%Z -> (2 <= k)%nat -> (2 <= length s)%nat ->
  ((t0 - one_day * (t0 / one_day)) mod (Z.of_nat k * d * ns) = 0)%Z ->
  exists rs, block_averages k (values s) (values rs) /\
    darr (Pandas s) (Z.of_nat k) true pct = darr (Pandas rs) 1 false pct.
Proof. exact (@darr_blocks). Qed.
Print Assumptions C38_darr_blocks.

Example C38_darr_example :
  let s := [(0%Z, Some 0); (1%Z, Some 3); (2%Z, Some 1)] in
  darr (Pandas s) 1 true false = Ok 5 /\ darr (Pandas s) 2 false false = Ok 1 /\ darr (Pandas s) 1 true true = Ok (1/2).
Proof. exact (@darr_example). Qed.

