(** Property theorems. Mixture parameters, decay parameter and discretised distribution of the copula module.
    Proofs are in the X_ file of the same name. *)
From Verif Require Import Prelude PreludeFacts RealBase Fl RealStat M_spatial Spec_spatial Spec_stats M_copula Spec_copula X_stats_err.
Local Open Scope R_scope.
From Verif Require Import X_copula_params.

(** C61. The sigmoid lies strictly between 0 and 1, rises for positive slope, is 1/2 at its centre and symmetric about it. *)
Theorem C61_sigmoid_shape :
  forall x y a c, 0 < sigmoid x a c < 1 /\ (0 < a -> x < y -> sigmoid x a c < sigmoid y a c) /\
  sigmoid c a c = 1 / 2 /\ sigmoid (c + x) a c + sigmoid (c - x) a c = 1 /\ sigmoid x (- a) c = 1 - sigmoid x a c.
Proof. exact (@sigmoid_shape). Qed.
Print Assumptions C61_sigmoid_shape.

(** C61. The mixture: its formulas, weights that add up to 1 and a mean of exactly meanCSI. It fails only when the cloudy weight is 0. *)
Theorem C61_mixture_mean :
  forall K q, let w := 1 - comp0 q * logistic (comp1 q) (comp2 q) K in
  (w = 0 <-> forall m k, process_params K q <> Ok (m, k)) /\
  (w <> 0 -> exists w1 w2 mu1 mu2 s1 s2 k,
     process_params K q = Ok ({| mix_mu := [mu1; mu2]; mix_w := [w1; w2]; mix_var := [s1 ^ 2; s2 ^ 2] |}, k) /\
     w1 = w /\ w1 + w2 = 1 /\ w1 * mu1 + w2 * mu2 = K /\
     mu2 = mean0 q * w1 * K + mean1 q * w2 * (K - mean2 q) /\
     s1 = cloud0 q * logistic (cloud1 q) (cloud2 q) K /\ s2 = clear0 q * (1 - logistic (clear1 q) (clear2 q) K) /\
     k = Rmax (corr_quadr q * K * (1 - K)) (1 / 100000)).
Proof. exact (@mixture_mean). Qed.
Print Assumptions C61_mixture_mean.

(** C61. With 0 < comp[0] <= 1 and non-zero deviations the mixture is proper: weights in (0, 1), deviations positive. *)
Theorem C61_mixture_proper :
  forall K q, 0 < comp0 q <= 1 -> 0 < clear0 q -> 0 < cloud0 q ->
  exists w1 w2 mu1 mu2 s1 s2 k,
    process_params K q = Ok ({| mix_mu := [mu1; mu2]; mix_w := [w1; w2]; mix_var := [s1 ^ 2; s2 ^ 2] |}, k) /\
    0 < w1 < 1 /\ 0 < w2 < 1 /\ 0 < s1 < cloud0 q /\ 0 < s2 < clear0 q.
Proof. exact (@mixture_proper). Qed.
Print Assumptions C61_mixture_proper.

(** C61. With the default parameters, for every meanCSI: the published numbers. *)
Theorem C61_default_mixture :
  forall K, exists w1 w2 mu1 mu2 s1 s2 k,
  process_params K default_params = Ok ({| mix_mu := [mu1; mu2]; mix_w := [w1; w2]; mix_var := [s1 ^ 2; s2 ^ 2] |}, k) /\
  w1 = 1 - 0.8051 * logistic 7.3605 0.7092 K /\ w1 + w2 = 1 /\ w1 * mu1 + w2 * mu2 = K /\ 0.1949 < w1 < 1 /\
  mu2 = 2.2928 * w1 * K + 1.0801 * w2 * (K - 0.4532) /\
  s1 = 0.1997 * logistic 5.0919 0.3863 K /\ s2 = 0.3512 * (1 - logistic 4.8414 0.6442 K) /\
  0 < s1 < 0.1997 /\ 0 < s2 < 0.3512 /\ k = Rmax (0.0043 * K * (1 - K)) 0.00001.
Proof. exact (@default_mixture). Qed.
Print Assumptions C61_default_mixture.

Example C61_default_params_proper :
  0 < comp0 default_params <= 1 /\ 0 < clear0 default_params /\ 0 < cloud0 default_params.
Proof. exact (@default_params_proper). Qed.

(** C62. The decay parameter of a number, and of an array element by element. *)
Theorem C62_decay_value :
  forall K p l, exponential_decay (Scalar K) p = Scalar (Rmax (p * K * (1 - K)) (1 / 100000)) /\
  (length l <> 1%nat -> exponential_decay (Arr l) p = Arr (map (fun K => Rmax (p * K * (1 - K)) (1 / 100000)) l)) /\
  (1 / 100000 <= p * K * (1 - K) -> exponential_decay (Arr [K]) p = Arr [p * K * (1 - K)]) /\
  (p * K * (1 - K) < 1 / 100000 -> exponential_decay (Arr [K]) p = Scalar (1 / 100000)).
Proof. exact (@decay_value). Qed.
Print Assumptions C62_decay_value.

(** C62. It is at least 1e-5 and the same for K and 1 - K; it is at most p/4 or the floor. *)
Theorem C62_decay_bounds :
  forall K p v, 0 <= p -> exponential_decay (Scalar K) p = Scalar v ->
  1 / 100000 <= v <= Rmax (p / 4) (1 / 100000) /\ exponential_decay (Scalar (1 - K)) p = Scalar v.
Proof. exact (@decay_bounds). Qed.
Print Assumptions C62_decay_bounds.

(** C62. The documented "higher K, slower decay" fails: the parameter rises up to K = 1/2. *)
Theorem C62_decay_documented_refuted :
  exists K K' p v v', 0 < p /\ 0 < K /\ K < K' /\ K' < 1 /\
  exponential_decay (Scalar K) p = Scalar v /\ exponential_decay (Scalar K') p = Scalar v' /\ v < v'.
Proof. exact (@decay_documented_refuted). Qed.
Print Assumptions C62_decay_documented_refuted.

Example C62_decay_example :
  exponential_decay (Arr [1/2; 0]) (43 / 10000) = Arr [43 / 40000; 1 / 100000].
Proof. exact (@decay_example). Qed.

(** C63. The density at each point is the weighted sum of the normal densities; the distribution value is the running total
    of densities over their grand total. *)
Theorem C63_gm_value :
  forall x m, x <> [] -> length (mix_w m) = length (mix_mu m) -> length (mix_var m) = length (mix_mu m) ->
  (forall v, In v (mix_var m) -> 0 < v) -> (forall w, In w (mix_w m) -> 0 <= w) -> (exists w, In w (mix_w m) /\ 0 < w) ->
  exists pdf cdf, gmdistribution x m = Ok (pdf, cdf) /\
    pdf = map (fun x => Rsum (map (fun i => nth i (mix_w m) 0 * gauss (nth i (mix_mu m) 0) (nth i (mix_var m) 0) x) (seq 0 (length (mix_mu m))))) x /\
    (forall d, In d pdf -> 0 < d) /\
    cdf = map (fun i => total (S i) pdf / Rsum pdf) (seq 0 (length x)).
Proof. exact (@gm_value). Qed.
Print Assumptions C63_gm_value.

(** C63. So it is a distribution table: positive, increasing, ending at exactly 1, with steps proportional to the density. *)
Theorem C63_gm_cdf :
  forall x m pdf cdf, x <> [] -> length (mix_w m) = length (mix_mu m) -> length (mix_var m) = length (mix_mu m) ->
  (forall v, In v (mix_var m) -> 0 < v) -> (forall w, In w (mix_w m) -> 0 <= w) -> (exists w, In w (mix_w m) /\ 0 < w) ->
  gmdistribution x m = Ok (pdf, cdf) ->
  length cdf = length x /\ last cdf 0 = 1 /\ (forall c, In c cdf -> 0 < c <= 1) /\
  (forall i j a b, (i < j)%nat -> nth_error cdf i = Some a -> nth_error cdf j = Some b -> a < b) /\
  (exists k, 0 < k /\ forall i a b d, nth_error cdf i = Some a -> nth_error cdf (S i) = Some b -> nth_error pdf (S i) = Some d -> b - a = k * d).
Proof. exact (@gm_cdf). Qed.
Print Assumptions C63_gm_cdf.

(** C63. A single point always gets 1; no points, or a variance that is not positive, is refused. *)
Theorem C63_gm_edge :
  forall x m, (forall v, In v (mix_var m) -> 0 < v) -> (forall w, In w (mix_w m) -> 0 <= w) -> 
  (mixture_pdf m x <> 0 -> gmdistribution [x] m = Ok ([mixture_pdf m x], [1])) /\
  gmdistribution [] m = Err ValueError /\
  (forall m' xs v, In v (mix_var m') -> v <= 0 -> gmdistribution xs m' = Err ValueError).
Proof. exact (@gm_edge). Qed.
Print Assumptions C63_gm_edge.

(** C63. Every proper parameter set and mean gives such a table. *)
Theorem C63_solar_gmm_ok :
  forall csi K q, csi <> [] -> 0 < comp0 q <= 1 -> 0 < clear0 q -> 0 < cloud0 q ->
  exists pdf cdf k, solar_gmm csi K q = Ok (pdf, cdf, k) /\ k = Rmax (corr_quadr q * K * (1 - K)) (1 / 100000) /\
    length cdf = length csi /\ last cdf 0 = 1 /\ (forall c, In c cdf -> 0 < c <= 1) /\
    (forall i j a b, (i < j)%nat -> nth_error cdf i = Some a -> nth_error cdf j = Some b -> a < b).
Proof. exact (@solar_gmm_ok). Qed.
Print Assumptions C63_solar_gmm_ok.

Example C63_gm_example :
  exists pdf cdf k, solar_gmm [0; 1/2; 1] (1/2) default_params = Ok (pdf, cdf, k) /\ length cdf = 3%nat.
Proof. exact (@gm_example). Qed.

