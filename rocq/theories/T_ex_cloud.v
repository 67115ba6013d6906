(** Property theorems. Concrete cases for the cloud field, and when a partly clear field can be generated.
    Proofs are in the X_ file of the same name. *)
From Verif Require Import Prelude PreludeFacts RealBase Fl RealStat Spec_stats M_stats P_stats P_list P_quantile X_stats_err Spec_copula M_cloudfield Spec_cloudfield
  X_copula_down X_field_pos X_cloud_random X_cloud_weights X_cloud_mask X_cloud_edges X_cloud_scale X_cloud_ts.
From Coq Require Import Lra Psatz Permutation.
Local Open Scope R_scope.
From Verif Require Import X_ex_cloud.

(** C74. a field of four pixels, one clear and one edge, meets the hypotheses and gets the target mean *)
Example C74_lave_example :
  mask01 four /\ is_quantile (1/2) (not_clear four) (1/2) /\
  (let cloud p := lave_cloud (2/10) (1/2) (px_v p) in
   smallest (map cloud (concat four)) 0 /\ largest (map cloud (concat four)) 1 /\
   0 < n_pixels four * (8/10) - INR (length (of_kind Clear four)) - Rsum (map (fun p => 1 + (cloud p - 0) / (1 - 0) * (14/10 - 1)) (of_kind Edge four)) /\
   (exists p, In p (of_kind Cloud four) /\ cloud p <> 0)) /\
  scale_field_lave four (8/10) (14/10) (2/10) (1/2) = Ok [[Fin (112/100); Fin 0]; [Fin (108/100); Fin 1]] /\
  avg (concat [[112/100; 0]; [108/100; 1]]) = 8/10.
Proof. exact (@lave_example). Qed.

(** C75. the same four pixels under the basic scaling, in the branch that matches the mean *)
Example C75_basic_example :
  mask01 four /\ is_quantile (3/4) (not_clear four) (3/4) /\ is_quantile (1 - 3/4) (not_clear four) (1/4) /\
  scale_field_basic four (3/4) (14/10) (2/10) (3/4) false None = Ok (map (map Fin) [[4/10; 4/10]; [12/10; 1]]) /\
  avg (concat [[4/10; 4/10]; [12/10; 1]]) = 3/4.
Proof. exact (@basic_example). Qed.

(** C77. a series with a missing sample: means, clear share and wavelet weights *)
Example C77_stats_example :
  let kt := [(0%Z, Some (1/2)); (1%Z, None); (2%Z, Some 1)] in
  present (values kt) <> [] /\ length (fst (bands kt)) = length (snd (bands kt)) /\
  exists st, get_timeseries_stats bands kt (9/10) = Ok st /\ st_mean st = Fin (3/4) /\ st_clear st = Fin (1/3) /\ st_weights st = map Fin [1/2; 1/2] /\ st_scales st = [1; 2]%Z.
Proof. exact (@stats_example). Qed.

(** C84. A partly clear field is always generated when no two pixels of the cover are equal and the clear part asked for is at least
    1001 pixels: the self-check cannot fail then. *)
Theorem C84_field_succeeds :
  forall rnd weights scales n m frac ktmean ktmax kt1pct scaling smoothing cover, length weights = length scales ->
  scaling = Original \/ scaling = Basic -> stack_random_field rnd (length scales) weights scales (n, m) false = Ok cover ->
  NoDup (concat cover) -> 0 < frac < 1 -> 1001 <= INR (n * m) * frac ->
  exists out, cloudfield_timeseries rnd weights scales (n, m) frac ktmean ktmax kt1pct scaling smoothing = Ok out.
Proof. exact (@field_succeeds). Qed.
Print Assumptions C84_field_succeeds.

(** C84. half clear sky on 2 by 2 pixels *)
Example C84_field_example :
  generator draws /\ exists cover out, stack_random_field draws 1 [1] [1] (2, 2)%nat false = Ok cover /\
  (forall i j, (i < 2)%nat -> (j < 2)%nat -> cell_at cover i j (draw_value i j)) /\ NoDup (concat cover) /\
  cloudfield_timeseries draws [1] [1] (2, 2)%nat (1/2) (8/10) (14/10) (2/10) Original 0 = Ok out.
Proof. exact (@field_example). Qed.

