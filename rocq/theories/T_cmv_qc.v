(** Property theorems. cmv.py pairwise QC, the gagne correlation cascade and the all-bad exit.
    Proofs are in the X_ file of the same name. *)
From Coq Require Import String Permutation.
From Verif Require Import Prelude PreludeFacts RealBase Fl RealStat M_spatial M_cmv Spec_spatial Spec_cmv P_cmv X_cmv_options X_cmv_pairs.
Local Open Scope R_scope.
From Verif Require Import X_cmv_qc.

(** C17. Each pair gets the flag of the last check it fails in the documented order, GOOD when it
    fails none; one flag per pair, in order. [o0] are the caller's options, [o] those in effect. *)
Theorem C17_qc_verdict :
  forall (K : Type) (HK : Label K) (m : string) (o0 o : opts) (rows : list (prow K)) (kt vs mc lo hi : fl),
  validate_method_options m (Some o0) = Ok o ->
  dget o "ktlim"%string = Some kt ->
  (m = "jamaly"%string -> dget o "var_s_lim"%string = Some vs /\ dget o "mincorr"%string = Some mc /\
     dget o "minvelocity"%string = Some lo /\ dget o "maxvelocity"%string = Some hi) ->
  exists flags, pairwise_qc m o rows = Ok flags /\
    Forall2 (verdict (common_checks kt ++ (if String.eqb m "jamaly" then jamaly_checks vs mc lo hi else []))) rows flags.
Proof. exact (@qc_verdict). Qed.
Print Assumptions C17_qc_verdict.

(** C17. Consequence for GOOD jamaly pairs: two different sites, a delay that is neither zero nor NaN,
    numeric correlations and spacing, and an apparent speed strictly between the limits. *)
Theorem C17_qc_good_jamaly :
  forall (K : Type) (HK : Label K) (o0 o : opts) (rows : list (prow K)) (flags : list Flag) (lo hi : fl) i r,
  validate_method_options "jamaly" (Some o0) = Ok o ->
  dget o "minvelocity"%string = Some lo -> dget o "maxvelocity"%string = Some hi ->
  pairwise_qc "jamaly" o rows = Ok flags ->
  nth_error rows i = Some r -> nth_error flags i = Some GOOD ->
  fst (p_ids r) <> snd (p_ids r) /\ p_delay r <> Fin 0 /\ p_delay r <> Nan /\
  p_peak r <> Nan /\ p_mean r <> Nan /\ p_spacing r <> Nan /\
  speed_ok r lo hi.
Proof. exact (@qc_good_jamaly). Qed.
Print Assumptions C17_qc_good_jamaly.

(** C17. Conversely a jamaly pair is GOOD exactly when every check passes. *)
Theorem C17_qc_good_iff :
  forall (K : Type) (HK : Label K) (o0 o : opts) (rows : list (prow K)) (flags : list Flag) (kt vs mc lo hi : fl) i r f,
  validate_method_options "jamaly" (Some o0) = Ok o ->
  dget o "ktlim"%string = Some kt -> dget o "var_s_lim"%string = Some vs -> dget o "mincorr"%string = Some mc ->
  dget o "minvelocity"%string = Some lo -> dget o "maxvelocity"%string = Some hi ->
  pairwise_qc "jamaly" o rows = Ok flags ->
  nth_error rows i = Some r -> nth_error flags i = Some f ->
  (f = GOOD <->
   fst (p_ids r) <> snd (p_ids r) /\
   ~ either (fun s => figure_below Rstd s (Fin (1 / 1000))) r /\
   p_delay r <> Fin 0 /\ p_peak r <> Nan /\ p_mean r <> Nan /\
   ~ either (fun s => figure_below Rmax_of s kt) r /\
   ~ either (fun s => variation_below s vs) r /\
   ~ below (p_peak r) mc /\ ~ below (fsub (Fin 1) (fdiv (p_mean r) (p_peak r))) mc /\
   speed_ok r lo hi).
Proof. exact (@qc_good_iff). Qed.
Print Assumptions C17_qc_good_iff.

Example C17_qc_example :
  exists o,
  validate_method_options "jamaly" (Some []) = Ok o /\
  pairwise_qc "jamaly" o demo_rows = Ok [VELLIMIT; GOOD; VELLIMIT] /\
  pairwise_qc "gagne" o demo_rows = Ok [NOLAG; GOOD; GOOD].
Proof. exact (@qc_example). Qed.

