(** Property theorems. cmv.py: the quality verdict of every pair in terms of the data handed to compute_cmv, and the speed limit on the estimate.
    Proofs are in the X_ file of the same name. *)
From Coq Require Import String Permutation.
From Verif Require Import Prelude PreludeFacts RealBase Fl RealStat M_spatial M_cmv Spec_spatial Spec_cmv P_cmv P_plane X_cmv_options X_cmv_pairs X_cmv_qc X_cmv_cascade X_cmv_motion X_cmv_fit.
Local Open Scope R_scope.
From Verif Require Import X_cmv_rows.

(** C17. In every successful call: the delay routine is asked once, with the two signals of each pair in pair order; a
    fit's report carries its delays, peak and zero-lag correlations and coherences; and each pair's verdict is the
    last failing check applied to the pair's own signals, distance, delay and correlations. With 'jamaly' these
    verdicts are the reported flags; with 'gagne' the correlation cascade is applied on top. *)
Theorem C17_cmv_verdict :
  forall (K : Type) (HK : Label K) dx dt ms lsq ts (pos : list (K * (R * R))) ref m o bk v t w o' kt vs mc lo hi,
  one_answer_per_pair dx -> one_answer_per_pair dt ->
  compute_cmv dx dt ms lsq ts pos ref m o bk = Ok ((v, t, w), o') ->
  dget o' "ktlim"%string = Some kt ->
  (lower m = "jamaly"%string -> dget o' "var_s_lim"%string = Some vs /\ dget o' "mincorr"%string = Some mc /\
     dget o' "minvelocity"%string = Some lo /\ dget o' "maxvelocity"%string = Some hi) ->
  exists A B d verdicts,
    Forall2 (fun p a => dget ts (fst p) = Some a) (w_allpairs w) A /\
    Forall2 (fun p b => dget ts (snd p) = Some b) (w_allpairs w) B /\
    (if String.eqb (lower bk) "xcorr" then dx A B else dt A B) = Ok d /\
    length (d_delay d) = length (w_allpairs w) /\ length (d_peak d) = length (w_allpairs w) /\ length (d_mean d) = length (w_allpairs w) /\
    (forall f, w_fit w = Some f -> w_pair_lag f = d_delay d /\ w_corr_lag f = d_peak d /\ w_corr_raw f = d_zero d /\ w_pair_coh f = d_coh d) /\
    length verdicts = length (w_allpairs w) /\
    (lower m = "jamaly"%string -> w_pair_flag w = verdicts) /\
    (lower m = "gagne"%string -> exists overall, gagne_cascade (d_peak d) verdicts = (overall, w_pair_flag w)) /\
    forall i p a b dl pk mn g,
      nth_error (w_allpairs w) i = Some p -> nth_error A i = Some a -> nth_error B i = Some b ->
      nth_error (d_delay d) i = Some dl -> nth_error (d_peak d) i = Some pk -> nth_error (d_mean d) i = Some mn ->
      nth_error verdicts i = Some g ->
      exists s, separation pos p = Some s /\
      verdict (common_checks kt ++ (if String.eqb (lower m) "jamaly" then jamaly_checks vs mc lo hi else []))
        (mkRow p a b (Fin (len s)) dl pk mn) g.
Proof. exact (@cmv_verdict). Qed.
Print Assumptions C17_cmv_verdict.

(** C20. The speed 'jamaly' returns stays below the maxvelocity option in effect, whatever the data (a call without
    fit returns 0). *)
Theorem C20_jamaly_speed_limit :
  forall (K : Type) (HK : Label K) dx dt ms lsq ts (pos : list (K * (R * R))) ref m o bk v t w o' hi,
  one_answer_per_pair dx -> one_answer_per_pair dt -> lower m = "jamaly"%string ->
  compute_cmv dx dt ms lsq ts pos ref m o bk = Ok ((v, t, w), o') ->
  dget o' "maxvelocity"%string = Some (Fin hi) ->
  (forall f, w_fit w = Some f -> finite_delays (w_pair_flag w) (w_pair_lag f) -> exists s, v = Fin s /\ 0 <= s < hi) /\
  (w_fit w = None -> v = Fin 0).
Proof. exact (@jamaly_speed_limit). Qed.
Print Assumptions C20_jamaly_speed_limit.

(** C20. Both theorems' hypotheses are met by the three-site run of the other examples. *)
Example C20_speed_limit_example :
  exists ms lsq v t w o f,
  one_answer_per_pair demo_backend /\
  compute_cmv demo_backend demo_backend ms lsq demo_ts demo_pos RefNone "jamaly" None "xcorr" = Ok ((v, t, w), o) /\ w_fit w = Some f /\
  finite_delays (w_pair_flag w) (w_pair_lag f) /\ dget o "maxvelocity"%string = Some (Fin 70) /\ exists kt, dget o "ktlim"%string = Some kt.
Proof. exact (@speed_limit_example). Qed.

(** C19. Two runs of the same method with the same flags whose GOOD pairs have equal separations and delays return the same speed, direction and quality flag, whatever their sites,
    series, options, delay backends and other pairs. *)
Theorem C19_cmv_good_pairs_only :
  forall (K K' : Type) (HK : Label K) (HK' : Label K') dx dt dx' dt' ms lsq
    ts (pos : list (K * (R * R))) ref m o bk v t w d f ts' (pos' : list (K' * (R * R))) ref' m' o' bk' v' t' w' d' f',
  one_answer_per_pair dx -> one_answer_per_pair dt -> one_answer_per_pair dx' -> one_answer_per_pair dt' ->
  compute_cmv dx dt ms lsq ts pos ref m o bk = Ok ((v, t, w), d) -> compute_cmv dx' dt' ms lsq ts' pos' ref' m' o' bk' = Ok ((v', t', w'), d') ->
  lower m = lower m' -> w_fit w = Some f -> w_fit w' = Some f' -> w_pair_flag w = w_pair_flag w' ->
  (forall i p p', nth_error (w_pair_flag w) i = Some GOOD -> nth_error (w_allpairs w) i = Some p -> nth_error (w_allpairs w') i = Some p' ->
     separation pos p = separation pos' p' /\ nth_error (w_pair_lag f) i = nth_error (w_pair_lag f') i) ->
  v = v' /\ t = t' /\ w_flag w = w_flag w'.
Proof. exact (@cmv_good_pairs_only). Qed.
Print Assumptions C19_cmv_good_pairs_only.

