(** Property theorems. cmv.py:273-294, 371-395: gagne cascade, failure exit and what is returned.
    Proofs are in the X_ file of the same name. *)
From Coq Require Import String Permutation.
From Verif Require Import Prelude PreludeFacts RealBase Fl RealStat M_spatial M_cmv Spec_spatial Spec_cmv P_cmv P_plane X_cmv_options X_cmv_pairs X_cmv_qc.
Local Open Scope R_scope.
From Verif Require Import X_cmv_cascade.

(** C18. The threshold is the strictest of 0.99, 0.95, 0.90 that twelve passing pairs reach, else 0.90;
    ALLBAD exactly when not even 0.90 is reached by twelve; pairs below it (or NaN) become LOWCORR and
    the others keep their flag. *)
Theorem C18_cascade_threshold :
  forall (peaks : list fl) (flags : list Flag) (overall : Flag) (flags' : list Flag),
  length peaks = length flags ->
  gagne_cascade peaks flags = (overall, flags') ->
  exists t, chosen_threshold t peaks flags /\
    (overall = ALLBAD <-> ~ sufficient (90 / 100) peaks flags) /\ (overall = GOOD <-> sufficient (90 / 100) peaks flags) /\
    length flags' = length flags /\
    forall i p f, nth_error peaks i = Some p -> nth_error flags i = Some f ->
      (at_least t p -> nth_error flags' i = Some f) /\ (~ at_least t p -> nth_error flags' i = Some LOWCORR).
Proof. exact (@cascade_threshold). Qed.
Print Assumptions C18_cascade_threshold.

Example C18_cascade_example :
  let peaks := repeat (Fin 0.96) 12 ++ [Fin 0.5; Nan; Fin 1] in
  let flags := repeat GOOD 12 ++ [GOOD; OVERCAST; SAME] in
  length peaks = length flags /\ chosen_threshold (95 / 100) peaks flags /\
  gagne_cascade peaks flags = (GOOD, repeat GOOD 12 ++ [LOWCORR; LOWCORR; SAME]).
Proof. exact (@cascade_example). Qed.

(** C19. The early exit (no fit data; speed 0, direction 0, ALLBAD) is taken exactly when fewer than two
    pairs are GOOD; in both cases there is one flag per reported pair. *)
Theorem C19_cmv_failure_exit :
  forall (K : Type) (HK : Label K) dx dt ms lsq ts (pos : list (K * (R * R))) ref m o bk v t w o',
  one_answer_per_pair dx -> one_answer_per_pair dt ->
  compute_cmv dx dt ms lsq ts pos ref m o bk = Ok ((v, t, w), o') ->
  length (w_pair_flag w) = length (w_allpairs w) /\
  (w_fit w = None <-> ~ two_good (w_pair_flag w)) /\
  (w_fit w = None -> v = Fin 0 /\ t = Fin 0 /\ w_flag w = ALLBAD).
Proof. exact (@cmv_failure_exit). Qed.
Print Assumptions C19_cmv_failure_exit.

(** C19. Otherwise the report holds the returned speed and direction, the delays and peak correlations of all
    pairs, and each pair's separation projected on the returned direction. *)
Theorem C19_cmv_report :
  forall (K : Type) (HK : Label K) dx dt ms lsq ts (pos : list (K * (R * R))) ref m o bk v t w o' f,
  one_answer_per_pair dx -> one_answer_per_pair dt ->
  compute_cmv dx dt ms lsq ts pos ref m o bk = Ok ((v, t, w), o') -> w_fit w = Some f ->
  w_wind_speed f = v /\ w_wind_angle f = t /\
  length (w_pair_lag f) = length (w_allpairs w) /\ length (w_corr_lag f) = length (w_allpairs w) /\
  length (w_pair_dists f) = length (w_allpairs w) /\
  forall i p a, nth_error (w_allpairs w) i = Some p -> t = Fin a ->
    exists s, separation pos p = Some s /\ nth_error (w_pair_dists f) i = Some (Fin (inner s (cos a, sin a))).
Proof. exact (@cmv_report). Qed.
Print Assumptions C19_cmv_report.

(** C19. The estimate depends on the GOOD pairs only: delays and separations of the other pairs, and the
    correlations, have no influence on the returned speed, direction and quality flag. *)
Theorem C19_cmv_good_only :
  forall (K : Type) ms lsq (jam : bool) qc qc' (overall : Flag) (flags : list Flag)
    (pairs pairs' : list (K * K)) (vecs vecs' : list (R * R)) (d d' : delay_out) v t w v' t' w',
  length vecs = length flags -> length vecs' = length flags ->
  length (d_delay d) = length flags -> length (d_delay d') = length flags ->
  (forall i, nth_error flags i = Some GOOD ->
     nth_error vecs i = nth_error vecs' i /\ nth_error (d_delay d) i = nth_error (d_delay d') i) ->
  finish_cmv ms lsq jam qc overall flags pairs vecs d = (v, t, w) ->
  finish_cmv ms lsq jam qc' overall flags pairs' vecs' d' = (v', t', w') ->
  v = v' /\ t = t' /\ w_flag w = w_flag w'.
Proof. exact (@cmv_good_only). Qed.
Print Assumptions C19_cmv_good_only.

(** C18. Through compute_cmv: the overall flag is ALLBAD exactly when fewer than twelve pairs end up GOOD,
    GOOD otherwise; and one of the three thresholds separates the pairs. *)
Theorem C18_cmv_gagne_flag :
  forall (K : Type) (HK : Label K) dx dt ms lsq ts (pos : list (K * (R * R))) ref m o bk v t w o',
  one_answer_per_pair dx -> one_answer_per_pair dt -> lower m = "gagne"%string ->
  compute_cmv dx dt ms lsq ts pos ref m o bk = Ok ((v, t, w), o') ->
  (w_flag w = ALLBAD <-> ~ good_at_least 12 (w_pair_flag w)) /\
  (w_flag w = GOOD <-> good_at_least 12 (w_pair_flag w)) /\
  forall f, w_fit w = Some f ->
    exists th, (th = 99 / 100 \/ th = 95 / 100 \/ th = 90 / 100) /\
    forall i c g, nth_error (w_corr_lag f) i = Some c -> nth_error (w_pair_flag w) i = Some g ->
      (g = GOOD -> at_least th c) /\ (~ at_least th c -> g = LOWCORR).
Proof. exact (@cmv_gagne_flag). Qed.
Print Assumptions C18_cmv_gagne_flag.

