(** Property theorems. cmv.py: the dictionary of a result (C105).
    Proofs are in the X_ file of the same name. *)
From Coq Require Import String.
From Verif Require Import Prelude PreludeFacts RealBase Fl RealStat M_spatial M_cmv M_cmv_dict M_link Spec_spatial Spec_welch Spec_cmv Spec_cmv_stats P_cmv X_cmv_options X_cmv_pairs X_cmv_qc X_cmv_cascade X_cmv_motion X_cmv_fit X_cmv_rows X_cmv_stats X_link_delay.
From Coq Require Import Lra.
From Verif Require M_cmv M_signal_corr.
Local Open Scope R_scope.
From Verif Require Import X_cmv_dict.

(** C105. the dictionary of every result has the same eleven entries in the same order, each name once *)
Theorem C105_to_dict_keys :
  forall (K : Type) (w : windspeed K),
  dkeys (to_dict w) = ["corr_raw"; "corr_lag"; "allpairs"; "pair_lag"; "pair_coh"; "pair_dists"; "wind_speed"; "wind_angle"; "pair_flag"; "flag"; "method_data"]%string /\
  NoDup (dkeys (to_dict w)).
Proof. exact (@to_dict_keys). Qed.
Print Assumptions C105_to_dict_keys.

(** C105. nothing is lost: results with equal dictionaries are equal *)
Theorem C105_to_dict_faithful :
  forall (K : Type) (w w' : windspeed K), to_dict w = to_dict w' -> w = w'.
Proof. exact (@to_dict_faithful). Qed.
Print Assumptions C105_to_dict_faithful.

(** C105. a run with fewer than two passing pairs: exactly the pairs, their flags and the overall flag (ALLBAD) are there. In particular wind_speed and wind_angle are
    None although the run returned 0 and 0 *)
Theorem C105_cmv_dict_failed :
  forall (K : Type) (HK : Label K) dx dt ms lsq ts (pos : list (K * (R * R))) ref m o bk v t w o',
  one_answer_per_pair dx -> one_answer_per_pair dt ->
  compute_cmv dx dt ms lsq ts pos ref m o bk = Ok ((v, t, w), o') -> ~ two_good (w_pair_flag w) ->
  v = Fin 0 /\ t = Fin 0 /\
  forall k, dget (to_dict w) k =
    if String.eqb k "allpairs" then Some (Some (DPairs (w_allpairs w)))
    else if String.eqb k "pair_flag" then Some (Some (DFlags (w_pair_flag w)))
    else if String.eqb k "flag" then Some (Some (DFlag ALLBAD))
    else if existsb (String.eqb k) ["corr_raw"; "corr_lag"; "pair_lag"; "pair_coh"; "pair_dists"; "wind_speed"; "wind_angle"; "method_data"]%string then Some None else None.
Proof. exact (@cmv_dict_failed). Qed.
Print Assumptions C105_cmv_dict_failed.

(** C105. any other run: the returned speed and direction, and one entry per pair in each of the per-pair lists; corr_raw and pair_coh are there if the delay estimator
    reports them *)
Theorem C105_cmv_dict :
  forall (K : Type) (HK : Label K) dx dt ms lsq ts (pos : list (K * (R * R))) ref m o bk v t w o',
  one_answer_per_pair dx -> one_answer_per_pair dt ->
  compute_cmv dx dt ms lsq ts pos ref m o bk = Ok ((v, t, w), o') -> two_good (w_pair_flag w) ->
  exists A B d lag cor dists md,
    Forall2 (fun p a => dget ts (fst p) = Some a) (w_allpairs w) A /\ Forall2 (fun p b => dget ts (snd p) = Some b) (w_allpairs w) B /\
    (if String.eqb (lower bk) "xcorr" then dx A B else dt A B) = Ok d /\
    dget (to_dict w) "wind_speed"%string = Some (Some (DNum v)) /\ dget (to_dict w) "wind_angle"%string = Some (Some (DNum t)) /\
    dget (to_dict w) "allpairs"%string = Some (Some (DPairs (w_allpairs w))) /\ dget (to_dict w) "flag"%string = Some (Some (DFlag (w_flag w))) /\
    dget (to_dict w) "pair_flag"%string = Some (Some (DFlags (w_pair_flag w))) /\ length (w_pair_flag w) = length (w_allpairs w) /\
    dget (to_dict w) "pair_lag"%string = Some (Some (DNums lag)) /\ length lag = length (w_allpairs w) /\ lag = M_cmv.d_delay d /\
    dget (to_dict w) "corr_lag"%string = Some (Some (DNums cor)) /\ length cor = length (w_allpairs w) /\ cor = M_cmv.d_peak d /\
    dget (to_dict w) "pair_dists"%string = Some (Some (DNums dists)) /\ length dists = length (w_allpairs w) /\
    dget (to_dict w) "corr_raw"%string = Some (option_map DNums (M_cmv.d_zero d)) /\ dget (to_dict w) "pair_coh"%string = Some (option_map DNums (d_coh d)) /\
    dget (to_dict w) "method_data"%string = Some (Some (DMethod md)) /\
    (lower m = "gagne"%string -> dkeys md = ["pcov"%string]) /\
    (lower m = "jamaly"%string -> exists velocity rq va vb,
       dkeys md = ["error_index"; "velocity"; "v60"; "v40"; "r_qc"; "var_s"; "r_corr"; "stderr_corr"; "ngood"]%string /\
       dget md "ngood"%string = Some (MCount (length velocity)) /\ dget md "velocity"%string = Some (MNums velocity) /\
       length velocity = length (filter (fun g => flag_eqb g GOOD) (w_pair_flag w)) /\
       dget md "r_qc"%string = Some (MNums rq) /\ length rq = length (w_allpairs w) /\
       dget md "var_s"%string = Some (MTwo va vb) /\ length va = length (w_allpairs w) /\ length vb = length (w_allpairs w)).
Proof. exact (@cmv_dict). Qed.
Print Assumptions C105_cmv_dict.

(** C105. the entries of method_data of a jamaly run are the figures of the fit under their own names *)
Theorem C105_dict_method :
  forall (K : Type) (w : windspeed K) f j, w_fit w = Some f -> w_method_data f = Some j ->
  exists md, dget (to_dict w) "method_data"%string = Some (Some (DMethod md)) /\
    dget md "v60"%string = Some (MNum (j_v60 j)) /\ dget md "v40"%string = Some (MNum (j_v40 j)) /\
    dget md "error_index"%string = Some (MNum (j_err j)) /\ dget md "velocity"%string = Some (MNums (j_velocity j)) /\
    dget md "r_corr"%string = Some (MNum (j_rcorr j)) /\ dget md "stderr_corr"%string = Some (MNum (j_stderr j)) /\
    dget md "ngood"%string = Some (MCount (j_ngood j)) /\ dget md "r_qc"%string = Some (MNums (map snd (j_qc j))) /\
    dget md "var_s"%string = Some (MTwo (map (fun q => fst (fst q)) (j_qc j)) (map (fun q => snd (fst q)) (j_qc j))).
Proof. exact (@dict_method). Qed.
Print Assumptions C105_dict_method.

(** C105. with the code's own estimators on gap-free tables or not: 'xcorr' runs carry no coherences, both kinds carry the zero-lag correlations *)
Theorem C105_cmv_dict_backend :
  forall (K : Type) (HK : Label K) ls win dtr ms lsq dt n ts (pos : list (K * (R * R))) ref m o bk v t w o',
  keeps_count ls ->
  cmv ls win dtr ms lsq dt n ts pos ref m o bk = Ok ((v, t, w), o') -> two_good (w_pair_flag w) ->
  (exists z, dget (to_dict w) "corr_raw"%string = Some (Some (DNums z))) /\
  (dget (to_dict w) "pair_coh"%string = Some None <-> lower bk = "xcorr"%string).
Proof. exact (@cmv_dict_backend). Qed.
Print Assumptions C105_cmv_dict_backend.

(** C105. one run of each kind: three sites with a motion of 10 m/s; a single site *)
Example C105_dict_example :
  (exists ms lsq v t w o, compute_cmv demo_backend demo_backend ms lsq demo_ts demo_pos RefNone "jamaly" None "xcorr" = Ok ((v, t, w), o) /\
     two_good (w_pair_flag w) /\ dget (to_dict w) "wind_speed"%string = Some (Some (DNum (Fin 10)))) /\
  (exists ms lsq v t w o, compute_cmv zero_backend zero_backend ms lsq demo_ts [(0%nat, (0, 0))] RefNone "jamaly" None "xcorr" = Ok ((v, t, w), o) /\
     ~ two_good (w_pair_flag w) /\ v = Fin 0 /\ dget (to_dict w) "wind_speed"%string = Some None).
Proof. exact (@dict_example). Qed.

