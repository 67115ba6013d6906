(** cmv.py: the dictionary of a result (C105). *)
From Coq Require Import String.
From Verif Require Import Prelude PreludeFacts RealBase Fl RealStat M_spatial M_cmv M_cmv_dict M_link Spec_spatial Spec_welch Spec_cmv Spec_cmv_stats P_cmv X_cmv_options X_cmv_pairs X_cmv_qc X_cmv_cascade X_cmv_motion X_cmv_fit X_cmv_rows X_cmv_stats X_link_delay.
From Coq Require Import Lra.
From Verif Require M_cmv M_signal_corr.
Local Open Scope R_scope.

(*@ C105 the dictionary of every result has the same eleven entries in the same order, each name once *)
Lemma to_dict_keys : forall (K : Type) (w : windspeed K),
  dkeys (to_dict w) = ["corr_raw"; "corr_lag"; "allpairs"; "pair_lag"; "pair_coh"; "pair_dists"; "wind_speed"; "wind_angle"; "pair_flag"; "flag"; "method_data"]%string /\
  NoDup (dkeys (to_dict w)).
Proof.
  intros K w. assert (E : dkeys (to_dict w) = ["corr_raw"; "corr_lag"; "allpairs"; "pair_lag"; "pair_coh"; "pair_dists"; "wind_speed"; "wind_angle"; "pair_flag"; "flag"; "method_data"]%string) by reflexivity.
  split; [exact E|]. rewrite E. repeat (constructor; [cbn; intuition discriminate|]). constructor.
Qed.

Lemma map_snd_eq {A B C : Type} (l l' : list (A * B * C)) :
  map snd l = map snd l' -> map (fun q => fst (fst q)) l = map (fun q => fst (fst q)) l' -> map (fun q => snd (fst q)) l = map (fun q => snd (fst q)) l' -> l = l'.
Proof.
  revert l'. induction l as [|[[a b] c] l IH]; intros [|[[a' b'] c'] l']; cbn; try discriminate; auto. intros E1 E2 E3.
  injection E1 as -> E1. injection E2 as -> E2. injection E3 as -> E3. f_equal. now apply IH.
Qed.

Lemma project_len vs d : length (project_vectors vs d) = length vs.
Proof. unfold project_vectors. destruct (unit_vec d). apply map_length. Qed.

(*@ C105 nothing is lost: results with equal dictionaries are equal *)
Lemma to_dict_faithful : forall (K : Type) (w w' : windspeed K), to_dict w = to_dict w' -> w = w'.
Proof.
  intros K [fg pf ap fit] [fg' pf' ap' fit'] E. unfold to_dict in E. cbn [w_flag w_pair_flag w_allpairs w_fit] in E.
  destruct fit as [[pl pc cr cl pd wa ws md]|], fit' as [[pl' pc' cr' cl' pd' wa' ws' md']|]; cbn [w_pair_lag w_pair_coh w_corr_raw w_corr_lag w_pair_dists w_wind_angle w_wind_speed w_method_data] in E; try discriminate.
  - assert (Om : forall o o' : option (list fl), option_map (@DNums K) o = option_map DNums o' -> o = o') by (intros [?|] [?|]; cbn; congruence).
    injection E as E1 E2 E3 E4 E5 E6 E7 E8 E9 E10 E11. apply Om in E1. apply Om in E5. subst.
    assert (md = md'); [|congruence]. destruct md as [[a b c d e f g h]|], md' as [[a' b' c' d' e' f' g' h']|]; cbn in E11; try discriminate; [|reflexivity].
    injection E11 as -> -> -> -> Q1 Q2 Q3 -> -> ->. f_equal. f_equal. now apply map_snd_eq.
  - injection E as -> -> ->. reflexivity.
Qed.

(*@ C105 a run with fewer than two passing pairs: exactly the pairs, their flags and the overall flag (ALLBAD) are there. In particular wind_speed and wind_angle are
    None although the run returned 0 and 0 *)
Lemma cmv_dict_failed : forall (K : Type) (HK : Label K) dx dt ms lsq ts (pos : list (K * (R * R))) ref m o bk v t w o',
  one_answer_per_pair dx -> one_answer_per_pair dt ->
  compute_cmv dx dt ms lsq ts pos ref m o bk = Ok ((v, t, w), o') -> ~ two_good (w_pair_flag w) ->
  v = Fin 0 /\ t = Fin 0 /\
  forall k, dget (to_dict w) k =
    if String.eqb k "allpairs" then Some (Some (DPairs (w_allpairs w)))
    else if String.eqb k "pair_flag" then Some (Some (DFlags (w_pair_flag w)))
    else if String.eqb k "flag" then Some (Some (DFlag ALLBAD))
    else if existsb (String.eqb k) ["corr_raw"; "corr_lag"; "pair_lag"; "pair_coh"; "pair_dists"; "wind_speed"; "wind_angle"; "method_data"]%string then Some None else None.
Proof.
  intros K HK dx dt ms lsq ts pos ref m o bk v t w o' Hx Ht E N.
  destruct (cmv_failure_exit _ _ _ _ _ _ _ _ _ _ _ _ _ _ _ _ Hx Ht E) as (_ & F & G). apply F in N. destruct (G N) as (-> & -> & Fl). split; [reflexivity|]. split; [reflexivity|].
  intro k. unfold to_dict. rewrite N, Fl. cbv zeta. change (@lab_eqb string label_string) with String.eqb. cbn [dget lab_eqb label_string].
  repeat match goal with |- (if String.eqb ?c k then _ else _) = _ => destruct (String.eqb_spec c k) as [<-|?]; [reflexivity|] end.
  repeat match goal with H : ?c <> k |- _ => rewrite (proj2 (String.eqb_neq k c)) by congruence; clear H end.
  cbn [existsb]. repeat match goal with H : ?c <> k |- _ => rewrite (proj2 (String.eqb_neq k c)) by congruence; clear H end. reflexivity.
Qed.

(*@ C105 any other run: the returned speed and direction, and one entry per pair in each of the per-pair lists; corr_raw and pair_coh are there if the delay estimator
    reports them *)
Lemma cmv_dict : forall (K : Type) (HK : Label K) dx dt ms lsq ts (pos : list (K * (R * R))) ref m o bk v t w o',
  one_answer_per_pair dx -> one_answer_per_pair dt ->
  compute_cmv dx dt ms lsq ts pos ref m o bk = Ok ((v, t, w), o') -> two_good (w_pair_flag w) ->
  exists A B d lag cor dists md,
    Forall2 (fun p a => dget ts (fst p) = Some a) (w_allpairs w) A /\ Forall2 (fun p b => dget ts (snd p) = Some b) (w_allpairs w) B /\
    (if String.eqb (lower bk) "xcorr" then dx A B else dt A B) = Ok d /\
    dget (to_dict w) "wind_speed"%string = Some (Some (DNum v)) /\ dget (to_dict w) "wind_angle"%string = Some (Some (DNum t)) /\
    dget (to_dict w) "allpairs"%string = Some (Some (DPairs (w_allpairs w))) /\ dget (to_dict w) "flag"%string = Some (Some (DFlag (w_flag w))) /\
    dget (to_dict w) "pair_flag"%string = Some (Some (DFlags (w_pair_flag w))) /\ length (w_pair_flag w) = length (w_allpairs w) /\
    dget (to_dict w) "pair_lag"%string = Some (Some (DNums lag)) /\ length lag = length (w_allpairs w) /\ lag = M_cmv.d_delay d /\
    dget (to_dict w) "corr_lag"%string = Some (Some (DNums cor)) /\ length cor = length (w_allpairs w) /\ cor = M_cmv.d_peak d /\
    dget (to_dict w) "pair_dists"%string = Some (Some (DNums dists)) /\ length dists = length (w_allpairs w) /\
    dget (to_dict w) "corr_raw"%string = Some (option_map DNums (M_cmv.d_zero d)) /\ dget (to_dict w) "pair_coh"%string = Some (option_map DNums (d_coh d)) /\
    dget (to_dict w) "method_data"%string = Some (Some (DMethod md)) /\
    (lower m = "gagne"%string -> dkeys md = ["pcov"%string]) /\
    (lower m = "jamaly"%string -> exists velocity rq va vb,
       dkeys md = ["error_index"; "velocity"; "v60"; "v40"; "r_qc"; "var_s"; "r_corr"; "stderr_corr"; "ngood"]%string /\
       dget md "ngood"%string = Some (MCount (length velocity)) /\ dget md "velocity"%string = Some (MNums velocity) /\
       length velocity = length (filter (fun g => flag_eqb g GOOD) (w_pair_flag w)) /\
       dget md "r_qc"%string = Some (MNums rq) /\ length rq = length (w_allpairs w) /\
       dget md "var_s"%string = Some (MTwo va vb) /\ length va = length (w_allpairs w) /\ length vb = length (w_allpairs w)).
Proof.
  intros K HK dx dt ms lsq ts pos ref m o bk v t w o' Hx Ht E TG.
  destruct (cmv_failure_exit _ _ _ _ _ _ _ _ _ _ _ _ _ _ _ _ Hx Ht E) as (LF & _ & _).
  pose proof E as E0. apply compute_cmv_inv in E. destruct E as (A & B & d & Pb & Pa & flags0 & overall & flags & E). cbv zeta in E.
  destruct E as (Km & Bk & NE & EA & EB & ED & EPb & EPa & EV & EQ & EG & EF).
  pose proof (finish_pairs _ _ _ _ _ _ _ _ _ _ _ _ EF) as [EP EFl].
  set (pairs := get_pairs _ _ _) in *. set (vecs := map2 _ Pb Pa) in *. set (rows := map row_of _) in *.
  pose proof (mapM_length _ _ _ EA) as LA. pose proof (mapM_length _ _ _ EB) as LB.
  pose proof (mapM_length _ _ _ EPa) as LPa. pose proof (mapM_length _ _ _ EPb) as LPb.
  assert (LD : length (M_cmv.d_delay d) = length A /\ length (M_cmv.d_peak d) = length A /\ length (M_cmv.d_mean d) = length A).
  { destruct (String.eqb (lower bk) "xcorr"); [apply (Hx A B d)|apply (Ht A B d)]; auto; congruence. }
  destruct LD as (L1 & L2 & L3).
  assert (LV : length vecs = length pairs) by (unfold vecs; rewrite map2_length by congruence; congruence).
  assert (LR : length rows = length pairs).
  { unfold rows. rewrite map_length, !combine_length. lia. }
  apply finish_cases in EF. destruct EF as [(N & _ & _ & Ew)|(_ & v0 & t0 & fg & md & Ef & _ & Ew)]; [rewrite EFl in TG; contradiction|].
  exists A, B, d, (M_cmv.d_delay d), (M_cmv.d_peak d), (project_angle vecs t), (method_dict md).
  rewrite EP. split; [now apply lookups|]. split; [now apply lookups|]. split; [exact ED|].
  rewrite Ew at 1 2. split; [reflexivity|]. split; [reflexivity|]. rewrite <- EP.
  assert (D : forall k, dget (to_dict w) k = dget (to_dict (mkWind fg flags pairs (Some (mkFit (M_cmv.d_delay d) (d_coh d) (M_cmv.d_zero d) (M_cmv.d_peak d) (project_angle vecs t) t v md)))) k) by (intro k; now rewrite <- Ew).
  rewrite !D. split; [rewrite EP; reflexivity|]. split; [rewrite Ew; reflexivity|]. split; [rewrite EFl; reflexivity|]. split; [exact LF|].
  rewrite EP. split; [reflexivity|]. split; [congruence|]. split; [reflexivity|]. split; [reflexivity|]. split; [congruence|]. split; [reflexivity|].
  split; [reflexivity|]. split.
  { unfold project_angle. destruct t; [rewrite project_len; exact LV|now rewrite map_length..]. }
  split; [reflexivity|]. split; [reflexivity|]. split; [reflexivity|]. split; intro Hm; rewrite Hm in Ef; cbn [String.eqb Ascii.eqb Bool.eqb] in Ef.
  - unfold fit_gagne in Ef. destruct (lsq _) as [ax ay]. cbv zeta in Ef. injection Ef as _ _ _ <-. reflexivity.
  - unfold fit_jamaly in Ef. cbv zeta in Ef. injection Ef as _ _ _ <-. unfold method_dict.
    cbn [j_err j_velocity j_v60 j_v40 j_qc j_rcorr j_stderr j_ngood].
    do 4 eexists. split; [reflexivity|]. 
    assert (LG : forall (X : Type) (l : list X), length l = length flags -> length (good_only flags l) = length (filter (fun g => flag_eqb g GOOD) flags)).
    { clear. intros X. induction flags as [|g fs IH]; intros [|x l] L; try discriminate; [reflexivity|]. injection L as L. unfold good_only in *. cbn [combine filter]. unfold is_good at 1. cbn [fst].
      destruct (flag_eqb g GOOD); cbn [map length]; rewrite IH; auto. }
    assert (LFl : length flags = length pairs) by congruence.
    assert (LVl : forall th, length (pair_velocity (good_only flags (M_cmv.d_delay d)) (good_only flags vecs) th) = length (filter (fun g => flag_eqb g GOOD) flags)).
    { intro th. unfold pair_velocity. rewrite map_length, map2_length. { rewrite project_len. apply LG. congruence. }
      rewrite project_len. rewrite !LG by congruence. reflexivity. }
    split; [|split; [reflexivity|split; [rewrite EFl; apply LVl|split; [reflexivity|split; [rewrite map_length; unfold qc_figures; rewrite map_length; exact LR|split; [reflexivity|]]]]]].
    + rewrite LVl. cbn. rewrite LG by congruence. reflexivity.
    + unfold qc_figures. rewrite !map_length. auto.
Qed.

(*@ C105 the entries of method_data of a jamaly run are the figures of the fit under their own names *)
Lemma dict_method : forall (K : Type) (w : windspeed K) f j, w_fit w = Some f -> w_method_data f = Some j ->
  exists md, dget (to_dict w) "method_data"%string = Some (Some (DMethod md)) /\
    dget md "v60"%string = Some (MNum (j_v60 j)) /\ dget md "v40"%string = Some (MNum (j_v40 j)) /\
    dget md "error_index"%string = Some (MNum (j_err j)) /\ dget md "velocity"%string = Some (MNums (j_velocity j)) /\
    dget md "r_corr"%string = Some (MNum (j_rcorr j)) /\ dget md "stderr_corr"%string = Some (MNum (j_stderr j)) /\
    dget md "ngood"%string = Some (MCount (j_ngood j)) /\ dget md "r_qc"%string = Some (MNums (map snd (j_qc j))) /\
    dget md "var_s"%string = Some (MTwo (map (fun q => fst (fst q)) (j_qc j)) (map (fun q => snd (fst q)) (j_qc j))).
Proof.
  intros K w f j Ef Ej. exists (method_dict (Some j)). unfold to_dict. rewrite Ef, <- Ej. repeat (split; [reflexivity|]).
  rewrite Ej. repeat split; reflexivity.
Qed.

(*@ C105 with the code's own estimators on gap-free tables or not: 'xcorr' runs carry no coherences, both kinds carry the zero-lag correlations *)
Lemma cmv_dict_backend : forall (K : Type) (HK : Label K) ls win dtr ms lsq dt n ts (pos : list (K * (R * R))) ref m o bk v t w o',
  keeps_count ls ->
  cmv ls win dtr ms lsq dt n ts pos ref m o bk = Ok ((v, t, w), o') -> two_good (w_pair_flag w) ->
  (exists z, dget (to_dict w) "corr_raw"%string = Some (Some (DNums z))) /\
  (dget (to_dict w) "pair_coh"%string = Some None <-> lower bk = "xcorr"%string).
Proof.
  intros K HK ls win dtr ms lsq dt n ts pos ref m o bk v t w o' KC E TG. unfold cmv in E.
  destruct (backends_answer dt n ls win dtr) as [Hx Ht]. specialize (Ht KC).
  destruct (cmv_dict _ _ _ _ _ _ _ _ _ _ _ _ _ _ _ _ Hx Ht E TG) as (A & B & d & lag & cor & dists & md & _ & _ & ED & _ & _ & _ & _ & _ & _ & _ & _ & _ & _ & _ & _ & _ & _ & CR & PC & _).
  rewrite CR, PC. destruct (String.eqb_spec (lower bk) "xcorr") as [Eb|Eb].
  - unfold xcorr_backend in ED. set (ps := usable_pairs n A B) in *.
    destruct (M_signal_corr.compute_delays dt n n (map fst ps) (map snd ps) "loop" "coeff") as [D|] eqn:Q; [|discriminate]. cbn [rbind] in ED.
    assert (Fz : exists z, M_signal_corr.d_zero D = M_signal_corr.Flat z).
    { unfold M_signal_corr.compute_delays in Q. destruct (Nat.ltb n 2); [discriminate|]. destruct (M_signal_corr.scale_rows _ _ _ _) as [[[i1 o1] sc]|]; [|discriminate].
      cbn [rbind] in Q. change (String.eqb "loop" "loop") with true in Q. cbv iota zeta in Q.
      destruct i1 as [|i0 i1]; [discriminate|]. destruct o1 as [|o0 o1]; [discriminate|].
      destruct (M_signal_corr.loop_rows _ _ _) as [rows|]; [|discriminate]. cbn [rbind] in Q.
      destruct (M_signal_corr.mul_inplace _ _) as [pk|]; [|discriminate]. cbn [rbind] in Q.
      destruct (M_signal_corr.mul_inplace _ _) as [mn|]; [|discriminate]. cbn [rbind] in Q.
      destruct (M_signal_corr.mul_inplace _ _) as [zr|]; [|discriminate]. cbn [rbind] in Q. injection Q as <-. eexists. reflexivity. }
    destruct Fz as [z Fz]. rewrite Fz in ED. injection ED as <-. cbn [M_cmv.d_zero d_coh option_map]. split; [eauto|]. tauto.
  - unfold tf_backend in ED. destruct (M_signal_tf.compute_delays_tf _ _ _ _ _ _ _ _ _ _ _ _ _ _) as [[delay ex]|]; [|discriminate]. cbn [rbind] in ED.
    destruct (M_signal_tf.te_xcorr ex) as [[[pk mn] zr]|]; [|discriminate]. injection ED as <-. cbn [M_cmv.d_zero d_coh option_map]. split; [eauto|]. split; [discriminate|contradiction].
Qed.

(*@ex C105 one run of each kind: three sites with a motion of 10 m/s; a single site *)
Lemma dict_example :
  (exists ms lsq v t w o, compute_cmv demo_backend demo_backend ms lsq demo_ts demo_pos RefNone "jamaly" None "xcorr" = Ok ((v, t, w), o) /\
     two_good (w_pair_flag w) /\ dget (to_dict w) "wind_speed"%string = Some (Some (DNum (Fin 10)))) /\
  (exists ms lsq v t w o, compute_cmv zero_backend zero_backend ms lsq demo_ts [(0%nat, (0, 0))] RefNone "jamaly" None "xcorr" = Ok ((v, t, w), o) /\
     ~ two_good (w_pair_flag w) /\ v = Fin 0 /\ dget (to_dict w) "wind_speed"%string = Some None).
Proof.
  split.
  - destruct constant_motion_refuted as (ms & lsq & v & t & w & o & f & jm & E & Hf & _ & Hv & _). exists ms, lsq, v, t, w, o. split; [exact E|].
    destruct (cmv_failure_exit _ _ _ _ _ _ _ _ _ _ _ _ _ _ _ _ demo_backend_ok demo_backend_ok E) as (_ & F & _).
    assert (TG : two_good (w_pair_flag w)) by (destruct (Classical_Prop.classic (two_good (w_pair_flag w))) as [|N]; [assumption|]; apply F in N; congruence). split; [exact TG|].
    destruct (cmv_dict _ _ _ _ _ _ _ _ _ _ _ _ _ _ _ _ demo_backend_ok demo_backend_ok E TG) as (A & B & d & lag & cor & dists & md & _ & _ & _ & W & _). rewrite W, Hv. reflexivity.
  - destruct exits_example as (_ & _ & _ & ms & lsq & v & t & w & o & E & Nf). exists ms, lsq, v, t, w, o. split; [exact E|].
    destruct (cmv_failure_exit _ _ _ _ _ _ _ _ _ _ _ _ _ _ _ _ zero_backend_ok zero_backend_ok E) as (_ & F & _).
    assert (TG : ~ two_good (w_pair_flag w)) by now apply F. split; [exact TG|].
    destruct (cmv_dict_failed _ _ _ _ _ _ _ _ _ _ _ _ _ _ _ _ zero_backend_ok zero_backend_ok E TG) as (Hv & _ & D). split; [exact Hv|]. rewrite D. reflexivity.
Qed.
