(** cmv.py: what the two fits return on any data, frozen field or not. *)
From Coq Require Import String Permutation.
From Verif Require Import Prelude PreludeFacts RealBase Fl RealStat M_spatial M_cmv Spec_spatial Spec_cmv P_cmv P_plane X_cmv_options X_cmv_pairs X_cmv_qc X_cmv_cascade X_cmv_motion.
Local Open Scope R_scope.

Section Used.
  Context {K : Type} `{HK : Label K}.
  Lemma used_lists (pos : list (K * (R * R))) : forall (pairs : list (K * K)) flags vecs lags,
    length vecs = length pairs -> length flags = length pairs -> length lags = length pairs ->
    (forall i p, nth_error pairs i = Some p -> exists s, separation pos p = Some s /\ nth_error vecs i = Some s) ->
    finite_delays flags lags ->
    good_only flags vecs = map fst (used_pairs pos pairs flags lags) /\
    good_only flags lags = map (fun p => Fin (snd p)) (used_pairs pos pairs flags lags).
  Proof.
    induction pairs as [|p ps IH]; intros [|f fs] [|s ss] [|l ls] L1 L2 L3 S F; try discriminate; [now split|].
    destruct (IH fs ss ls) as [I1 I2]; try (cbn in *; lia).
    { intros i q Hq. apply (S (Datatypes.S i) q Hq). }
    { intros i Hf. apply (F (Datatypes.S i) Hf). }
    destruct (S 0%nat p eq_refl) as (s0 & Hs & Es). cbn in Es. injection Es as ->.
    unfold good_only in *. cbn [combine filter used_pairs fst]. rewrite Hs.
    destruct f; cbn [is_good flag_eqb map snd]; auto.
    destruct (F 0%nat eq_refl) as (d & El). cbn in El. injection El as ->.
    cbn [map fst snd]. rewrite I1, I2. now split.
  Qed.

  Lemma used_in (pos : list (K * (R * R))) : forall (pairs : list (K * K)) flags lags q,
    In q (used_pairs pos pairs flags lags) ->
    exists i p, nth_error pairs i = Some p /\ nth_error flags i = Some GOOD /\ separation pos p = Some (fst q) /\
      nth_error lags i = Some (Fin (snd q)).
  Proof.
    induction pairs as [|p ps IH]; intros [|f fs] [|l ls] q I; try destruct I.
    cbn [used_pairs] in I.
    assert (T : In q (used_pairs pos ps fs ls) -> exists i p0, nth_error (p :: ps) i = Some p0 /\ nth_error (f :: fs) i = Some GOOD /\
      separation pos p0 = Some (fst q) /\ nth_error (l :: ls) i = Some (Fin (snd q))).
    { intro J. destruct (IH _ _ _ J) as (i & p0 & H). exists (Datatypes.S i), p0. exact H. }
    destruct f; auto. destruct (separation pos p) as [s|] eqn:Es; auto. destruct l; auto. destruct I as [<-|I]; auto.
    exists 0%nat, p. cbn. auto.
  Qed.

  Lemma used_count (pos : list (K * (R * R))) : forall (pairs : list (K * K)) flags vecs lags,
    length vecs = length pairs -> length flags = length pairs -> length lags = length pairs ->
    (forall i p, nth_error pairs i = Some p -> exists s, separation pos p = Some s /\ nth_error vecs i = Some s) ->
    finite_delays flags lags -> two_good flags -> (2 <= length (used_pairs pos pairs flags lags))%nat.
  Proof.
    intros pairs flags vecs lags L1 L2 L3 S F T. destruct (used_lists pos pairs flags vecs lags L1 L2 L3 S F) as [E _].
    apply (f_equal (@length _)) in E. rewrite map_length in E. rewrite <- E. apply two_good_count in T.
    unfold good_only. rewrite map_length.
    assert (C : forall (fl0 : list Flag) (vs : list (R * R)), length vs = length fl0 ->
      length (filter (fun p => is_good (fst p)) (combine fl0 vs)) = length (filter is_good fl0)).
    { clear. induction fl0 as [|f fs IH]; intros [|v vs] L; try discriminate; [reflexivity|]. cbn [combine filter fst].
      destruct (is_good f); cbn [length]; rewrite IH by (cbn in L; lia); reflexivity. }
    rewrite C by lia. lia.
  Qed.
End Used.

Lemma pair_velocity_used ps th : (forall p, In p ps -> snd p <> 0) ->
  pair_velocity (map (fun p => Fin (snd p)) ps) (map fst ps) th = map Fin (apparent_speeds ps th).
Proof.
  intro NZ. unfold pair_velocity, pol2rect, apparent_speeds. rewrite !Rmult_1_l. rewrite project_fin by apply unit_neq0. rewrite unit_len.
  induction ps as [|p ps IH]; [reflexivity|]. unfold map2 in *. cbn [map combine fst snd].
  rewrite fdiv_fin by (apply NZ; now left). cbn [drop_inf]. f_equal.
  - f_equal. field. apply NZ. now left.
  - apply IH. intros; apply NZ; now right.
Qed.

(*@ C89 Jamaly, on any data whose passing pairs have finite delays: no passing pair has delay 0, the reported
    velocities are the apparent speeds of the passing pairs along the direction chosen by the minimiser, which is
    handed their variance; speed is the magnitude of their median, the direction is turned by half a turn when the
    median is negative, the spread index is (60% quantile - 40% quantile) / median, and the result is flagged TREND
    exactly when the index exceeds 0.4 in magnitude (an infinite index counts, a NaN one does not). *)
Lemma jamaly_value : forall (K : Type) (HK : Label K) dx dt ms lsq ts (pos : list (K * (R * R))) ref m o bk v t w o' f,
  one_answer_per_pair dx -> one_answer_per_pair dt -> lower m = "jamaly"%string ->
  compute_cmv dx dt ms lsq ts pos ref m o bk = Ok ((v, t, w), o') -> w_fit w = Some f ->
  finite_delays (w_pair_flag w) (w_pair_lag f) ->
  let ps := used_pairs pos (w_allpairs w) (w_pair_flag w) (w_pair_lag f) in
  (2 <= length ps)%nat /\ (forall p, In p ps -> snd p <> 0) /\
  exists objective th a jm,
    (forall x, objective x = Fin (Rvar (apparent_speeds ps x))) /\ th = ms objective /\
    let med := median (apparent_speeds ps th) in
    v = Fin (Rabs med) /\ t = Fin a /\ 0 <= a < 2 * PI /\ polar (Rabs med) a = polar med th /\
    w_method_data f = Some jm /\ j_velocity jm = map Fin (apparent_speeds ps th) /\ j_ngood jm = length ps /\
    j_v60 jm = Fin (quantile (6 / 10) (apparent_speeds ps th)) /\ j_v40 jm = Fin (quantile (4 / 10) (apparent_speeds ps th)) /\
    j_err jm = fdiv (Fin (quantile (6 / 10) (apparent_speeds ps th) - quantile (4 / 10) (apparent_speeds ps th))) (Fin med) /\
    (w_flag w = TREND \/ w_flag w = GOOD) /\
    (w_flag w = TREND <-> below (Fin (4 / 10)) (fabs (j_err jm))).
Proof.
  intros K HK dx dt ms lsq ts pos ref m o bk v t w o' f Hx Ht Hm E Hf Fin0.
  destruct (cmv_facts dx dt ms lsq Hx Ht ts pos ref m o bk v t w o' E) as (d & vecs & rows & f0 & ov & flags & o0 & Km & V & Q & G & F & L1 & L2 & L3 & L4 & L5 & L6 & W & S & R).
  rewrite Hm in *. cbn [String.eqb Ascii.eqb Bool.eqb] in G, F. injection G as -> ->.
  apply finish_cases in F. destruct F as [(N & _ & _ & Ew)|(T & v0 & t0 & fg & md & Ef & En & Ew)]; [rewrite Ew in Hf; discriminate|].
  assert (Hf' : f = mkFit (d_delay d) (d_coh d) (d_zero d) (d_peak d) (project_angle vecs t) t v md) by (rewrite Ew in Hf; cbn [w_fit] in Hf; congruence).
  rewrite W in *. subst f. cbn [w_pair_lag w_method_data] in *.
  set (ps := used_pairs pos (w_allpairs w) f0 (d_delay d)). destruct (used_lists pos (w_allpairs w) f0 vecs (d_delay d)) as [G1 G2]; auto.
  assert (P2 : (2 <= length ps)%nat) by (apply (used_count pos _ _ vecs); auto).
  fold ps in G1, G2. rewrite G1, G2 in Ef. clear G1 G2.
  assert (KI : exists lo hi, dget o' "minvelocity"%string = Some lo /\ dget o' "maxvelocity"%string = Some hi).
  { destruct (proj2 (options_effective _ _ _ "minvelocity"%string V)) as [_ K1]. destruct (proj2 (options_effective _ _ _ "maxvelocity"%string V)) as [_ K2].
    destruct K1 as [lo Hlo]; [rewrite default_jamaly; cbn; discriminate|]. destruct K2 as [hi Hhi]; [rewrite default_jamaly; cbn; discriminate|]. eauto. }
  destruct KI as (lo & hi & Hlo & Hhi).
  assert (NZ : forall p, In p ps -> snd p <> 0).
  { intros q Hq X. destruct (used_in _ _ _ _ _ Hq) as (i & p & Hp & Hg & _ & Hl). rewrite X in Hl.
    destruct (nth_error rows i) as [r|] eqn:Er.
    - destruct (R i r Er) as (p1 & dl & pk & _ & _ & Hd & Ed & _). rewrite Hl in Hd. injection Hd as <-.
      destruct (qc_good_jamaly K HK o0 o' rows f0 lo hi i r V Hlo Hhi Q Er Hg) as (_ & Nd & _). contradiction.
    - apply nth_error_None in Er. assert (i < length (w_allpairs w))%nat by (apply nth_error_Some; congruence). lia. }
  split; [exact P2|]. split; [exact NZ|].
  set (lag := map (fun p => Fin (snd p)) ps) in *. set (seps := map fst ps) in *.
  assert (Ne : forall x, apparent_speeds ps x <> []) by (intros x X; apply (f_equal (@length _)) in X; unfold apparent_speeds in X; rewrite map_length in X; cbn in X; lia).
  assert (Vel : forall x, pair_velocity lag seps x = map Fin (apparent_speeds ps x)) by (intro x; now apply pair_velocity_used).
  exists (vel_variance lag seps), (ms (vel_variance lag seps)).
  unfold fit_jamaly in Ef. cbv zeta in Ef. set (th := ms (vel_variance lag seps)) in *. rewrite Vel, fin_part_map_Fin in Ef.
  rewrite !nan_reduce_ne in Ef by apply Ne. set (vs := apparent_speeds ps th) in *.
  destruct (normalised_fit (median vs) th) as (s' & a' & Nrm & Sp0 & Rng & Pl & Abs).
  exists a'.
  match type of Ef with (_, _, _, Some ?J) = _ => exists J; set (jm := J) in * end.
  assert (E1 : v0 = Fin (median vs)) by congruence. assert (E2 : t0 = Fin th) by congruence.
  assert (E3 : fg = if fltb (Fin 0.4) (fabs (j_err jm)) then TREND else GOOD) by (unfold jm; cbn [j_err]; congruence).
  assert (E4 : md = Some jm) by congruence.
  subst v0 t0. rewrite Nrm in En. rewrite <- Abs.
  assert (C6 : 0.6 = 6 / 10) by lra. assert (C4 : 0.4 = 4 / 10) by lra.
  split. { intro x. unfold vel_variance. rewrite Vel, fin_part_map_Fin, nan_reduce_ne by apply Ne. reflexivity. }
  split; [reflexivity|]. split; [congruence|]. split; [congruence|]. split; [exact Rng|]. split; [exact Pl|].
  split; [exact E4|]. unfold jm at 1 2 3 4 5. cbn [j_velocity j_ngood j_v60 j_v40 j_err]. split; [reflexivity|].
  split; [unfold seps; apply map_length|]. rewrite C6, C4. split; [reflexivity|]. split; [reflexivity|].
  split; [reflexivity|].
  rewrite Ew. cbn [w_flag]. rewrite E3, C4. unfold below. destruct (fltb _ _); split; auto; split; auto; discriminate.
Qed.

(*@ C89 Gagne, on any data whose passing pairs have finite delays: the least-squares routine is handed the residuals
    delay - separation . a; if it answers a <> 0 the motion returned is a / |a|^2: speed 1/|a|, direction of a;
    if it answers 0 both are NaN. *)
Lemma gagne_value : forall (K : Type) (HK : Label K) dx dt ms lsq ts (pos : list (K * (R * R))) ref m o bk v t w o' f,
  one_answer_per_pair dx -> one_answer_per_pair dt -> lower m = "gagne"%string ->
  compute_cmv dx dt ms lsq ts pos ref m o bk = Ok ((v, t, w), o') -> w_fit w = Some f ->
  finite_delays (w_pair_flag w) (w_pair_lag f) ->
  let ps := used_pairs pos (w_allpairs w) (w_pair_flag w) (w_pair_lag f) in
  (2 <= length ps)%nat /\ w_method_data f = None /\
  exists residuals,
    (forall a, residuals (fst a) (snd a) = map (fun p => Fin (snd p - inner (fst p) a)) ps) /\
    (forall a, lsq residuals = (Fin (fst a), Fin (snd a)) -> a <> (0, 0) ->
       exists ang, v = Fin (/ len a) /\ t = Fin ang /\ 0 <= ang < 2 * PI /\ polar (len a) ang = a) /\
    (lsq residuals = (Fin 0, Fin 0) -> v = Nan /\ t = Nan).
Proof.
  intros K HK dx dt ms lsq ts pos ref m o bk v t w o' f Hx Ht Hm E Hf Fin0.
  destruct (cmv_facts dx dt ms lsq Hx Ht ts pos ref m o bk v t w o' E) as (d & vecs & rows & f0 & ov & flags & o0 & Km & V & Q & G & F & L1 & L2 & L3 & L4 & L5 & L6 & W & S & R).
  rewrite Hm in *. cbn [String.eqb Ascii.eqb Bool.eqb] in G, F. clear G.
  apply finish_cases in F. destruct F as [(N & _ & _ & Ew)|(T & v0 & t0 & fg & md & Ef & En & Ew)]; [rewrite Ew in Hf; discriminate|].
  assert (Hf' : f = mkFit (d_delay d) (d_coh d) (d_zero d) (d_peak d) (project_angle vecs t) t v md) by (rewrite Ew in Hf; cbn [w_fit] in Hf; congruence).
  rewrite W in *. subst f. cbn [w_pair_lag w_method_data] in *.
  set (ps := used_pairs pos (w_allpairs w) flags (d_delay d)). destruct (used_lists pos (w_allpairs w) flags vecs (d_delay d)) as [G1 G2]; auto.
  split; [apply (used_count pos _ _ vecs); auto|].
  fold ps in G1, G2. rewrite G1, G2 in Ef. clear G1 G2.
  unfold fit_gagne in Ef. set (lag := map (fun p => Fin (snd p)) ps) in *. set (seps := map fst ps) in *.
  destruct (lsq (gagne_resid lag seps)) as [ax ay] eqn:Ea. cbv zeta in Ef.
  split; [congruence|]. exists (gagne_resid lag seps). split; [|split].
  - intro a. unfold gagne_resid, lag, seps. clear. induction ps as [|p ps IH]; [reflexivity|]. unfold map2 in *. cbn [map combine fst snd].
    rewrite IH. reflexivity.
  - intros a Hl Na. assert (H1 : ax = Fin (fst a)) by congruence. assert (H2 : ay = Fin (snd a)) by congruence. rewrite H1, H2 in Ef. cbn [fmul fadd] in Ef.
    pose proof (inner_vv a Na) as P. pose proof (len_pos a Na) as LP. pose proof (len_sq a) as SQ.
    change (fst a * fst a + snd a * snd a) with (inner a a) in Ef. rewrite fdiv_fin in Ef by lra. cbn [fmul magnitude_fl arctan2_fl] in Ef.
    set (x := 1 / inner a a * fst a) in *. set (y := 1 / inner a a * snd a) in *.
    assert (Nxy : (x, y) <> (0, 0)).
    { intro X. injection X as X1 X2. apply Na. unfold x, y in *. destruct a as [a1 a2]. cbn [fst snd] in *. f_equal.
      - apply Rmult_integral in X1. destruct X1 as [X1|X1]; [|exact X1]. exfalso. revert X1. apply Rgt_not_eq. apply Rdiv_lt_0_compat; lra.
      - apply Rmult_integral in X2. destruct X2 as [X2|X2]; [|exact X2]. exfalso. revert X2. apply Rgt_not_eq. apply Rdiv_lt_0_compat; lra. }
    assert (Lxy : len (x, y) = / len a).
    { pose proof (len_pos _ Nxy) as LP2. pose proof (len_sq (x, y)) as S2.
      assert (I2 : inner (x, y) (x, y) = / inner a a) by (unfold x, y; unfold inner at 1; cbn [fst snd]; unfold inner in *; field; lra).
      rewrite I2 in S2. rewrite <- SQ in S2.
      assert (IP : 0 < / len a) by (apply Rinv_0_lt_compat; lra).
      assert (SE : len (x, y) ^ 2 = (/ len a) ^ 2) by (rewrite S2; field; lra). nra. }
    assert (E1 : v0 = Fin (/ len a)) by (rewrite <- Lxy, <- magnitude_len; congruence).
    assert (E2 : t0 = Fin (arctan2 y x)) by congruence. subst v0 t0.
    destruct (normalised_fit (/ len a) (arctan2 y x)) as (s' & a' & Nrm & Sp0 & Rng & Pl & Abs). rewrite Nrm in En.
    assert (IP : 0 < / len a) by (apply Rinv_0_lt_compat; lra). rewrite Rabs_pos_eq in Abs by lra. subst s'.
    exists a'. split; [congruence|]. split; [congruence|]. split; [exact Rng|].
    destruct (cos_sin_atan2 x y Nxy) as [C Sn]. unfold polar in *. rewrite C, Sn, Lxy in Pl. injection Pl as P1 P2.
    assert (C1 : cos a' = x / / len a) by (apply Rmult_eq_reg_l with (/ len a); lra).
    assert (C2 : sin a' = y / / len a) by (apply Rmult_eq_reg_l with (/ len a); lra).
    rewrite C1, C2. unfold x, y. rewrite <- SQ. destruct a as [a1 a2]. cbn [fst snd]. f_equal; field; lra.
  - intro Hl. assert (H1 : ax = Fin 0) by congruence. assert (H2 : ay = Fin 0) by congruence. rewrite H1, H2 in Ef. cbn [fmul fadd] in Ef.
    replace (0 * 0 + 0 * 0) with 0 in Ef by ring. rewrite fdiv_zero in Ef. unfold sgn_inf in Ef. rewrite Rltb_true in Ef by lra.
    cbn [fmul] in Ef. unfold sgn_inf in Ef. rewrite !Rltb_false in Ef by lra. cbn [magnitude_fl arctan2_fl] in Ef.
    assert (E1 : v0 = Nan) by congruence. assert (E2 : t0 = Nan) by congruence. subst. cbn in En. now inversion En.
Qed.

(** ** The run of X_cmv_motion with a minimiser that answers a quarter turn *)
Lemma demo_used m : m = "jamaly"%string \/ m = "gagne"%string ->
  used_pairs demo_pos [(0, 0); (0, 1); (0, 2); (1, 1); (1, 2); (2, 2)]%nat (demo_flags m) (d_delay demo_delay) =
  [((100 - 0, 100 - 0), 10); ((100 - 0, -100 - 0), 10)].
Proof. intros [->| ->]; reflexivity. Qed.

Lemma demo_finite m : m = "jamaly"%string \/ m = "gagne"%string -> finite_delays (demo_flags m) (d_delay demo_delay).
Proof.
  intros Hm i Hg. destruct Hm as [->| ->]; destruct i as [|[|[|[|[|[|i]]]]]]; cbn in Hg; try discriminate; try (eexists; reflexivity); destruct i; discriminate.
Qed.

Lemma Rfloor_lt1 x : 0 <= x < 1 -> Rfloor x = 0%nat.
Proof.
  intros [A B]. destruct (Rfloor_spec x A) as [C D]. destruct (Rfloor x) as [|n]; [reflexivity|]. rewrite S_INR in C. pose proof (pos_INR n). lra.
Qed.

(*@ex C89 Two sites disagree on the direction tried: speed 0, infinite spread, TREND. *)
Lemma jamaly_value_example : exists ms lsq v t w o f,
  compute_cmv demo_backend demo_backend ms lsq demo_ts demo_pos RefNone "jamaly" None "xcorr" = Ok ((v, t, w), o) /\ w_fit w = Some f /\
  finite_delays (w_pair_flag w) (w_pair_lag f) /\ v = Fin 0 /\ w_flag w = TREND.
Proof.
  exists (fun _ => PI / 2), (fun _ => (Fin 0, Fin 0)).
  destruct (demo_run "jamaly" (fun _ => PI / 2) (fun _ => (Fin 0, Fin 0)) (or_introl eq_refl)) as (v & t & w & o & f & E & Hf & Ep & Efl & El).
  exists v, t, w, o, f.
  assert (Fd : finite_delays (w_pair_flag w) (w_pair_lag f)) by (rewrite Efl, El; apply demo_finite; auto).
  split; [exact E|]. split; [exact Hf|]. split; [exact Fd|].
  assert (Lm : lower "jamaly" = "jamaly"%string) by reflexivity.
  destruct (jamaly_value _ _ _ _ _ _ _ _ _ _ _ _ _ _ _ _ _ demo_backend_ok demo_backend_ok Lm E Hf Fd) as (_ & _ & ob & th & a & jm & _ & Th & H).
  cbv zeta in H. destruct H as (Hv & _ & _ & _ & _ & _ & _ & _ & _ & He & _ & Hw).
  rewrite Ep, Efl, El, demo_used in Hv, He by auto. rewrite Th in Hv, He.
  assert (Sp : apparent_speeds [((100 - 0, 100 - 0), 10); ((100 - 0, -100 - 0), 10)] (PI / 2) = [10; -10]).
  { unfold apparent_speeds, inner. cbn [map fst snd]. rewrite cos_PI2, sin_PI2. f_equal; [field|f_equal; field]. }
  rewrite Sp in Hv, He.
  assert (So : rsort [10; -10] = [-10; 10]) by (unfold rsort, sort_by; cbn; rewrite Rleb_false by lra; reflexivity).
  assert (Md : median [10; -10] = 0) by (unfold median; rewrite So; cbn; lra).
  assert (Qu : forall q, 0 <= q < 1 -> quantile q [10; -10] = -10 + q * 20).
  { intros q Hq. unfold quantile. rewrite So. cbn [length Nat.sub INR]. rewrite Rmult_1_r. rewrite Rfloor_lt1 by exact Hq. cbn [Nat.add Nat.min nth INR]. lra. }
  rewrite Md in Hv, He. rewrite !Qu in He by lra. rewrite Rabs_R0 in Hv.
  split; [exact Hv|]. apply Hw. rewrite He. rewrite fdiv_zero. unfold sgn_inf. rewrite Rltb_true by lra. reflexivity.
Qed.

(*@ex C89 *)
Lemma gagne_value_example : exists ms lsq v t w o f,
  compute_cmv demo_backend demo_backend ms lsq demo_ts demo_pos RefNone "gagne" None "xcorr" = Ok ((v, t, w), o) /\ w_fit w = Some f /\
  finite_delays (w_pair_flag w) (w_pair_lag f) /\ (exists a, t = Fin a) /\ v = Fin (1 / 5).
Proof.
  exists (fun _ => 0), (fun _ => (Fin 3, Fin 4)).
  destruct (demo_run "gagne" (fun _ => 0) (fun _ => (Fin 3, Fin 4)) (or_intror eq_refl)) as (v & t & w & o & f & E & Hf & Ep & Efl & El).
  exists v, t, w, o, f.
  assert (Fd : finite_delays (w_pair_flag w) (w_pair_lag f)) by (rewrite Efl, El; apply demo_finite; auto).
  split; [exact E|]. split; [exact Hf|]. split; [exact Fd|].
  assert (Lm : lower "gagne" = "gagne"%string) by reflexivity.
  destruct (gagne_value _ _ _ _ _ _ _ _ _ _ _ _ _ _ _ _ _ demo_backend_ok demo_backend_ok Lm E Hf Fd) as (_ & _ & rs & _ & H & _).
  destruct (H (3, 4) eq_refl) as (ang & Hv & Hw & _); [intro X; injection X as X1 X2; lra|].
  split; [eauto|]. rewrite Hv. f_equal.
  assert (L5 : len (3, 4) = 5).
  { unfold len, inner. cbn [fst snd]. replace (3 * 3 + 4 * 4) with (5 ^ 2) by lra. rewrite sqrt_pow2; lra. }
  rewrite L5. lra.
Qed.
