(** stats.py: the variability metrics with a number of timesteps that need not be whole. *)
From Verif Require Import Prelude RealBase Fl RealStat M_spatial M_stats Spec_stats P_resample P_stats X_spatial_zone X_stats_vs X_stats_vi M_stats_tau.
Local Open Scope R_scope.

Lemma py_int_whole z : py_int (IZR z) = z.
Proof.
  destruct (Z_le_gt_dec 0 z) as [H|H]; [now apply py_int_IZR|].
  assert (N : IZR z < 0) by (apply (IZR_lt z 0); lia). destruct (py_int_neg (IZR z) N) as [A B].
  apply le_IZR in A. rewrite <- (plus_IZR z 1) in B. apply lt_IZR in B. lia.
Qed.
Lemma diff_whole strict z : diff_periods strict (IZR z) = Ok z.
Proof. unfold diff_periods. rewrite py_int_whole, Reqb_true by reflexivity. reflexivity. Qed.
Lemma diff_fraction strict tau : (forall z, tau <> IZR z) -> diff_periods strict tau = if strict then Err ValueError else Ok (py_int tau).
Proof. intro F. unfold diff_periods. rewrite Reqb_false; [reflexivity|]. intro E. now apply (F (py_int tau)). Qed.
Lemma ltb_IZR n : Rltb 1 (IZR n) = (1 <? n)%Z.
Proof.
  destruct (Z.ltb_spec 1 n) as [H|H].
  - apply Rltb_true. now apply (IZR_lt 1).
  - apply Rltb_false. now apply (IZR_le n 1).
Qed.

(*@ C119 A whole number given as a float means what the integer means, for all three metrics. *)
Lemma whole_tau : forall strict n,
  (forall s mavg pct, variability_score_tau strict s (IZR n) mavg pct = variability_score s n mavg pct) /\
  (forall g cs norm, variability_index_tau g cs (IZR n) norm = variability_index g cs n norm) /\
  (forall g mavg pct, darr_tau strict g (IZR n) mavg pct = darr g n mavg pct).
Proof.
  intros strict n. split; [|split].
  - intros s mavg pct. unfold variability_score_tau, variability_score. rewrite ltb_IZR, diff_whole. reflexivity.
  - intros [g|] cs norm; [|reflexivity]. unfold variability_index_tau, variability_index. rewrite ltb_IZR. reflexivity.
  - intros [g|] mavg pct; [|reflexivity]. unfold darr_tau, darr. rewrite ltb_IZR, diff_whole. reflexivity.
Qed.

Lemma average_binned tau s0 s dt w : median_step s0 dt -> (0 < w)%Z -> IZR w <= tau * dt < IZR w + 1 -> s <> [] ->
  exists rs, average_tau tau (index_step (stamps s0)) s = Ok rs /\ binned w s rs.
Proof.
  intros M Hw B N. apply median_step_iff in M. rewrite M. unfold average_tau. rewrite (py_int_eq _ w) by (easy || lia).
  now apply resample_binned.
Qed.
Lemma median_nonempty s dt : median_step s dt -> s <> [].
Proof. intros [L _] ->. cbn in L. lia. Qed.

(*@ C119 Averaging over any tau > 1, whole or not: the bins are the whole seconds in tau median steps, and the
    metric is that of the averaged series with one-sample ramps. *)
Lemma fractional_average : forall strict s dt tau w, 1 < tau -> median_step s dt -> (0 < w)%Z -> IZR w <= tau * dt < IZR w + 1 ->
  exists rs, binned w s rs /\
    (forall pct, variability_score_tau strict s tau true pct = variability_score rs 1 false pct) /\
    (forall pct, darr_tau strict (Pandas s) tau true pct = darr (Pandas rs) 1 false pct) /\
    (forall cs norm, cs <> [] -> exists rc, binned w cs rc /\
       variability_index_tau (Pandas s) cs tau norm = variability_index (Pandas rs) rc 1 norm).
Proof.
  intros strict s dt tau w Ht M Hw B. destruct (average_binned tau s s dt w M Hw B (median_nonempty _ _ M)) as (rs & E & Bn).
  exists rs. split; [exact Bn|]. split; [|split].
  - intro pct. unfold variability_score_tau. rewrite (Rltb_true _ _ Ht), E. reflexivity.
  - intro pct. unfold darr_tau. rewrite (Rltb_true _ _ Ht), E. reflexivity.
  - intros cs norm N. destruct (average_binned tau s cs dt w M Hw B N) as (rc & Ec & Bc). exists rc. split; [exact Bc|].
    unfold variability_index_tau. rewrite (Rltb_true _ _ Ht), E, Ec. reflexivity.
Qed.

(*@ C119 When averaging is asked for it fails exactly so: ValueError with fewer than two samples, ZeroDivisionError when
    tau steps are less than a second. *)
Lemma fractional_failure : forall strict s tau, 1 < tau ->
  ((length s < 2)%nat -> forall pct cs norm,
     variability_score_tau strict s tau true pct = Err ValueError /\ darr_tau strict (Pandas s) tau true pct = Err ValueError /\
     variability_index_tau (Pandas s) cs tau norm = Err ValueError) /\
  (forall dt, median_step s dt -> 0 <= tau * dt < 1 -> forall pct cs norm,
     variability_score_tau strict s tau true pct = Err ZeroDivisionError /\
     darr_tau strict (Pandas s) tau true pct = Err ZeroDivisionError /\
     variability_index_tau (Pandas s) cs tau norm = Err ZeroDivisionError).
Proof.
  intros strict s tau Ht. split.
  - intros L pct cs norm. assert (I : index_step (stamps s) = None).
    { destruct (index_step (stamps s)) as [dt|] eqn:E; [|reflexivity]. apply median_step_iff in E. destruct E as [E _]. lia. }
    unfold variability_score_tau, darr_tau, variability_index_tau. rewrite (Rltb_true _ _ Ht), I. repeat split; reflexivity.
  - intros dt M B pct cs norm. apply median_step_iff in M.
    unfold variability_score_tau, darr_tau, variability_index_tau. rewrite (Rltb_true _ _ Ht), M. unfold average_tau.
    rewrite (py_int_eq _ 0) by (try lia; lra). repeat split; reflexivity.
Qed.

(*@ C119 Without averaging (switched off, or tau at most 1) a tau that is not whole is refused by a frame; a series
    of an earlier pandas release silently uses the whole part, toward zero. *)
Lemma fractional_ramps : forall s tau mavg pct, (forall z, tau <> IZR z) -> mavg = false \/ tau <= 1 ->
  variability_score_tau true s tau mavg pct = Err ValueError /\
  darr_tau true (Pandas s) tau mavg pct = Err ValueError /\
  forall z, Rabs (tau - IZR z) < 1 -> Rabs (IZR z) <= Rabs tau ->
    variability_score_tau false s tau mavg pct = variability_score s z false pct /\
    darr_tau false (Pandas s) tau mavg pct = darr (Pandas s) z false pct.
Proof.
  intros s tau mavg pct F H. assert (G : mavg && Rltb 1 tau = false).
  { destruct H as [->|H]; [reflexivity|]. rewrite (Rltb_false _ _ H). now destruct mavg. }
  unfold variability_score_tau, darr_tau. rewrite G, !diff_fraction by exact F. split; [reflexivity|]. split; [reflexivity|].
  intros z C A. enough (py_int tau = z) as -> by (split; reflexivity).
  apply Rabs_def2 in C. destruct (Rle_or_lt 0 tau) as [P|P].
  - rewrite (Rabs_pos_eq tau P) in A. pose proof (Rle_abs (IZR z)) as L. apply py_int_eq; [|split; lra].
    apply Z.lt_succ_r, lt_IZR. rewrite succ_IZR. lra.
  - destruct (py_int_neg tau P) as [Q1 Q2]. rewrite (Rabs_left tau P) in A. pose proof (Rle_abs (- IZR z)) as L. rewrite Rabs_Ropp in L.
    assert (U1 : IZR (py_int tau) < IZR (z + 1)) by (rewrite plus_IZR; lra). assert (U2 : IZR z < IZR (py_int tau + 1)) by (rewrite plus_IZR; lra).
    apply lt_IZR in U1, U2. lia.
Qed.

(*@ C119 The variability index takes any tau up to 1 as "no averaging". *)
Lemma fractional_index : forall g cs tau norm, tau <= 1 ->
  variability_index_tau (Pandas g) cs tau norm = variability_index (Pandas g) cs 1 norm.
Proof. intros g cs tau norm H. unfold variability_index_tau. rewrite (Rltb_false _ _ H). reflexivity. Qed.

(*@ C119 Asking for a period: on a grid of d seconds, tau = T/d averages over bins of T seconds exactly, for every whole
    T above d, a multiple of d or not. *)
Lemma period_average : forall strict s t0 d T, regular t0 d s -> (0 < d)%Z -> (2 <= length s)%nat -> (d < T)%Z ->
  exists rs, binned T s rs /\
    (forall pct, variability_score_tau strict s (IZR T / IZR d) true pct = variability_score rs 1 false pct) /\
    (forall pct, darr_tau strict (Pandas s) (IZR T / IZR d) true pct = darr (Pandas rs) 1 false pct).
Proof.
  intros strict s t0 d T Rg Hd L HT. pose proof (IZR_lt _ _ HT) as HT'. pose proof (IZR_lt _ _ Hd) as Hd'.
  assert (M : median_step s (IZR d)) by (apply median_step_iff; eapply regular_step; eauto).
  destruct (fractional_average strict s (IZR d) (IZR T / IZR d) T) as (rs & B & V & D & _); [| exact M |lia| |exists rs; auto].
  - apply (Rmult_lt_reg_r (IZR d)); [lra|]. replace (IZR T / IZR d * IZR d) with (IZR T) by (field; lra). lra.
  - replace (IZR T / IZR d * IZR d) with (IZR T) by (field; lra). lra.
Qed.

Lemma average_of_one v u : average_of [v] u -> u = v.
Proof.
  unfold average_of. destruct u as [m|], v as [x|]; cbn [present]; unfold present; cbn; intro H; try easy.
  - destruct H as [_ ->]. unfold avg. cbn. f_equal. unfold Rsum. cbn. field.
Qed.
Lemma blocks_of_one l rs : block_averages 1 l rs -> rs = l.
Proof.
  intros (A & B & V). assert (L : length rs = length l) by lia. apply nth_error_ext. intro i.
  destruct (nth_error rs i) as [u|] eqn:E.
  - pose proof (V i u E) as H. assert (Hi : (i < length l)%nat) by (rewrite <- L; apply nth_error_Some; congruence).
    rewrite Nat.mul_1_r in H. destruct (nth_error l i) as [v|] eqn:F; [|apply nth_error_None in F; lia].
    assert (S : firstn 1 (skipn i l) = [v]).
    { apply nth_error_split in F. destruct F as (l1 & l2 & -> & <-). rewrite skipn_app, skipn_all, Nat.sub_diag. reflexivity. }
    rewrite S in H. f_equal. now apply average_of_one.
  - apply nth_error_None in E. symmetry. apply nth_error_None. lia.
Qed.

(*@ C119 Too little to average: on a grid of d seconds every tau with 1 < tau and tau * d < d + 1 -- for one-second data
    every tau below 2 -- gives the values of tau = 1. *)
Lemma tau_without_effect : forall strict s t0 d tau pct, regular t0 d s -> (0 < d)%Z -> (2 <= length s)%nat ->
  ((t0 - one_day * (t0 / one_day)) mod (d * ns) = 0)%Z -> 1 < tau -> tau * IZR d < IZR d + 1 ->
  variability_score_tau strict s tau true pct = variability_score s 1 true pct /\
  darr_tau strict (Pandas s) tau true pct = darr (Pandas s) 1 true pct.
Proof.
  intros strict s t0 d tau pct Rg Hd L Al H1 H2. pose proof (IZR_lt _ _ Hd) as Hd'.
  assert (M : median_step s (IZR d)) by (apply median_step_iff; eapply regular_step; eauto).
  destruct (fractional_average strict s (IZR d) tau d) as (rs & B & V & D & _); [exact H1|exact M|lia|nra|].
  assert (E : values rs = values s).
  { apply blocks_of_one. apply (binned_blocks t0 d 1 s rs Rg Hd); [lia|eapply median_nonempty; exact M| |].
    - change (Z.of_nat 1) with 1%Z. rewrite Z.mul_1_l. exact Al.
    - change (Z.of_nat 1) with 1%Z. rewrite Z.mul_1_l. exact B. }
  rewrite V, D, !vs_no_avg, !darr_no_avg by (intro; lia). now rewrite E.
Qed.

(*@ex C119 Five samples, one per 2 s: 5-second averages with tau = 2.5; tau = 1.4 changes nothing. *)
Lemma tau_example : let s := [(0%Z, Some 0); ((2 * ns)%Z, Some 4); ((4 * ns)%Z, Some 2); ((6 * ns)%Z, Some 9); ((8 * ns)%Z, Some 9)] in
  regular 0 2 s /\ (exists rs, binned 5 s rs /\ darr_tau true (Pandas s) (5 / 2) true false = darr (Pandas rs) 1 false false) /\
  darr_tau true (Pandas s) 1.4 true false = Ok 13.
Proof.
  cbv zeta. set (s := [_; _; _; _; _]). assert (Rg : regular 0 2 s) by reflexivity. split; [exact Rg|]. split.
  - destruct (period_average true s 0 2 5 Rg ltac:(lia) ltac:(cbn; lia) ltac:(lia)) as (rs & B & _ & D). exists rs. auto.
  - destruct (tau_without_effect true s 0 2 1.4 false Rg) as [_ ->]; try lia; try lra; [cbn; lia|reflexivity|].
    rewrite darr_no_avg by (intro; lia). unfold darr_plain. rewrite darr_core_ramps. change (Z.abs_nat 1) with 1%nat. f_equal.
    change (map Rabs _) with [Rabs (4 - 0); Rabs (2 - 4); Rabs (9 - 2); Rabs (9 - 9)].
    rewrite !Rsum_cons, Rsum_nil, (Rabs_right (4 - 0)), (Rabs_left (2 - 4)), (Rabs_right (9 - 2)), (Rabs_right (9 - 9)) by lra. ring.
Qed.
