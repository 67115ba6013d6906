(** A sinusoid with a whole number of cycles per segment: what averaged_psd reads (C102). *)
From Coq Require Import String.
From Verif Require Import Prelude PreludeFacts RealBase Fl RealStat Dft Phase Spec_welch Spec_window M_cmv M_signal_corr M_signal_tf M_window P_signal P_corr P_dft P_welch P_parseval P_tf P_window X_signal_psd X_signal_tf X_window.
From Coq Require Import Lra Psatz.
From Coquelicot Require Import Complex.
Local Open Scope string_scope.
Local Open Scope R_scope.

(** How many bins away from its centre a window of this name leaks. *)
Definition reach (s : string) : nat :=
  if String.eqb s "boxcar" then 0%nat else if String.eqb s "blackman" then 2%nat else 1%nat.

(** Transform of a window at an integer offset *)
Definition kernel (w : list R) (N : nat) (m : Z) : C := Csumn N (fun j => Cmult (RtoC (nth j w 0)) (cis (2 * PI * INR j * IZR m / INR N))).
Definition away (N r : nat) (m : Z) : Prop := (Z.of_nat r < m mod Z.of_nat N < Z.of_nat N - Z.of_nat r)%Z.
Lemma delta_zero N m : (0 < N)%nat -> (m mod Z.of_nat N <> 0)%Z -> Csumn N (fun j => cis (2 * PI * INR j * IZR m / INR N)) = RtoC 0.
Proof. intros HN H. rewrite roots_sum by exact HN. destruct (Z.eqb_spec (m mod Z.of_nat N) 0); [easy|reflexivity]. Qed.
Lemma away_shift N r m (e : Z) : (0 < N)%nat -> away N r m -> (- Z.of_nat r <= e <= Z.of_nat r)%Z -> ((m + e) mod Z.of_nat N <> 0)%Z.
Proof.
  intros HN A He Z. unfold away in A. rewrite Z.add_mod in Z by lia. apply Z.mod_divide in Z; [|lia]. destruct Z as [q Hq].
  assert (B : (0 <= e /\ e mod Z.of_nat N = e \/ e < 0 /\ e mod Z.of_nat N = e + Z.of_nat N)%Z).
  { destruct (Z_le_gt_dec 0 e); [left; split; [lia|]; apply Z.mod_small; lia|right; split; [lia|]]. rewrite <- (Z.mod_add e 1 (Z.of_nat N)) by lia. rewrite Z.mul_1_l. apply Z.mod_small. lia. }
  destruct B as [[B1 B2]|[B1 B2]]; rewrite B2 in Hq; clear B2; set (mm := (m mod Z.of_nat N)%Z) in *; clearbody mm; assert (C : (q <= 0 \/ q = 1 \/ 2 <= q)%Z) by lia; destruct C as [C|[C|C]]; nia.
Qed.
Lemma cos_cis t : RtoC (cos t) = Cmult (RtoC (/ 2)) (Cplus (cis t) (cis (- t))).
Proof. unfold cis, RtoC, Cmult, Cplus. cbn [fst snd]. rewrite cos_neg, sin_neg. f_equal; field. Qed.
Lemma cosine_term N m (e : Z) : (0 < N)%nat -> ((m + e) mod Z.of_nat N <> 0)%Z -> ((m - e) mod Z.of_nat N <> 0)%Z ->
  Csumn N (fun j => Cmult (RtoC (cos (IZR e * (2 * PI * INR j / INR N)))) (cis (2 * PI * INR j * IZR m / INR N))) = RtoC 0.
Proof.
  intros HN H1 H2. assert (NZ : INR N <> 0) by (apply not_0_INR; lia).
  transitivity (Csumn N (fun j => Cplus (Cmult (RtoC (/ 2)) (cis (2 * PI * INR j * IZR (m + e) / INR N))) (Cmult (RtoC (/ 2)) (cis (2 * PI * INR j * IZR (m - e) / INR N))))).
  - apply Csumn_ext. intros j _. rewrite cos_cis. 
    replace (2 * PI * INR j * IZR (m + e) / INR N) with (IZR e * (2 * PI * INR j / INR N) + 2 * PI * INR j * IZR m / INR N) by (rewrite plus_IZR; field; exact NZ).
    replace (2 * PI * INR j * IZR (m - e) / INR N) with (- (IZR e * (2 * PI * INR j / INR N)) + 2 * PI * INR j * IZR m / INR N) by (rewrite minus_IZR; field; exact NZ).
    rewrite !cis_plus. ring.
  - rewrite Csumn_plus, !Csumn_scal, !delta_zero by assumption. ring.
Qed.
Lemma kernel_away s N m : usual_window s -> (2 <= N)%nat -> away N (reach s) m -> kernel (std_win s N) N m = RtoC 0.
Proof.
  intros U HN A. assert (HN0 : (0 < N)%nat) by lia.
  assert (E : exists a0 a1 a2, (a1 <> 0 -> (1 <= reach s)%nat) /\ (a2 <> 0 -> (2 <= reach s)%nat) /\
    forall j, (j < N)%nat -> nth j (std_win s N) 0 = a0 + a1 * cos (IZR 1 * (2 * PI * INR j / INR N)) + a2 * cos (IZR 2 * (2 * PI * INR j / INR N))).
  { destruct U as [-> | [-> | [-> | ->]]].
    - exists 1, 0, 0. split; [easy|]. split; [easy|]. intros j Hj. rewrite usual_nth by (try assumption; left; reflexivity). unfold weight. cbn [String.eqb Ascii.eqb Bool.eqb]. ring.
    - exists (54 / 100), (- (46 / 100)), 0. split; [intros _; cbn; lia|]. split; [easy|]. intros j Hj. rewrite usual_nth by (try assumption; right; left; reflexivity). unfold weight. cbn [String.eqb Ascii.eqb Bool.eqb]. rewrite Rmult_1_l. field; try (apply not_0_INR; lia).
    - exists (/ 2), (- / 2), 0. split; [intros _; cbn; lia|]. split; [easy|]. intros j Hj. rewrite usual_nth by (try assumption; right; right; left; reflexivity). unfold weight. cbn [String.eqb Ascii.eqb Bool.eqb]. rewrite Rmult_1_l. field; try (apply not_0_INR; lia).
    - exists (42 / 100), (- / 2), (8 / 100). split; [intros _; cbn; lia|]. split; [intros _; cbn; lia|]. intros j Hj. rewrite usual_nth by (try assumption; right; right; right; reflexivity). unfold weight. cbn [String.eqb Ascii.eqb Bool.eqb]. rewrite Rmult_1_l. field; try (apply not_0_INR; lia). }
  destruct E as (a0 & a1 & a2 & R1 & R2 & E). unfold kernel.
  transitivity (Csumn N (fun j => Cplus (Cplus (Cmult (RtoC a0) (cis (2 * PI * INR j * IZR m / INR N)))
      (Cmult (RtoC a1) (Cmult (RtoC (cos (IZR 1 * (2 * PI * INR j / INR N)))) (cis (2 * PI * INR j * IZR m / INR N)))))
      (Cmult (RtoC a2) (Cmult (RtoC (cos (IZR 2 * (2 * PI * INR j / INR N)))) (cis (2 * PI * INR j * IZR m / INR N)))))).
  - apply Csumn_ext. intros j Hj. rewrite E by exact Hj. rewrite !RtoC_plus, !RtoC_mult. ring.
  - rewrite !Csumn_plus, !Csumn_scal. rewrite delta_zero; [|exact HN0|].
    2:{ pose proof (away_shift N (reach s) m 0 HN0 A ltac:(lia)) as Q. now rewrite Z.add_0_r in Q. }
    assert (T1 : Cmult (RtoC a1) (Csumn N (fun j => Cmult (RtoC (cos (IZR 1 * (2 * PI * INR j / INR N)))) (cis (2 * PI * INR j * IZR m / INR N)))) = RtoC 0).
    { destruct (Req_dec a1 0) as [->|Nz]; [ring|]. specialize (R1 Nz). rewrite (cosine_term N m 1 HN0); [ring|apply (away_shift N (reach s)); auto; lia|apply (away_shift N (reach s) m (-1)); auto; lia]. }
    assert (T2 : Cmult (RtoC a2) (Csumn N (fun j => Cmult (RtoC (cos (IZR 2 * (2 * PI * INR j / INR N)))) (cis (2 * PI * INR j * IZR m / INR N)))) = RtoC 0).
    { destruct (Req_dec a2 0) as [->|Nz]; [ring|]. specialize (R2 Nz). rewrite (cosine_term N m 2 HN0); [ring|apply (away_shift N (reach s)); auto; lia|apply (away_shift N (reach s) m (-2)); auto; lia]. }
    rewrite T1, T2. ring.
Qed.
Lemma kernel_zero w N : length w = N -> (1 <= N)%nat -> kernel w N 0 = RtoC (Rsum w).
Proof.
  intros L HN. unfold kernel. rewrite Rsum_as_sumn, L, <- Csumn_RtoC. apply Csumn_ext. intros j _. replace (2 * PI * INR j * 0 / INR N) with 0 by (field; apply not_0_INR; lia). rewrite cis_0. ring.
Qed.
Lemma sine_spectrum w A p k0 N n a k : (1 <= N)%nat -> (a + N <= n)%nat ->
  fourier (tapered w (chunk (sinusoid A p k0 N n) a N)) k =
  Cmult (RtoC (A / 2)) (Cplus (Cmult (cis (2 * PI * INR k0 * INR a / INR N + p)) (kernel w N (Z.of_nat k0 - Z.of_nat k)))
                              (Cmult (cis (- (2 * PI * INR k0 * INR a / INR N + p))) (kernel w N (- (Z.of_nat k0 + Z.of_nat k))))).
Proof.
  intros HN L. assert (NZ : INR N <> 0) by (apply not_0_INR; lia). rewrite <- fft_bin_fourier. unfold fft_bin. rewrite map_length, tapered_length, chunk_length. unfold kernel.
  rewrite <- !Csumn_scal, <- Csumn_plus, <- Csumn_scal. apply Csumn_ext. intros j Hj.
  change (RtoC 0) with (RtoC 0). rewrite (map_nth RtoC). unfold tapered. rewrite chunk_length, nth_map_seq by exact Hj. unfold chunk. rewrite nth_map_seq by exact Hj. unfold sinusoid. rewrite nth_map_seq by lia.
  rewrite RtoC_mult, RtoC_mult, cos_cis. rewrite plus_INR.
  rewrite opp_IZR, plus_IZR, minus_IZR, <- !INR_IZR_INZ.
  set (t := - (2 * PI * INR k * INR j / INR N)). set (q := 2 * PI * INR k0 * (INR a + INR j) / INR N + p).
  replace (cis (2 * PI * INR j * (INR k0 - INR k) / INR N)) with (Cmult (cis (2 * PI * INR k0 * INR j / INR N)) (cis t)) by (rewrite <- cis_plus; f_equal; unfold t; field; exact NZ).
  replace (cis (2 * PI * INR j * - (INR k0 + INR k) / INR N)) with (Cmult (cis (- (2 * PI * INR k0 * INR j / INR N))) (cis t)) by (rewrite <- cis_plus; f_equal; unfold t; field; exact NZ).
  replace (cis q) with (Cmult (cis (2 * PI * INR k0 * INR a / INR N + p)) (cis (2 * PI * INR k0 * INR j / INR N))) by (rewrite <- cis_plus; f_equal; unfold q; field; exact NZ).
  replace (cis (- q)) with (Cmult (cis (- (2 * PI * INR k0 * INR a / INR N + p))) (cis (- (2 * PI * INR k0 * INR j / INR N)))) by (rewrite <- cis_plus; f_equal; unfold q; field; exact NZ).
  unfold Rdiv. rewrite (RtoC_mult A (/ 2)). ring.
Qed.
Lemma away_neg N r (c : nat) : (r < c)%nat -> (c + r < N)%nat -> away N r (- Z.of_nat c).
Proof. intros H1 H2. unfold away. rewrite <- (Z.mod_add _ 1) by lia. rewrite Z.mod_small by lia. lia. Qed.
Lemma away_diff N r (a b : nat) : (r < a - b \/ r < b - a)%nat -> ((a - b) + r < N)%nat -> ((b - a) + r < N)%nat -> away N r (Z.of_nat a - Z.of_nat b).
Proof.
  intros H H1 H2. unfold away. destruct (Nat.le_gt_cases b a) as [L|L].
  - rewrite Z.mod_small by lia. lia.
  - rewrite <- (Z.mod_add _ 1) by lia. rewrite Z.mod_small by lia. lia.
Qed.
Lemma box_tapered v : tapered (std_win "boxcar" (length v)) v = v.
Proof.
  apply list_eq_nth; [apply tapered_length|]. rewrite tapered_length. intros i Hi. unfold tapered. rewrite nth_map_seq by exact Hi.
  destruct (window_weights (length v) i Hi) as (B & _). rewrite B. ring.
Qed.
Lemma sine_mean A p k0 N n a : (1 <= k0)%nat -> (k0 < N)%nat -> (a + N <= n)%nat -> Rsum (chunk (sinusoid A p k0 N n) a N) = 0.
Proof.
  intros H1 H2 L. pose proof (sine_spectrum (std_win "boxcar" N) A p k0 N n a 0 ltac:(lia) L) as E.
  rewrite <- (chunk_length (sinusoid A p k0 N n) a N) in E at 1. rewrite box_tapered in E.
  rewrite !kernel_away in E; [|left; reflexivity|lia|cbn [reach String.eqb Ascii.eqb Bool.eqb]; rewrite Nat.add_0_r || idtac; rewrite Z.add_0_r; apply away_neg; lia|left; reflexivity|lia|apply away_diff; cbn; lia].
  apply (f_equal fst) in E. unfold fourier in E. cbn [fst] in E. rewrite Rsum_as_sumn.
  transitivity (Rsumn (length (chunk (sinusoid A p k0 N n) a N)) (fun j => nth j (chunk (sinusoid A p k0 N n) a N) 0 * cos (2 * PI * INR 0 * INR j / INR (length (chunk (sinusoid A p k0 N n) a N))))).
  - apply Rsumn_ext. intros j _. replace (2 * PI * INR 0 * INR j / INR (length (chunk (sinusoid A p k0 N n) a N))) with 0; [rewrite cos_0; ring|]. cbn [INR]. unfold Rdiv. ring.
  - unfold Rsumn. rewrite E. cbn. ring.
Qed.
Lemma minus_mean_zero x : Rsum x = 0 -> minus_mean x = x.
Proof.
  intro Z. unfold minus_mean, Rmean. rewrite Z. rewrite <- (map_id x) at 2. apply map_ext. intro v. unfold Rdiv. ring.
Qed.
Lemma sine_bin s d A p k0 N V n i k : usual_window s -> d = None \/ d = Some "constant" -> (1 <= k0)%nat -> (k0 < N)%nat -> (i * (N - V) + N <= n)%nat ->
  seg_spectrum (std_win s N) (detrend_by std_dtr d) (sinusoid A p k0 N n) N V i k =
  fourier (tapered (std_win s N) (chunk (sinusoid A p k0 N n) (i * (N - V)) N)) k.
Proof.
  intros U Hd H1 H2 L. unfold seg_spectrum. destruct Hd as [-> | ->]; [reflexivity|]. cbn [detrend_by].
  change (std_dtr "constant" (chunk (sinusoid A p k0 N n) (i * (N - V)) N)) with (minus_mean (chunk (sinusoid A p k0 N n) (i * (N - V)) N)). now rewrite minus_mean_zero by (apply sine_mean; assumption).
Qed.
Lemma avg_const K c : (1 <= K)%nat -> avg K (fun _ => c) = c.
Proof. intro H. unfold avg. rewrite Rsum_map_const, seq_length. field. apply not_0_INR. lia. Qed.
(*@ C102 a sinusoid of amplitude A making k0 whole cycles per segment reads A^2/2 in its own bin under 'spectrum', at frequency k0/(N dt), and exactly zero in every bin further away than the window reaches - whatever its phase, the overlap and the number of averages, without detrending or with 'constant' *)
Lemma sine_reading : forall dt n navgs overlap s d N V A p k0 nm f v, usual_window s -> d = None \/ d = Some "constant" -> (2 <= n)%nat -> dt <> 0 ->
  welch_grid n navgs overlap N V -> (reach s < 2 * k0)%nat -> (2 * k0 + reach s < N)%nat ->
  averaged_psd std_win std_dtr dt n (Frame [(nm, sinusoid A p k0 N n)]) (Z.of_nat navgs) overlap s d "spectrum" = Ok (f, [(nm, v)]) ->
  nth k0 f 0 = INR k0 / (INR N * dt) /\ nth k0 v 0 = A ^ 2 / 2 /\
  forall k, (k <= N / 2)%nat -> (reach s < k - k0 \/ reach s < k0 - k)%nat -> (reach s < k + k0)%nat -> (k + k0 + reach s < N)%nat -> nth k v 0 = 0.
Proof.
  intros dt n navgs overlap s d N V A p k0 nm f v U Hd Hn D G R1 R2 E.
  pose proof G as (G1 & G2 & G3 & G4 & G5 & G6). destruct (segments_exist n N V G6 ltac:(nia)) as [K Fi]. pose proof Fi as (K1 & K2 & K3).
  destruct (window_facts s N U G4) as (Lw & _ & _ & Ps & Pp). assert (H2 : (2 <= N)%nat) by lia.
  assert (NI : norm_is (std_win s N) dt "spectrum" (1 / Rsum (std_win s N) ^ 2)) by (right; repeat split; lra).
  destruct (psd_value std_win std_dtr dt n navgs overlap s d "spectrum" N V K _ [(nm, sinusoid A p k0 N n)] std_windows std_keeps Hn D G Fi NI) as (out & E' & _ & Q).
  { constructor; [|constructor]. cbn [snd]. unfold sinusoid. now rewrite map_length, seq_length. }
  { discriminate. }
  rewrite E in E'. injection E' as -> <-. destruct (Q 0%nat nm _ eq_refl) as (v' & Hv & Lv & Vk). cbn in Hv. injection Hv as <-.
  assert (HK0 : (k0 <= N / 2)%nat) by (apply Nat.div_le_lower_bound; lia).
  assert (Fits : forall i, (i < K)%nat -> (i * (N - V) + N <= n)%nat) by (intros i Hi; nia).
  split; [rewrite (nth_map_seq _ (N / 2 + 1)%nat); [reflexivity|rewrite Nat.add_1_r; now apply Nat.lt_succ_r]|]. split.
  - rewrite Vk by exact HK0. rewrite (avg_ext K _ (fun _ => (A / 2 * Rsum (std_win s N)) ^ 2)).
    + rewrite avg_const by exact K1. unfold sides. destruct (Nat.eqb_spec k0 0); [lia|]. destruct (Nat.eqb_spec (2 * k0) N); [lia|]. cbn [orb]. field. lra.
    + intros i Hi. rewrite sine_bin by (auto; lia). rewrite sine_spectrum by (auto; lia). rewrite Z.sub_diag, kernel_zero by (auto; lia).
      rewrite (kernel_away s N (- (Z.of_nat k0 + Z.of_nat k0)) U H2); [|replace (Z.of_nat k0 + Z.of_nat k0)%Z with (Z.of_nat (2 * k0)) by lia; apply away_neg; lia].
      rewrite Cmult_0_r, Cplus_0_r, !Cmod_mult, cis_mod, Rmult_1_l, !Cmod_R. rewrite <- !RPow_abs || idtac. rewrite Rpow_mult_distr, <- !Rsqr_pow2, <- !Rsqr_abs, !Rsqr_pow2. ring.
  - intros k Hk Far Sm Sf. rewrite Vk by exact Hk. rewrite (avg_ext K _ (fun _ => 0)).
    + rewrite avg_const by exact K1. ring.
    + intros i Hi. rewrite sine_bin by (auto; lia). rewrite sine_spectrum by (auto; lia).
      rewrite (kernel_away s N (Z.of_nat k0 - Z.of_nat k) U H2) by (apply away_diff; lia).
      rewrite (kernel_away s N (- (Z.of_nat k0 + Z.of_nat k)) U H2); [|rewrite <- Nat2Z.inj_add; apply away_neg; lia].
      rewrite !Cmult_0_r, Cplus_0_r, Cmult_0_r, Cmod_0. ring.
Qed.
(*@ C102 under 'density' the same bin reads A^2/2 divided by the window's equivalent noise bandwidth (power / (dt sum^2)) *)
Lemma sine_density : forall dt n navgs overlap s d N V A p k0 nm f v, usual_window s -> d = None \/ d = Some "constant" -> (2 <= n)%nat -> dt <> 0 ->
  welch_grid n navgs overlap N V -> (reach s < 2 * k0)%nat -> (2 * k0 + reach s < N)%nat ->
  averaged_psd std_win std_dtr dt n (Frame [(nm, sinusoid A p k0 N n)]) (Z.of_nat navgs) overlap s d "density" = Ok (f, [(nm, v)]) ->
  nth k0 v 0 = A ^ 2 / 2 / (power (std_win s N) / (dt * Rsum (std_win s N) ^ 2)).
Proof.
  intros dt n navgs overlap s d N V A p k0 nm f v U Hd Hn D G R1 R2 E. pose proof G as (_ & _ & _ & G4 & _).
  assert (Ls : length (sinusoid A p k0 N n) = n) by (unfold sinusoid; now rewrite map_length, seq_length).
  assert (Ex : exists f' v', averaged_psd std_win std_dtr dt n (Frame [(nm, sinusoid A p k0 N n)]) (Z.of_nat navgs) overlap s d "spectrum" = Ok (f', [(nm, v')])).
  { cbn [averaged_psd] in *. unfold psd_frame in *. destruct (sample_rate dt n); [cbn [rbind] in *|discriminate]. destruct (segmenting n (Z.of_nat navgs) overlap) as [[N' V']|]; [cbn [rbind] in *|discriminate].
    unfold psd_scale. cbn [String.eqb Ascii.eqb Bool.eqb rbind map fst snd]. do 2 eexists. reflexivity. }
  destruct Ex as (f' & v' & E'). destruct (window_facts s N U G4) as (_ & _ & _ & Ps & Pp).
  destruct (sine_reading dt n navgs overlap s d N V A p k0 nm f' v' U Hd Hn D G R1 R2 E') as (_ & Sr & _).
  destruct (psd_series_ratio std_win std_dtr dt n navgs overlap s d N V nm (sinusoid A p k0 N n) f f' v v' std_windows std_keeps Hn D G Ls ltac:(lra) ltac:(lra)) as (_ & Ev).
  { rewrite psd_series. exact E. } { exact E'. }
  rewrite Ev in Sr. assert (Hl : (k0 < length v)%nat).
  { destruct (Nat.lt_ge_cases k0 (length v)) as [|Ge]; [assumption|]. exfalso. 
    assert (V0 : length v = (N / 2 + 1)%nat).
    { pose proof G as (_ & _ & _ & _ & _ & G6). destruct (segments_exist n N V G6 ltac:(unfold welch_grid in G; nia)) as [K Fi].
      destruct (psd_value std_win std_dtr dt n navgs overlap s d "density" N V K (dt / power (std_win s N)) [(nm, sinusoid A p k0 N n)] std_windows std_keeps Hn D G Fi) as (out & E2 & _ & Q); [left; repeat split; lra|constructor; auto|discriminate|].
      rewrite E in E2. injection E2 as _ <-. destruct (Q 0%nat nm _ eq_refl) as (w & Hw & Lw & _). cbn in Hw. injection Hw as <-. exact Lw. }
    assert (k0 <= N / 2)%nat by (apply Nat.div_le_lower_bound; lia). lia. }
  rewrite (nth_indep _ 0 (0 * (power (std_win s N) / (dt * Rsum (std_win s N) ^ 2)))) in Sr by (now rewrite map_length).
  rewrite (map_nth (fun p0 => p0 * (power (std_win s N) / (dt * Rsum (std_win s N) ^ 2)))) in Sr.
  rewrite <- Sr. field. repeat split; lra.
Qed.
(*@ex C102 amplitude 3, two cycles in each 8-sample Hamming segment of a 16-sample record *)
Lemma sine_example : forall p, exists f v,
  averaged_psd std_win std_dtr 1 16 (Frame [("a", sinusoid 3 p 2 8 16)]) 2 (1 / 2) "hamming" (Some "constant") "spectrum" = Ok (f, [("a", v)]) /\
  nth 2 f 0 = 1 / 4 /\ nth 2 v 0 = 9 / 2 /\ nth 4 v 0 = 0.
Proof.
  intro p. assert (G : welch_grid 16 2 (1 / 2) 8 4) by (unfold welch_grid; cbn [INR]; split; [lia|]; split; [lia|]; split; [lia|]; split; [lia|]; split; [lra|lia]).
  destruct (psd_always_works 1 16 [("a", sinusoid 3 p 2 8 16)] 2 (1 / 2) "hamming" (Some "constant") "spectrum") as (f & out & E & L & Nm & _);
    [right; left; reflexivity|lia|lra|lia|lra|right; reflexivity|repeat constructor|discriminate|].
  destruct out as [|[a v] [|]]; try discriminate. cbn in Nm. injection Nm as ->. exists f, v. split; [exact E|].
  destruct (sine_reading 1 16 2 (1 / 2) "hamming" (Some "constant") 8 4 3 p 2 "a" f v ltac:(right; left; reflexivity) ltac:(right; reflexivity) ltac:(lia) ltac:(lra) G ltac:(cbn; lia) ltac:(cbn; lia) E) as (S1 & S2 & S3).
  split; [rewrite S1; cbn [INR]; field|]. split; [rewrite S2; field|]. apply S3; cbn; lia.
Qed.
