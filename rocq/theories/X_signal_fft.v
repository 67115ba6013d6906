(** The FFT correlation backend (C46). *)
From Coq Require Import String.
From Verif Require Import Prelude RealBase Fl RealStat Spec_signal M_cmv M_signal_corr P_signal P_corr P_delay P_fft X_signal_delay.
From Coq Require Import Lra Psatz.
Local Open Scope R_scope.

Ltac at0c := unfold at0; cbn; change (Pos.to_nat 1) with 1%nat; change (Pos.to_nat 2) with 2%nat;
  change (Pos.to_nat 3) with 3%nat; change (Pos.to_nat 4) with 4%nat; cbv iota beta.
Lemma factor_pos n a b : (0 < n)%nat -> length a = n -> length b = n ->
  (exists k, 0 < k /\ coeff_factor n a b = Fin k) \/
  (coeff_factor n a b = Pinf /\ forall L, lag_sum (centred a) (centred b) L = 0).
Proof.
  intros Hn La Lb. assert (Na : a <> []) by (intros ->; cbn in La; lia).
  assert (Nb : b <> []) by (intros ->; cbn in Lb; lia).
  unfold coeff_factor, finv. rewrite !Rstd_centred. assert (0 < INR n) by (apply lt_0_INR; lia).
  pose proof (std_nonneg a) as Pa. pose proof (std_nonneg b) as Pb.
  destruct (Req_dec (Rstd a) 0) as [A|A].
  { right. split; [|intro; apply lag_sum_zero_l; now apply std_zero_centred].
    rewrite A, Rmult_0_r, Rmult_0_l, fdiv_zero. apply sgn_inf_pos. lra. }
  destruct (Req_dec (Rstd b) 0) as [B|B].
  { right. split; [|intro; apply lag_sum_zero_r; now apply std_zero_centred].
    rewrite B, Rmult_0_r, fdiv_zero. apply sgn_inf_pos. lra. }
  left. assert (P : 0 < INR n * Rstd a * Rstd b) by (apply Rmult_lt_0_compat; [apply Rmult_lt_0_compat|]; lra).
  exists (1 / (INR n * Rstd a * Rstd b)). split; [apply Rdiv_lt_0_compat; lra|]. apply fdiv_fin. lra.
Qed.
Lemma table_pair n ins outs i a b : table n ins -> table n outs -> (0 < n)%nat ->
  nth_error ins i = Some a -> nth_error outs i = Some b -> length a = n /\ length b = n /\ a <> [] /\ b <> [].
Proof.
  intros Ti To Hn Ha Hb. apply nth_error_In in Ha, Hb. unfold table in *. rewrite Forall_forall in Ti, To.
  apply Ti in Ha. apply To in Hb. repeat split; auto; intros ->; cbn in *; lia.
Qed.
Lemma wrapped_inj n L L' : lag_of n n L -> lag_of n n L' -> wrapped n L = wrapped n L' -> L = L'.
Proof.
  intros H H' E. destruct (wrap_onto n L H) as [_ A], (wrap_onto n L' H') as [_ B]. congruence.
Qed.
Definition scaled (g : Z -> R) (k : R) (n : nat) : list fl * list Z :=
  (map (fun L => Fin (g L * k)) (correlation_lags n n), correlation_lags n n).
Lemma at_scaled g k n L v : (0 < n)%nat -> at_lag (scaled g k n) L v <-> lag_of n n L /\ v = Fin (g L * k).
Proof. intro Hn. unfold scaled. rewrite at_lag_map, lags_In by auto. reflexivity. Qed.
Lemma wrapped_peak a b n k L p : (0 < n)%nat -> 0 < k -> first_peak_wrapped n (scaled (lag_sum a b) k n) L p ->
  L = fft_peak_lag n a b /\ p = lag_sum a b L * k.
Proof.
  intros Hn Hk [A M]. apply at_scaled in A as [HL E]; auto. injection E as ->. split; [|reflexivity].
  destruct (fft_peak_best n a b Hn) as [_ [H0 B]]. set (L0 := fft_peak_lag n a b) in *.
  destruct (M L0 (Fin (lag_sum a b L0 * k))) as [x [Ex [Hx Wx]]]; [now apply at_scaled|]. injection Ex as <-.
  destruct (B L HL) as [B1 B2]. assert (Eq : lag_sum a b L = lag_sum a b L0) by nra.
  apply (wrapped_inj n); auto. specialize (B2 Eq). assert ((wrapped n L <= wrapped n L0)%Z) by (apply Wx; rewrite Eq; reflexivity).
  lia.
Qed.
Lemma wrapped_peak_ex a b n k : (0 < n)%nat -> 0 < k ->
  first_peak_wrapped n (scaled (lag_sum a b) k n) (fft_peak_lag n a b) (lag_sum a b (fft_peak_lag n a b) * k).
Proof.
  intros Hn Hk. destruct (fft_peak_best n a b Hn) as [_ [H0 B]]. split; [now apply at_scaled|].
  intros L' v A. apply at_scaled in A as [HL ->]; auto. destruct (B L' HL) as [B1 B2].
  eexists. split; [reflexivity|]. split; [nra|]. intro E. apply B2. nra.
Qed.
Lemma single_both a b n k L p : (0 < n)%nat -> 0 < k -> single_peak (scaled (lag_sum a b) k n) L p ->
  peak_lag n a b = L /\ fft_peak_lag n a b = L.
Proof.
  intros Hn Hk [A M]. apply at_scaled in A as [HL E]; auto. injection E as ->.
  destruct (fft_peak_best n a b Hn) as [_ [H0 B]]. destruct (argmax_lags (lag_sum a b) n n Hn Hn) as [G0 [_ G]].
  change (Z.of_nat (argmax (map (lag_sum a b) (correlation_lags n n))) - Z.of_nat (n - 1))%Z with (peak_lag n a b) in *.
  assert (K : forall L0, lag_of n n L0 -> lag_sum a b L <= lag_sum a b L0 -> L0 = L).
  { intros L0 H1 H2. destruct (Z.eq_dec L0 L) as [|N]; auto. exfalso.
    destruct (M L0 (Fin (lag_sum a b L0 * k))) as [x [Ex Hx]]; auto; [now apply at_scaled|]. injection Ex as <-. nra. }
  split; apply K; auto; [now apply G|now apply B].
Qed.
Lemma zap_lt p d : p < / 10 ^ 10 -> zap (Fin p) d = 0.
Proof. intro H. unfold zap. cbn. unfold Rltb. destruct (Rlt_dec p _); [reflexivity|]. contradiction. Qed.
Lemma zap_ge p d : / 10 ^ 10 <= p -> zap (Fin p) d = d.
Proof. intro H. unfold zap. cbn. unfold Rltb. destruct (Rlt_dec p _); [|reflexivity]. exfalso. cbn in *. lra. Qed.

(*@ C46 the 'fft' and 'loop' modes report the same peak and mean correlations; the fft delay is at the first maximum in the order 0,1,..,n-1,-(n-1),..,-1, and equals the loop delay when the maximum is unique *)
Lemma delays_fft : forall dt n ins outs s, dt <> 0 -> (2 <= n)%nat ->
  length ins = length outs -> ins <> [] -> table n ins -> table n outs ->
  (s = "coeff" \/ s = "none")%string ->
  exists D D', compute_delays dt n n ins outs "loop" s = Ok D /\ compute_delays dt n n ins outs "fft" s = Ok D' /\
    d_peak D' = d_peak D /\ d_mean D' = d_mean D /\ length (d_delay D') = length ins /\
    forall i a b, nth_error ins i = Some a -> nth_error outs i = Some b ->
      exists r, correlation a b s = Ok r /\
        (Forall (fun v => exists x, v = Fin x) (fst r) -> exists L p, first_peak_wrapped n r L p) /\
        (forall L p, first_peak_wrapped n r L p ->
           (p < / 10 ^ 10 -> nth_error (d_delay D') i = Some 0) /\
           (/ 10 ^ 10 <= p -> nth_error (d_delay D') i = Some (- (IZR L * dt)))) /\
        (forall L p, single_peak r L p -> nth_error (d_delay D') i = nth_error (d_delay D) i).
Proof.
  intros dt n ins outs s Hd Hn El Ni Ti To Hs. assert (Hn0 : (0 < n)%nat) by lia.
  destruct Hs as [-> | ->].
  - rewrite loop_coeff, fft_coeff by auto. do 2 eexists. split; [reflexivity|]. split; [reflexivity|].
    cbn [d_peak d_mean d_delay]. split; [reflexivity|]. split; [reflexivity|]. split; [now apply map2_length|].
    intros i a b Ha Hb. destruct (table_pair n ins outs i a b Ti To Hn0 Ha Hb) as [La [Lb [Na Nb]]].
    rewrite correlation_eq by (auto; cbn; tauto). eexists. split; [reflexivity|]. rewrite La, Lb.
    change (scale_val a b (lower "coeff")) with (coeff_val a b).
    rewrite !nth_error_map2, Ha, Hb.
    destruct (factor_pos n a b Hn0 La Lb) as [[k [Hk Ek]] | [Ek Z]].
    + assert (R0 : (map (coeff_val a b) (correlation_lags n n), correlation_lags n n) = scaled (lag_sum (centred a) (centred b)) k n).
      { unfold scaled. f_equal. apply map_ext. intro L. rewrite coeff_val_mul, La, Ek. reflexivity. }
      rewrite R0, Ek. split; [intros _; do 2 eexists; now apply wrapped_peak_ex|]. split.
      * intros L p HL. apply wrapped_peak in HL as [-> ->]; auto. cbn [fmul].
        rewrite <- peaks_agree by auto. split; intro H; f_equal; [now apply zap_lt|now apply zap_ge].
      * intros L p HL. apply single_both in HL as [-> ->]; auto.
    + assert (Nn : forall L v, at_lag (map (coeff_val a b) (correlation_lags n n), correlation_lags n n) L v -> v = Nan).
      { intros L v A. apply at_lag_map in A as [_ ->]. rewrite coeff_val_mul, La, Ek, Z. cbn. apply sgn_inf_0. }
      split; [|split].
      * intro F. exfalso. assert (I : In 0%Z (correlation_lags n n)) by (apply lags_In; [lia|unfold lag_of; lia]).
        assert (A : at_lag (map (coeff_val a b) (correlation_lags n n), correlation_lags n n) 0 (coeff_val a b 0)) by (apply at_lag_map; auto).
        apply Nn in A. cbn [fst] in F. rewrite Forall_map, Forall_forall in F. destruct (F _ I) as [x Hx]. congruence.
      * intros L p [A _]. apply Nn in A. discriminate.
      * intros L p [A _]. apply Nn in A. discriminate.
  - rewrite loop_none, fft_none by auto. do 2 eexists. split; [reflexivity|]. split; [reflexivity|].
    cbn [d_peak d_mean d_delay]. split; [reflexivity|]. split; [reflexivity|]. split; [now apply map2_length|].
    intros i a b Ha Hb. destruct (table_pair n ins outs i a b Ti To Hn0 Ha Hb) as [La [Lb [Na Nb]]].
    rewrite correlation_eq by (auto; cbn; tauto). eexists. split; [reflexivity|]. rewrite La, Lb.
    change (scale_val a b (lower "none")) with (fun L => Fin (lag_sum a b L)).
    rewrite !nth_error_map2, Ha, Hb.
    assert (R0 : (map (fun L => Fin (lag_sum a b L)) (correlation_lags n n), correlation_lags n n) = scaled (lag_sum a b) 1 n).
    { unfold scaled. f_equal. apply map_ext. intro L. now rewrite Rmult_1_r. }
    rewrite R0. split; [intros _; do 2 eexists; apply wrapped_peak_ex; auto; lra|]. split.
    + intros L p HL. apply wrapped_peak in HL as [-> ->]; auto; [|lra]. rewrite Rmult_1_r.
      rewrite <- peaks_agree by auto. split; intro H; f_equal; [now apply zap_lt|now apply zap_ge].
    + intros L p HL. apply single_both in HL as [-> ->]; auto. lra.
Qed.

(*@ C46 in 'fft' mode zero_corr is not a vector: 'none' gives an (r,1,1) array of the zero-lag overlaps, 'coeff' an (r,1,r) array whose [i][0][j] entry scales pair i by the factor of pair j; its diagonal is the zero_corr of 'loop' mode *)
Lemma delays_fft_zero : forall dt n ins outs s D D' zero, dt <> 0 -> (2 <= n)%nat ->
  length ins = length outs -> ins <> [] -> table n ins -> table n outs ->
  (s = "coeff" \/ s = "none")%string ->
  compute_delays dt n n ins outs "loop" s = Ok D -> d_zero D = Flat zero ->
  compute_delays dt n n ins outs "fft" s = Ok D' ->
  exists cube, d_zero D' = Cube cube /\ length cube = length ins /\
    (s = "none"%string -> forall i z, nth_error zero i = Some z <-> nth_error cube i = Some [[z]]) /\
    (s = "coeff"%string -> forall i z, nth_error zero i = Some z ->
       exists row, nth_error cube i = Some [row] /\ length row = length ins /\ nth_error row i = Some z /\
       forall j a b a' b', nth_error ins i = Some a -> nth_error outs i = Some b ->
         nth_error ins j = Some a' -> nth_error outs j = Some b' ->
         nth_error row j = Some (fmul (Fin (lag_sum (centred a) (centred b) 0)) (fdiv (Fin 1) (Fin (INR n * Rstd a' * Rstd b'))))).
Proof.
  intros dt n ins outs s D D' zero Hd Hn El Ni Ti To Hs E Ez E'. destruct Hs as [-> | ->].
  - rewrite loop_coeff in E by auto. rewrite fft_coeff in E' by auto. injection E as <-. injection E' as <-.
    cbn [d_zero] in *. injection Ez as <-. eexists. split; [reflexivity|]. split; [now apply map2_length|].
    split; [discriminate|]. intros _ i z Hz. rewrite nth_error_map2 in Hz. rewrite nth_error_map2.
    destruct (nth_error ins i) as [a|] eqn:Ha; [|discriminate]. destruct (nth_error outs i) as [b|] eqn:Hb; [|discriminate].
    eexists. split; [reflexivity|]. split; [rewrite map_length; now apply map2_length|]. split.
    + rewrite nth_error_map, nth_error_map2, Ha, Hb. exact Hz.
    + intros j a1 b1 a' b' E1 E2 Ha' Hb'. injection E1 as <-. injection E2 as <-.
      rewrite nth_error_map, nth_error_map2, Ha', Hb'. cbn [option_map]. unfold coeff_factor, finv.
      now rewrite !Rstd_centred.
  - rewrite loop_none in E by auto. rewrite fft_none in E' by auto. injection E as <-. injection E' as <-.
    cbn [d_zero] in *. injection Ez as <-. eexists. split; [reflexivity|]. split; [now apply map2_length|].
    split; [|discriminate]. intros _ i z. rewrite !nth_error_map2.
    destruct (nth_error ins i), (nth_error outs i); split; intro H; congruence.
Qed.

(*@ C46 a constant column under 'coeff': 'fft' mode reports delay 0 where 'loop' mode reports n-1 steps *)
Lemma delays_fft_constant : forall dt n ins outs D' i a b, dt <> 0 -> (2 <= n)%nat ->
  length ins = length outs -> ins <> [] -> table n ins -> table n outs ->
  compute_delays dt n n ins outs "fft" "coeff" = Ok D' ->
  nth_error ins i = Some a -> nth_error outs i = Some b -> constant a \/ constant b ->
  nth_error (d_delay D') i = Some 0 /\ nth_error (d_peak D') i = Some Nan.
Proof.
  intros dt n ins outs D' i a b Hd Hn El Ni Ti To E Ha Hb K. assert (Hn0 : (0 < n)%nat) by lia.
  destruct (table_pair n ins outs i a b Ti To Hn0 Ha Hb) as [La [Lb [Na Nb]]].
  rewrite fft_coeff in E by auto. injection E as <-. cbn [d_delay d_peak]. rewrite !nth_error_map2, Ha, Hb.
  assert (Z : forall L, lag_sum (centred a) (centred b) L = 0).
  { intro L. destruct K; [apply lag_sum_zero_l|apply lag_sum_zero_r]; now apply centred_zero. }
  assert (Ek : coeff_factor n a b = Pinf).
  { unfold coeff_factor, finv. rewrite !Rstd_centred.
    assert (D0 : INR n * Rstd a * Rstd b = 0).
    { rewrite !Rstd_energy by auto.
      destruct K as [K|K]; rewrite (energy_all_zero _ (centred_zero _ K)); unfold Rdiv; rewrite Rmult_0_l, sqrt_0; ring. }
    rewrite D0, fdiv_zero. apply sgn_inf_pos. lra. }
  rewrite Ek, Z. cbn [fmul]. rewrite sgn_inf_0. split; [|reflexivity]. f_equal. unfold zap. cbn [fltb].
  unfold fft_peak_lag. rewrite argmax_zeros by (intros x Hx; apply in_map_iff in Hx as [L [<- _]]; apply Z).
  unfold wrap_lag. destruct (Nat.ltb_spec 0 n); [|lia]. change (Z.of_nat 0) with 0%Z. lra.
Qed.

(*@ C46 with tied maxima the two modes disagree: opposite delays *)
Lemma delays_fft_ties_refuted :
  ~ (forall dt n ins outs s D D', dt <> 0 -> (2 <= n)%nat -> length ins = length outs -> ins <> [] ->
       table n ins -> table n outs -> (s = "coeff" \/ s = "none")%string ->
       compute_delays dt n n ins outs "loop" s = Ok D -> compute_delays dt n n ins outs "fft" s = Ok D' ->
       d_delay D' = d_delay D).
Proof.
  intro H.
  assert (T1 : table 3 [[1; 0; 1]]) by (repeat constructor). assert (T2 : table 3 [[0; 1; 0]]) by (repeat constructor).
  assert (A : forall L, lag_sum [1; 0; 1] [0; 1; 0] L = at0 [1; 0; 1] (1 + L)).
  { intro L. unfold lag_sum, Rsum. cbn [length seq map fold_right]. rewrite !at0_nat. cbn [nth].
    change (Z.of_nat 1) with 1%Z. lra. }
  assert (P : peak_lag 3 [1; 0; 1] [0; 1; 0] = (-1)%Z).
  { unfold peak_lag. replace (argmax _) with 1%nat; [reflexivity|]. symmetry. apply argmax_unique.
    - cbn. lia.
    - intros j Hj. rewrite map_length, lags_length in Hj. rewrite !nth_map_lags by (auto; lia). rewrite !A.
      do 5 (destruct j as [|j]; [at0c; lra|]). lia.
    - intros j Hj. rewrite !nth_map_lags by lia. rewrite !A. destruct j; [|lia]. at0c. lra. }
  assert (Q : fft_peak_lag 3 [1; 0; 1] [0; 1; 0] = 1%Z).
  { unfold fft_peak_lag. replace (argmax _) with 1%nat; [reflexivity|]. symmetry. apply argmax_unique.
    - rewrite map_length, fft_lags_length. lia.
    - intros j Hj. rewrite map_length, fft_lags_length in Hj. rewrite !nth_map_fft_lags by (auto; lia). rewrite !A.
      do 5 (destruct j as [|j]; [at0c; lra|]). lia.
    - intros j Hj. rewrite !nth_map_fft_lags by lia. rewrite !A. destruct j; [|lia]. at0c. lra. }
  assert (V : lag_sum [1; 0; 1] [0; 1; 0] (-1) = 1) by (rewrite A; at0c; lra).
  specialize (H 1 3%nat [[1; 0; 1]] [[0; 1; 0]] "none"%string).
  rewrite loop_none, fft_none in H by (auto; lra || lia || easy). specialize (H _ _ ltac:(lra) ltac:(lia) eq_refl ltac:(easy) T1 T2 (or_intror eq_refl) eq_refl eq_refl).
  cbn [d_delay] in H. unfold map2 in H. cbn [combine map fst snd] in H. rewrite P, Q, V in H.
  injection H as H. rewrite !zap_ge in H by (cbn; lra). lra.
Qed.

Lemma half_odd n : (0 < n)%nat -> ((2 * n - 1) / 2)%nat = (n - 1)%nat.
Proof. intro H. replace (2 * n - 1)%nat with (1 + (n - 1) * 2)%nat by lia. rewrite Nat.div_add by lia. reflexivity. Qed.

(*@ C46 _fftcorrelate without scaling returns for every pair exactly the curve of correlation *)
Lemma fft_curves : forall n ins outs, (0 < n)%nat -> length ins = length outs -> table n ins -> table n outs ->
  exists rows lags, fftcorrelate n n ins outs "none" = Ok (rows, lags) /\ length rows = length ins /\
    forall i a b, nth_error ins i = Some a -> nth_error outs i = Some b ->
      exists row, nth_error rows i = Some row /\ correlation a b "none" = Ok (row, lags).
Proof.
  intros n ins outs Hn El Ti To. unfold fftcorrelate.
  change (scale_rows n ins outs "none") with (Ok (A := list (list R) * list (list R) * option (list fl)) (ins, outs, None)).
  cbn [rbind]. rewrite El, !Nat.eqb_refl. cbn [negb andb].
  rewrite (mapM_ok (map Fin)) by reflexivity. cbn [rbind].
  do 2 eexists. split; [reflexivity|]. rewrite !map_length, map2_length by auto. split; [auto|].
  intros i a b Ha Hb. destruct (table_pair n ins outs i a b Ti To Hn Ha Hb) as [La [Lb [Na Nb]]].
  rewrite !nth_error_map, nth_error_map2, Ha, Hb. cbn [option_map]. eexists. split; [reflexivity|].
  rewrite correlation_eq by (auto; cbn; tauto). rewrite La, Lb. f_equal. f_equal.
  rewrite fft_xcorr_eq by auto. rewrite half_odd by auto. rewrite !roll_right_map, roll_back, map_map by auto. reflexivity.
Qed.

(*@ C46 with 'coeff' it does so for a single pair *)
Lemma fft_curve_coeff_one : forall n a b, (0 < n)%nat -> length a = n -> length b = n ->
  exists row lags, fftcorrelate n n [a] [b] "coeff" = Ok ([row], lags) /\ correlation a b "coeff" = Ok (row, lags).
Proof.
  intros n a b Hn La Lb. assert (Na : a <> []) by (intros ->; cbn in La; lia).
  assert (Nb : b <> []) by (intros ->; cbn in Lb; lia).
  unfold fftcorrelate, scale_rows. change (String.eqb "coeff" "coeff") with true. cbv iota.
  rewrite bcast2_eq by reflexivity. cbn [rbind]. rewrite !map_length, !Nat.eqb_refl. cbn [negb andb length].
  cbn [map]. unfold map2 at 2. cbn [combine map fst snd]. change demean with centred.
  rewrite fft_xcorr_eq by (rewrite ?centred_length; auto).
  assert (Ml : mul_last (map (lag_sum (centred a) (centred b)) (fft_lags n)) (Some [coeff_factor n a b])
          = Ok (map (coeff_val a b) (fft_lags n))).
  { unfold mul_last. rewrite map_length, fft_lags_length. cbn [length].
    destruct (Nat.eqb_spec (2 * n - 1) 1) as [E1|E1].
    - pose proof (fft_lags_length n) as Fl. rewrite E1 in Fl. destruct (fft_lags n) as [|L0 [|L1 r]]; try discriminate.
      unfold map2. cbn [map combine fst snd]. rewrite coeff_val_mul, La. reflexivity.
    - destruct (map (lag_sum (centred a) (centred b)) (fft_lags n)) as [|x [|y r]] eqn:Em; rewrite <- Em, ?map_map.
      all: f_equal; apply map_ext; intro; now rewrite coeff_val_mul, La. }
  unfold coeff_factor in Ml. change (map2 (fun a0 b0 => finv (INR n * a0 * b0)) [Rstd (centred a)] [Rstd (centred b)])
    with [finv (INR n * Rstd (centred a) * Rstd (centred b))].
  cbn [mapM rbind]. rewrite Ml. cbn [rbind mapM map]. do 2 eexists. split; [reflexivity|].
  rewrite correlation_eq by (auto; cbn; tauto). rewrite La, Lb. f_equal. f_equal.
  rewrite half_odd by auto. rewrite roll_right_map, roll_back by auto. reflexivity.
Qed.

(*@ C46 with 'coeff' it refuses two or more pairs, unless there happen to be exactly as many pairs as lags *)
Lemma fft_curve_coeff_many : forall n ins outs, (2 <= n)%nat -> length ins = length outs ->
  (2 <= length ins)%nat -> length ins <> (2 * n - 1)%nat -> table n ins -> table n outs ->
  fftcorrelate n n ins outs "coeff" = Err ValueError.
Proof.
  intros n ins outs Hn El H2 Hr Ti To. unfold fftcorrelate, scale_rows. change (String.eqb "coeff" "coeff") with true. cbv iota.
  rewrite bcast2_eq by (now rewrite !map_length). cbn [rbind]. rewrite !map_length, El, !Nat.eqb_refl. cbn [negb andb].
  set (sc := map2 _ _ _). assert (Ls : length sc = length ins) by (unfold sc; rewrite map2_length; rewrite !map_length; auto).
  destruct ins as [|a ins]; [cbn in H2; lia|]. destruct outs as [|b outs]; [discriminate|].
  inversion Ti; inversion To; subst. cbn [map]. unfold map2. cbn [combine map fst snd mapM].
  rewrite fft_xcorr_eq by (rewrite ?demean_centred, ?centred_length; auto; lia).
  unfold mul_last at 1. rewrite map_length, fft_lags_length, Ls. clearbody sc.
  destruct (Nat.eqb_spec (2 * length a - 1) (length (a :: ins))) as [E|_]; [congruence|].
  pose proof (fft_lags_length (length a)) as Fl.
  destruct (fft_lags (length a)) as [|L0 [|L1 r]]; cbn [length] in Fl; try lia.
  destruct sc as [|k [|k' sc]]; cbn [length] in Ls, H2; try lia. reflexivity.
Qed.

(*@ C46 and then the curve of pair i is scaled, at each lag, by the factor of another pair: the one whose position is that lag's place in the order 0,1,..,n-1,-(n-1),..,-1 *)
Lemma fft_curve_coeff_coincidence : forall n ins outs, (2 <= n)%nat -> length ins = length outs ->
  length ins = (2 * n - 1)%nat -> table n ins -> table n outs ->
  exists rows lags, fftcorrelate n n ins outs "coeff" = Ok (rows, lags) /\
    forall i a b L v, nth_error ins i = Some a -> nth_error outs i = Some b -> lag_of n n L ->
      (exists row, nth_error rows i = Some row /\ at_lag (row, lags) L v) <->
      (exists a' b', nth_error ins (Z.to_nat (wrapped n L)) = Some a' /\ nth_error outs (Z.to_nat (wrapped n L)) = Some b' /\
        v = fmul (Fin (lag_sum (centred a) (centred b) L)) (fdiv (Fin 1) (Fin (INR n * Rstd a' * Rstd b')))).
Proof.
  intros n ins outs Hn El Hr Ti To. unfold fftcorrelate, scale_rows. change (String.eqb "coeff" "coeff") with true. cbv iota.
  rewrite bcast2_eq by (now rewrite !map_length). cbn [rbind]. rewrite !map_length, El, !Nat.eqb_refl. cbn [negb andb].
  rewrite !map2_maps. set (sc := map2 (fun x y => finv (INR n * Rstd (demean x) * Rstd (demean y))) ins outs).
  assert (Ls : length sc = (2 * n - 1)%nat) by (unfold sc; rewrite map2_length; auto).
  rewrite (map2_ext_Forall (fun a b => fft_xcorr n (demean a) (demean b)) (fun a b => map (lag_sum (centred a) (centred b)) (fft_lags n)) (fun a => length a = n) (fun a => length a = n))
    by (auto; intros; rewrite fft_xcorr_eq by (rewrite ?demean_centred, ?centred_length; auto; lia); reflexivity).
  set (rows := map2 (fun x y => map (lag_sum (centred x) (centred y)) (fft_lags n)) ins outs).
  rewrite (mapM_ok (fun row => map2 (fun x k => fmul (Fin x) k) row sc)).
  2:{ intros row Hrow. unfold rows, map2 in Hrow. apply in_map_iff in Hrow as [p [<- _]].
      unfold mul_last. now rewrite map_length, fft_lags_length, Ls, Nat.eqb_refl. }
  cbn [rbind]. do 2 eexists. split; [reflexivity|].
  intros i a b L v Ha Hb HL. rewrite map_map, nth_error_map. unfold rows. rewrite nth_error_map2, Ha, Hb. cbn [option_map].
  rewrite half_odd by lia.
  destruct (wrap_onto n L HL) as [Hk Ek]. set (k := Z.to_nat (wrapped n L)) in *.
  set (g := lag_sum (centred a) (centred b)).
  assert (Nk : nth_error sc k = match nth_error ins k, nth_error outs k with Some x, Some y => Some (finv (INR n * Rstd x * Rstd y)) | _, _ => None end).
  { unfold sc. rewrite nth_error_map2. destruct (nth_error ins k), (nth_error outs k); auto. now rewrite !Rstd_centred. }
  assert (At : forall v, at_lag (roll_right (n - 1) (map2 (fun x k => fmul (Fin x) k) (map g (fft_lags n)) sc), correlation_lags n n) L v
            <-> nth_error (map2 (fun x k => fmul (Fin x) k) (map g (fft_lags n)) sc) k = Some v).
  { intro w. set (m := map2 _ (map g (fft_lags n)) sc).
    assert (Lm : length m = (2 * n - 1)%nat) by (unfold m; rewrite map2_length; rewrite map_length, fft_lags_length; auto).
    unfold at_lag. cbn [fst snd]. unfold roll_right. rewrite Lm. replace (2 * n - 1 - (n - 1))%nat with n by lia.
    assert (L1 : length (skipn n m) = (n - 1)%nat) by (rewrite skipn_length; lia).
    assert (L2 : length (firstn n m) = n) by (rewrite firstn_length; lia).
    assert (J : forall j, nth_error (correlation_lags n n) j = Some L <-> j = Z.to_nat (L + Z.of_nat (n - 1))).
    { intro j. unfold lag_of in HL. split; intro E.
      - apply lags_nth in E. lia.
      - destruct (nth_error (correlation_lags n n) j) as [L'|] eqn:E'.
        + pose proof E' as E2. apply lags_nth in E2. f_equal. lia.
        + apply nth_error_None in E'. rewrite lags_length in E'. lia. }
    assert (Pos : nth_error (skipn n m ++ firstn n m) (Z.to_nat (L + Z.of_nat (n - 1))) = nth_error m k).
    { unfold k, wrapped. unfold lag_of in HL. destruct (Z.ltb_spec L 0).
      - rewrite nth_error_app1 by lia. rewrite P_list.nth_error_skipn. f_equal. lia.
      - rewrite nth_error_app2 by lia. rewrite L1, P_list.nth_error_firstn by lia. f_equal. lia. }
    split.
    - intros [j [E1 E2]]. apply J in E1. subst j. congruence.
    - intro E. exists (Z.to_nat (L + Z.of_nat (n - 1))). split; [now apply J|congruence]. }
  rewrite nth_error_map2, nth_error_map in At.
  assert (Nf : nth_error (fft_lags n) k = Some L).
  { rewrite <- Ek. rewrite <- (fft_lags_nth n k) by auto. apply nth_error_nth'. now rewrite fft_lags_length. }
  rewrite Nf, Nk in At. cbn [option_map] in At. split.
  - intros [row [E A]]. injection E as <-. apply At in A.
    destruct (nth_error ins k) as [a'|] eqn:Ka; [|discriminate]. destruct (nth_error outs k) as [b'|] eqn:Kb; [|discriminate].
    exists a', b'. split; [reflexivity|]. split; [reflexivity|]. injection A as <-. reflexivity.
  - intros [a' [b' [Ka [Kb ->]]]]. eexists. split; [reflexivity|]. apply At. rewrite Ka, Kb. reflexivity.
Qed.

(*@ C46 refusals of 'fft' mode and of _fftcorrelate: different numbers of columns or rows, unknown scaling *)
Lemma fft_refused : forall dt n m ins outs s, (2 <= n)%nat ->
  (length ins <> length outs \/ n <> m ->
    compute_delays dt n m ins outs "fft" "none" = Err ValueError /\ fftcorrelate n m ins outs "none" = Err ValueError /\
    compute_delays dt n m ins outs "fft" "coeff" = Err ValueError /\ fftcorrelate n m ins outs "coeff" = Err ValueError) /\
  (s <> "coeff"%string -> s <> "none"%string -> fftcorrelate n m ins outs s = Err ValueError).
Proof.
  intros dt n m ins outs s Hn. split.
  - intro H.
    assert (B : (Nat.eqb (length ins) (length outs) && Nat.eqb n m)%bool = false).
    { destruct H; [destruct (Nat.eqb_spec (length ins) (length outs)); [easy|reflexivity]|].
      destruct (Nat.eqb_spec n m); [easy|apply Bool.andb_false_r]. }
    unfold compute_delays, fftcorrelate. destruct (Nat.ltb_spec n 2); [lia|].
    change (scale_rows n ins outs "none") with (Ok (A := list (list R) * list (list R) * option (list fl)) (ins, outs, None)).
    cbn [rbind]. change (String.eqb "fft" "loop") with false. change (String.eqb "fft" "fft") with true. cbv iota.
    rewrite B. cbn [negb]. split; [reflexivity|]. split; [reflexivity|].
    unfold scale_rows. change (String.eqb "coeff" "coeff") with true. cbv iota.
    destruct (bcast2 _ _ _) as [sc|e] eqn:Eb.
    + cbn [rbind]. rewrite !map_length, B. split; reflexivity.
    + unfold bcast2 in Eb. destruct (Nat.eqb (length (map Rstd (map demean ins))) _); [discriminate|].
      assert (e = ValueError).
      { destruct (map Rstd (map demean ins)) as [|x [|y l]];
          destruct (map Rstd (map demean outs)) as [|x' [|y' l']]; congruence. }
      subst e. split; reflexivity.
  - intros H1 H2. unfold fftcorrelate, scale_rows.
    destruct (String.eqb_spec s "coeff"); [easy|]. destruct (String.eqb_spec s "none"); [easy|]. reflexivity.
Qed.

Definition fft_demo_in : list (list R) := [[1; 0; 0]; [0; 2; 0]].
Definition fft_demo_out : list (list R) := [[0; 0; 1]; [2; 0; 0]].
(*@ex C46 two pairs, delays +2 and -1 steps of 5 s in both modes *)
Lemma fft_ex : table 3 fft_demo_in /\ table 3 fft_demo_out /\
  exists D D', compute_delays 5 3 3 fft_demo_in fft_demo_out "loop" "none" = Ok D /\
    compute_delays 5 3 3 fft_demo_in fft_demo_out "fft" "none" = Ok D' /\
    d_delay D = [10; -5] /\ d_delay D' = [10; -5] /\ d_peak D' = [Fin 1; Fin 4].
Proof.
  assert (T1 : table 3 fft_demo_in) by (repeat constructor). assert (T2 : table 3 fft_demo_out) by (repeat constructor).
  split; [exact T1|]. split; [exact T2|].
  rewrite loop_none, fft_none by (auto; try lra; try lia; easy). do 2 eexists. split; [reflexivity|]. split; [reflexivity|].
  cbn [d_delay d_peak]. unfold map2, fft_demo_in, fft_demo_out. cbn [combine map fst snd].
  assert (A : forall L, lag_sum [1; 0; 0] [0; 0; 1] L = at0 [1; 0; 0] (2 + L)).
  { intro L. unfold lag_sum, Rsum. cbn [length seq map fold_right]. rewrite !at0_nat. cbn [nth].
    change (Z.of_nat 2) with 2%Z. lra. }
  assert (B : forall L, lag_sum [0; 2; 0] [2; 0; 0] L = 2 * at0 [0; 2; 0] L).
  { intro L. unfold lag_sum, Rsum. cbn [length seq map fold_right]. rewrite !at0_nat. cbn [nth].
    change (Z.of_nat 0 + L)%Z with L. lra. }
  assert (S1 : single_peak (scaled (lag_sum [1; 0; 0] [0; 0; 1]) 1 3) (-2) 1).
  { split; [apply at_scaled; [lia|]; split; [unfold lag_of; lia|]; f_equal; rewrite A; at0c; lra|].
    intros L v Hv N. apply at_scaled in Hv as [HL ->]; [|lia]. eexists. split; [reflexivity|]. rewrite A.
    unfold lag_of in HL. assert (L = -1 \/ L = 0 \/ L = 1 \/ L = 2)%Z as [-> | [-> | [-> | ->]]] by lia; at0c; lra. }
  assert (S2 : single_peak (scaled (lag_sum [0; 2; 0] [2; 0; 0]) 1 3) 1 4).
  { split; [apply at_scaled; [lia|]; split; [unfold lag_of; lia|]; f_equal; rewrite B; at0c; lra|].
    intros L v Hv N. apply at_scaled in Hv as [HL ->]; [|lia]. eexists. split; [reflexivity|]. rewrite B.
    unfold lag_of in HL. assert (L = -1 \/ L = 0 \/ L = -2 \/ L = 2)%Z as [-> | [-> | [-> | ->]]] by lia; at0c; lra. }
  apply single_both in S1 as [P1 Q1]; [|lia|lra]. apply single_both in S2 as [P2 Q2]; [|lia|lra].
  rewrite P1, Q1, P2, Q2, A, B.
  replace (at0 [1; 0; 0] (2 + -2)) with 1 by (at0c; lra).
  replace (2 * at0 [0; 2; 0] 1) with 4 by (at0c; lra).
  rewrite !zap_ge by (cbn; lra). repeat split; repeat (f_equal; try lra).
Qed.
