(** Negative overlaps: segments with samples skipped between them (C47), and one first column under 'coeff' (C87). *)
From Coq Require Import String.
From Verif Require Import Prelude RealBase Fl RealStat Dft Phase Spec_signal Spec_welch M_cmv M_signal_corr M_signal_tf P_signal P_corr P_delay P_fft P_dft P_welch X_signal_psd X_signal_shape.
From Coq Require Import Lra Psatz.
From Coquelicot Require Import Complex.
Local Open Scope R_scope.

Lemma trunc_neg v (G : nat) : INR G <= - v < INR G + 1 -> trunc v = (- Z.of_nat G)%Z.
Proof.
  intros [H1 H2]. unfold trunc. destruct (Rlt_dec v 0) as [L|L].
  - f_equal. apply Int_part_unique. rewrite <- INR_IZR_INZ. lra.
  - pose proof (pos_INR G). assert (v = 0) by lra. subst v. assert (INR G = 0) by lra.
    apply INR_eq with (m := 0%nat) in H0. subst G. apply (Int_part_unique 0 0%Z). lra.
Qed.
Lemma segment_chunk x N G s : (s * (N + G) + N <= length x)%nat ->
  segment x (Z.of_nat N) (- Z.of_nat G) s = chunk x (s * (N + G)) N.
Proof.
  intro H. unfold segment. rewrite Nat2Z.id.
  replace (Z.to_nat (Z.of_nat s * (Z.of_nat N - - Z.of_nat G))) with (s * (N + G))%nat by nia.
  generalize dependent (s * (N + G))%nat. intros k H. clear s G.
  apply nth_ext with (d := 0) (d' := 0).
  - rewrite chunk_length, firstn_length, skipn_length. lia.
  - intros i Hi. rewrite firstn_length, skipn_length in Hi. unfold chunk. rewrite nth_map_seq by lia.
    assert (Hi' : (i < N)%nat) by lia. clear - Hi'.
    replace (nth i (firstn N (skipn k x)) 0) with (nth i (skipn k x) 0).
    + revert i Hi'. revert x. induction k as [|k IH]; intros x i Hi; [reflexivity|]. destruct x; cbn [skipn plus nth]; [now destruct i|]. now apply IH.
    + generalize (skipn k x) as l. intro l. revert N i Hi'. induction l as [|a l IH]; intros N i Hi; [now rewrite firstn_nil|].
      destruct N; [lia|]. cbn [firstn]. destruct i; [reflexivity|]. cbn [nth]. apply IH. lia.
Qed.

(*@ C47 a negative overlap skips samples: with N samples per segment and G = |N overlap| truncated, segment s starts at sample s (N + G), the K segments
    that fit are averaged, and frequencies and normalisation are those of N samples *)
Lemma psd_gap : forall win dtr dt n navgs overlap window d scaling N G K c cols,
  windows win -> keeps_length dtr -> (2 <= n)%nat -> dt <> 0 ->
  (1 <= navgs)%nat -> (navgs * N <= n)%nat -> (n < navgs * (N + 1))%nat -> (1 <= N)%nat ->
  INR G <= - (INR N * overlap) < INR G + 1 ->
  (1 <= K)%nat -> ((K - 1) * (N + G) + N <= n)%nat -> (n < K * (N + G) + N)%nat ->
  norm_is (win window N) dt scaling c -> Forall (fun col => length (snd col) = n) cols -> cols <> [] ->
  exists out, averaged_psd win dtr dt n (Frame cols) (Z.of_nat navgs) overlap window d scaling
      = Ok (map (fun k => INR k / (INR N * dt)) (seq 0 (N / 2 + 1)), out) /\
    map fst out = map fst cols /\
    forall i nm x, nth_error cols i = Some (nm, x) ->
      exists v, nth_error out i = Some (nm, v) /\ length v = (N / 2 + 1)%nat /\
        forall k, (k <= N / 2)%nat ->
          nth k v 0 = sides N k * c * avg K (fun s => Cmod (fourier (tapered (win window N) (detrend_by dtr d (chunk x (s * (N + G)) N))) k) ^ 2).
Proof.
  intros win dtr dt n navgs overlap window d scaling N G K c cols Hw Hd Hn D G1 G2 G3 G4 G5 K1 K2 K3 C Fa Nc.
  cbn [averaged_psd]. unfold psd_frame. rewrite sample_rate_ok by auto. cbn [rbind].
  assert (S0 : segmenting n (Z.of_nat navgs) overlap = Ok (Z.of_nat N, (- Z.of_nat G)%Z)).
  { unfold segmenting. destruct (Z.eqb_spec (Z.of_nat navgs) 0); [lia|].
    assert (E : (Z.of_nat n / Z.of_nat navgs)%Z = Z.of_nat N).
    { symmetry. apply Z.div_unique with (r := (Z.of_nat n - Z.of_nat navgs * Z.of_nat N)%Z); nia. }
    rewrite E, <- INR_IZR_INZ, (trunc_neg _ G G5).
    destruct (Z.ltb_spec (Z.of_nat N) 1); [lia|]. destruct (Z.leb_spec (Z.of_nat N) (- Z.of_nat G)); [lia|]. reflexivity. }
  rewrite S0. cbn [rbind]. rewrite (scale_ok _ _ _ _ _ _ D C). cbn [rbind]. rewrite freqs_eq by auto.
  replace (some_column cols) with (@Ok unit tt) by (destruct cols; [contradiction|reflexivity]). cbn [rbind].
  eexists. split; [reflexivity|]. split; [rewrite map_map; reflexivity|].
  intros i nm x Hi. rewrite nth_error_map, Hi. cbn [option_map fst snd]. eexists. split; [reflexivity|].
  rewrite map_length, seq_length, n_bins_eq. split; [reflexivity|]. intros k Hk. rewrite nth_map_seq by lia.
  assert (Lx : length x = n). { rewrite Forall_forall in Fa. apply (Fa (nm, x)). eapply nth_error_In; eauto. }
  unfold psd_bin, csd_bin. rewrite Lx, dbl_eq by auto.
  assert (NS : n_segments (Z.of_nat n) (Z.of_nat N) (- Z.of_nat G) = K).
  { unfold n_segments. replace ((Z.of_nat n - - Z.of_nat G) / (Z.of_nat N - - Z.of_nat G))%Z with (Z.of_nat K); [apply Nat2Z.id|].
    assert (E1 : ((Z.of_nat K - 1) * (Z.of_nat N + Z.of_nat G) + Z.of_nat N <= Z.of_nat n)%Z) by nia.
    assert (E2 : (Z.of_nat n < Z.of_nat K * (Z.of_nat N + Z.of_nat G) + Z.of_nat N)%Z) by nia.
    apply Z.div_unique with (r := (Z.of_nat n + Z.of_nat G - (Z.of_nat N + Z.of_nat G) * Z.of_nat K)%Z); nia. }
  rewrite NS.
  rewrite (Csumn_ext K _ (fun s => RtoC (Cmod (fourier (tapered (win window N) (detrend_by dtr d (chunk x (s * (N + G)) N))) k) ^ 2))).
  2:{ intros s Hs. rewrite Cconj_self. do 3 f_equal. unfold seg_bin. rewrite segment_chunk, Nat2Z.id, detrended_eq by (rewrite Lx; nia).
      rewrite tapered_eq by (now rewrite Hw, (detrend_by_length dtr Hd), chunk_length). apply fft_bin_fourier. }
  rewrite Csumn_parts. unfold avg. change (Rsum (map ?f (seq 0 K))) with (Rsumn K f). assert (INR K <> 0) by (apply not_0_INR; lia).
  cbn [fst snd Cmult RtoC]. rewrite Rmult_0_l, Rminus_0_r. field; auto.
Qed.
(*@ex C47 five samples, two segments of two, overlap -3/4: the segments are samples 0-1 and 3-4, sample 2 is skipped (G = 1) *)
Lemma gap_example : (2 * 2 <= 5)%nat /\ (5 < 2 * (2 + 1))%nat /\ INR 1 <= - (INR 2 * (- 3 / 4)) < INR 1 + 1 /\
  ((2 - 1) * (2 + 1) + 2 <= 5)%nat /\ (5 < 2 * (2 + 1) + 2)%nat /\ chunk [7; 8; 9; 10; 11] (1 * (2 + 1)) 2 = [10; 11].
Proof.
  cbn [INR]. repeat split; try lia; lra.
Qed.

(*@ C87 a single first column under 'coeff' against two or more second columns is not spread over them: 'loop' mode stops with IndexError, as it
    does when the second table has no column *)
Lemma coeff_one_in : forall dt n a outs, dt <> 0 -> (2 <= n)%nat -> length a = n -> table n outs -> length outs <> 1%nat ->
  compute_delays dt n n [a] outs "loop" "coeff" = Err IndexError.
Proof.
  intros dt n a outs Hd Hn La To Lo. unfold compute_delays. destruct (Nat.ltb_spec n 2); [lia|].
  unfold scale_rows. change (String.eqb "coeff" "coeff") with true. cbv iota.
  destruct outs as [|b0 [|b1 outs]]; [reflexivity|now destruct Lo|].
  assert (B : exists sc, bcast2 (fun x y => finv (INR n * x * y)) (map Rstd (map demean [a])) (map Rstd (map demean (b0 :: b1 :: outs))) = Ok sc).
  { eexists. unfold bcast2. cbn [map length Nat.eqb]. reflexivity. }
  destruct B as [sc ->]. cbn [rbind]. change (String.eqb "loop" "loop") with true. cbv iota.
  assert (F1 : Forall (fun a => length a = n) (map demean [a])) by (apply Forall_centred; constructor; auto).
  assert (F2 : Forall (fun a => length a = n) (map demean (b0 :: b1 :: outs))) by (now apply Forall_centred).
  pose proof (loop_rows_long dt n (map demean [a]) Hd ltac:(lia) (map demean (b0 :: b1 :: outs)) ltac:(cbn; lia) F1 F2) as Lr.
  cbn [map] in Lr |- *. rewrite Lr. reflexivity.
Qed.
