(** Lemmas relating the modelled Welch estimate to Spec_welch. *)
From Coq Require Import String.
From Verif Require Import Prelude PreludeFacts RealBase Fl RealStat Dft Phase Spec_welch M_cmv M_signal_corr M_signal_tf P_signal P_corr P_dft.
From Coq Require Import Lra Psatz.
From Coquelicot Require Import Complex.
Local Open Scope R_scope.

Lemma Int_part_unique v (z : Z) : IZR z <= v < IZR z + 1 -> Int_part v = z.
Proof.
  intros [H1 H2]. unfold Int_part. destruct (archimed v) as [A1 A2].
  assert (B : (z < up v)%Z) by (apply lt_IZR; lra).
  assert (D : (up v < z + 2)%Z) by (apply lt_IZR; rewrite plus_IZR; lra). lia.
Qed.
Lemma trunc_nat v (V : nat) : INR V <= v < INR V + 1 -> trunc v = Z.of_nat V.
Proof.
  intro H. unfold trunc. destruct (Rlt_dec v 0) as [L|_].
  - pose proof (pos_INR V). lra.
  - apply Int_part_unique. now rewrite <- INR_IZR_INZ.
Qed.
Lemma segmenting_ok n navgs overlap N V : welch_grid n navgs overlap N V ->
  segmenting n (Z.of_nat navgs) overlap = Ok (Z.of_nat N, Z.of_nat V).
Proof.
  intros (A1 & A2 & A3 & A4 & A5 & A6). unfold segmenting. destruct (Z.eqb_spec (Z.of_nat navgs) 0); [lia|].
  assert (E : (Z.of_nat n / Z.of_nat navgs)%Z = Z.of_nat N).
  { symmetry. apply Z.div_unique with (r := (Z.of_nat n - Z.of_nat navgs * Z.of_nat N)%Z); nia. }
  rewrite E, <- INR_IZR_INZ, (trunc_nat _ V A5).
  destruct (Z.ltb_spec (Z.of_nat N) 1); [lia|]. destruct (Z.leb_spec (Z.of_nat N) (Z.of_nat V)); [lia|]. reflexivity.
Qed.
Lemma segments_fit_eq n N V K : (V < N)%nat -> segments_fit n N V K ->
  n_segments (Z.of_nat n) (Z.of_nat N) (Z.of_nat V) = K.
Proof.
  intros H (H1 & H2 & H3). unfold n_segments.
  replace ((Z.of_nat n - Z.of_nat V) / (Z.of_nat N - Z.of_nat V))%Z with (Z.of_nat K); [apply Nat2Z.id|].
  assert (E1 : ((Z.of_nat K - 1) * (Z.of_nat N - Z.of_nat V) + Z.of_nat N <= Z.of_nat n)%Z) by nia.
  assert (E2 : (Z.of_nat n < Z.of_nat K * (Z.of_nat N - Z.of_nat V) + Z.of_nat N)%Z) by nia.
  apply Z.div_unique with (r := (Z.of_nat n - Z.of_nat V - (Z.of_nat N - Z.of_nat V) * Z.of_nat K)%Z); nia.
Qed.
Lemma segments_exist n N V : (V < N)%nat -> (N <= n)%nat -> exists K, segments_fit n N V K.
Proof.
  intros H1 H2. exists ((n - V) / (N - V))%nat.
  pose proof (Nat.div_mod (n - V) (N - V) ltac:(lia)) as E. pose proof (Nat.mod_upper_bound (n - V) (N - V) ltac:(lia)) as B.
  set (q := ((n - V) / (N - V))%nat) in *. set (r := ((n - V) mod (N - V))%nat) in *.
  assert (1 <= q)%nat by nia. unfold segments_fit. nia.
Qed.

Lemma chunk_length x s N : length (chunk x s N) = N.
Proof. unfold chunk. now rewrite map_length, seq_length. Qed.
Lemma nth_map_seq {A} (f : nat -> A) n i d : (i < n)%nat -> nth i (map f (seq 0 n)) d = f i.
Proof. intro H. rewrite nth_indep with (d' := f 0%nat) by (now rewrite map_length, seq_length). rewrite map_nth, seq_nth by auto. reflexivity. Qed.
Lemma chunk_segment x N V s : (V < N)%nat -> (s * (N - V) + N <= length x)%nat ->
  segment x (Z.of_nat N) (Z.of_nat V) s = chunk x (s * (N - V)) N.
Proof.
  intros H1 H2. unfold segment. rewrite Nat2Z.id.
  replace (Z.to_nat (Z.of_nat s * (Z.of_nat N - Z.of_nat V))) with (s * (N - V))%nat by nia.
  apply nth_ext with (d := 0) (d' := 0).
  - rewrite chunk_length, firstn_length, skipn_length. lia.
  - intros i Hi. rewrite firstn_length, skipn_length in Hi. unfold chunk. rewrite nth_map_seq by lia.
    assert (Hi' : (i < N)%nat) by lia. clear - Hi'.
    revert i Hi'. generalize (s * (N - V))%nat as k. intros k i Hi.
    replace (nth i (firstn N (skipn k x)) 0) with (nth i (skipn k x) 0).
    + revert i Hi. revert x. induction k as [|k IH]; intros x i Hi; [reflexivity|]. destruct x; cbn [skipn plus nth]; [now destruct i|]. now apply IH.
    + generalize (skipn k x) as l. clear - Hi. intro l. revert N i Hi. induction l as [|a l IH]; intros N i Hi; [now rewrite firstn_nil|].
      destruct N; [lia|]. cbn [firstn]. destruct i; [reflexivity|]. cbn [nth]. apply IH. lia.
Qed.
Lemma tapered_length w v : length (tapered w v) = length v.
Proof. unfold tapered. now rewrite map_length, seq_length. Qed.
Lemma tapered_eq w v : length w = length v -> map2 Rmult w v = tapered w v.
Proof.
  intro E. apply nth_ext with (d := 0) (d' := 0); [rewrite map2_length, tapered_length; auto|].
  intros i Hi. rewrite map2_length in Hi by auto. rewrite map2_nth with (a := 0) (b := 0) by (auto; lia).
  unfold tapered. rewrite nth_map_seq by lia. reflexivity.
Qed.
Lemma Csumn_parts n f : Csumn n f = (Rsumn n (fun i => fst (f i)), Rsumn n (fun i => snd (f i))).
Proof.
  induction n as [|n IH]; [reflexivity|]. rewrite Csumn_S, IH, !Rsumn_S. reflexivity.
Qed.
Lemma Rsumn_opp n f : Rsumn n (fun i => - f i) = - Rsumn n f.
Proof. induction n as [|n IH]; [rewrite !Rsumn_0; lra|]. rewrite !Rsumn_S, IH. lra. Qed.
Lemma fft_bin_fourier v k : fft_bin (map RtoC v) k = fourier v k.
Proof.
  unfold fft_bin, fourier. rewrite map_length. rewrite Csumn_parts.
  assert (N : forall i, nth i (map RtoC v) (RtoC 0) = RtoC (nth i v 0)) by (intro i; apply (map_nth RtoC)).
  f_equal.
  - apply Rsumn_ext. intros i Hi. rewrite N. unfold cis, Cmult, RtoC. cbn [fst snd]. rewrite cos_neg. ring.
  - change (Rsum (map ?f (seq 0 (length v)))) with (Rsumn (length v) f). rewrite <- Rsumn_opp.
    apply Rsumn_ext. intros i Hi. rewrite N. unfold cis, Cmult, RtoC. cbn [fst snd]. rewrite sin_neg. ring.
Qed.

Section W.
Variable win : string -> nat -> list R.
Variable dtr : string -> list R -> list R.
Hypothesis Hw : windows win.
Hypothesis Hd : keeps_length dtr.
Lemma detrended_eq d v : detrended dtr d v = detrend_by dtr d v.
Proof. reflexivity. Qed.
Lemma detrend_by_length d v : length (detrend_by dtr d v) = length v.
Proof. destruct d; [apply Hd|reflexivity]. Qed.
Lemma seg_bin_eq window d x N V s k : (V < N)%nat -> (s * (N - V) + N <= length x)%nat ->
  seg_bin win dtr window d x (Z.of_nat N) (Z.of_nat V) s k = seg_spectrum (win window N) (detrend_by dtr d) x N V s k.
Proof.
  intros H1 H2. unfold seg_bin, seg_spectrum. rewrite chunk_segment, Nat2Z.id, detrended_eq by auto.
  rewrite tapered_eq by (now rewrite Hw, detrend_by_length, chunk_length). apply fft_bin_fourier.
Qed.
Lemma dbl_eq N k : (k <= N / 2)%nat -> dbl (Z.of_nat N) k = sides N k.
Proof.
  intro H. unfold dbl, sides. pose proof (Nat.div_mod N 2 ltac:(lia)) as E. pose proof (Nat.mod_upper_bound N 2 ltac:(lia)) as B.
  destruct (Nat.eqb_spec k 0) as [->|K0]; [reflexivity|]. cbn [orb].
  replace (Z.to_nat (Z.of_nat N / 2)) with (N / 2)%nat.
  2:{ change 2%Z with (Z.of_nat 2). rewrite <- Nat2Z.inj_div, Nat2Z.id. reflexivity. }
  destruct (Z.even (Z.of_nat N)) eqn:Ev.
  - cbn [andb]. apply Z.even_spec in Ev. destruct Ev as [q Hq].
    destruct (Nat.eqb_spec k (N / 2)); destruct (Nat.eqb_spec (2 * k) N); try reflexivity; exfalso; lia.
  - cbn [andb]. destruct (Nat.eqb_spec (2 * k) N) as [Ek|]; [|reflexivity]. exfalso.
    assert (Z.even (Z.of_nat N) = true) by (apply Z.even_spec; exists (Z.of_nat k); lia). congruence.
Qed.
Lemma n_bins_eq N : n_bins (Z.of_nat N) = (N / 2 + 1)%nat.
Proof. unfold n_bins. change 2%Z with (Z.of_nat 2). rewrite <- Nat2Z.inj_div. lia. Qed.
Lemma csd_bin_eq sc window d x y n N V K k : (V < N)%nat -> length x = n -> length y = n -> segments_fit n N V K -> (k <= N / 2)%nat ->
  csd_bin win dtr sc window d x y (Z.of_nat N) (Z.of_nat V) k
  = Cmult (RtoC (sides N k * sc))
      (cavg K (fun s => Cmult (Cconj (seg_spectrum (win window N) (detrend_by dtr d) x N V s k))
                              (seg_spectrum (win window N) (detrend_by dtr d) y N V s k))).
Proof.
  intros H Lx Ly F Hk. unfold csd_bin. rewrite Lx, (segments_fit_eq _ _ _ _ H F), dbl_eq by auto. destruct F as (F1 & F2 & F3).
  erewrite Csumn_ext.
  2:{ intros s Hs. rewrite !seg_bin_eq by (auto; rewrite ?Lx, ?Ly; nia). reflexivity. }
  rewrite Csumn_parts. unfold cavg, avg, Rsumn. assert (INR K <> 0) by (apply not_0_INR; lia).
  apply injective_projections; cbn [fst snd Cmult RtoC]; field; auto.
Qed.
Lemma avg_ext K f g : (forall i, (i < K)%nat -> f i = g i) -> avg K f = avg K g.
Proof. intro H. unfold avg. f_equal. apply Rsumn_ext. exact H. Qed.
Lemma Cconj_self (z : C) : Cmult (Cconj z) z = RtoC (Cmod z ^ 2).
Proof.
  unfold Cmod. rewrite pow2_sqrt by (apply Rplus_le_le_0_compat; apply pow2_ge_0).
  apply injective_projections; cbn; ring.
Qed.
Lemma scal_cavg_fst c K f : fst (Cmult (RtoC c) (cavg K f)) = c * avg K (fun s => fst (f s)).
Proof. unfold cavg, Cmult, RtoC. cbn [fst snd]. ring. Qed.
Lemma psd_bin_eq sc window d x n N V K k : (V < N)%nat -> length x = n -> segments_fit n N V K -> (k <= N / 2)%nat ->
  psd_bin win dtr sc window d x (Z.of_nat N) (Z.of_nat V) k
  = sides N k * sc * avg K (fun s => Cmod (seg_spectrum (win window N) (detrend_by dtr d) x N V s k) ^ 2).
Proof.
  intros H L F Hk. unfold psd_bin. rewrite (csd_bin_eq _ _ _ _ _ n _ _ K) by auto.
  rewrite scal_cavg_fst. f_equal. apply avg_ext. intros s Hs. now rewrite Cconj_self.
Qed.
End W.
