(** A periodic signal and its delayed, amplified copy: averaged_tf gives the pure delay and tf_delay recovers it (C98). *)
From Coq Require Import String.
From Verif Require Import Prelude PreludeFacts RealBase Fl RealStat Dft Phase Spec_welch Spec_tfdelay M_cmv M_signal_corr M_signal_tf M_field_delays P_signal P_corr P_dft P_phase P_list P_welch P_tf P_tfdelay X_signal_psd X_signal_tf X_signal_tfdelay X_signal_tfx X_field_delays.
From Coq Require Import Lra Psatz.
From Coquelicot Require Import Complex.
Local Open Scope string_scope.
Local Open Scope R_scope.

(** A signal over all time that repeats after [N] samples; its [n] samples from time zero when it arrives [m] samples late,
    amplified by [g]; whether it has energy at [k] cycles per period. *)
Definition periodic (f : Z -> R) (N : nat) : Prop := forall i, f (i + Z.of_nat N)%Z = f i.
Definition arriving (f : Z -> R) (n : nat) (m : Z) (g : R) : list R := map (fun i => g * f (Z.of_nat i - m)%Z) (seq 0 n).
Definition energetic (f : Z -> R) (N k : nat) : Prop := fourier (map (fun i => f (Z.of_nat i)) (seq 0 N)) k <> RtoC 0.
(** A rectangular window *)
Definition flat (w : list R) : Prop := forall j, (j < length w)%nat -> nth j w 0 = 1.

Lemma Csumn_head n (f : nat -> C) : Csumn (S n) f = Cplus (f 0%nat) (Csumn n (fun i => f (S i))).
Proof. induction n as [|n IH]; [rewrite Csumn_S, !Csumn_0; ring|]. rewrite Csumn_S, IH, (Csumn_S n (fun i => f (S i))). ring. Qed.
Lemma rotate (F : Z -> C) N (a : Z) : (forall i, F (i + Z.of_nat N)%Z = F i) -> Csumn N (fun j => F (a + Z.of_nat j)%Z) = Csumn N (fun j => F (Z.of_nat j)).
Proof.
  intro P. assert (St : forall a, Csumn N (fun j => F (Z.succ a + Z.of_nat j)%Z) = Csumn N (fun j => F (a + Z.of_nat j)%Z)).
  { intro b. pose proof (Csumn_head N (fun j => F (b + Z.of_nat j)%Z)) as E1. rewrite Csumn_S, P in E1. cbn beta in E1. replace (b + Z.of_nat 0)%Z with b in E1 by lia.
    transitivity (Csumn N (fun i => F (b + Z.of_nat (S i))%Z)); [apply Csumn_ext; intros; f_equal; lia|].
    apply (f_equal (fun z => Cminus z (F b))) in E1. ring_simplify in E1. symmetry. exact E1. }
  revert a. apply Z.bi_induction.
  - intros x y ->. reflexivity.
  - apply Csumn_ext. intros. f_equal.
  - intro b. now rewrite St.
Qed.
Lemma cis_step N k (i : Z) : (1 <= N)%nat -> cis (- (2 * PI * INR k * IZR (i + Z.of_nat N) / INR N)) = cis (- (2 * PI * INR k * IZR i / INR N)).
Proof.
  intro HN. assert (INR N <> 0) by (apply not_0_INR; lia). rewrite plus_IZR, <- INR_IZR_INZ.
  replace (- (2 * PI * INR k * (IZR i + INR N) / INR N)) with (- (2 * PI * INR k * IZR i / INR N) + 2 * PI * IZR (- Z.of_nat k)).
  - apply cis_plus_turns.
  - rewrite opp_IZR, <- INR_IZR_INZ. now field.
Qed.
(** The spectrum of one whole period, wherever it begins, is that of the period from zero turned. *)
Lemma period_spectrum f N k (a : Z) : (1 <= N)%nat -> periodic f N ->
  fourier (map (fun j => f (a + Z.of_nat j)%Z) (seq 0 N)) k = Cmult (cis (2 * PI * INR k * IZR a / INR N)) (fourier (map (fun i => f (Z.of_nat i)) (seq 0 N)) k).
Proof.
  intros HN P. assert (NZ : INR N <> 0) by (apply not_0_INR; lia). rewrite <- !fft_bin_fourier. unfold fft_bin. rewrite !map_length, seq_length.
  set (F := fun i : Z => Cmult (RtoC (f i)) (cis (- (2 * PI * INR k * IZR i / INR N)))).
  assert (PF : forall i, F (i + Z.of_nat N)%Z = F i) by (intro i; unfold F; now rewrite P, cis_step).
  transitivity (Cmult (cis (2 * PI * INR k * IZR a / INR N)) (Csumn N (fun j => F (a + Z.of_nat j)%Z))).
  - rewrite <- Csumn_scal. apply Csumn_ext. intros j Hj. rewrite map_map, nth_map_seq by exact Hj. unfold F. rewrite Cmult_assoc, (Cmult_comm (cis _) (RtoC _)), <- Cmult_assoc, <- cis_plus. f_equal. f_equal.
    rewrite plus_IZR, <- INR_IZR_INZ. field. exact NZ.
  - rewrite (rotate F N a PF). f_equal. apply Csumn_ext. intros j Hj. rewrite map_map, nth_map_seq by exact Hj. unfold F. now rewrite <- INR_IZR_INZ.
Qed.
Lemma flat_tapered w v : flat w -> length w = length v -> tapered w v = v.
Proof.
  intros Fw L. unfold tapered. apply (nth_ext _ _ 0 0); [now rewrite map_length, seq_length|]. rewrite map_length, seq_length. intros j Hj.
  rewrite nth_map_seq by exact Hj. rewrite Fw by lia. ring.
Qed.
Lemma flat_power w : flat w -> w <> [] -> power w <> 0.
Proof.
  intros Fw Nw. assert (E : forall v, (forall j, (j < length v)%nat -> nth j v 0 = 1) -> power v = INR (length v)).
  { induction v as [|x v IH]; intro Fv; [reflexivity|]. unfold power in *. cbn [map Rsum length]. rewrite S_INR. cbn [fold_right] in *.
    pose proof (Fv 0%nat ltac:(cbn; lia)) as X0. cbn in X0. rewrite <- IH; [|intros j Hj; apply (Fv (S j)); cbn; lia]. unfold Rsum. cbn. rewrite X0. ring. }
  rewrite E by exact Fw. apply not_0_INR. destruct w; [easy|discriminate].
Qed.
Lemma chunk_arriving f n m g a N : (a + N <= n)%nat ->
  chunk (arriving f n m g) a N = map (Rmult g) (map (fun j => f ((Z.of_nat a - m) + Z.of_nat j)%Z) (seq 0 N)).
Proof.
  intro L. unfold chunk, arriving. rewrite map_map. apply map_ext_in. intros j I. apply in_seq in I.
  rewrite nth_map_seq by lia. f_equal. f_equal. lia.
Qed.
Lemma arriving_spectrum w f n m g N V s k : (1 <= N)%nat -> periodic f N -> flat w -> length w = N -> (s * (N - V) + N <= n)%nat ->
  seg_spectrum w (fun v => v) (arriving f n m g) N V s k =
  Cmult (RtoC g) (Cmult (cis (2 * PI * INR k * IZR (Z.of_nat (s * (N - V)) - m) / INR N)) (fourier (map (fun i => f (Z.of_nat i)) (seq 0 N)) k)).
Proof.
  intros HN P Fw Lw L. unfold seg_spectrum. rewrite flat_tapered; [|exact Fw|now rewrite chunk_length].
  rewrite chunk_arriving by exact L. rewrite fourier_scale. now rewrite period_spectrum.
Qed.
Lemma Cmult_nz (a b : C) : a <> RtoC 0 -> b <> RtoC 0 -> Cmult a b <> RtoC 0.
Proof. intros A B E. apply (f_equal Cmod) in E. rewrite Cmod_mult, Cmod_0 in E. apply Rmult_integral in E. destruct E as [E|E]; apply Cmod_eq_0 in E; contradiction. Qed.
Lemma RtoC_nz r : r <> 0 -> RtoC r <> RtoC 0.
Proof. intros N E. apply N. now injection E. Qed.

(*@ C98 A periodic signal and its copy arriving m samples later with gain g, segments being whole periods, rectangular window, no
    detrending: at every frequency at which the signal has energy the transfer function is g times the pure delay m dt and
    coherence is 1; elsewhere both are missing. *)
Lemma wave_tf : forall win dtr dt n f m g a b navgs overlap window N V,
  windows win -> keeps_length dtr -> flat (win window N) -> (2 <= n)%nat -> dt <> 0 -> g <> 0 ->
  welch_grid n navgs overlap N V -> periodic f N ->
  exists tf coh,
    averaged_tf win dtr dt n (Frame [(a, arriving f n 0 1)]) (Frame [(b, arriving f n m g)]) (Z.of_nat navgs) overlap window None
      = Ok (map (fun k => INR k / (INR N * dt)) (seq 0 (N / 2 + 1)), [((a ++ "_" ++ b)%string, (tf, coh))]) /\
    length tf = (N / 2 + 1)%nat /\ length coh = (N / 2 + 1)%nat /\
    forall k, (k <= N / 2)%nat ->
      (energetic f N k -> nth k tf None = Some (Cmult (RtoC g) (cis (- (2 * PI * (INR k / (INR N * dt)) * (IZR m * dt))))) /\ nth k coh None = Some 1) /\
      (~ energetic f N k -> nth k tf None = None /\ nth k coh None = None).
Proof.
  intros win dtr dt n f m g a b navgs overlap window N V Hw Hd Fw Hn D Hg G P.
  pose proof G as (G1 & G2 & G3 & G4 & G5 & G6). destruct (segments_exist n N V G6 ltac:(nia)) as [K F].
  assert (NZ : INR N <> 0) by (apply not_0_INR; lia).
  assert (PW : power (win window N) <> 0) by (apply flat_power; [exact Fw|]; intro E; pose proof (Hw window N) as L; rewrite E in L; cbn in L; lia).
  assert (La : forall m g, length (arriving f n m g) = n) by (intros; unfold arriving; now rewrite map_length, seq_length).
  destruct (tf_value win dtr dt n [(a, arriving f n 0 1)] [(b, arriving f n m g)] navgs overlap window None N V K Hw Hd Hn D G F PW) as (out & E & L & Vv).
  { repeat constructor; apply La. } { now left. } { discriminate. } { discriminate. }
  cbn in L. destruct (Vv 0%nat ltac:(lia)) as (a' & x & b' & y & tf & coh & E1 & E2 & E3 & L1 & L2 & Vk). cbn in E1, E2. injection E1 as <- <-. injection E2 as <- <-.
  destruct out as [|o [|]]; try discriminate. cbn in E3. injection E3 as ->. exists tf, coh. split; [exact E|]. split; [exact L1|]. split; [exact L2|].
  intros k Hk. specialize (Vk k Hk). cbv zeta in Vk. destruct Vk as [V1 V2]. cbn [detrend_by] in V1, V2.
  destruct F as (F1 & F2 & F3).
  set (X := fun s => seg_spectrum (win window N) (detrend_by dtr None) (arriving f n 0 1) N V s k) in *.
  set (Y := fun s => seg_spectrum (win window N) (detrend_by dtr None) (arriving f n m g) N V s k) in *.
  set (W := fourier (map (fun i => f (Z.of_nat i)) (seq 0 N)) k) in *.
  assert (EX : forall s, (s < K)%nat -> X s = Cmult (cis (2 * PI * INR k * IZR (Z.of_nat (s * (N - V))) / INR N)) W).
  { intros s Hs. unfold X. change (detrend_by dtr None) with (fun v : list R => v). rewrite arriving_spectrum; [|exact G4|exact P|exact Fw|apply Hw|nia].
    rewrite Z.sub_0_r. unfold W. ring. }
  set (q := Cmult (RtoC g) (cis (- (2 * PI * (INR k / (INR N * dt)) * (IZR m * dt))))) in *.
  assert (EY : forall s, (s < K)%nat -> Y s = Cmult q (X s)).
  { intros s Hs. rewrite (EX s Hs). unfold Y, q. change (detrend_by dtr None) with (fun v : list R => v). rewrite arriving_spectrum; [|exact G4|exact P|exact Fw|apply Hw|nia].
    fold W. rewrite !Cmult_assoc. f_equal. rewrite <- !Cmult_assoc, <- cis_plus. f_equal. f_equal. rewrite minus_IZR. field. split; assumption. }
  assert (Q0 : q <> RtoC 0) by (unfold q; apply Cmult_nz; [now apply RtoC_nz|apply cis_nz]).
  assert (AY : auto K Y = Cmod q ^ 2 * auto K X) by now apply auto_gain.
  assert (QQ : Cmod q ^ 2 <> 0) by (apply pow_nonzero; intro Z0; apply Cmod_eq_0 in Z0; contradiction).
  assert (CX : cross K X Y = Cmult q (RtoC (auto K X))) by now apply cross_gain.
  rewrite AY, CX in V2. rewrite CX in V1. split.
  - intro En. assert (A0 : auto K X <> 0).
    { intro Z0. pose proof (auto_zero K X F1 Z0 0%nat ltac:(lia)) as X0. rewrite EX in X0 by lia. revert X0. apply Cmult_nz; [apply cis_nz|exact En]. }
    destruct (Req_EM_T (auto K X) 0); [contradiction|]. split.
    + rewrite V1. f_equal. field. now apply RtoC_nz.
    + rewrite V2. destruct (Req_EM_T (auto K X * (Cmod q ^ 2 * auto K X)) 0) as [Z0|].
      * exfalso. apply Rmult_integral in Z0. destruct Z0 as [Z0|Z0]; [contradiction|]. apply Rmult_integral in Z0. tauto.
      * f_equal. rewrite Cmod_mult, Cmod_R, Rpow_mult_distr. rewrite pow2_abs. field. split; [exact A0|]. intro Z0. apply QQ. rewrite Z0. ring.
  - intro En. assert (W0 : W = RtoC 0) by (destruct (Ceq_dec W (RtoC 0)) as [|N0]; [assumption|contradiction]).
    assert (A0 : auto K X = 0).
    { unfold auto. rewrite (avg_ext K _ (fun _ => 0 * 0)); [rewrite avg_scale; ring|]. intros s Hs. rewrite EX, W0, Cmult_0_r, Cmod_0 by exact Hs. ring. }
    rewrite A0 in V1, V2. destruct (Req_EM_T 0 0) as [_|]; [|easy]. rewrite Rmult_0_l in V2. destruct (Req_EM_T 0 0) as [_|]; [|easy]. auto.
Qed.

Lemma arriving_turn f N n m m' g q : periodic f N -> m = (m' + q * Z.of_nat N)%Z -> arriving f n m g = arriving f n m' g.
Proof.
  intros P ->. unfold arriving. apply map_ext. intro i. f_equal. assert (T : forall q i, f (i + q * Z.of_nat N)%Z = f i).
  { apply (Z.bi_induction (fun q => forall i, f (i + q * Z.of_nat N)%Z = f i)).
    - intros x y ->. reflexivity.
    - intro j. f_equal. lia.
    - intro z. split; intros Hz j.
      + rewrite <- (Hz j). rewrite <- (P (j + z * Z.of_nat N)%Z). f_equal. lia.
      + rewrite <- (Hz j). rewrite <- (P (j + z * Z.of_nat N)%Z). f_equal. lia. }
  rewrite <- (T q). f_equal. lia.
Qed.
Lemma filter_seq_down (p : nat -> bool) M : (forall i j, (i <= j)%nat -> p j = true -> p i = true) -> exists M', (M' <= M)%nat /\ filter p (seq 0 M) = seq 0 M' /\ forall k, (k < M)%nat -> p k = true -> (k < M')%nat.
Proof.
  intro Dn. induction M as [|M (M' & L & E & Q)]; [exists 0%nat; repeat split; intros; lia|]. rewrite seq_S, filter_app, E. cbn [filter Nat.add]. destruct (p M) eqn:EM.
  - exists (S M). assert (M' = M).
    { destruct (Nat.eq_dec M' M) as [|Ne]; [assumption|]. exfalso. assert (p M' = true) by (apply (Dn M' M); [lia|exact EM]).
      pose proof (Q M' ltac:(lia) H). lia. }
    subst M'. split; [lia|]. split; [now rewrite seq_S|]. intros; lia.
  - exists M'. split; [lia|]. split; [now rewrite app_nil_r|]. intros k Hk Pk. destruct (Nat.eq_dec k M) as [->|]; [congruence|]. apply Q; [lia|exact Pk].
Qed.
Lemma filter_map {A B} (p : B -> bool) (g : A -> B) l : filter p (map g l) = map g (filter (fun x => p (g x)) l).
Proof. induction l as [|x l IH]; [reflexivity|]. cbn. destruct (p (g x)); cbn; now rewrite IH. Qed.
Lemma bins_indexed (fr : nat -> R) M tf coh : length tf = M -> length coh = M ->
  bins_of (map fr (seq 0 M)) tf coh = map (fun k => mkBin (fr k) (nth k tf None) (nth k coh None)) (seq 0 M).
Proof.
  intros L1 L2. unfold bins_of. apply nth_error_ext. intro i. rewrite !nth_error_map. destruct (Nat.lt_ge_cases i M) as [C|C].
  - rewrite nth_error_seq by exact C. cbn [option_map Nat.add].
    assert (E : nth_error (combine (map fr (seq 0 M)) (combine tf coh)) i = Some (fr i, (nth i tf None, nth i coh None))).
    { rewrite (nth_error_nth' _ (fr i, (None, None))) by (rewrite !combine_length, map_length, seq_length; lia). f_equal.
      rewrite combine_nth by (rewrite combine_length, map_length, seq_length; lia). rewrite combine_nth by lia. f_equal.
      rewrite (nth_indep _ (fr i) (fr 0%nat)) by (rewrite map_length, seq_length; lia). rewrite map_nth, seq_nth by exact C. reflexivity. }
    now rewrite E.
  - rewrite (proj2 (nth_error_None (seq 0 M) i)) by (rewrite seq_length; lia).
    rewrite (proj2 (nth_error_None _ i)) by (rewrite !combine_length, map_length, seq_length; lia). reflexivity.
Qed.
Definition admits (lim : option R) (v : R) : Prop := match lim with None => True | Some l => v < l end.
Definition asks_less (lim : option R) (v : R) : Prop := match lim with None => True | Some l => l < v end.

(*@ C98 Consequently each method of tf_delay, applied to the result of averaged_tf, returns the delay m dt exactly (for m taken in
    the half-open period around zero), whatever the positive gain, provided the signal has energy at all frequencies looked at
    ('diff' looks at all, 'multi' and 'fit' at those below the limit), the limit admits the first non-zero frequency and the
    coherence limit is below 1. *)
Lemma wave_delay : forall ls win dtr dt n f m m' q g a b navgs overlap window N V cl fl method tfs,
  solver ls -> windows win -> keeps_length dtr -> flat (win window N) -> (2 <= n)%nat -> 0 < dt -> 0 < g -> (2 <= N)%nat ->
  welch_grid n navgs overlap N V -> periodic f N -> m = (m' + q * Z.of_nat N)%Z -> (2 * Z.abs m' < Z.of_nat N)%Z ->
  asks_less cl 1 -> admits fl (1 / (INR N * dt)) ->
  In method ["multi"; "fit"; "diff"] ->
  (forall k, (k <= N / 2)%nat -> method = "diff" \/ admits fl (INR k / (INR N * dt)) -> energetic f N k) ->
  averaged_tf win dtr dt n (Frame [(a, arriving f n 0 1)]) (Frame [(b, arriving f n m g)]) (Z.of_nat navgs) overlap window None = Ok tfs ->
  exists ix, tf_delay ls (fst tfs) (map snd (snd tfs)) cl fl method = Ok ([Some (IZR m' * dt)], ix).
Proof.
  intros ls win dtr dt n f m m' q g a b navgs overlap window N V cl fl method tfs Sl Hw Hd Fw Hn D Hg HN G P Em Hm Hc Hf Me En Er.
  rewrite (arriving_turn f N n m m' g q P Em) in Er. clear m q Em.
  destruct (wave_tf win dtr dt n f m' g a b navgs overlap window N V Hw Hd Fw Hn ltac:(lra) ltac:(lra) G P) as (tf & coh & E & L1 & L2 & Vk).
  rewrite E in Er. injection Er as <-. cbn [fst snd map].
  set (M := (N / 2 + 1)%nat) in *. set (fr := fun k => INR k / (INR N * dt)) in *. set (d := IZR m' * dt) in *.
  assert (HM : (2 <= M)%nat) by (unfold M; pose proof (Nat.div_le_mono 2 N 2 ltac:(lia) HN); change (2 / 2)%nat with 1%nat in *; lia).
  assert (NP : 0 < INR N) by (apply lt_0_INR; lia). assert (ND : 0 < INR N * dt) by now apply Rmult_lt_0_compat.
  assert (FS : forall k, (fr (S k) - fr k) * d = IZR m' / INR N) by (intro k; unfold fr, d; rewrite S_INR; field; lra).
  assert (MB : Rabs (IZR m' / INR N) < / 2).
  { unfold Rdiv. rewrite Rabs_mult, Rabs_inv, (Rabs_pos_eq (INR N)), <- abs_IZR by lra. apply (Rmult_lt_reg_r (INR N)); [exact NP|].
    rewrite Rmult_assoc, Rinv_l, Rmult_1_r by lra. apply IZR_lt in Hm. rewrite mult_IZR, <- INR_IZR_INZ in Hm. lra. }
  assert (F0 : fr 0%nat = 0) by (unfold fr; cbn [INR]; unfold Rdiv; ring).
  assert (Fm : forall i j, (i <= j)%nat -> fr i <= fr j).
  { intros i j L. unfold fr, Rdiv. apply Rmult_le_compat_r; [left; now apply Rinv_0_lt_compat|]. now apply le_INR. }
  assert (TB : table (map fr (seq 0 M)) [(tf, coh)]) by (constructor; [|constructor]; rewrite map_length, seq_length; auto).
  set (bin := fun k => mkBin (fr k) (nth k tf None) (nth k coh None)).
  assert (BI : bins_of (map fr (seq 0 M)) tf coh = map bin (seq 0 M)) by now apply bins_indexed.
  assert (BD : forall k, below fl (bin k) <-> admits fl (fr k)) by (intro k; unfold below, admits, bin; now destruct fl).
  destruct (filter_seq_down (fun k => if below_dec fl (bin k) then true else false) M) as (M' & LM & EM & QM).
  { intros i j L. destruct (below_dec fl (bin j)) as [B|]; [|discriminate]. intros _. destruct (below_dec fl (bin i)) as [|N0]; [reflexivity|]. exfalso. apply N0.
    apply BD in B. apply BD. unfold admits in *. destruct fl; [|exact I]. exact (Rle_lt_trans _ _ _ (Fm i j L) B). }
  assert (AD : forall k, (k < M')%nat -> admits fl (fr k)).
  { intros k Hk. assert (I : In k (filter (fun k => if below_dec fl (bin k) then true else false) (seq 0 M))) by (rewrite EM; apply in_seq; lia).
    apply filter_In in I. destruct I as [_ I]. destruct (below_dec fl (bin k)) as [B|]; [now apply BD|discriminate]. }
  assert (M1 : (1 < M')%nat). { apply QM; [lia|]. destruct (below_dec fl (bin 1%nat)) as [|N0]; [reflexivity|]. exfalso. apply N0, BD. unfold fr. cbn [INR]. exact Hf. }
  assert (EN : forall k, (k < M')%nat -> energetic f N k) by (intros k Hk; apply En; [lia|right; now apply AD]).
  assert (VT : forall k, (k < M)%nat -> energetic f N k -> nth k tf None = Some (Cmult (RtoC g) (cis (- (2 * PI * fr k * d)))) /\ nth k coh None = Some 1).
  { intros k Hk e. apply (Vk k); [lia|exact e]. }
  assert (US : used cl fl (map bin (seq 0 M)) = map bin (seq 0 M')).
  { unfold used. rewrite filter_map. f_equal. rewrite <- EM. apply filter_ext_in. intros k Ik. apply in_seq in Ik. destruct (below_dec fl (bin k)) as [B|]; [|reflexivity].
    destruct (coherent_dec cl (bin k)) as [|Nc]; [reflexivity|]. exfalso. apply Nc. unfold coherent, bin. cbn [b_coh]. unfold asks_less in Hc. destruct cl as [l|]; [|exact I].
    exists 1. split; [|exact Hc]. apply VT; [lia|]. apply En; [lia|right; now apply BD]. }
  assert (BL : filter (fun b => if below_dec fl b then true else false) (map bin (seq 0 M)) = map bin (seq 0 M')) by now rewrite filter_map, EM.
  assert (C1 : forall bb, In bb (map bin (seq 0 M')) -> exists r, 0 < r /\ b_tf bb = Some (Cmult (RtoC r) (cis (- (2 * PI * b_freq bb * d))))).
  { intros bb Ib. apply in_map_iff in Ib. destruct Ib as (k & <- & Ik). apply in_seq in Ik. exists g. split; [exact Hg|]. cbn [bin b_tf b_freq]. apply VT; [lia|]. apply EN. lia. }
  assert (C2 : forall bb r, map bin (seq 0 M') = bb :: r -> Rabs (b_freq bb * d) < / 2).
  { intros bb r Eb. destruct M' as [|M'']; [lia|]. cbn [seq map] in Eb. injection Eb as <- _. cbn [bin b_freq]. rewrite F0, Rmult_0_l, Rabs_R0. lra. }
  assert (C3 : forall i bb b', nth_error (map bin (seq 0 M')) i = Some bb -> nth_error (map bin (seq 0 M')) (S i) = Some b' -> Rabs ((b_freq b' - b_freq bb) * d) < / 2).
  { intros i bb b' E1 E2. assert (S i < M')%nat. { apply nth_error_Some_lt in E2 || (assert (X : nth_error (map bin (seq 0 M')) (S i) <> None) by congruence; apply nth_error_Some in X; rewrite map_length, seq_length in X; exact X). }
    rewrite nth_error_map, nth_error_seq in E1 by lia. rewrite nth_error_map, nth_error_seq in E2 by lia. cbn [option_map Nat.add] in E1, E2. injection E1 as <-. injection E2 as <-.
    cbn [bin b_freq]. rewrite FS. exact MB. }
  destruct Me as [<-|[<-|[<-|[]]]].
  - pose proof (multi_recovers ls (map fr (seq 0 M)) tf coh cl fl d Sl TB) as MR. cbv zeta in MR. rewrite BI, BL, US in MR. apply MR; auto. rewrite map_map.
    cbn [bin b_freq]. assert (PS : forall M0 s, 0 <= Rsum (map fr (seq s M0))).
    { induction M0 as [|M0 IH]; intro s; [cbn; lra|]. cbn [seq map]. unfold Rsum in *. cbn [fold_right]. specialize (IH (S s)).
      pose proof (Fm 0%nat s ltac:(lia)). rewrite F0 in *. lra. }
    destruct M' as [|[|M'']]; [lia|lia|]. change (map (fun x => fr x) (seq 0 (S (S M'')))) with (fr 0%nat :: fr 1%nat :: map fr (seq 2 M'')).
    pose proof (PS M'' 2%nat) as PS2. unfold Rsum in PS2 |- *. cbn [fold_right]. rewrite F0. assert (0 < fr 1%nat) by (unfold fr; cbn [INR]; apply Rdiv_lt_0_compat; lra). lra.
  - pose proof (fit_recovers ls (map fr (seq 0 M)) tf coh cl fl d Sl TB) as MR. cbv zeta in MR. rewrite BI, US in MR. apply MR; auto. exists (bin 1%nat). split; [apply in_map, in_seq; lia|]. cbn [bin b_freq].
    assert (0 < fr 1%nat) by (unfold fr; cbn [INR]; apply Rdiv_lt_0_compat; lra). lra.
  - set (zs := map (fun k => Cmult (RtoC g) (cis (- (2 * PI * fr k * d)))) (seq 0 M)).
    assert (ET : tf = map Some zs).
    { apply (nth_ext _ _ None None); [unfold zs; now rewrite !map_length, seq_length|]. intros k Hk. rewrite L1 in Hk.
      destruct (VT k Hk) as [-> _]; [apply En; [lia|now left]|]. unfold zs. rewrite map_map, nth_map_seq by exact Hk. reflexivity. }
    rewrite ET in *. apply (diff_recovers ls (map fr (seq 0 M)) zs coh cl fl d TB).
    + now rewrite map_length, seq_length.
    + rewrite BI, US. destruct M'; [lia|discriminate].
    + rewrite map_length, seq_length. intros k Hk. rewrite !nth_map_seq by lia. unfold fr, Rdiv. apply Rmult_lt_compat_r; [now apply Rinv_0_lt_compat|]. rewrite S_INR. lra.
    + rewrite map_length, seq_length. intros k Hk. exists g. split; [exact Hg|]. unfold zs. rewrite !nth_map_seq by exact Hk. reflexivity.
    + rewrite map_length, seq_length. intros k Hk. rewrite !nth_map_seq by lia. rewrite FS. exact MB.
Qed.

(*@ C98 The same for compute_delays_tf on a whole table (methods 'multi' and 'fit', rectangular window): when each column is the periodic
    reference signal arriving m samples later with its own positive gain, the delays are exactly those, and every mean
    coherence is 1. *)
Lemma wave_table : forall ls win dtr dt n f a navgs overlap window N V cl lim method (cols : list (string * (Z * Z * R))),
  solver ls -> windows win -> keeps_length dtr -> flat (win window N) -> (2 <= n)%nat -> 0 < dt -> (2 <= N)%nat ->
  welch_grid n navgs overlap N V -> periodic f N -> asks_less cl 1 -> 1 / (INR N * dt) < lim -> method = "fit" \/ method = "multi" ->
  (forall k, (k <= N / 2)%nat -> INR k / (INR N * dt) < lim -> energetic f N k) ->
  cols <> [] -> NoDup (map fst cols) ->
  (forall nm m q g, In (nm, (m, q, g)) cols -> 0 < g /\ (2 * Z.abs m < Z.of_nat N)%Z) ->
  exists ex,
    compute_delays_tf ls win dtr dt n [(a, arriving f n 0 1)] (map (fun c => let '(nm, (m, q, g)) := c in (nm, arriving f n (m + q * Z.of_nat N) g)) cols)
      (Z.of_nat navgs) cl (Some lim) method overlap window false
    = Ok (map (fun c => let '(nm, (m, q, g)) := c in Some (IZR m * dt)) cols, ex) /\
    te_coh ex = map (fun _ => Some 1) cols.
Proof.
  intros ls win dtr dt n f a navgs overlap window N V cl lim method cols Sl Hw Hd Fw Hn D HN G P Hc Hl Me En Ne Nd Hg.
  set (sig := arriving f n 0 1). set (out := fun c : string * (Z * Z * R) => let '(nm, (m, q, g)) := c in (nm, arriving f n (m + q * Z.of_nat N) g)).
  assert (En' : forall k, (k <= N / 2)%nat -> method = "diff" \/ admits (Some lim) (INR k / (INR N * dt)) -> energetic f N k).
  { intros k Hk [X|X]; [destruct Me; subst; discriminate|now apply En]. }
  destruct (one_delays ls win dtr dt n a sig (Z.of_nat navgs) cl (Some lim) method overlap window Sl Me) as [(e & Er)|(freqs & col & lim' & El & Lc & Av & Ev)].
  - exfalso. destruct cols as [|[nm [[m q] g]] r]; [easy|]. destruct (Hg nm m q g (or_introl eq_refl)) as [Gp Mb].
    destruct (wave_tf win dtr dt n f m g a nm navgs overlap window N V Hw Hd Fw Hn ltac:(lra) ltac:(lra) G P) as (tf & coh & E & L1 & L2 & _).
    specialize (Er [(nm, arriving f n m g)] ltac:(discriminate) ltac:(constructor; [easy|constructor])).
    unfold compute_delays_tf in Er. cbn [length Nat.ltb Nat.leb Nat.eqb andb negb] in Er. fold sig in E. rewrite E in Er. cbn [rbind] in Er.
    destruct (wave_delay ls win dtr dt n f m m 0 g a nm navgs overlap window N V cl (Some lim) method _ Sl Hw Hd Fw Hn D Gp HN G P ltac:(lia) Mb Hc Hl ltac:(cbn; destruct Me; subst; auto) En' E) as (ix & T).
    cbn [fst snd map] in T. destruct Me as [-> | ->]; cbn [String.eqb Ascii.eqb Bool.eqb mapM filter fst snd map] in Er.
    + rewrite String.eqb_refl in Er. cbn [map snd] in Er. rewrite T in Er. discriminate.
    + rewrite T in Er. discriminate.
  - injection El as <-.
    assert (VV : forall nm m q g, In (nm, (m, q, g)) cols -> one_delay ls cl (Some lim) method freqs (snd (col (nm, arriving f n (m + q * Z.of_nat N) g))) = Some (IZR m * dt) /\
                   mean_coh freqs lim (snd (snd (col (nm, arriving f n (m + q * Z.of_nat N) g)))) = Some 1).
    { intros nm m q g I. destruct (Hg nm m q g I) as [Gp Mb]. set (o := (nm, arriving f n (m + q * Z.of_nat N) g)).
      pose proof (Av [o] ltac:(discriminate)) as A1. cbn [map] in A1.
      destruct (Ev [o] ltac:(discriminate) ltac:(constructor; [easy|constructor])) as (ix & E1). cbn [map] in E1.
      destruct (wave_tf win dtr dt n f (m + q * Z.of_nat N) g a nm navgs overlap window N V Hw Hd Fw Hn ltac:(lra) ltac:(lra) G P) as (tf & coh & E & L1 & L2 & Vk).
      fold sig o in E. assert (EE : (freqs, [col o]) = (map (fun k => INR k / (INR N * dt)) (seq 0 (N / 2 + 1)), [((a ++ "_" ++ nm)%string, (tf, coh))])) by congruence.
      assert (Ef : freqs = map (fun k => INR k / (INR N * dt)) (seq 0 (N / 2 + 1))) by congruence. assert (Ec : col o = ((a ++ "_" ++ nm)%string, (tf, coh))) by congruence. clear EE.
      split.
      - destruct (wave_delay ls win dtr dt n f (m + q * Z.of_nat N) m q g a nm navgs overlap window N V cl (Some lim) method _ Sl Hw Hd Fw Hn D Gp HN G P ltac:(lia) Mb Hc Hl ltac:(cbn; destruct Me; subst; auto) En' A1) as (ix2 & T).
        cbn [fst snd map] in T. destruct Me as [-> | ->].
        + assert (NDc : NoDup (map fst [col o])) by (constructor; [easy|constructor]).
          destruct (delays_tf_fit ls win dtr dt n [(a, sig)] [o] (Z.of_nat navgs) cl lim overlap window false freqs [col o] ltac:(now left) A1 NDc _ _ E1) as (_ & _ & TF).
          destruct (TF 0%nat (fst (col o)) (snd (col o)) ltac:(cbn; now destruct (col o))) as (d & mm & N1 & _ & T2). cbn [nth_error] in N1. apply (f_equal (fun r => match r with Ok (p, _) => p | Err _ => [] end)) in T, T2. cbv beta iota in T, T2. congruence.
        + pose proof (delays_tf_multi ls win dtr dt n [(a, sig)] [o] (Z.of_nat navgs) cl lim overlap window false freqs [col o] ltac:(now left) A1 _ _ E1) as T2. cbn [map] in T2. apply (f_equal (fun r => match r with Ok (p, _) => p | Err _ => [] end)) in T, T2. cbv beta iota in T, T2. congruence.
      - pose proof (mean_coh_value ls win dtr dt n [(a, sig)] [o] (Z.of_nat navgs) cl lim method overlap window false freqs [col o] _ _ ltac:(now left) A1 E1) as (_ & MC).
        specialize (MC 0%nat (fst (col o)) tf coh). rewrite Ec in MC at 1. cbn [nth_error te_coh] in MC. rewrite Ec in MC |- *. specialize (MC eq_refl). cbn [fst snd] in MC |- *. injection MC as ->.
        rewrite Ef. rewrite bins_indexed by assumption. unfold average_coherence. rewrite filter_map.
        set (ks := filter _ _). assert (I1 : In 1%nat ks).
        { apply filter_In. split; [apply in_seq; pose proof (Nat.div_le_mono 2 N 2 ltac:(lia) HN); change (2 / 2)%nat with 1%nat in *; lia|]. cbn [b_freq INR]. destruct (Rlt_dec _ lim) as [|Nb]; [reflexivity|contradiction]. }
        assert (AV : forall k, In k ks -> nth k coh None = Some 1).
        { intros k Ik. apply filter_In in Ik. destruct Ik as [Is Ib]. apply in_seq in Is. apply (Vk k); [lia|]. apply En; [lia|]. cbn [b_freq] in Ib. destruct (Rlt_dec _ lim) as [Bb|]; [exact Bb|discriminate]. }
        assert (SU : forall l, (forall k, In k l -> nth k coh None = Some 1) -> Rsum (map coh_or_0 (map (fun k => mkBin (INR k / (INR N * dt)) (nth k tf None) (nth k coh None)) l)) = INR (length l)).
        { induction l as [|k l IH]; intro Al; [reflexivity|]. cbn [map length]. rewrite Rsum_cons, S_INR, IH by (intros; apply Al; now right). unfold coh_or_0 at 1. cbn [b_coh]. rewrite Al by now left. ring. }
        match goal with |- context [map ?h ks] => destruct (map h ks) as [|b0 r] eqn:EM end; [destruct ks; [easy|discriminate]|]. rewrite <- EM. f_equal.
        rewrite SU by exact AV. rewrite map_length. apply Rinv_r. apply not_0_INR. destruct ks; [easy|discriminate]. }
    destruct (Ev (map out cols)) as (ix & E1).
    { destruct cols; [easy|discriminate]. }
    { rewrite map_map. rewrite (map_ext _ fst); [exact Nd|]. now intros [nm [[m q] g]]. }
    eexists. split; [rewrite E1; f_equal; f_equal|cbn [te_coh]].
    + rewrite map_map. apply map_ext_in. intros [nm [[m q] g]] I. apply VV. exact I.
    + rewrite map_map. apply map_ext_in. intros [nm [[m q] g]] I. cbn [out]. now apply VV.
Qed.

(** One pulse per period of four samples. *)
Definition pulse (i : Z) : R := if Z.eqb (i mod 4) 0 then 1 else 0.
(*@ex C98 A train of pulses, repeated five samples later at twice the height: every method reports a delay of one sample, which is five up to
    a period. *)
Lemma wave_example : exists ls, solver ls /\ periodic pulse 4 /\ (forall k, energetic pulse 4 k) /\ welch_grid 8 2 0 4 0 /\ flat (box_win "boxcar" 4) /\
  arriving pulse 8 5 2 = [0; 2; 0; 0; 0; 2; 0; 0] /\
  forall method, In method ["multi"; "fit"; "diff"] -> exists tfs ix,
    averaged_tf box_win no_dtr 1 8 (Frame [("a", arriving pulse 8 0 1)]) (Frame [("b", arriving pulse 8 5 2)]) 2 0 "boxcar" None = Ok tfs /\
    tf_delay ls (fst tfs) (map snd (snd tfs)) (Some (1 / 2)) (Some (1 / 2)) method = Ok ([Some 1], ix).
Proof.
  destruct solver_exists as [ls Sl]. exists ls.
  assert (P : periodic pulse 4). { intro i. unfold pulse. change (Z.of_nat 4) with (1 * 4)%Z. now rewrite Z_mod_plus_full. }
  assert (En : forall k, energetic pulse 4 k).
  { intro k. unfold energetic. cbn [seq map]. unfold pulse. cbn [Z.of_nat Pos.of_succ_nat Pos.succ Z.modulo Z.div_eucl Z.pos_div_eucl Z.leb Z.compare Pos.compare Pos.compare_cont Z.eqb].
    unfold fourier. cbn. intro E. apply (f_equal fst) in E. cbn in E. rewrite !Rmult_0_r, !Rmult_0_l in E. unfold Rdiv in E. rewrite !Rmult_0_l, cos_0 in E. lra. }
  assert (G : welch_grid 8 2 0 4 0). { unfold welch_grid. cbn [INR]. repeat split; try lia; lra. }
  assert (F : flat (box_win "boxcar" 4)). { unfold box_win. intros j Hj. cbn in Hj. destruct j as [|[|[|[|j]]]]; [reflexivity..|lia]. }
  split; [exact Sl|]. split; [exact P|]. split; [exact En|]. split; [exact G|]. split; [exact F|].
  split. { unfold arriving, pulse. cbn. apply (nth_ext _ _ 0 0); [reflexivity|]. cbn. intros i Hi. destruct i as [|[|[|[|[|[|[|[|i]]]]]]]]; try ring. }
  intros method Me.
  destruct (wave_tf box_win no_dtr 1 8 pulse 5 2 "a" "b" 2 0 "boxcar" 4 0 box_windows no_dtr_keeps F ltac:(lia) ltac:(lra) ltac:(lra) G P) as (tf & coh & E & _).
  eexists.
  destruct (wave_delay ls box_win no_dtr 1 8 pulse 5 1 1 2 "a" "b" 2 0 "boxcar" 4 0 (Some (1 / 2)) (Some (1 / 2)) method _ Sl box_windows no_dtr_keeps F
    ltac:(lia) ltac:(lra) ltac:(lra) ltac:(lia) G P ltac:(reflexivity) ltac:(cbn; lia) ltac:(cbn; lra) ltac:(cbn; lra) Me ltac:(intros; apply En) E) as (ix & EX).
  exists ix. split; [exact E|]. rewrite EX. repeat f_equal. lra.
Qed.
(*@ex C98 Three columns of pulses: on time, five samples late and one sample early. *)
Lemma wave_table_example : forall ls, solver ls -> exists ex,
  compute_delays_tf ls box_win no_dtr 1 8 [("a", arriving pulse 8 0 1)]
    [("a", arriving pulse 8 0 1); ("b", arriving pulse 8 5 2); ("c", arriving pulse 8 (-1) 3)] 2 (Some (6 / 10)) (Some (1 / 2)) "multi" 0 "boxcar" false
  = Ok ([Some (0 * 1); Some (1 * 1); Some (-1 * 1)], ex) /\ te_coh ex = [Some 1; Some 1; Some 1].
Proof.
  intros ls Sl. destruct wave_example as (_ & _ & P & En & G & F & _).
  destruct (wave_table ls box_win no_dtr 1 8 pulse "a" 2 0 "boxcar" 4 0 (Some (6 / 10)) (1 / 2) "multi" [("a", (0%Z, 0%Z, 1)); ("b", (1%Z, 1%Z, 2)); ("c", ((-1)%Z, 0%Z, 3))]
    Sl box_windows no_dtr_keeps F ltac:(lia) ltac:(lra) ltac:(lia) G P ltac:(cbn; lra) ltac:(cbn; lra) ltac:(now right) ltac:(intros; apply En)) as (ex & E & C).
  - discriminate.
  - repeat constructor; cbn; intuition discriminate.
  - intros nm m q g [I|[I|[I|[]]]]; apply (f_equal snd) in I; cbn in I; injection I as <- <- <-; split; try lra; cbn; lia.
  - exists ex. exact (conj E C).
Qed.
