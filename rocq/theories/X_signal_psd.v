(** averaged_psd: value, errors, Series against DataFrame (C47), total power (C88). *)
From Coq Require Import String.
From Verif Require Import Prelude PreludeFacts RealBase Fl RealStat Dft Phase Spec_welch M_cmv M_signal_corr M_signal_tf P_signal P_corr P_dft P_welch P_parseval.
From Coq Require Import Lra Psatz.
From Coquelicot Require Import Complex.
Local Open Scope R_scope.

Lemma sample_rate_ok dt n : (2 <= n)%nat -> dt <> 0 -> sample_rate dt n = Ok (1 / dt).
Proof.
  intros H D. unfold sample_rate. destruct (Nat.ltb_spec n 2); [lia|]. destruct (Reqb_spec dt 0); [easy|]. reflexivity.
Qed.
Lemma freqs_eq dt N : dt <> 0 -> (1 <= N)%nat ->
  map (bin_freq (1 / dt) (Z.of_nat N)) (seq 0 (n_bins (Z.of_nat N))) = map (fun k => INR k / (INR N * dt)) (seq 0 (N / 2 + 1)).
Proof.
  intros D H. rewrite n_bins_eq. apply map_ext. intro k. unfold bin_freq. rewrite <- INR_IZR_INZ.
  assert (INR N <> 0) by (apply not_0_INR; lia). field. auto.
Qed.
(** The normalisation constant: 'density' divides by the sampling rate and the window power, 'spectrum' by the squared window sum. *)
Definition norm_is (w : list R) (dt : R) (scaling : string) (c : R) : Prop :=
  (scaling = "density"%string /\ power w <> 0 /\ c = dt / power w) \/
  (scaling = "spectrum"%string /\ Rsum w <> 0 /\ c = 1 / (Rsum w) ^ 2).
Lemma scale_ok win dt window N scaling c : dt <> 0 -> norm_is (win window N) dt scaling c ->
  psd_scale win (1 / dt) window (Z.of_nat N) scaling = Ok c.
Proof.
  intros D [[-> [P ->]]|[-> [P ->]]]; unfold psd_scale; rewrite Nat2Z.id; cbn [String.eqb Ascii.eqb Bool.eqb]; f_equal; unfold power in *; field; auto.
Qed.

(*@ C47 what averaged_psd returns for a table: frequencies k/(N dt), and at bin k the (one-sided) mean over the segments of the squared Fourier sum of the windowed, detrended segment, times the normalisation of the requested scaling *)
Lemma psd_value : forall win dtr dt n navgs overlap window d scaling N V K c cols,
  windows win -> keeps_length dtr -> (2 <= n)%nat -> dt <> 0 -> welch_grid n navgs overlap N V -> segments_fit n N V K ->
  norm_is (win window N) dt scaling c -> Forall (fun col => length (snd col) = n) cols -> cols <> [] ->
  exists out, averaged_psd win dtr dt n (Frame cols) (Z.of_nat navgs) overlap window d scaling
      = Ok (map (fun k => INR k / (INR N * dt)) (seq 0 (N / 2 + 1)), out) /\
    map fst out = map fst cols /\
    forall i nm x, nth_error cols i = Some (nm, x) ->
      exists v, nth_error out i = Some (nm, v) /\ length v = (N / 2 + 1)%nat /\
        forall k, (k <= N / 2)%nat ->
          nth k v 0 = sides N k * c * avg K (fun s => Cmod (seg_spectrum (win window N) (detrend_by dtr d) x N V s k) ^ 2).
Proof.
  intros win dtr dt n navgs overlap window d scaling N V K c cols Hw Hd Hn D G F C Fa Nc.
  pose proof G as (G1 & G2 & G3 & G4 & G5 & G6).
  cbn [averaged_psd]. unfold psd_frame. rewrite sample_rate_ok by auto. cbn [rbind].
  rewrite (segmenting_ok _ _ _ _ _ G). cbn [rbind]. rewrite (scale_ok _ _ _ _ _ _ D C). cbn [rbind]. rewrite freqs_eq by auto.
  replace (some_column cols) with (@Ok unit tt) by (destruct cols; [contradiction|reflexivity]). cbn [rbind].
  eexists. split; [reflexivity|]. split; [rewrite map_map; reflexivity|].
  intros i nm x Hi. rewrite nth_error_map, Hi. cbn [option_map fst snd]. eexists. split; [reflexivity|].
  rewrite map_length, seq_length, n_bins_eq. split; [reflexivity|]. intros k Hk. rewrite nth_map_seq by lia.
  apply (psd_bin_eq win dtr Hw Hd _ _ _ _ n); auto.
  rewrite Forall_forall in Fa. apply (Fa (nm, x)). eapply nth_error_In; eauto.
Qed.
(*@ C47 a Series gives what its one-column table gives under 'density', whatever scaling is asked for *)
Lemma psd_series : forall win dtr dt n nm x navgs overlap window d scaling,
  averaged_psd win dtr dt n (Ser nm x) navgs overlap window d scaling
  = averaged_psd win dtr dt n (Frame [(nm, x)]) navgs overlap window d "density".
Proof.
  reflexivity.
Qed.
(*@ C47 so a Series and its table disagree under 'spectrum': every value differs by the factor (window power) / (dt (window sum)^2) *)
Lemma psd_series_ratio : forall win dtr dt n navgs overlap window d N V nm x f f' v v',
  windows win -> keeps_length dtr -> (2 <= n)%nat -> dt <> 0 -> welch_grid n navgs overlap N V -> length x = n ->
  power (win window N) <> 0 -> Rsum (win window N) <> 0 ->
  averaged_psd win dtr dt n (Ser nm x) (Z.of_nat navgs) overlap window d "spectrum" = Ok (f, [(nm, v)]) ->
  averaged_psd win dtr dt n (Frame [(nm, x)]) (Z.of_nat navgs) overlap window d "spectrum" = Ok (f', [(nm, v')]) ->
  f' = f /\ v' = map (fun p => p * (power (win window N) / (dt * Rsum (win window N) ^ 2))) v.
Proof.
  intros win dtr dt n navgs overlap window d N V nm x f f' v v' Hw Hd Hn D G Lx P1 P2 E1 E2.
  rewrite psd_series in E1. pose proof G as (G1 & G2 & G3 & G4 & G5 & G6).
  destruct (segments_exist n N V G6 ltac:(nia)) as [K F].
  assert (Fa : Forall (fun col : string * list R => length (snd col) = n) [(nm, x)]) by (constructor; auto).
  destruct (psd_value win dtr dt n navgs overlap window d "density" N V K (dt / power (win window N)) [(nm, x)] Hw Hd Hn D G F ltac:(left; auto) Fa ltac:(discriminate)) as (o1 & A1 & _ & B1).
  destruct (psd_value win dtr dt n navgs overlap window d "spectrum" N V K (1 / Rsum (win window N) ^ 2) [(nm, x)] Hw Hd Hn D G F ltac:(right; auto) Fa ltac:(discriminate)) as (o2 & A2 & _ & B2).
  rewrite E1 in A1. rewrite E2 in A2. injection A1 as -> <-. injection A2 as -> <-. split; [reflexivity|].
  destruct (B1 0%nat nm x eq_refl) as (u & U1 & U2 & U3). destruct (B2 0%nat nm x eq_refl) as (u' & U1' & U2' & U3').
  injection U1 as <-. injection U1' as <-.
  apply nth_ext with (d := 0) (d' := 0); [rewrite map_length; lia|]. intros k Hk. rewrite U2' in Hk.
  set (g := fun p => p * (power (win window N) / (dt * Rsum (win window N) ^ 2))).
  rewrite (nth_indep (map g v) 0 (g 0)) by (rewrite map_length; lia). rewrite (map_nth g). unfold g. rewrite U3, U3' by lia. field. auto.
Qed.
Definition box_win (_ : string) (n : nat) : list R := repeat 1 n.
Definition no_dtr (_ : string) (v : list R) : list R := v.
Lemma box_windows : windows box_win.
Proof. intros s n. apply repeat_length. Qed.
Lemma no_dtr_keeps : keeps_length no_dtr.
Proof. intros s v. reflexivity. Qed.
Lemma demo_grid : welch_grid 2 1 (/ 2) 2 1.
Proof. unfold welch_grid. cbn. repeat split; try lia; lra. Qed.
Lemma demo_fit : segments_fit 2 2 1 1.
Proof. unfold segments_fit. lia. Qed.
(*@ C47 a two-sample record shows the difference: 1/4 at every bin asked for as 'spectrum', but 1/2 from the Series *)
Lemma psd_series_refuted :
  ~ (forall win dtr dt n nm x navgs overlap window d scaling, windows win -> keeps_length dtr ->
     averaged_psd win dtr dt n (Ser nm x) navgs overlap window d scaling
     = averaged_psd win dtr dt n (Frame [(nm, x)]) navgs overlap window d scaling).
Proof.
  intro H. specialize (H box_win no_dtr 1 2%nat "a"%string [1; 0] 1%Z (/ 2) "boxcar"%string None "spectrum"%string box_windows no_dtr_keeps).
  assert (P1 : power (box_win "boxcar" 2) = 2) by (cbn; lra). assert (P2 : Rsum (box_win "boxcar" 2) = 2) by (cbn; lra).
  assert (Fa : Forall (fun col : string * list R => length (snd col) = 2%nat) [("a"%string, [1; 0])]) by (constructor; auto).
  destruct (psd_value box_win no_dtr 1 2 1 (/ 2) "boxcar" None "density" 2 1 1 (1 / power (box_win "boxcar" 2)) [("a"%string, [1; 0])] box_windows no_dtr_keeps ltac:(lia) ltac:(lra) demo_grid demo_fit ltac:(left; rewrite P1; repeat split; lra) Fa ltac:(discriminate)) as (o1 & A1 & _ & B1).
  destruct (psd_value box_win no_dtr 1 2 1 (/ 2) "boxcar" None "spectrum" 2 1 1 (1 / Rsum (box_win "boxcar" 2) ^ 2) [("a"%string, [1; 0])] box_windows no_dtr_keeps ltac:(lia) ltac:(lra) demo_grid demo_fit ltac:(right; rewrite P2; repeat split; lra) Fa ltac:(discriminate)) as (o2 & A2 & _ & B2).
  rewrite psd_series in H. change (Z.of_nat 1) with 1%Z in *. rewrite A1, A2 in H. injection H as ->.
  destruct (B1 0%nat _ _ eq_refl) as (u & U1 & U2 & U3). destruct (B2 0%nat _ _ eq_refl) as (u' & U1' & U2' & U3').
  rewrite U1 in U1'. injection U1' as <-. specialize (U3 0%nat ltac:(lia)). specialize (U3' 0%nat ltac:(lia)). rewrite U3 in U3'.
  rewrite P1, P2 in U3'.
  assert (Hv : avg 1 (fun s => Cmod (seg_spectrum (box_win "boxcar" 2) (detrend_by no_dtr None) [1; 0] 2 1 s 0) ^ 2) = 1).
  { unfold avg. cbn [seq map]. rewrite mod2_parts. unfold seg_spectrum, fourier, tapered, chunk, detrend_by, box_win. cbn -[cos sin PI].
    rewrite !Rmult_0_r, !Rmult_0_l. unfold Rdiv. rewrite !Rmult_0_l, cos_0, sin_0. lra. }
  rewrite Hv in U3'. unfold sides in U3'. cbn in U3'. lra.
Qed.
(*@ C47 the errors, in the order they are met *)
Lemma psd_errors : forall win dtr dt n cols navgs overlap window d scaling,
  ((n < 2)%nat -> averaged_psd win dtr dt n (Frame cols) navgs overlap window d scaling = Err IndexError) /\
  ((2 <= n)%nat -> dt = 0 -> averaged_psd win dtr dt n (Frame cols) navgs overlap window d scaling = Err ZeroDivisionError) /\
  ((2 <= n)%nat -> dt <> 0 -> navgs = 0%Z -> averaged_psd win dtr dt n (Frame cols) navgs overlap window d scaling = Err ZeroDivisionError) /\
  ((2 <= n)%nat -> dt <> 0 -> (navgs < 0 \/ Z.of_nat n < navgs)%Z -> averaged_psd win dtr dt n (Frame cols) navgs overlap window d scaling = Err ValueError) /\
  ((2 <= n)%nat -> dt <> 0 -> (1 <= navgs)%Z -> 1 <= overlap -> averaged_psd win dtr dt n (Frame cols) navgs overlap window d scaling = Err ValueError) /\
  ((2 <= n)%nat -> dt <> 0 -> (1 <= navgs)%Z -> scaling <> "density"%string -> scaling <> "spectrum"%string ->
     averaged_psd win dtr dt n (Frame cols) navgs overlap window d scaling = Err ValueError) /\
  ((2 <= n)%nat -> dt <> 0 -> navgs <> 0%Z -> averaged_psd win dtr dt n (Frame []) navgs overlap window d scaling = Err ValueError).
Proof.
  intros win dtr dt n cols navgs overlap window d scaling. cbn [averaged_psd]. unfold psd_frame.
  split; [|split; [|split; [|split; [|split; [|split]]]]].
  - intro H. unfold sample_rate. destruct (Nat.ltb_spec n 2); [reflexivity|lia].
  - intros H ->. unfold sample_rate. destruct (Nat.ltb_spec n 2); [lia|]. destruct (Reqb_spec 0 0); [reflexivity|lra].
  - intros H D ->. rewrite sample_rate_ok by auto. reflexivity.
  - intros H D E. rewrite sample_rate_ok by auto. cbn [rbind]. unfold segmenting. destruct (Z.eqb_spec navgs 0); [lia|].
    assert (Q : (Z.of_nat n / navgs < 1)%Z).
    { destruct E as [E|E].
      - pose proof (Z.div_mod (Z.of_nat n) navgs ltac:(lia)). pose proof (Z.mod_neg_bound (Z.of_nat n) navgs ltac:(lia)). nia.
      - rewrite Z.div_small by lia. lia. }
    destruct (Z.ltb_spec (Z.of_nat n / navgs) 1); [reflexivity|lia].
  - intros H D E O1. rewrite sample_rate_ok by auto. cbn [rbind]. unfold segmenting. destruct (Z.eqb_spec navgs 0); [lia|].
    destruct (Z.ltb_spec (Z.of_nat n / navgs) 1) as [L|L]; [reflexivity|]. cbn [orb].
    set (N := (Z.of_nat n / navgs)%Z) in *. 
    assert (T : (N <= trunc (IZR N * overlap))%Z).
    { assert (1 <= IZR N) by (apply IZR_le; lia). unfold trunc. destruct (Rlt_dec (IZR N * overlap) 0); [nra|].
      destruct (base_Int_part (IZR N * overlap)) as [B1 B2]. 
      assert (IZR N <= IZR N * overlap) by nra. assert (N < Int_part (IZR N * overlap) + 1)%Z; [|lia].
      apply lt_IZR. rewrite plus_IZR. lra. }
    destruct (Z.leb_spec N (trunc (IZR N * overlap))); [reflexivity|lia].
  - intros H D E S1 S2. rewrite sample_rate_ok by auto. cbn [rbind]. destruct (segmenting n navgs overlap) as [[N V]|e] eqn:Es.
    + cbn [rbind]. unfold psd_scale. apply String.eqb_neq in S1, S2. now rewrite S1, S2.
    + unfold segmenting in Es. destruct (Z.eqb_spec navgs 0); [lia|]. destruct (_ || _)%bool; [|discriminate]. injection Es as <-. reflexivity.
  - intros H D E. rewrite sample_rate_ok by auto. cbn [rbind]. unfold segmenting. destruct (Z.eqb_spec navgs 0); [contradiction|].
    destruct (_ || _)%bool; [reflexivity|]. cbn [rbind]. unfold psd_scale. destruct (String.eqb scaling "density"); [reflexivity|]. destruct (String.eqb scaling "spectrum"); reflexivity.
Qed.
(*@ C47 an object that is neither Series nor DataFrame is refused *)
Lemma psd_other : forall win dtr dt n navgs overlap window d scaling r,
  averaged_psd win dtr dt n Other navgs overlap window d scaling <> Ok r.
Proof.
  discriminate.
Qed.
(*@ C88 spectral densities are never negative *)
Lemma psd_nonneg : forall win dtr dt n navgs overlap window d N V cols out f,
  windows win -> keeps_length dtr -> (2 <= n)%nat -> 0 < dt -> welch_grid n navgs overlap N V -> power (win window N) <> 0 ->
  Forall (fun col => length (snd col) = n) cols ->
  averaged_psd win dtr dt n (Frame cols) (Z.of_nat navgs) overlap window d "density" = Ok (f, out) ->
  forall nm v p, In (nm, v) out -> In p v -> 0 <= p.
Proof.
  intros win dtr dt n navgs overlap window d N V cols out f Hw Hd Hn D G P Fa E nm v p Hv Hp.
  pose proof G as (G1 & G2 & G3 & G4 & G5 & G6). destruct (segments_exist n N V G6 ltac:(nia)) as [K F].
  assert (Nc : cols <> []) by (intros ->; destruct (psd_errors win dtr dt n [] (Z.of_nat navgs) overlap window d "density") as (_ & _ & _ & _ & _ & _ & Q); rewrite Q in E by (lra || lia); discriminate).
  destruct (psd_value win dtr dt n navgs overlap window d "density" N V K (dt / power (win window N)) cols Hw Hd Hn ltac:(lra) G F ltac:(left; auto) Fa Nc) as (o1 & A1 & A2 & B1).
  rewrite E in A1. injection A1 as -> <-. apply In_nth_error in Hv. destruct Hv as [i Hi].
  assert (Hc : exists x, nth_error cols i = Some (nm, x)).
  { assert (Q : nth_error (map fst out) i = Some nm) by (rewrite nth_error_map, Hi; reflexivity). rewrite A2, nth_error_map in Q.
    destruct (nth_error cols i) as [[a x]|]; [|discriminate]. injection Q as ->. eauto. }
  destruct Hc as [x Hx]. destruct (B1 i nm x Hx) as (v' & V1 & V2 & V3). rewrite Hi in V1. injection V1 as <-.
  apply In_nth with (d := 0) in Hp. destruct Hp as [k [Hk <-]]. rewrite V2 in Hk. rewrite V3 by lia.
  assert (Pp : 0 < power (win window N)).
  { enough (0 <= power (win window N)) by lra. apply Rsum_nonneg. intros z Hz. apply in_map_iff in Hz. destruct Hz as [u [<- _]]. apply pow2_ge_0. }
  assert (0 <= dt / power (win window N)) by (apply Rle_mult_inv_pos; lra).
  assert (0 <= sides N k) by (unfold sides; destruct (_ || _)%bool; lra).
  apply Rmult_le_pos; [apply Rmult_le_pos; auto|]. unfold avg. destruct F as [F1 _].
  apply Rle_mult_inv_pos; [|apply lt_0_INR; lia]. apply Rsum_nonneg. intros z Hz. apply in_map_iff in Hz. destruct Hz as [u [<- _]]. apply pow2_ge_0.
Qed.
Lemma avg_scal K c f : avg K (fun s => c * f s) = c * avg K f.
Proof. unfold avg. rewrite Rsum_map_scal. unfold Rdiv. ring. Qed.
Lemma avg_sumn K m (f : nat -> nat -> R) : avg K (fun s => Rsumn m (f s)) = Rsumn m (fun k => avg K (fun s => f s k)).
Proof.
  induction m as [|m IH].
  - rewrite Rsumn_0. unfold avg. rewrite (Rsum_map_ext _ (fun _ => 0)) by (intros; apply Rsumn_0). rewrite Rsum_map_const. unfold Rdiv. ring.
  - rewrite Rsumn_S, <- IH. unfold avg. rewrite (Rsum_map_ext _ (fun s => Rsumn m (f s) + f s m)) by (intros; apply Rsumn_S).
    rewrite Rsum_map_plus. unfold Rdiv. ring.
Qed.
Lemma Rsum_sumn v : Rsum v = Rsumn (length v) (fun k => nth k v 0).
Proof.
  unfold Rsumn. f_equal. apply nth_ext with (d := 0) (d' := 0); [now rewrite map_length, seq_length|]. intros i Hi. now rewrite nth_map_seq.
Qed.
(*@ C88 the density integrates (sum times frequency step) to the mean over the segments of the windowed signal power *)
Lemma psd_total_power : forall win dtr dt n navgs overlap window d N V K nm x f v,
  windows win -> keeps_length dtr -> (2 <= n)%nat -> dt <> 0 -> welch_grid n navgs overlap N V -> segments_fit n N V K ->
  power (win window N) <> 0 -> length x = n ->
  averaged_psd win dtr dt n (Frame [(nm, x)]) (Z.of_nat navgs) overlap window d "density" = Ok (f, [(nm, v)]) ->
  Rsum v * (1 / (INR N * dt))
  = avg K (fun s => power (tapered (win window N) (detrend_by dtr d (chunk x (s * (N - V)) N)))) / power (win window N).
Proof.
  intros win dtr dt n navgs overlap window d N V K nm x f v Hw Hd Hn D G F P Lx E.
  pose proof G as (G1 & G2 & G3 & G4 & G5 & G6).
  destruct (psd_value win dtr dt n navgs overlap window d "density" N V K (dt / power (win window N)) [(nm, x)] Hw Hd Hn D G F ltac:(left; auto) ltac:(constructor; auto) ltac:(discriminate)) as (o1 & A1 & _ & B1).
  rewrite E in A1. injection A1 as -> <-. destruct (B1 0%nat nm x eq_refl) as (u & U1 & U2 & U3). injection U1 as <-.
  set (w := win window N) in *. set (y := fun s => tapered w (detrend_by dtr d (chunk x (s * (N - V)) N))).
  assert (Ly : forall s, length (y s) = N) by (intro s; unfold y; rewrite tapered_length, detrend_by_length, chunk_length; auto).
  rewrite Rsum_sumn, U2.
  rewrite (Rsumn_ext _ _ (fun k => avg K (fun s => dt / power w * (sides N k * Cmod (fourier (y s) k) ^ 2)))).
  2:{ intros k Hk. rewrite U3 by lia. rewrite <- avg_scal. apply avg_ext. intros s Hs. unfold seg_spectrum, y. fold w. ring. }
  rewrite <- (avg_sumn K (N / 2 + 1) (fun s k => dt / power w * (sides N k * Cmod (fourier (y s) k) ^ 2))).
  rewrite (avg_ext K _ (fun s => dt / power w * INR N * power (y s))).
  2:{ intros s Hs. rewrite Rsumn_scal. rewrite one_sided.
      - pose proof (parseval (y s)) as Pa. rewrite Ly in Pa. rewrite Pa. ring.
      - lia.
      - intros k Hk. rewrite <- (Ly s) in Hk |- *. rewrite fourier_mirror; auto. }
  rewrite avg_scal. unfold y. fold w. assert (INR N <> 0) by (apply not_0_INR; lia). field. auto.
Qed.
(*@ex C88 the hypotheses are met by a two-sample record with a rectangular window: the density sums to the mean square *)
Lemma psd_power_example : exists f v,
  averaged_psd box_win no_dtr 1 2 (Frame [("a"%string, [3; 4])]) 1 (/ 2) "boxcar" None "density" = Ok (f, [("a"%string, v)]) /\
  Rsum v * (1 / (INR 2 * 1)) = 25 / 2.
Proof.
  assert (P1 : power (box_win "boxcar" 2) = 2) by (cbn; lra).
  assert (E : exists f v, averaged_psd box_win no_dtr 1 2 (Frame [("a"%string, [3; 4])]) 1 (/ 2) "boxcar" None "density" = Ok (f, [("a"%string, v)])).
  { cbn [averaged_psd]. unfold psd_frame. rewrite sample_rate_ok by (lia || lra). cbn [rbind].
    change (segmenting 2 1) with (segmenting 2 (Z.of_nat 1)). rewrite (segmenting_ok _ _ _ _ _ demo_grid). cbn [rbind].
    rewrite (scale_ok box_win 1 "boxcar" 2 "density" (1 / power (box_win "boxcar" 2))) by (try lra; left; rewrite P1; repeat split; lra).
    cbn [rbind map fst snd]. do 2 eexists. reflexivity. }
  destruct E as (f & v & E). exists f, v. split; [exact E|].
  rewrite (psd_total_power box_win no_dtr 1 2 1 (/ 2) "boxcar" None 2 1 1 "a" [3; 4] f v); try exact E; try reflexivity; try lra; try lia;
    [ | apply box_windows | apply no_dtr_keeps | apply demo_grid | apply demo_fit].
  rewrite P1. unfold avg. cbn. lra.
Qed.
