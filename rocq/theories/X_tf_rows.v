(** averaged_tf on tables with different numbers of rows (C103). *)
From Coq Require Import String.
From Verif Require Import Prelude PreludeFacts RealBase Fl RealStat Dft Phase Spec_welch Spec_window M_cmv M_signal_corr M_signal_tf M_window M_tf_rows P_signal P_corr P_dft P_welch P_parseval P_tf P_window X_signal_psd X_signal_tf X_window.
From Coq Require Import Lra Psatz.
From Coquelicot Require Import Complex.
Local Open Scope string_scope.
Local Open Scope R_scope.

Lemma padded_length L x : (length x <= L)%nat -> length (zero_padded L x) = L.
Proof. intro H. unfold zero_padded. rewrite app_length, repeat_length. lia. Qed.
Lemma padded_nth L x i : nth i (zero_padded L x) 0 = nth i x 0.
Proof.
  unfold zero_padded. destruct (Nat.lt_ge_cases i (length x)) as [H|H]; [now apply app_nth1|]. rewrite app_nth2 by exact H. rewrite (nth_overflow x) by exact H. apply nth_repeat.
Qed.
Lemma padded_chunk L x a N : chunk (zero_padded L x) a N = chunk x a N.
Proof. unfold chunk. apply map_ext. intro j. apply padded_nth. Qed.
Lemma padded_spectrum w dtr L x N V s k : seg_spectrum w dtr (zero_padded L x) N V s k = seg_spectrum w dtr x N V s k.
Proof. unfold seg_spectrum. now rewrite padded_chunk. Qed.

Section W.
Variable win : string -> nat -> list R.
Variable dtr : string -> list R -> list R.
Hypothesis Hw : windows win.
Hypothesis Hd : keeps_length dtr.
Lemma rows_bins sc scy window d x y n m N V Ny Kx Ky K k ky : (V < N)%nat -> (V < Ny)%nat -> length x = n -> length y = m ->
  segments_fit n N V Kx -> segments_fit m Ny V Ky -> segments_fit (Nat.max n m) N V K -> (k <= N / 2)%nat -> (ky <= Ny / 2)%nat -> sc <> 0 -> scy <> 0 ->
  let X := fun s => seg_spectrum (win window N) (detrend_by dtr d) x N V s k in
  let Y := fun s => seg_spectrum (win window N) (detrend_by dtr d) y N V s k in
  let Y' := fun s => seg_spectrum (win window Ny) (detrend_by dtr d) y Ny V s ky in
  let sxx := psd_bin win dtr sc window d x (Z.of_nat N) (Z.of_nat V) k in
  let syy := psd_bin win dtr scy window d y (Z.of_nat Ny) (Z.of_nat V) ky in
  let sxy := csd_bin win dtr sc window d (zero_padded (Nat.max n m) x) (zero_padded (Nat.max n m) y) (Z.of_nat N) (Z.of_nat V) k in
  tf_bin sxx sxy = (if Req_EM_T (auto Kx X) 0 then None else Some (Cdiv (cross K X Y) (RtoC (auto Kx X)))) /\
  coh_bin sxx syy sxy = (if Req_EM_T (auto Kx X * auto Ky Y') 0 then None
    else Some (Cmod (cross K X Y) ^ 2 / (auto Kx X * auto Ky Y') * (sides N k * sc / (sides Ny ky * scy)))).
Proof.
  intros HV HVy Lx Ly Fx Fy F Hk Hky S Sy X Y Y' sxx syy sxy. unfold sxx, syy, sxy. rewrite (psd_bin_eq win dtr Hw Hd sc _ _ x n N V Kx) by auto. rewrite (psd_bin_eq win dtr Hw Hd scy _ _ y m Ny V Ky) by auto.
  rewrite (csd_bin_eq win dtr Hw Hd _ _ _ _ _ (Nat.max n m) N V K) by (auto; apply padded_length; lia).
  change (avg Kx (fun s => Cmod (seg_spectrum (win window N) (detrend_by dtr d) x N V s k) ^ 2)) with (auto Kx X).
  change (avg Ky (fun s => Cmod (seg_spectrum (win window Ny) (detrend_by dtr d) y Ny V s ky) ^ 2)) with (auto Ky Y').
  replace (cavg K _) with (cross K X Y).
  2:{ unfold cross, cavg. f_equal; apply avg_ext; intros i _; now rewrite !padded_spectrum. }
  clearbody X Y Y'. clear sxx syy sxy. pose proof (sides_pos N k) as P. pose proof (sides_pos Ny ky) as Py. set (c := sides N k * sc). set (cy := sides Ny ky * scy). assert (C : c <> 0) by (apply Rmult_integral_contrapositive; lra). assert (Cy : cy <> 0) by (apply Rmult_integral_contrapositive; lra).
  unfold tf_bin, coh_bin. split.
  - rewrite (Reqb_scale c _ C). destruct (Req_EM_T (auto Kx X) 0) as [E|E]; [reflexivity|]. f_equal. rewrite RtoC_mult. field.
    split; intro Q; apply RtoC_inj in Q; auto.
  - replace (c * auto Kx X * (cy * auto Ky Y')) with (c * cy * (auto Kx X * auto Ky Y')) by ring.
    assert (C2 : c * cy <> 0) by (apply Rmult_integral_contrapositive; auto).
    rewrite (Reqb_scale (c * cy) _ C2). destruct (Req_EM_T (auto Kx X * auto Ky Y') 0) as [E|E]; [reflexivity|]. f_equal.
    rewrite Cmod_mult, Cmod_R, Rpow_mult_distr, <- Rsqr_pow2 with (x := Rabs c), <- Rsqr_abs, Rsqr_pow2. field.
    repeat split; auto; intro Z; apply E; rewrite Z; ring.
Qed.
End W.
Lemma auto_one X : auto 1 X = Cmod (X 0%nat) ^ 2.
Proof. unfold auto. apply (avg_one (fun s => Cmod (X s) ^ 2)). Qed.
Lemma min_of_nat a b : Z.min (Z.of_nat a) (Z.of_nat b) = Z.of_nat (Nat.min a b).
Proof. lia. Qed.
Lemma scale_nz dt (w : list R) : dt <> 0 -> power w <> 0 -> dt / power w <> 0.
Proof. intros D P. unfold Rdiv. apply Rmult_integral_contrapositive. split; [auto|now apply Rinv_neq_0_compat]. Qed.
Lemma rows_general win dtr dt n m ins outs navgs overlap window d N V Ny Kx Ky K :
  windows win -> keeps_length dtr -> (2 <= n)%nat -> dt <> 0 -> welch_grid n navgs overlap N V -> Ny = Nat.min N m -> (V < Ny)%nat -> (Ny / 2 = N / 2 \/ Ny / 2 = 0)%nat ->
  segments_fit n N V Kx -> segments_fit m Ny V Ky -> segments_fit (Nat.max n m) N V K ->
  power (win window N) <> 0 -> power (win window Ny) <> 0 -> Forall (fun col => length (snd col) = n) ins -> Forall (fun col => length (snd col) = m) outs ->
  matchable ins outs -> ins <> [] -> outs <> [] ->
  exists out, averaged_tf_rows win dtr dt n m ins outs (Z.of_nat navgs) overlap window d
      = Ok (map (fun k => INR k / (INR N * dt)) (seq 0 (N / 2 + 1)), out) /\
    length out = Nat.max (length ins) (length outs) /\
    forall i, (i < length out)%nat -> exists a x b y tf coh,
      partner ins i = Some (a, x) /\ partner outs i = Some (b, y) /\
      nth_error out i = Some ((a ++ "_" ++ b)%string, (tf, coh)) /\ length tf = (N / 2 + 1)%nat /\ length coh = (N / 2 + 1)%nat /\
      forall k, (k <= N / 2)%nat ->
        let ky := if Nat.eqb (Ny / 2) (N / 2) then k else 0%nat in
        let X := fun s => seg_spectrum (win window N) (detrend_by dtr d) x N V s k in
        let Y := fun s => seg_spectrum (win window N) (detrend_by dtr d) y N V s k in
        let Y' := fun s => seg_spectrum (win window Ny) (detrend_by dtr d) y Ny V s ky in
        nth k tf None = (if Req_EM_T (auto Kx X) 0 then None else Some (Cdiv (cross K X Y) (RtoC (auto Kx X)))) /\
        nth k coh None = (if Req_EM_T (auto Kx X * auto Ky Y') 0 then None else Some (Cmod (cross K X Y) ^ 2 / (auto Kx X * auto Ky Y') * (sides N k * (dt / power (win window N)) / (sides Ny ky * (dt / power (win window Ny)))))).
Proof.
  intros Hw Hd Hn D G ENy HVy Hb Fx Fy F P Py Fi Fo M N1 N2.
  pose proof G as (G1 & G2 & G3 & G4 & G5 & G6). unfold averaged_tf_rows. rewrite sample_rate_ok by auto. cbn [rbind].
  destruct (pair_columns_ok ins outs M N1 N2) as (ps & E1 & E2 & E3). rewrite E1. cbn [rbind].
  rewrite (segmenting_ok _ _ _ _ _ G). cbn [rbind].
  rewrite (scale_ok win dt window N "density" (dt / power (win window N))) by (auto; left; auto). cbn [rbind]. rewrite freqs_eq by auto.
  assert (Np : ps <> []) by (intros ->; destruct ins; [contradiction|]; destruct outs; discriminate E2).
  replace (some_column ps) with (@Ok unit tt) by (destruct ps; [contradiction|reflexivity]). cbn [rbind].
  unfold welch_segment. rewrite min_of_nat, <- ENy. destruct (Z.leb_spec (Z.of_nat Ny) (Z.of_nat V)); [lia|]. cbn [rbind].
  rewrite (scale_ok win dt window Ny "density" (dt / power (win window Ny))) by (auto; left; auto). cbn [rbind].
  assert (Bq : broadcast (Z.of_nat N) (Z.of_nat Ny) = Ok tt).
  { unfold broadcast. rewrite !n_bins_eq. destruct Hb as [-> | ->]; [now rewrite Nat.eqb_refl|]. destruct (Nat.eqb (0 + 1) (N / 2 + 1)); reflexivity. }
  rewrite Bq. cbn [rbind]. eexists. split; [reflexivity|]. rewrite map_length, E2. split; [reflexivity|]. intros i Hi.
  destruct (E3 i ltac:(lia)) as (a & x & b & y & P1 & P2 & P3). exists a, x, b, y. rewrite nth_error_map, P3. cbn [option_map].
  do 2 eexists. split; [exact P1|]. split; [exact P2|]. split; [reflexivity|]. rewrite !map_length, !seq_length, !n_bins_eq.
  split; [reflexivity|]. split; [reflexivity|]. intros k Hk. cbv zeta. rewrite !nth_map_seq by lia.
  assert (Ky' : (if Nat.eqb (Ny / 2 + 1) (N / 2 + 1) then k else 0%nat) = if Nat.eqb (Ny / 2) (N / 2) then k else 0%nat).
  { destruct (Nat.eqb_spec (Ny / 2) (N / 2)) as [Eb|Nb]; [now rewrite Eb, Nat.eqb_refl|]. destruct (Nat.eqb_spec (Ny / 2 + 1) (N / 2 + 1)); [lia|reflexivity]. }
  rewrite Ky'. rewrite Forall_forall in Fi, Fo.
  assert (Lx : length x = n) by (apply (Fi (a, x)); unfold partner in P1; eapply nth_error_In; eauto).
  assert (Ly : length y = m) by (apply (Fo (b, y)); unfold partner in P2; eapply nth_error_In; eauto).
  apply (rows_bins win dtr Hw Hd (dt / power (win window N)) (dt / power (win window Ny)) window d x y n m N V Ny Kx Ky K k); auto using scale_nz.
  destruct (Nat.eqb_spec (Ny / 2) (N / 2)) as [Eb|Nb]; lia.
Qed.
(*@ C103 when the output has at least one segment's worth of rows: the input spectrum is averaged over the input's segments, the output spectrum over the output's, but the cross spectrum over those of the longer table, with rows the shorter one lacks counted as zeros *)
Lemma rows_value : forall win dtr dt n m ins outs navgs overlap window d N V Kx Ky K,
  windows win -> keeps_length dtr -> (2 <= n)%nat -> dt <> 0 -> welch_grid n navgs overlap N V -> (N <= m)%nat ->
  segments_fit n N V Kx -> segments_fit m N V Ky -> segments_fit (Nat.max n m) N V K ->
  power (win window N) <> 0 -> Forall (fun col => length (snd col) = n) ins -> Forall (fun col => length (snd col) = m) outs ->
  matchable ins outs -> ins <> [] -> outs <> [] ->
  exists out, averaged_tf_rows win dtr dt n m ins outs (Z.of_nat navgs) overlap window d
      = Ok (map (fun k => INR k / (INR N * dt)) (seq 0 (N / 2 + 1)), out) /\
    length out = Nat.max (length ins) (length outs) /\
    forall i, (i < length out)%nat -> exists a x b y tf coh,
      partner ins i = Some (a, x) /\ partner outs i = Some (b, y) /\
      nth_error out i = Some ((a ++ "_" ++ b)%string, (tf, coh)) /\ length tf = (N / 2 + 1)%nat /\ length coh = (N / 2 + 1)%nat /\
      forall k, (k <= N / 2)%nat ->
        let X := fun s => seg_spectrum (win window N) (detrend_by dtr d) x N V s k in
        let Y := fun s => seg_spectrum (win window N) (detrend_by dtr d) y N V s k in
        nth k tf None = (if Req_EM_T (auto Kx X) 0 then None else Some (Cdiv (cross K X Y) (RtoC (auto Kx X)))) /\
        nth k coh None = (if Req_EM_T (auto Kx X * auto Ky Y) 0 then None else Some (Cmod (cross K X Y) ^ 2 / (auto Kx X * auto Ky Y))).
Proof.
  intros win dtr dt n m ins outs navgs overlap window d N V Kx Ky K Hw Hd Hn D G Hm Fx Fy F P Fi Fo M N1 N2. pose proof G as (_ & _ & _ & _ & _ & G6).
  destruct (rows_general win dtr dt n m ins outs navgs overlap window d N V N Kx Ky K Hw Hd Hn D G ltac:(lia) G6 ltac:(left; reflexivity) Fx Fy F P P Fi Fo M N1 N2) as (out & E & L & Q).
  exists out. split; [exact E|]. split; [exact L|]. intros i Hi. destruct (Q i Hi) as (a & x & b & y & tf & coh & A1 & A2 & A3 & A4 & A5 & A6). exists a, x, b, y, tf, coh. repeat (split; [assumption|]).
  intros k Hk. specialize (A6 k Hk). cbv zeta in A6 |- *. rewrite Nat.eqb_refl in A6. cbv iota in A6. destruct A6 as [A6 A7]. split; [exact A6|]. clear A6. rewrite A7. clear A7.
  destruct (Req_EM_T _ 0); [reflexivity|]. f_equal. pose proof (sides_pos N k). field. repeat split; try lra; try assumption; intro Z0; match goal with Nz : _ * _ <> 0 |- _ => apply Nz; rewrite Z0; ring end.
Qed.
(*@ C103 an output shorter than one segment: a ValueError if it is not longer than the overlap, or if it gives a different number of frequencies (other than one) *)
Lemma rows_short : forall win dtr dt n m ins outs navgs overlap window d N V,
  windows win -> (2 <= n)%nat -> dt <> 0 -> welch_grid n navgs overlap N V -> (1 <= m < N)%nat -> matchable ins outs -> ins <> [] -> outs <> [] ->
  (m <= V)%nat \/ (2 <= m)%nat /\ (m / 2 <> N / 2)%nat ->
  averaged_tf_rows win dtr dt n m ins outs (Z.of_nat navgs) overlap window d = Err ValueError.
Proof.
  intros win dtr dt n m ins outs navgs overlap window d N V Hw Hn D G Hm M N1 N2 Bad. unfold averaged_tf_rows. rewrite sample_rate_ok by auto. cbn [rbind].
  destruct (pair_columns_ok ins outs M N1 N2) as (ps & E1 & _). rewrite E1. cbn [rbind]. rewrite (segmenting_ok _ _ _ _ _ G). cbn [rbind].
  unfold psd_scale. cbn [String.eqb Ascii.eqb Bool.eqb rbind]. destruct ps as [|p0 ps]; [reflexivity|]. cbn [some_column rbind]. unfold welch_segment. rewrite min_of_nat, Nat.min_r by lia. destruct (Z.leb_spec (Z.of_nat m) (Z.of_nat V)); [reflexivity|]. cbn [rbind].
  destruct Bad as [|[B1 B2]]; [lia|]. unfold broadcast. rewrite !n_bins_eq. destruct (Nat.eqb_spec (m / 2 + 1) (N / 2 + 1)); [lia|].
  assert (1 <= m / 2)%nat by (apply Nat.div_le_lower_bound; lia). destruct (Nat.eqb_spec (m / 2 + 1) 1); [lia|reflexivity].
Qed.
(*@ C103 the remaining short outputs are accepted, and their coherence is off by a ratio of windows *)
Lemma rows_short_accepted : forall win dtr dt n m x y a b navgs overlap window d N V Kx,
  windows win -> keeps_length dtr -> (2 <= n)%nat -> dt <> 0 -> welch_grid n navgs overlap N V -> (V < m < N)%nat -> m = 1%nat \/ (m / 2 = N / 2)%nat ->
  segments_fit n N V Kx -> power (win window N) <> 0 -> power (win window m) <> 0 -> length x = n -> length y = m ->
  exists f tf coh, averaged_tf_rows win dtr dt n m [(a, x)] [(b, y)] (Z.of_nat navgs) overlap window d = Ok (f, [((a ++ "_" ++ b)%string, (tf, coh))]) /\
    forall k, (k <= N / 2)%nat ->
      let ky := if Nat.eqb (m / 2) (N / 2) then k else 0%nat in
      let X := fun s => seg_spectrum (win window N) (detrend_by dtr d) x N V s k in
      let Y := fun s => seg_spectrum (win window N) (detrend_by dtr d) y N V s k in
      let whole := fourier (tapered (win window m) (detrend_by dtr d (chunk y 0 m))) ky in
      nth k tf None = (if Req_EM_T (auto Kx X) 0 then None else Some (Cdiv (cross Kx X Y) (RtoC (auto Kx X)))) /\
      nth k coh None = (if Req_EM_T (auto Kx X * Cmod whole ^ 2) 0 then None
        else Some (Cmod (cross Kx X Y) ^ 2 / (auto Kx X * Cmod whole ^ 2) * (sides N k * power (win window m) / (sides m ky * power (win window N))))).
Proof.
  intros win dtr dt n m x y a b navgs overlap window d N V Kx Hw Hd Hn D G Hm Hb Fx P Py Lx Ly. pose proof G as (G1 & G2 & G3 & G4 & G5 & G6).
  assert (Nn : (N <= n)%nat) by nia.
  destruct (rows_general win dtr dt n m [(a, x)] [(b, y)] navgs overlap window d N V m Kx 1 Kx Hw Hd Hn D G ltac:(lia) ltac:(lia)) as (out & E & L & Q); auto; try discriminate.
  { destruct Hb as [-> | Hb]; [right; reflexivity|left; exact Hb]. }
  { unfold segments_fit. lia. }
  { now rewrite Nat.max_l by lia. }
  { left. reflexivity. }
  destruct (Q 0%nat) as (a' & x' & b' & y' & tf & coh & A1 & A2 & A3 & _ & _ & A6); [rewrite L; cbn; lia|]. cbn in A1, A2. injection A1 as <- <-. injection A2 as <- <-.
  destruct out as [|o [|]]; try (cbn in L; lia). cbn in A3. injection A3 as ->. exists (map (fun k => INR k / (INR N * dt)) (seq 0 (N / 2 + 1))), tf, coh. split; [exact E|].
  intros k Hk. specialize (A6 k Hk). cbv zeta in A6 |- *. destruct A6 as [A6 A7]. split; [exact A6|]. clear A6. rewrite A7. clear A7. rewrite !auto_one.
  change (seg_spectrum (win window m) (detrend_by dtr d) y m V 0 (if Nat.eqb (m / 2) (N / 2) then k else 0%nat)) with (fourier (tapered (win window m) (detrend_by dtr d (chunk y 0 m))) (if Nat.eqb (m / 2) (N / 2) then k else 0%nat)).
  destruct (Req_EM_T _ 0) as [|Nz]; [reflexivity|]. f_equal. pose proof (sides_pos N k). pose proof (sides_pos m (if Nat.eqb (m / 2) (N / 2) then k else 0%nat)).
  field. repeat split; try lra; try assumption; intro Z0; apply Nz; rewrite Z0; ring.
Qed.
(*@ C103 with equal row counts this is averaged_tf *)
Lemma rows_same : forall win dtr dt n ins outs navgs overlap window d, Forall (fun col => length (snd col) = n) (ins ++ outs) ->
  averaged_tf_rows win dtr dt n n ins outs navgs overlap window d = averaged_tf win dtr dt n (Frame ins) (Frame outs) navgs overlap window d.
Proof.
  intros win dtr dt n ins outs navgs overlap window d F. unfold averaged_tf_rows, averaged_tf.
  destruct (sample_rate dt n) as [fs|]; [cbn [rbind]|reflexivity]. destruct (pair_columns ins outs) as [ps|] eqn:EP; [cbn [rbind]|reflexivity].
  unfold segmenting. destruct (Z.eqb_spec navgs 0) as [->|Nz]; [reflexivity|]. set (np := (Z.of_nat n / navgs)%Z). set (no := trunc (IZR np * overlap)).
  destruct (Z.ltb_spec np 1); [reflexivity|]. destruct (Z.leb_spec np no); [reflexivity|]. cbn [orb rbind].
  unfold psd_scale. cbn [String.eqb Ascii.eqb Bool.eqb rbind]. destruct (some_column ps) as [[]|]; [cbn [rbind]|reflexivity]. unfold welch_segment.
  assert (Hmin : Z.min np (Z.of_nat n) = np).
  { apply Z.min_l. pose proof (Z.div_mod (Z.of_nat n) navgs Nz) as Dm. fold np in Dm. destruct (Z_le_gt_dec navgs 0).
    - pose proof (Z.mod_neg_bound (Z.of_nat n) navgs ltac:(lia)). nia.
    - pose proof (Z.mod_pos_bound (Z.of_nat n) navgs ltac:(lia)). nia. }
  rewrite Hmin. destruct (Z.leb_spec np no); [lia|]. cbn [rbind]. unfold broadcast. rewrite Nat.eqb_refl. cbn [rbind]. f_equal. f_equal. apply map_ext_in. intros [nm [a b]] I.
  assert (Lab : length a = n /\ length b = n).
  { rewrite Forall_forall in F. assert (Sub : In (a, b) (map snd ps) -> In a (map snd ins) /\ In b (map snd outs)).
    { clear I. unfold pair_columns in EP. destruct (Nat.eqb (length outs) (length ins)).
      - injection EP as <-. intro I. unfold map2 in I. rewrite map_map in I. apply in_map_iff in I as ([i o] & Eq & I). cbn in Eq. injection Eq as <- <-. split; apply in_map; [eapply in_combine_l|eapply in_combine_r]; exact I.
      - assert (A1 : forall o, In (a, b) (map snd (map (fun i : string * list R => (pair_name (fst i) (fst o), (snd i, snd o))) ins)) -> In a (map snd ins) /\ b = snd o).
        { intros o I. rewrite map_map in I. apply in_map_iff in I as (i & Eq & I). cbn in Eq. injection Eq as <- <-. split; [now apply in_map|reflexivity]. }
        assert (A2 : forall i, In (a, b) (map snd (map (fun o : string * list R => (pair_name (fst i) (fst o), (snd i, snd o))) outs)) -> a = snd i /\ In b (map snd outs)).
        { intros i I. rewrite map_map in I. apply in_map_iff in I as (o & Eq & I). cbn in Eq. injection Eq as <- <-. split; [reflexivity|now apply in_map]. }
        destruct outs as [|o [|o2 outs]].
        + destruct ins as [|i [|i2 ins]]; try discriminate. injection EP as <-. easy.
        + assert (EP' : Ok (map (fun i : string * list R => (pair_name (fst i) (fst o), (snd i, snd o))) ins) = Ok ps) by (destruct ins as [|i [|i2 ins]]; exact EP). injection EP' as <-. intro I. destruct (A1 o I) as [I1 ->]. split; [exact I1|left; reflexivity].
        + destruct ins as [|i [|i2 ins]]; try discriminate. injection EP as <-. intro I. destruct (A2 i I) as [-> I2]. split; [left; reflexivity|exact I2]. }
    destruct Sub as [Sa Sb]; [apply (in_map snd) in I; exact I|]. apply in_map_iff in Sa as (ca & <- & Ia). apply in_map_iff in Sb as (cb & <- & Ib). split; apply F, in_or_app; auto. }
  destruct Lab as [La Lb]. assert (Zp : forall x : list R, length x = n -> zero_padded (Nat.max n n) x = x).
  { intros x Lx. unfold zero_padded. rewrite Nat.max_id, Lx, Nat.sub_diag. apply app_nil_r. }
  now rewrite !Zp.
Qed.
Lemma Rsumn_stop K Kx f : (Kx <= K)%nat -> (forall s, (Kx <= s < K)%nat -> f s = 0) -> Rsumn K f = Rsumn Kx f.
Proof.
  intros L Z. induction K as [|K IH]; [now replace Kx with 0%nat by lia|]. destruct (Nat.eq_dec Kx (S K)) as [->|Ne]; [reflexivity|].
  rewrite Rsumn_S, IH, Z by (intros; try apply Z; lia). ring.
Qed.
Lemma chunk_past x a N : (length x <= a)%nat -> chunk x a N = repeat 0 N.
Proof.
  intro H. apply list_eq_nth; [now rewrite chunk_length, repeat_length|]. rewrite chunk_length. intros i Hi. unfold chunk. rewrite nth_map_seq by exact Hi. rewrite nth_overflow by lia. now rewrite nth_repeat.
Qed.
Lemma spectrum_past w x N V s k : (length x <= s * (N - V))%nat -> seg_spectrum w (fun v => v) x N V s k = RtoC 0.
Proof.
  intro H. unfold seg_spectrum. rewrite chunk_past by exact H. rewrite <- fft_bin_fourier. unfold fft_bin. apply Csumn_zero. intros i Hi. rewrite map_length, tapered_length, repeat_length in Hi.
  rewrite (map_nth RtoC). unfold tapered. rewrite repeat_length, nth_map_seq, nth_repeat by exact Hi. rewrite Rmult_0_r. ring.
Qed.
(*@ C103 so rows the output has beyond the input dilute the transfer function: if the output is g times the input where both have rows, the estimate is g times (segments of the input) / (segments of the output), not g *)
Lemma extra_rows_dilute : forall win dtr dt n m x y a b g navgs window N Kx Ky k f nm tf coh h,
  windows win -> keeps_length dtr -> (2 <= n)%nat -> dt <> 0 -> welch_grid n navgs 0 N 0 -> power (win window N) <> 0 ->
  n = (Kx * N)%nat -> segments_fit m N 0 Ky -> (n <= m)%nat -> length x = n -> length y = m ->
  (forall i, (i < n)%nat -> nth i y 0 = g * nth i x 0) ->
  averaged_tf_rows win dtr dt n m [(a, x)] [(b, y)] (Z.of_nat navgs) 0 window None = Ok (f, [(nm, (tf, coh))]) ->
  nth_error tf k = Some (Some h) -> h = RtoC (g * INR Kx / INR Ky).
Proof.
  intros win dtr dt n m x y a b g navgs window N Kx Ky k f nm tf coh h Hw Hd Hn D G P En Fy Hm Lx Ly Hg E Hh. pose proof G as (G1 & G2 & G3 & G4 & _).
  assert (K1 : (1 <= Kx)%nat) by (destruct Kx; lia). assert (Fx : segments_fit n N 0 Kx) by (unfold segments_fit; nia). pose proof Fy as (Y1 & Y2 & Y3).
  assert (KL : (Kx <= Ky)%nat) by nia.
  destruct (rows_value win dtr dt n m [(a, x)] [(b, y)] navgs 0 window None N 0 Kx Ky Ky Hw Hd Hn D G ltac:(nia) Fx Fy) as (out & E' & L & Q);
    [now rewrite Nat.max_r by lia|exact P|constructor; auto|constructor; auto|left; reflexivity|discriminate|discriminate|].
  rewrite E in E'. injection E' as -> <-. destruct (Q 0%nat ltac:(cbn; lia)) as (a' & x' & b' & y' & tf' & coh' & A1 & A2 & A3 & A4 & _ & A6).
  cbn in A1, A2, A3. injection A1 as <- <-. injection A2 as <- <-. injection A3 as _ <- <-.
  assert (Hk : (k <= N / 2)%nat) by (enough (k < length tf)%nat by lia; apply nth_error_Some; congruence).
  destruct (A6 k Hk) as [T _]. cbv zeta in T. rewrite (nth_error_nth _ _ None Hh) in T. cbn [detrend_by] in T.
  set (X := fun s => seg_spectrum (win window N) (fun v => v) x N 0 s k) in *. set (Y := fun s => seg_spectrum (win window N) (fun v => v) y N 0 s k) in *.
  change (detrend_by dtr None) with (fun v : list R => v) in T. fold X Y in T.
  destruct (Req_EM_T (auto Kx X) 0) as [|Nz]; [discriminate|]. injection T as ->.
  assert (XY : forall s, (s < Kx)%nat -> Y s = Cmult (RtoC g) (X s)).
  { intros s Hs. unfold X, Y, seg_spectrum. rewrite <- fourier_scale, <- tapered_scale. f_equal. f_equal. unfold chunk. rewrite map_map. apply map_ext_in. intros j I. apply in_seq in I. apply Hg. nia. }
  assert (X0 : forall s, (Kx <= s)%nat -> X s = RtoC 0) by (intros s Hs; apply spectrum_past; rewrite Lx, Nat.sub_0_r; nia).
  assert (Kn : INR Kx <> 0) by (apply not_0_INR; lia). assert (Kyn : INR Ky <> 0) by (apply not_0_INR; lia).
  assert (Cr : cross Ky X Y = Cmult (RtoC (g * INR Kx / INR Ky)) (RtoC (auto Kx X))).
  { pose proof (cross_gain Kx X Y (RtoC g) XY) as Cg. 
    assert (Sp : forall q : C -> R, q (RtoC 0) = 0 -> avg Ky (fun s => q (Cmult (Cconj (X s)) (Y s))) = INR Kx / INR Ky * avg Kx (fun s => q (Cmult (Cconj (X s)) (Y s)))).
    { intros q Q0. unfold avg. change (Rsum (map ?F (seq 0 Ky))) with (Rsumn Ky F). rewrite (Rsumn_stop Ky Kx); [|exact KL|].
      - unfold Rsumn. field. auto.
      - intros s Hs. rewrite X0 by lia. replace (Cmult (Cconj (RtoC 0)) (Y s)) with (RtoC 0); [exact Q0|]. apply injective_projections; cbn; ring. }
    unfold cross, cavg in Cg |- *. rewrite (Sp fst) by reflexivity. rewrite (Sp snd) by reflexivity.
    apply injective_projections; cbn [fst snd].
    - apply (f_equal fst) in Cg. cbn [fst] in Cg. rewrite Cg. unfold Cmult, RtoC. cbn [fst snd]. field. exact Kyn.
    - apply (f_equal snd) in Cg. cbn [snd] in Cg. rewrite Cg. unfold Cmult, RtoC. cbn [fst snd]. field. exact Kyn. }
  rewrite Cr. field. intro Z0. apply RtoC_inj in Z0. auto.
Qed.
(*@ C103 and coherence is no longer bounded by one: five input rows against six output rows, where the last input row lies in no whole segment of the input, give coherence 10000/3 *)
Lemma rows_coherence_refuted :
  ~ (forall dt n m x y a b navgs overlap window d f nm tf coh c, (1 <= m)%nat -> length x = n -> length y = m ->
     averaged_tf_rows std_win std_dtr dt n m [(a, x)] [(b, y)] navgs overlap window d = Ok (f, [(nm, (tf, coh))]) -> In (Some c) coh -> 0 <= c <= 1).
Proof.
  intro H. set (x := [1; 0; 1; 0; 100]). set (y := [0; 0; 0; 0; 1; 0]).
  assert (G : welch_grid 5 2 0 2 0) by (unfold welch_grid; cbn [INR]; split; [lia|]; split; [lia|]; split; [lia|]; split; [lia|]; split; [lra|lia]).
  assert (Pw : power (std_win "boxcar" 2) <> 0) by (unfold power; cbn; lra).
  destruct (rows_value std_win std_dtr 1 5 6 [("a", x)] [("b", y)] 2 0 "boxcar" None 2 0 2 3 3 std_windows std_keeps ltac:(lia) ltac:(lra) G ltac:(lia)) as (out & E & L & Q);
    [unfold segments_fit; lia|unfold segments_fit; lia|unfold segments_fit; cbn; lia|exact Pw|repeat constructor|repeat constructor|left; reflexivity|discriminate|discriminate|].
  destruct (Q 0%nat) as (a' & x' & b' & y' & tf & coh & A1 & A2 & A3 & _ & L2 & A6); [rewrite L; cbn; lia|]. cbn in A1, A2. injection A1 as <- <-. injection A2 as <- <-.
  destruct out as [|o [|]]; try (cbn in L; lia). cbn in A3. injection A3 as ->. destruct (A6 0%nat ltac:(cbn; lia)) as [_ Cv]. cbv zeta in Cv.
  assert (Dc : forall v : list R, fourier (tapered (std_win "boxcar" 2) (chunk v 0 2)) 0 = RtoC (nth 0 v 0 + nth 1 v 0) /\ fourier (tapered (std_win "boxcar" 2) (chunk v 2 2)) 0 = RtoC (nth 2 v 0 + nth 3 v 0) /\ fourier (tapered (std_win "boxcar" 2) (chunk v 4 2)) 0 = RtoC (nth 4 v 0 + nth 5 v 0)).
  { intro v. assert (T : forall p q, fourier [p; q] 0 = RtoC (p + q)).
    { intros p q. unfold fourier. cbn [length seq map nth Rsum fold_right]. cbn [INR]. replace (2 * PI * 0 * 0 / (1 + 1)) with 0 by field. replace (2 * PI * 0 * 1 / (1 + 1)) with 0 by field. rewrite cos_0, sin_0. unfold RtoC. f_equal; ring. }
    assert (W : forall a, tapered (std_win "boxcar" 2) (chunk v a 2) = [nth a v 0; nth (a + 1) v 0]).
    { intro a0. unfold tapered, chunk. cbn [length map seq]. change (std_win "boxcar" 2) with [1; 1]. cbn [nth]. rewrite Nat.add_0_r. f_equal; [ring|f_equal; ring]. }
    rewrite !W, !T. repeat split. }
  assert (Xs : auto 2 (fun s => seg_spectrum (std_win "boxcar" 2) (detrend_by std_dtr None) x 2 0 s 0) = 1).
  { unfold auto, avg. cbn [seq map Rsum fold_right INR]. unfold seg_spectrum. cbn [detrend_by]. change (0 * (2 - 0))%nat with 0%nat. change (1 * (2 - 0))%nat with 2%nat. destruct (Dc x) as (D1 & D2 & _). rewrite D1, D2. cbn [nth x]. unfold x. cbn [nth]. rewrite !Cmod_R, !Rabs_right by lra. field. }
  assert (Ys : auto 3 (fun s => seg_spectrum (std_win "boxcar" 2) (detrend_by std_dtr None) y 2 0 s 0) = / 3).
  { unfold auto, avg. cbn [seq map Rsum fold_right INR]. unfold seg_spectrum. cbn [detrend_by]. change (0 * (2 - 0))%nat with 0%nat. change (1 * (2 - 0))%nat with 2%nat. change (2 * (2 - 0))%nat with 4%nat. destruct (Dc y) as (D1 & D2 & D3). rewrite D1, D2, D3. unfold y. cbn [nth]. rewrite !Cmod_R, !Rabs_right by lra. field. }
  assert (Cr : cross 3 (fun s => seg_spectrum (std_win "boxcar" 2) (detrend_by std_dtr None) x 2 0 s 0) (fun s => seg_spectrum (std_win "boxcar" 2) (detrend_by std_dtr None) y 2 0 s 0) = RtoC (100 / 3)).
  { unfold cross, cavg, avg. cbn [seq map Rsum fold_right INR]. unfold seg_spectrum. cbn [detrend_by]. change (0 * (2 - 0))%nat with 0%nat. change (1 * (2 - 0))%nat with 2%nat. change (2 * (2 - 0))%nat with 4%nat. destruct (Dc x) as (X1 & X2 & X3). destruct (Dc y) as (D1 & D2 & D3). rewrite D1, D2, D3, X1, X2, X3. unfold x, y. cbn [nth]. unfold Cmult, Cconj, RtoC. cbn [fst snd]. f_equal; field. }
  rewrite Xs, Ys, Cr in Cv. destruct (Req_EM_T (1 * / 3) 0); [lra|].
  assert (I : In (nth 0 coh None) coh) by (apply nth_In; rewrite L2; cbn; lia). rewrite Cv in I.
  specialize (H 1 5%nat 6%nat x y "a" "b" 2%Z 0 "boxcar" None _ _ _ _ _ ltac:(lia) eq_refl eq_refl E I). rewrite Cmod_R, Rabs_right in H by lra. destruct H as [_ H]. field_simplify in H. lra.
Qed.
(*@ex C103 four input rows against eight output rows, the output twice the input: the estimate at frequency zero is 1, not 2 *)
Lemma rows_example : exists f tf coh,
  averaged_tf_rows std_win std_dtr 1 4 8 [("a", [1; 2; 3; 4])] [("b", [2; 4; 6; 8; 0; 0; 0; 0])] 2 0 "boxcar" None = Ok (f, [("a_b", (tf, coh))]) /\ nth_error tf 0 = Some (Some (RtoC 1)).
Proof.
  assert (G : welch_grid 4 2 0 2 0) by (unfold welch_grid; cbn [INR]; split; [lia|]; split; [lia|]; split; [lia|]; split; [lia|]; split; [lra|lia]).
  assert (Pw : power (std_win "boxcar" 2) <> 0) by (unfold power; cbn; lra).
  destruct (rows_value std_win std_dtr 1 4 8 [("a", [1; 2; 3; 4])] [("b", [2; 4; 6; 8; 0; 0; 0; 0])] 2 0 "boxcar" None 2 0 2 4 4 std_windows std_keeps ltac:(lia) ltac:(lra) G ltac:(lia)) as (out & E & L & Q);
    [unfold segments_fit; lia|unfold segments_fit; lia|unfold segments_fit; cbn; lia|exact Pw|repeat constructor|repeat constructor|left; reflexivity|discriminate|discriminate|].
  destruct (Q 0%nat) as (a' & x' & b' & y' & tf & coh & A1 & A2 & A3 & L1 & L2 & A6); [rewrite L; cbn; lia|]. cbn in A1, A2. injection A1 as <- <-. injection A2 as <- <-.
  destruct out as [|o [|]]; try (cbn in L; lia). cbn in A3. injection A3 as ->. exists (map (fun k => INR k / (INR 2 * 1)) (seq 0 (2 / 2 + 1))), tf, coh. split; [exact E|].
  destruct (A6 0%nat ltac:(cbn; lia)) as [Tv _]. cbv zeta in Tv. destruct (Req_EM_T _ 0) as [Z0|Nz].
  - exfalso. apply (auto_zero 2 _ ltac:(lia)) with (s := 0%nat) in Z0; [|lia]. unfold seg_spectrum, fourier, tapered, chunk in Z0. apply (f_equal fst) in Z0. cbn in Z0.
    replace (2 * PI * 0 * 0 / (1 + 1)) with 0 in Z0 by field. replace (2 * PI * 0 * 1 / (1 + 1)) with 0 in Z0 by field. rewrite cos_0 in Z0. lra.
  - destruct tf as [|h tf]; [cbn in L1; lia|]. cbn [nth] in Tv. destruct h as [c|]; [|discriminate Tv]. cbn [nth_error]. f_equal. f_equal. clear Tv Nz A6 Q.
    rewrite (extra_rows_dilute std_win std_dtr 1 4 8 [1; 2; 3; 4] [2; 4; 6; 8; 0; 0; 0; 0] "a" "b" 2 2 "boxcar" 2 2 4 0 _ "a_b" (Some c :: tf) coh c std_windows std_keeps ltac:(lia) ltac:(lra) G Pw eq_refl
      ltac:(unfold segments_fit; lia) ltac:(lia) eq_refl eq_refl ltac:(intros [|[|[|[|]]]] Hi; cbn; try lra; lia) E eq_refl). f_equal. cbn [INR]. field.
Qed.
