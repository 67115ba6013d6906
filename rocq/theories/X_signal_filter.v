(** Applying a filter to a signal (C58). *)
From Verif Require Import Prelude PreludeFacts RealBase Fl RealStat Dft Phase M_spatial M_cmv M_signal_corr M_signal_tf M_signal_plant Spec_welch Spec_plant P_list P_dft P_welch P_signal P_phase P_fft P_parseval P_plant P_cam X_signal_interp P_filter.
From Coquelicot Require Import Complex.
From Coq Require Import Lra Psatz Permutation.
Local Open Scope R_scope.

Lemma interp_seq n (f : nat -> R) rows (H : nat -> C) : (forall k, (k < n)%nat -> interp_tf_at rows (f k) = Ok (H k)) ->
  interp_tf (map f (seq 0 n)) rows = Ok (map (fun k => (f k, H k)) (seq 0 n)).
Proof.
  intro E. unfold interp_tf. assert (K : forall l, (forall k, In k l -> (k < n)%nat) -> mapM (fun g => rmap (fun z => (g, z)) (interp_tf_at rows g)) (map f l) = Ok (map (fun k => (f k, H k)) l)).
  { induction l as [|k l IH]; intro Hl; [reflexivity|]. cbn [map mapM]. rewrite E by (apply Hl; now left). cbn [rmap rbind]. rewrite IH by (intros; apply Hl; now right). reflexivity. }
  apply K. intros k I. apply in_seq in I. lia.
Qed.

(*@ C58 The filter read at the signal's own frequencies multiplies the signal's spectrum. *)
Lemma apply_value : forall dt sig filt (H : nat -> C), (2 <= length sig)%nat -> dt <> 0 -> NoDup (map fst filt) -> (2 <= length filt)%nat ->
  (forall k, (k < length sig)%nat -> in_range filt (bin_frequency (length sig) k dt) /\ interp_tf_at filt (bin_frequency (length sig) k dt) = Ok (H k)) ->
  apply_filter dt sig filt = Ok (spectral_product sig H).
Proof.
  intros dt sig filt H L D ND Lf HH. unfold apply_filter. set (n := length sig) in *.
  assert (Pn : (0 < n)%nat) by lia. assert (Nn : INR n <> 0) by (apply not_0_INR; lia).
  destruct (Nat.ltb_spec n 2) as [K|_]; [lia|]. rewrite Reqb_false by exact D.
  destruct filt as [|r0 filt0]; [cbn in Lf; lia|]. set (filt := r0 :: filt0) in *.
  rewrite fftfreq_bins by exact Pn. set (fv := map (fun k => bin_frequency n k dt) (seq 0 n)).
  assert (Mx : Rltb (Rmax_of (map fst filt)) (Rmax_of fv) = false).
  { destruct (Rltb_spec (Rmax_of (map fst filt)) (Rmax_of fv)) as [K|]; [|reflexivity]. exfalso.
    assert (I : In (Rmax_of fv) fv) by (apply Rmax_of_in; unfold fv; destruct n; [lia|discriminate]).
    unfold fv in I at 2. apply in_map_iff in I. destruct I as (k & E & I). apply in_seq in I.
    destruct (HH k ltac:(lia)) as [[_ (g & z & Ig & Lg)] _]. rewrite E in Lg.
    assert (g <= Rmax_of (map fst filt)) by (apply Rmax_of_ge; apply in_map_iff; now exists (g, z)). lra. }
  rewrite Mx. unfold fv. rewrite (interp_seq n (fun k => bin_frequency n k dt) filt H) by (intros k Hk; now apply HH). cbn [rbind]. f_equal.
  assert (Ex : map (fun z => Cdiv (Cmult z (RtoC (INR n))) (RtoC 2))
      (map2 (fun z h => Cmult z (snd h)) (map (fun z => Cdiv (Cmult z (RtoC 2)) (RtoC (INR n))) (fft (map RtoC sig))) (map (fun k => (bin_frequency n k dt, H k)) (seq 0 n)))
    = map (fun k => Cmult (fourier sig k) (H k)) (seq 0 n)).
  { unfold fft. rewrite map_length. fold n. unfold map2. rewrite map_map. clear Mx fv.
    induction (seq 0 n) as [|k l IH]; [reflexivity|]. cbn [map combine fst snd]. f_equal; [|exact IH].
    rewrite fft_bin_fourier. field. split; intro E; apply RtoC_inj in E; (contradiction || lra). }
  rewrite Ex. unfold ifft. rewrite !map_map, map_length, seq_length. unfold spectral_product. fold n. apply map_ext. intro j.
  unfold ifft_bin. rewrite map_length, seq_length. rewrite fst_div_R by exact Nn. f_equal. rewrite Csumn_parts. cbn [fst]. apply Rsumn_ext. intros k Hk.
  rewrite nth_map_seq by exact Hk. reflexivity.
Qed.

(*@ C58 When the call fails: fewer than two samples, no time step, or a frequency of the signal outside the filter's range
   (both the explicit check of the maximum and the interpolation raise ValueError). *)
Lemma apply_outcome : forall dt sig filt,
  ((length sig < 2)%nat -> apply_filter dt sig filt = Err IndexError) /\
  ((2 <= length sig)%nat -> dt = 0 -> apply_filter dt sig filt = Err ZeroDivisionError) /\
  ((2 <= length sig)%nat -> dt <> 0 -> NoDup (map fst filt) -> (2 <= length filt)%nat ->
     ((forall k, (k < length sig)%nat -> in_range filt (bin_frequency (length sig) k dt)) -> exists out, apply_filter dt sig filt = Ok out /\ length out = length sig) /\
     (forall k, (k < length sig)%nat -> ~ in_range filt (bin_frequency (length sig) k dt) -> apply_filter dt sig filt = Err ValueError)) /\
  ((2 <= length sig)%nat -> dt <> 0 -> filt = [] -> apply_filter dt sig filt = Err ValueError).
Proof.
  intros dt sig filt. repeat split.
  - intro L. unfold apply_filter. destruct (Nat.ltb_spec (length sig) 2); [reflexivity|lia].
  - intros L ->. unfold apply_filter. destruct (Nat.ltb_spec (length sig) 2); [lia|]. now rewrite Reqb_true.
  - rename H into L, H0 into D, H1 into ND, H2 into Lf. intro Rg.
    assert (Ch : exists H : nat -> C, forall k, (k < length sig)%nat -> interp_tf_at filt (bin_frequency (length sig) k dt) = Ok (H k)).
    { exists (fun k => match interp_tf_at filt (bin_frequency (length sig) k dt) with Ok z => z | Err _ => RtoC 0 end). intros k Hk.
      destruct (interp_range filt (bin_frequency (length sig) k dt) ND Lf) as [_ X]. destruct (Rg k Hk) as [A B]. destruct (X A B) as [z ->]. reflexivity. }
    destruct Ch as [H HH]. exists (spectral_product sig H). split; [|apply spectral_length].
    apply apply_value; auto.
  - rename H into L, H0 into D, H1 into ND, H2 into Lf. intros k Hk NR.
    unfold apply_filter. destruct (Nat.ltb_spec (length sig) 2); [lia|]. rewrite Reqb_false by exact D.
    destruct filt as [|r0 filt0]; [cbn in Lf; lia|]. set (filt := r0 :: filt0) in *.
    destruct (Rltb _ _); [reflexivity|].
    rewrite fftfreq_bins by lia. set (fv := map _ (seq 0 (length sig))).
    assert (I : In (bin_frequency (length sig) k dt) fv) by (apply in_map_iff; exists k; split; [reflexivity|apply in_seq; lia]).
    assert (Er : forall f, (exists z, interp_tf_at filt f = Ok z) \/ interp_tf_at filt f = Err ValueError).
    { intro f. unfold interp_tf_at. unfold interp1d. destruct (_ || _)%bool; cbn [rbind]; eauto. }
    assert (Out : forall z, interp_tf_at filt (bin_frequency (length sig) k dt) <> Ok z).
    { intros z E. destruct (interp_range filt (bin_frequency (length sig) k dt) ND Lf) as [X _].
      destruct (Classical_Prop.classic (exists g z, In (g, z) filt /\ g <= bin_frequency (length sig) k dt)) as [A|A].
      - destruct (Classical_Prop.classic (exists g z, In (g, z) filt /\ bin_frequency (length sig) k dt <= g)) as [B|B]; [apply NR; split; assumption|].
        rewrite X in E; [discriminate|]. right. intros g y Ig. destruct (Rlt_dec g (bin_frequency (length sig) k dt)); [assumption|]. exfalso. apply B. exists g, y. split; [exact Ig|lra].
      - rewrite X in E; [discriminate|]. left. intros g y Ig. destruct (Rlt_dec (bin_frequency (length sig) k dt) g); [assumption|]. exfalso. apply A. exists g, y. split; [exact Ig|lra]. }
    assert (Em : interp_tf fv filt = Err ValueError).
    { unfold interp_tf. clear - Er Out I. induction fv as [|f l IH]; [destruct I|]. cbn [mapM].
      destruct (Er f) as [[z Ez]|Ez]; rewrite Ez; cbn [rmap rbind]; [|reflexivity].
      destruct I as [->|I]; [now apply Out in Ez|]. rewrite IH by exact I. reflexivity. }
    rewrite Em. reflexivity.
  - intros L D ->. unfold apply_filter. destruct (Nat.ltb_spec (length sig) 2); [lia|]. now rewrite Reqb_false.
Qed.

(*@ C58 A flat filter over the signal's frequencies scales the signal: gain 1 is the identity. *)
Lemma apply_flat : forall dt sig filt c, (2 <= length sig)%nat -> dt <> 0 -> NoDup (map fst filt) -> (2 <= length filt)%nat ->
  (forall f z, In (f, z) filt -> z = c) -> (forall k, (k < length sig)%nat -> in_range filt (bin_frequency (length sig) k dt)) ->
  apply_filter dt sig filt = Ok (map (fun v => fst c * v) sig).
Proof.
  intros dt sig filt c L D ND Lf Hc Rg. rewrite (apply_value dt sig filt (fun _ => c)) by first [assumption | intros k Hk; split; [now apply Rg|apply interp_const; auto]].
  f_equal. apply spectral_flat.
Qed.

(*@ C58 A filter given at the signal's own frequencies f as gain c and delay of m whole samples, c exp(-2 pi i f m dt),
   moves the signal m samples around its record and scales it. *)
Lemma apply_shift : forall dt sig filt c m, (2 <= length sig)%nat -> dt <> 0 -> NoDup (map fst filt) -> (2 <= length filt)%nat ->
  (forall k, (k < length sig)%nat -> let f := bin_frequency (length sig) k dt in In (f, Cmult (RtoC c) (phasor (- (2 * PI * f * (IZR m * dt))))) filt) ->
  apply_filter dt sig filt = Ok (map (fun v => c * v) (delayed m sig)).
Proof.
  intros dt sig filt c m L D ND Lf Hf. set (n := length sig) in *. assert (Nn : INR n <> 0) by (apply not_0_INR; lia).
  rewrite (apply_value dt sig filt (fun k => Cmult (RtoC c) (phasor (- (2 * PI * INR k * IZR m / INR n))))); auto.
  - f_equal. apply (spectral_delay sig (RtoC c) m).
  - intros k Hk. fold n in Hk. specialize (Hf k Hk). cbv zeta in Hf.
    assert (Ep : phasor (- (2 * PI * bin_frequency n k dt * (IZR m * dt))) = phasor (- (2 * PI * INR k * IZR m / INR n))).
    { change (cis (- (2 * PI * bin_frequency n k dt * (IZR m * dt))) = cis (- (2 * PI * INR k * IZR m / INR n))).
      unfold bin_frequency. destruct (bin_cycles_turn n k) as [z ->]. rewrite plus_IZR, mult_IZR, <- !INR_IZR_INZ.
      rewrite <- (cis_plus_turns (- (2 * PI * INR k * IZR m / INR n)) (- (z * m))). f_equal. rewrite opp_IZR, mult_IZR. field. auto. }
    rewrite Ep in Hf. split; [split; do 2 eexists; (split; [exact Hf|apply Rle_refl])|]. now apply interp_node.
Qed.

(*@ C58 Filtering is linear in the signal. *)
Lemma apply_linear : forall dt s1 s2 filt o1 o2 a b, NoDup (map fst filt) -> (2 <= length filt)%nat -> length s1 = length s2 ->
  apply_filter dt s1 filt = Ok o1 -> apply_filter dt s2 filt = Ok o2 ->
  apply_filter dt (map2 Rplus (map (Rmult a) s1) (map (Rmult b) s2)) filt = Ok (map2 Rplus (map (Rmult a) o1) (map (Rmult b) o2)).
Proof.
  intros dt s1 s2 filt o1 o2 a b ND Lf Ls E1 E2.
  destruct (apply_outcome dt s1 filt) as (A & B & Cc & _).
  destruct (Nat.lt_ge_cases (length s1) 2) as [L|L]; [rewrite A in E1 by exact L; discriminate|].
  destruct (Req_dec dt 0) as [D|D]; [rewrite B in E1 by auto; discriminate|].
  destruct (Cc L D ND Lf) as [_ F].
  assert (Rg : forall k, (k < length s1)%nat -> in_range filt (bin_frequency (length s1) k dt)).
  { intros k Hk. destruct (Classical_Prop.classic (in_range filt (bin_frequency (length s1) k dt))) as [|N]; [assumption|]. rewrite (F k Hk N) in E1. discriminate. }
  set (H := fun k => match interp_tf_at filt (bin_frequency (length s1) k dt) with Ok z => z | Err _ => RtoC 0 end).
  assert (HH : forall k, (k < length s1)%nat -> in_range filt (bin_frequency (length s1) k dt) /\ interp_tf_at filt (bin_frequency (length s1) k dt) = Ok (H k)).
  { intros k Hk. split; [auto|]. unfold H. destruct (interp_range filt (bin_frequency (length s1) k dt) ND Lf) as [_ X]. destruct (Rg k Hk) as [P Q]. destruct (X P Q) as [z ->]. reflexivity. }
  rewrite (apply_value dt s1 filt H L D ND Lf HH) in E1. injection E1 as <-.
  rewrite (apply_value dt s2 filt H) in E2 by (rewrite <- ?Ls; auto). injection E2 as <-.
  assert (Ll : length (map2 Rplus (map (Rmult a) s1) (map (Rmult b) s2)) = length s1) by (rewrite map2_length; rewrite !map_length; auto).
  rewrite (apply_value dt _ filt H); rewrite ?Ll; auto. f_equal. now apply spectral_linear.
Qed.

Lemma filter_values dt sig filt out : NoDup (map fst filt) -> (2 <= length filt)%nat -> apply_filter dt sig filt = Ok out ->
  (2 <= length sig)%nat /\ dt <> 0 /\ exists H, out = spectral_product sig H /\
  forall k, (k < length sig)%nat -> in_range filt (bin_frequency (length sig) k dt) /\ interp_tf_at filt (bin_frequency (length sig) k dt) = Ok (H k).
Proof.
  intros ND Lf E. destruct (apply_outcome dt sig filt) as (A & B & Cc & _).
  destruct (Nat.lt_ge_cases (length sig) 2) as [L|L]; [rewrite A in E by exact L; discriminate|].
  destruct (Req_dec dt 0) as [D|D]; [rewrite B in E by auto; discriminate|].
  destruct (Cc L D ND Lf) as [_ F]. split; [exact L|]. split; [exact D|].
  assert (Rg : forall k, (k < length sig)%nat -> in_range filt (bin_frequency (length sig) k dt)).
  { intros k Hk. destruct (Classical_Prop.classic (in_range filt (bin_frequency (length sig) k dt))) as [|N]; [assumption|]. rewrite (F k Hk N) in E. discriminate. }
  set (H := fun k => match interp_tf_at filt (bin_frequency (length sig) k dt) with Ok z => z | Err _ => RtoC 0 end).
  assert (HH : forall k, (k < length sig)%nat -> in_range filt (bin_frequency (length sig) k dt) /\ interp_tf_at filt (bin_frequency (length sig) k dt) = Ok (H k)).
  { intros k Hk. split; [auto|]. unfold H. destruct (interp_range filt (bin_frequency (length sig) k dt) ND Lf) as [_ X]. destruct (Rg k Hk) as [P Q]. destruct (X P Q) as [z ->]. reflexivity. }
  exists H. split; [|exact HH]. rewrite (apply_value dt sig filt H L D ND Lf HH) in E. congruence.
Qed.
Lemma interp_bound rows f z g : NoDup (map fst rows) -> (2 <= length rows)%nat -> in_range rows f -> (forall f z, In (f, z) rows -> Cmod z <= g) ->
  interp_tf_at rows f = Ok z -> Cmod z <= g.
Proof.
  intros ND L [(a & za & Ha & La) (b & zb & Hb & Lb)] Hg E.
  pose proof (by_freq_increasing rows ND) as I.
  assert (Ls : length (by_freq rows) = length rows) by apply sort_by_length.
  destruct (find_row rows _ Ha) as [i [Hi Ei]]. destruct (find_row rows _ Hb) as [j [Hj Ej]].
  destruct (find_segment (map fst (by_freq rows)) f I) as (k & Hk & Kf); [rewrite map_length; lia| |].
  - split.
    + pose proof (increasing_le _ 0 i I ltac:(rewrite map_length; lia)) as Q. rewrite (nth_fst _ i), Ei in Q. cbn [fst] in Q. lra.
    + pose proof (increasing_le _ j (length (map fst (by_freq rows)) - 1) I ltac:(rewrite map_length; lia)) as Q. rewrite (nth_fst _ j), Ej in Q. cbn [fst] in Q. lra.
  - rewrite map_length in Hk. rewrite !nth_fst in Kf. destruct (interp_at_index (by_freq rows) k f I Hk Kf) as (M & Ph & _ & _ & _).
    assert (V : forall q, (q < length (by_freq rows))%nat -> Cmod (snd (nth q (by_freq rows) (0, RtoC 0))) <= g).
    { intros q Hq. destruct (nth q (by_freq rows) (0, RtoC 0)) as [x y] eqn:Exy. cbn. apply (Hg x). apply (sort_by_In (fun p q => Rleb (fst p) (fst q))). fold (by_freq rows). rewrite <- Exy. now apply nth_In. }
    unfold interp_tf_at in E. rewrite M, Ph in E. cbn [rbind] in E. injection E as <-.
    set (f0 := fst (nth k (by_freq rows) (0, RtoC 0))) in *. set (f1 := fst (nth (S k) (by_freq rows) (0, RtoC 0))) in *.
    assert (F01 : f0 < f1) by (unfold f0, f1; rewrite <- !nth_fst; apply I; rewrite map_length; lia).
    set (t := (f - f0) / (f1 - f0)). assert (T : 0 <= t <= 1).
    { unfold t. split; [apply Rle_mult_inv_pos; lra|]. apply Rmult_le_reg_r with (f1 - f0); [lra|]. unfold Rdiv. rewrite Rmult_assoc, Rinv_l by lra. lra. }
    pose proof (V k ltac:(lia)) as V0. pose proof (V (S k) ltac:(lia)) as V1.
    pose proof (Cmod_ge_0 (snd (nth k (by_freq rows) (0, RtoC 0)))) as P0. pose proof (Cmod_ge_0 (snd (nth (S k) (by_freq rows) (0, RtoC 0)))) as P1.
    rewrite Cmod_mult, cis_mod, Rmult_1_r, Cmod_R. rewrite Rabs_pos_eq; nra.
Qed.

(*@ C58 A filter with gains at most g raises the signal's energy at most by the factor g^2: a passive filter never raises it. *)
Lemma apply_energy : forall dt sig filt out g, NoDup (map fst filt) -> (2 <= length filt)%nat ->
  (forall f z, In (f, z) filt -> Cmod z <= g) -> apply_filter dt sig filt = Ok out ->
  Rsum (map (fun v => v ^ 2) out) <= g ^ 2 * Rsum (map (fun v => v ^ 2) sig).
Proof.
  intros dt sig filt out g ND Lf Hg E. destruct (filter_values dt sig filt out ND Lf E) as (L & D & H & -> & HH).
  assert (Pg : 0 <= g).
  { destruct filt as [|[f z] filt]; [cbn in Lf; lia|]. pose proof (Cmod_ge_0 z). pose proof (Hg f z (or_introl eq_refl)). lra. }
  apply spectral_energy; [exact Pg|]. intros k Hk. destruct (HH k Hk) as [A B]. eapply interp_bound; eauto.
Qed.

(*@ C58 The filter's value at frequency 0 scales the mean: unit gain there keeps it. *)
Lemma apply_mean : forall dt sig filt out z, NoDup (map fst filt) -> (2 <= length filt)%nat -> In (0, z) filt ->
  apply_filter dt sig filt = Ok out -> Rmean out = fst z * Rmean sig.
Proof.
  intros dt sig filt out z ND Lf I E. destruct (filter_values dt sig filt out ND Lf E) as (L & D & H & -> & HH).
  destruct (HH 0%nat ltac:(lia)) as [_ B]. replace (bin_frequency (length sig) 0 dt) with 0 in B.
  - rewrite (interp_node filt 0 z ND Lf I) in B. injection B as B. unfold Rmean. rewrite spectral_length, spectral_sum, <- B. unfold Rdiv. ring.
  - unfold bin_frequency, bin_cycles. destruct (length sig); [lia|]. cbn. unfold Rdiv. ring.
Qed.

(*@ C58 A vibration at one of the record's frequencies comes out multiplied by the filter's value there,
   provided the filter has the conjugate value at the opposite frequency. *)
Lemma apply_tone : forall dt n m a filt h, NoDup (map fst filt) -> dt <> 0 -> (0 < m)%nat -> (2 * m < n)%nat ->
  let f := INR m / (INR n * dt) in In (f, h) filt -> In (- f, Cconj h) filt ->
  (forall k, (k < n)%nat -> in_range filt (bin_frequency n k dt)) ->
  apply_filter dt (vibration n m a) filt = Ok (vibration n m (Cmult a h)).
Proof.
  intros dt n m a filt h ND D Pm Hm f I1 I2 Rg.
  assert (Lv : length (vibration n m a) = n) by (unfold vibration; now rewrite map_length, seq_length).
  assert (Nn : INR n <> 0) by (apply not_0_INR; lia). assert (Pmr : 0 < INR m) by (now apply lt_0_INR).
  assert (Nf : f <> 0) by (unfold f, Rdiv; apply Rmult_integral_contrapositive_currified; [lra|apply Rinv_neq_0_compat; now apply Rmult_integral_contrapositive_currified]).
  assert (Lf : (2 <= length filt)%nat).
  { destruct filt as [|r1 [|r2 filt]]; [destruct I1| |cbn; lia]. destruct I1 as [->|[]], I2 as [E|[]]. injection E as E _. lra. }
  destruct (apply_outcome dt (vibration n m a) filt) as (_ & _ & Cc & _). rewrite Lv in Cc. destruct (Cc ltac:(lia) D ND Lf) as [X _].
  destruct (X Rg) as (out & E & _). rewrite E. f_equal. destruct (filter_values dt _ filt out ND Lf E) as (_ & _ & H & -> & HH). rewrite Lv in HH.
  assert (Fm : bin_frequency n m dt = f).
  { unfold bin_frequency, bin_cycles. destruct (Nat.ltb_spec (2 * m) n); [|lia]. now rewrite <- INR_IZR_INZ. }
  assert (Fn : bin_frequency n (n - m) dt = - f).
  { unfold bin_frequency, bin_cycles. destruct (Nat.ltb_spec (2 * (n - m)) n); [lia|]. rewrite minus_IZR, <- !INR_IZR_INZ, minus_INR by lia. unfold f. field. auto. }
  destruct (HH m ltac:(lia)) as [_ Hm1]. rewrite Fm, (interp_node filt f h ND Lf I1) in Hm1. injection Hm1 as Hm1.
  destruct (HH (n - m)%nat ltac:(lia)) as [_ Hm2]. rewrite Fn, (interp_node filt (- f) (Cconj h) ND Lf I2) in Hm2. apply (f_equal (fun r => match r with Ok z => z | Err _ => RtoC 0 end)) in Hm2. cbv beta iota in Hm2.
  apply (f_equal (fun z => z)) in Hm1. rewrite spectral_tone by (try lia; rewrite <- Hm2, <- Hm1; reflexivity). now rewrite Hm1.
Qed.

(*@ C58 A one-sided filter cannot be applied to any signal: every record has a negative frequency. *)
Lemma apply_one_sided : forall dt sig filt, (2 <= length sig)%nat -> 0 < dt -> NoDup (map fst filt) -> (2 <= length filt)%nat ->
  (forall f z, In (f, z) filt -> 0 <= f) -> apply_filter dt sig filt = Err ValueError.
Proof.
  intros dt sig filt L D ND Lf Pos. destruct (apply_outcome dt sig filt) as (_ & _ & Cc & _). destruct (Cc L ltac:(lra) ND Lf) as [_ X].
  apply (X (length sig - 1)%nat); [lia|]. intros [(g & z & Ig & Lg) _]. specialize (Pos g z Ig).
  assert (bin_frequency (length sig) (length sig - 1) dt < 0); [|lra].
  unfold bin_frequency, bin_cycles. destruct (Nat.ltb_spec (2 * (length sig - 1)) (length sig)); [lia|].
  replace (Z.of_nat (length sig - 1) - Z.of_nat (length sig))%Z with (-1)%Z by lia.
  assert (P : 0 < / (INR (length sig) * dt)) by (apply Rinv_0_lt_compat, Rmult_lt_0_compat; [apply lt_0_INR; lia|exact D]). unfold Rdiv. lra.
Qed.

(*@ex C58 A flat gain of 2 over -1..1 Hz on four samples one second apart. *)
Lemma apply_example : apply_filter 1 [5; -1; 0; 3] [(-1, RtoC 2); (1, RtoC 2)] = Ok [10; -2; 0; 6].
Proof.
  rewrite (apply_flat 1 _ _ (RtoC 2)).
  - unfold RtoC. cbn [map fst]. apply f_equal. repeat (apply (f_equal2 cons); [lra|]). reflexivity.
  - cbn. lia.
  - lra.
  - cbn. repeat constructor; cbn; intuition lra.
  - cbn. lia.
  - intros f z [E|[E|[]]]; congruence.
  - intros k Hk. cbn [length] in Hk. assert (B : -1 <= bin_frequency 4 k 1 <= 1).
    { unfold bin_frequency. cbn [INR]. assert (-2 <= bin_cycles 4 k <= 1)%Z as [B1 B2] by (unfold bin_cycles; destruct (Nat.ltb_spec (2 * k) 4); lia). apply IZR_le in B1, B2. lra. }
    cbn [length]. split; [exists (-1), (RtoC 2)|exists 1, (RtoC 2)]; (split; [cbn; auto|lra]).
Qed.
