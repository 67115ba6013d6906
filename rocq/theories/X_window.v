(** Detrending in averaged_psd and averaged_tf: least-squares residual, trends leave no trace (C100); the usual windows and the default calls (C101). *)
From Coq Require Import String.
From Verif Require Import Prelude PreludeFacts RealBase Fl RealStat Dft Phase Spec_welch Spec_window M_cmv M_signal_corr M_signal_tf M_window P_signal P_corr P_dft P_welch P_parseval P_tf P_window X_signal_psd X_signal_tf.
From Coq Require Import Lra Psatz.
From Coquelicot Require Import Complex.
Local Open Scope string_scope.
Local Open Scope R_scope.

(*@ C100 'linear' detrending returns the one residual of the least-squares line: it differs from the segment by a line, is orthogonal to all lines, nothing else is, and no other line leaves less *)
Lemma detrend_linear : forall s x, s = "linear" \/ s = "l" ->
  off_line x (std_dtr s x) /\ (forall r, off_line x r -> r = std_dtr s x) /\
  (forall a b, sq_size (std_dtr s x) <= sq_size (with_line a b x)).
Proof.
  intros s x H. assert (E : std_dtr s x = minus_line x) by (destruct H as [-> | ->]; reflexivity). rewrite E. split; [apply minus_line_off|]. split.
  - intros r O. apply (off_line_unique x); [exact O|apply minus_line_off].
  - intros a b. destruct (minus_line_off x) as ((a' & b' & Ex) & S0 & S1). rewrite Ex at 2. rewrite with_line_twice, pythagoras by assumption.
    enough (0 <= Rsumn (length (minus_line x)) (fun i => (a + a' + (b + b') * INR i) ^ 2)) by lra. apply Rsum_nonneg. intros v I. apply in_map_iff in I as (i & <- & _). apply pow2_ge_0.
Qed.
(*@ C100 'constant' detrending returns the segment minus its mean, and no other constant leaves less *)
Lemma detrend_constant : forall s x, s = "constant" \/ s = "c" ->
  off_mean x (std_dtr s x) /\ (forall r, off_mean x r -> r = std_dtr s x) /\
  (forall a, sq_size (std_dtr s x) <= sq_size (with_line a 0 x)).
Proof.
  intros s x H. assert (E : std_dtr s x = minus_mean x) by (destruct H as [-> | ->]; reflexivity). rewrite E. split; [apply minus_mean_off|]. split.
  - intros r O. apply (off_mean_unique x); [exact O|apply minus_mean_off].
  - intros a. destruct (minus_mean_off x) as ((a' & Ex) & S0). rewrite Ex at 2. rewrite with_line_twice, Rplus_0_l. rewrite !sq_size_sumn, with_line_length.
    set (r := minus_mean x) in *. rewrite Rsum_as_sumn in S0.
    rewrite (Rsumn_ext (length r) (fun i => nth i (with_line (a + a') 0 r) 0 ^ 2) (fun i => nth i r 0 ^ 2 + (2 * (a + a') * nth i r 0 + (a + a') ^ 2))).
    2:{ intros i Hi. rewrite with_line_nth by exact Hi. ring. }
    rewrite !Rsumn_plus, Rsumn_scal, S0, Rsumn_const. pose proof (pos_INR (length r)). pose proof (pow2_ge_0 (a + a')). nra.
Qed.
(** The same column with a line (resp. a constant) added. *)
Definition adds_line (c c' : string * list R) : Prop := fst c' = fst c /\ exists a b, snd c' = with_line a b (snd c).
Definition adds_constant (c c' : string * list R) : Prop := fst c' = fst c /\ exists a, snd c' = with_line a 0 (snd c).
(** What 'linear' (resp. 'constant') cannot see *)
Definition unseen (d : string) (x x' : list R) : Prop :=
  (d = "linear" /\ exists a b, x' = with_line a b x) \/ (d = "constant" /\ exists a, x' = with_line a 0 x).
Lemma unseen_length d x x' : unseen d x x' -> length x' = length x.
Proof. intros [[_ (a & b & ->)]|[_ (a & ->)]]; apply with_line_length. Qed.
Lemma unseen_bin win window d x x' N V s k : unseen d x x' ->
  seg_bin win std_dtr window (Some d) x' N V s k = seg_bin win std_dtr window (Some d) x N V s k.
Proof.
  intro U. unfold seg_bin. f_equal. f_equal. f_equal. unfold detrended, segment. destruct U as [[-> (a & b & ->)]|[-> (a & ->)]]; rewrite slice_with_line.
  - change (minus_line (with_line (a + b * INR (Z.to_nat (Z.of_nat s * (N - V)))) b (firstn (Z.to_nat N) (skipn (Z.to_nat (Z.of_nat s * (N - V))) x))) = minus_line (firstn (Z.to_nat N) (skipn (Z.to_nat (Z.of_nat s * (N - V))) x))). apply minus_line_with_line.
  - apply minus_mean_with_line.
Qed.
Lemma unseen_csd win sc window d x x' y y' N V k : unseen d x x' -> unseen d y y' ->
  csd_bin win std_dtr sc window (Some d) x' y' N V k = csd_bin win std_dtr sc window (Some d) x y N V k.
Proof.
  intros U W. unfold csd_bin. rewrite (unseen_length _ _ _ U). f_equal. apply Csumn_ext. intros s _. now rewrite (unseen_bin _ _ _ _ _ _ _ _ _ U), (unseen_bin _ _ _ _ _ _ _ _ _ W).
Qed.
Definition unseen_col (d : string) (c c' : string * list R) : Prop := fst c' = fst c /\ unseen d (snd c) (snd c').
Lemma unseen_psd win dt n d cols cols' navgs overlap window scaling : Forall2 (unseen_col d) cols cols' ->
  averaged_psd win std_dtr dt n (Frame cols') navgs overlap window (Some d) scaling = averaged_psd win std_dtr dt n (Frame cols) navgs overlap window (Some d) scaling.
Proof.
  intro F. cbn [averaged_psd]. unfold psd_frame. destruct (sample_rate dt n) as [fs|]; [cbn [rbind]|reflexivity]. destruct (segmenting n navgs overlap) as [[N V]|]; [cbn [rbind]|reflexivity].
  destruct (psd_scale win fs window N scaling) as [sc|]; [cbn [rbind]|reflexivity]. replace (some_column cols') with (some_column cols) by (destruct F; reflexivity). destruct (some_column cols); [cbn [rbind]|reflexivity]. f_equal. f_equal. induction F as [|c c' cs cs' [En U] F IH]; [reflexivity|]. cbn [map]. rewrite IH, En. f_equal. f_equal.
  apply map_ext. intro k. unfold psd_bin. now rewrite (unseen_csd _ _ _ _ _ _ _ _ _ _ _ U U).
Qed.
Lemma unseen_pairs d ins ins' outs outs' : Forall2 (unseen_col d) ins ins' -> Forall2 (unseen_col d) outs outs' ->
  match pair_columns ins outs, pair_columns ins' outs' with
  | Ok p, Ok p' => Forall2 (fun q q' => fst q' = fst q /\ unseen d (fst (snd q)) (fst (snd q')) /\ unseen d (snd (snd q)) (snd (snd q'))) p p'
  | Err e, Err e' => e = e'
  | _, _ => False
  end.
Proof.
  intros F G. assert (Li : length ins' = length ins) by (clear G; induction F; cbn; congruence). assert (Lo : length outs' = length outs) by (clear F Li; induction G; cbn; congruence).
  unfold pair_columns. rewrite Li, Lo. destruct (Nat.eqb (length outs) (length ins)).
  - clear Li Lo. revert outs outs' G. unfold map2. induction F as [|c c' cs cs' [En U] F IH]; intros outs outs' G; [constructor|]. destruct G as [|o o' os os' [En' U'] G]; [constructor|]. cbn. constructor; [cbn; rewrite En, En'; auto|]. now apply IH.
  - assert (One : forall o o', unseen_col d o o' -> Forall2 (fun q q' => fst q' = fst q /\ unseen d (fst (snd q)) (fst (snd q')) /\ unseen d (snd (snd q)) (snd (snd q')))
        (map (fun i => (pair_name (fst i) (fst o), (snd i, snd o))) ins) (map (fun i => (pair_name (fst i) (fst o'), (snd i, snd o'))) ins')).
    { intros o o' [Eo Uo]. clear Li. induction F as [|c c' cs cs' [En U] F IH]; [constructor|]. cbn. constructor; [cbn; rewrite En, Eo; auto|exact IH]. }
    assert (Two : forall o o', unseen_col d o o' -> Forall2 (fun q q' => fst q' = fst q /\ unseen d (fst (snd q)) (fst (snd q')) /\ unseen d (snd (snd q)) (snd (snd q')))
        (map (fun i => (pair_name (fst o) (fst i), (snd o, snd i))) outs) (map (fun i => (pair_name (fst o') (fst i), (snd o', snd i))) outs')).
    { intros o o' [Eo Uo]. clear Lo One. induction G as [|c c' cs cs' [En U] G IH]; [constructor|]. cbn. constructor; [cbn; rewrite En, Eo; auto|exact IH]. }
    destruct G as [|o o' os os' Uo G]; [|destruct G as [|o2 o2' os2 os2' Uo2 G]].
    + destruct F as [|c c' cs cs' Uc F]; [reflexivity|]. destruct F; [apply Two; exact Uc|reflexivity].
    + destruct F as [|c c' cs cs' Uc F]; [apply One; exact Uo|]. destruct F; apply One; exact Uo.
    + destruct F as [|c c' cs cs' Uc F]; [reflexivity|]. destruct F; [apply Two; exact Uc|reflexivity].
Qed.
Lemma unseen_tf win dt n d ins ins' outs outs' navgs overlap window : Forall2 (unseen_col d) ins ins' -> Forall2 (unseen_col d) outs outs' ->
  averaged_tf win std_dtr dt n (Frame ins') (Frame outs') navgs overlap window (Some d) = averaged_tf win std_dtr dt n (Frame ins) (Frame outs) navgs overlap window (Some d).
Proof.
  intros F G. unfold averaged_tf. destruct (sample_rate dt n) as [fs|]; [cbn [rbind]|reflexivity].
  pose proof (unseen_pairs d ins ins' outs outs' F G) as P. destruct (pair_columns ins outs) as [p|e], (pair_columns ins' outs') as [p'|e']; try easy; [|now subst].
  cbn [rbind]. destruct (segmenting n navgs overlap) as [[N V]|]; [cbn [rbind]|reflexivity].
  destruct (psd_scale win fs window N "density") as [sc|]; [cbn [rbind]|reflexivity].
  replace (some_column p') with (some_column p) by (destruct P; reflexivity). destruct (some_column p) as [[]|]; [cbn [rbind]|reflexivity]. f_equal. f_equal.
  induction P as [|[nm [a b]] [nm' [a' b']] q q' (En & U & W) P IH]; [reflexivity|]. cbn [fst snd] in *. cbn [map]. rewrite IH, En. f_equal. f_equal. f_equal.
  - apply map_ext. intro k. unfold psd_bin. now rewrite (unseen_csd _ _ _ _ _ _ _ _ _ _ _ U U), (unseen_csd _ _ _ _ _ _ _ _ _ _ _ U W).
  - apply map_ext. intro k. unfold psd_bin. now rewrite (unseen_csd _ _ _ _ _ _ _ _ _ _ _ U U), (unseen_csd _ _ _ _ _ _ _ _ _ _ _ U W), (unseen_csd _ _ _ _ _ _ _ _ _ _ _ W W).
Qed.
Lemma adds_line_unseen cols cols' : Forall2 adds_line cols cols' -> Forall2 (unseen_col "linear") cols cols'.
Proof. intro F. induction F as [|c c' cs cs' (E & a & b & U) F IH]; constructor; auto. split; [exact E|]. left. split; [reflexivity|]. now exists a, b. Qed.
Lemma adds_constant_unseen cols cols' : Forall2 adds_constant cols cols' -> Forall2 (unseen_col "constant") cols cols'.
Proof. intro F. induction F as [|c c' cs cs' (E & a & U) F IH]; constructor; auto. split; [exact E|]. right. split; [reflexivity|]. now exists a. Qed.
(*@ C100 under 'linear' a straight line added to any of the signals changes no spectral density, no transfer function and no coherence, whatever the window, the averages and the overlap; errors are the same too *)
Lemma trend_leaves_no_trace : forall win dt n ins ins' outs outs' navgs overlap window scaling,
  Forall2 adds_line ins ins' -> Forall2 adds_line outs outs' ->
  averaged_psd win std_dtr dt n (Frame ins') navgs overlap window (Some "linear") scaling = averaged_psd win std_dtr dt n (Frame ins) navgs overlap window (Some "linear") scaling /\
  averaged_tf win std_dtr dt n (Frame ins') (Frame outs') navgs overlap window (Some "linear") = averaged_tf win std_dtr dt n (Frame ins) (Frame outs) navgs overlap window (Some "linear").
Proof. intros win dt n ins ins' outs outs' navgs overlap window scaling F G. split; [apply unseen_psd|apply unseen_tf]; now apply adds_line_unseen. Qed.
(*@ C100 under 'constant' the same holds of a constant added to any of the signals *)
Lemma offset_leaves_no_trace : forall win dt n ins ins' outs outs' navgs overlap window scaling,
  Forall2 adds_constant ins ins' -> Forall2 adds_constant outs outs' ->
  averaged_psd win std_dtr dt n (Frame ins') navgs overlap window (Some "constant") scaling = averaged_psd win std_dtr dt n (Frame ins) navgs overlap window (Some "constant") scaling /\
  averaged_tf win std_dtr dt n (Frame ins') (Frame outs') navgs overlap window (Some "constant") = averaged_tf win std_dtr dt n (Frame ins) (Frame outs) navgs overlap window (Some "constant").
Proof. intros win dt n ins ins' outs outs' navgs overlap window scaling F G. split; [apply unseen_psd|apply unseen_tf]; now apply adds_constant_unseen. Qed.
Lemma unseen_zero_bin win window d x N V s k : unseen d (repeat 0 (length x)) x -> seg_bin win std_dtr window (Some d) x N V s k = RtoC 0.
Proof.
  intro U. rewrite (unseen_bin win window d _ _ N V s k U). unfold seg_bin.
  set (z := segment (repeat 0 (length x)) N V s). assert (Zz : forall i, nth i z 0 = 0).
  { intro i. unfold z, segment. destruct (nth_in_or_default i (firstn (Z.to_nat N) (skipn (Z.to_nat (Z.of_nat s * (N - V))) (repeat 0 (length x)))) 0) as [I|E]; [|exact E].
    apply (repeat_spec (length x) 0). assert (In_sub : forall m (l : list R) v, In v (firstn m l) -> In v l) by (induction m; intros [|y l] v; cbn; [easy|easy|easy|intros [|]; auto]).
    assert (In_skip : forall m (l : list R) v, In v (skipn m l) -> In v l) by (induction m; intros [|y l] v; cbn; auto). eapply In_skip, In_sub, I. }
  assert (Dz : detrended std_dtr (Some d) z = repeat 0 (length z)).
  { unfold detrended. assert (L : forall v, (forall i, nth i v 0 = 0) -> length v = length z -> v = repeat 0 (length z)).
    { intros v Hv Lv. apply list_eq_nth; [now rewrite repeat_length|]. intros i _. rewrite Hv. now rewrite nth_repeat. }
    assert (Sz : Rsum (repeat 0 (length z)) = 0) by (rewrite Rsum_as_sumn; erewrite Rsumn_ext; [|intros i _; apply nth_repeat]; rewrite Rsumn_const; ring).
    destruct U as [[-> _]|[-> _]].
    - change (minus_line z = repeat 0 (length z)). symmetry. apply (off_line_unique z); [|apply minus_line_off]. split; [|split; [exact Sz|]].
      + exists 0, 0. apply list_eq_nth; [now rewrite with_line_length, repeat_length|]. intros i Hi. rewrite with_line_nth by (now rewrite repeat_length). rewrite nth_repeat, Zz. ring.
      + rewrite repeat_length. change (Rsumn (length z) (fun i => INR i * nth i (repeat 0 (length z)) 0) = 0). erewrite Rsumn_ext; [|intros i _; rewrite nth_repeat, Rmult_0_r; reflexivity]. rewrite Rsumn_const. ring.
    - change (minus_mean z = repeat 0 (length z)). symmetry. apply (off_mean_unique z); [|apply minus_mean_off]. split; [|exact Sz].
      exists 0. apply list_eq_nth; [now rewrite with_line_length, repeat_length|]. intros i Hi. rewrite with_line_nth by (now rewrite repeat_length). rewrite nth_repeat, Zz. ring. }
  rewrite Dz. unfold fft_bin. apply Csumn_zero. intros i Hi.
  assert (Q : forall (w : list R) m, forall v, In v (map RtoC (map2 Rmult w (repeat 0 m))) -> v = RtoC 0).
  { clear. intros w m v I. apply in_map_iff in I as (u & <- & I). f_equal. revert m I. induction w as [|a w IH]; intros m I; [easy|]. destruct m; [easy|]. cbn in I. destruct I as [<-|I]; [ring|]. apply (IH m). exact I. }
  rewrite (Q _ _ _ (nth_In _ (RtoC 0) Hi)). ring.
Qed.
(*@ C100 a signal that is nothing but a straight line has density zero at every frequency under 'linear', and its transfer function and coherence with anything are undefined everywhere *)
Lemma line_has_no_spectrum : forall win dt n a b y nx ny navgs overlap window scaling m,
  (forall f v, averaged_psd win std_dtr dt n (Frame [(nx, with_line a b (repeat 0 m))]) navgs overlap window (Some "linear") scaling = Ok (f, [(nx, v)]) ->
     forall p, In p v -> p = 0) /\
  (forall f nm tf coh, averaged_tf win std_dtr dt n (Frame [(nx, with_line a b (repeat 0 m))]) (Frame [(ny, y)]) navgs overlap window (Some "linear") = Ok (f, [(nm, (tf, coh))]) ->
     (forall h, In h tf -> h = None) /\ (forall c, In c coh -> c = None)).
Proof.
  intros win dt n a b y nx ny navgs overlap window scaling m. set (x := with_line a b (repeat 0 m)).
  assert (U : unseen "linear" (repeat 0 (length x)) x).
  { left. split; [reflexivity|]. exists a, b. unfold x. now rewrite with_line_length, repeat_length. }
  assert (Zp : forall sc N V k, psd_bin win std_dtr sc window (Some "linear") x N V k = 0).
  { intros sc N V k. unfold psd_bin, csd_bin. rewrite Csumn_zero; [rewrite Cmult_0_r; reflexivity|]. intros s _. rewrite !(unseen_zero_bin _ _ _ _ _ _ _ _ U). ring. }
  split.
  - intros f v E p I. cbn [averaged_psd] in E. unfold psd_frame in E. destruct (sample_rate dt n) as [fs|]; [cbn [rbind] in E|discriminate]. destruct (segmenting n navgs overlap) as [[N V]|]; [cbn [rbind] in E|discriminate].
    destruct (psd_scale win fs window N scaling) as [sc|]; [cbn [rbind map fst snd] in E|discriminate]. injection E as _ <-. apply in_map_iff in I as (k & <- & _). apply Zp.
  - intros f nm tf coh E. unfold averaged_tf in E. destruct (sample_rate dt n) as [fs|]; [cbn [rbind] in E|discriminate]. unfold pair_columns in E. cbn [length Nat.eqb map2 combine map fst snd rbind] in E.
    destruct (segmenting n navgs overlap) as [[N V]|]; [cbn [rbind] in E|discriminate]. destruct (psd_scale win fs window N "density") as [sc|]; [cbn [rbind map fst snd] in E|discriminate].
    injection E as _ _ <- <-. split; intros h I; apply in_map_iff in I as (k & <- & _); rewrite Zp.
    + unfold tf_bin. now rewrite Reqb_true.
    + unfold coh_bin. now rewrite Reqb_true by ring.
Qed.
(*@ C100 'constant' does not remove a slope: the two-sample ramp 0, 1 keeps a positive density *)
Lemma slope_survives_constant_refuted :
  ~ (forall x a b f f' v v', averaged_psd std_win std_dtr 1 (length x) (Frame [("x", x)]) 1 0 "boxcar" (Some "constant") "density" = Ok (f, [("x", v)]) ->
     averaged_psd std_win std_dtr 1 (length x) (Frame [("x", with_line a b x)]) 1 0 "boxcar" (Some "constant") "density" = Ok (f', [("x", v')]) -> v' = v).
Proof.
  intro H. specialize (H [0; 0] 0 1). cbn [length] in H. cbn [averaged_psd] in H. unfold psd_frame in H. rewrite !sample_rate_ok in H by (lia || lra).
  assert (S : segmenting 2 1 0 = Ok (2%Z, 0%Z)).
  { change 1%Z with (Z.of_nat 1). rewrite (segmenting_ok 2 1 0 2 0); [reflexivity|]. unfold welch_grid. cbn [INR]. repeat split; (lia || lra). }
  rewrite S in H. cbn [rbind] in H. unfold psd_scale in H. change (Z.to_nat 2) with 2%nat in H. change (std_win "boxcar" 2) with [1; 1] in H. change ("density" =? "density") with true in H. cbn [rbind map fst snd] in H.
  specialize (H _ _ _ _ eq_refl eq_refl). change (n_bins 2) with 2%nat in H. cbn [seq map] in H. injection H as _ H.
  assert (B0 : forall s k, seg_bin std_win std_dtr "boxcar" (Some "constant") [0; 0] 2 0 s k = RtoC 0) by (intros s k; apply unseen_zero_bin; right; split; [reflexivity|exists 0; unfold with_line; cbn; f_equal; [lra|f_equal; lra]]).
  revert H. unfold psd_bin, csd_bin. change (n_segments (Z.of_nat (length [0; 0])) 2 0) with 1%nat. change (n_segments (Z.of_nat (length (with_line 0 1 [0; 0]))) 2 0) with 1%nat.
  rewrite !Csumn_S, !Csumn_0, !B0.
  unfold seg_bin, fft_bin. change (Z.to_nat 2) with 2%nat. change (std_win "boxcar" 2) with [1; 1]. change (segment (with_line 0 1 [0; 0]) 2 0 0) with (with_line 0 1 [0; 0]).
  change (detrended std_dtr (Some "constant") (with_line 0 1 [0; 0])) with (minus_mean (with_line 0 1 [0; 0])).
  assert (M : minus_mean (with_line 0 1 [0; 0]) = [-/2; /2]) by (unfold minus_mean, with_line, Rmean; cbn; f_equal; [field|f_equal; field]). rewrite M.
  cbn [map map2 combine length fst snd]. rewrite !Csumn_S, !Csumn_0. cbn [nth]. cbn [INR]. unfold cis. replace (- (2 * PI * 1 * 0 / (1 + 1))) with 0 by field. replace (- (2 * PI * 1 * 1 / (1 + 1))) with (- PI) by field.
  rewrite cos_neg, sin_neg, cos_0, sin_0, cos_PI, sin_PI. change (dbl 2 1) with 1. unfold Cmult, Cplus, Cconj, RtoC, Rsum. cbn [fst snd fold_right map]. intro E. field_simplify in E. lra.
Qed.
(** The demo record: a wiggle on a ramp. *)
(*@ex C100 the hypotheses are met: a wiggle and the same wiggle on a ramp have the same transfer function to the wiggle with an offset, with the real Hamming window *)
Lemma trend_example :
  let w := [0; 1; 0; -1; 0; 1; 0; -1] in
  with_line 5 2 w = [5; 8; 9; 10; 13; 16; 17; 18] /\
  averaged_tf std_win std_dtr 1 8 (Frame [("a", with_line 5 2 w)]) (Frame [("b", with_line 7 0 w)]) 2 (1 / 2) "hamming" (Some "linear")
  = averaged_tf std_win std_dtr 1 8 (Frame [("a", w)]) (Frame [("b", w)]) 2 (1 / 2) "hamming" (Some "linear").
Proof.
  cbv zeta. split; [unfold with_line; cbn; repeat (f_equal; try lra)|].
  apply (trend_leaves_no_trace std_win 1 8 [("a", [0; 1; 0; -1; 0; 1; 0; -1])] _ [("b", [0; 1; 0; -1; 0; 1; 0; -1])] _ 2 (1 / 2) "hamming" "density");
    (constructor; [|constructor]; split; [reflexivity|]; eexists; eexists; reflexivity).
Qed.

Lemma cosine_length a0 a1 a2 N : length (cosine_window a0 a1 a2 N) = N.
Proof. unfold cosine_window. destruct (Nat.leb N 1); [apply repeat_length|now rewrite map_length, seq_length]. Qed.
Lemma std_windows : windows std_win.
Proof. intros s N. unfold std_win. repeat destruct (String.eqb s _); try apply repeat_length; apply cosine_length. Qed.
Lemma std_keeps : keeps_length std_dtr.
Proof. intros s v. unfold std_dtr. destruct (_ || _)%bool; [apply minus_line_length|]. destruct (_ || _)%bool; [apply minus_mean_length|reflexivity]. Qed.
Lemma cosine_nth a0 a1 a2 N j : (2 <= N)%nat -> (j < N)%nat ->
  nth j (cosine_window a0 a1 a2 N) 0 = a0 - a1 * cos (2 * PI * INR j / INR N) + a2 * cos (2 * (2 * PI * INR j / INR N)).
Proof.
  intros HN Hj. unfold cosine_window. destruct (Nat.leb_spec N 1); [lia|]. rewrite nth_map_seq by exact Hj. set (t := 2 * PI * INR j / INR N).
  replace (2 * (- PI + t)) with (2 * t - 2 * PI) by ring. replace (- PI + t) with (- (PI - t)) by ring. rewrite cos_neg. replace (PI - t) with (- t + PI) by ring. rewrite neg_cos, cos_neg.
  replace (cos (2 * t - 2 * PI)) with (cos (2 * t)); [ring|]. rewrite cos_minus, cos_2PI, sin_2PI. ring.
Qed.
(*@ C101 the weights of the usual windows of at least two samples, and that a one-sample window is 1 *)
Lemma window_weights : forall N j, (j < N)%nat ->
  nth j (std_win "boxcar" N) 0 = 1 /\
  (N = 1%nat -> nth j (std_win "hamming" N) 0 = 1 /\ nth j (std_win "hann" N) 0 = 1 /\ nth j (std_win "blackman" N) 0 = 1) /\
  ((2 <= N)%nat ->
     nth j (std_win "hamming" N) 0 = 54 / 100 - 46 / 100 * cos (2 * PI * INR j / INR N) /\
     nth j (std_win "hann" N) 0 = (1 - cos (2 * PI * INR j / INR N)) / 2 /\
     nth j (std_win "blackman" N) 0 = 42 / 100 - cos (2 * PI * INR j / INR N) / 2 + 8 / 100 * cos (4 * PI * INR j / INR N)).
Proof.
  intros N j Hj. split; [unfold std_win; cbn [String.eqb Ascii.eqb Bool.eqb]; now apply nth_repeat_lt || (rewrite (nth_indep _ 0 1) by (now rewrite repeat_length); apply nth_repeat)|]. split.
  - intros ->. assert (j = 0%nat) by lia. subst. repeat split; reflexivity.
  - intro HN. change (std_win "hamming" N) with (cosine_window (54 / 100) (46 / 100) 0 N). change (std_win "hann" N) with (cosine_window (1 / 2) (1 / 2) 0 N). change (std_win "blackman" N) with (cosine_window (42 / 100) (1 / 2) (8 / 100) N).
    rewrite !cosine_nth by assumption. replace (2 * (2 * PI * INR j / INR N)) with (4 * PI * INR j / INR N) by (field; apply not_0_INR; lia). repeat split; field.
Qed.
Definition weight (s : string) (t : R) : R :=
  if String.eqb s "boxcar" then 1 else if String.eqb s "hamming" then 54 / 100 - 46 / 100 * cos t
  else if String.eqb s "hann" then (1 - cos t) / 2 else 42 / 100 - cos t / 2 + 8 / 100 * cos (2 * t).
Lemma usual_nth s N j : usual_window s -> (2 <= N)%nat -> (j < N)%nat -> nth j (std_win s N) 0 = weight s (2 * PI * INR j / INR N).
Proof.
  intros U HN Hj. destruct (window_weights N j Hj) as (B & _ & W). destruct (W HN) as (W1 & W2 & W3). destruct U as [-> | [-> | [-> | ->]]]; cbn [weight String.eqb Ascii.eqb Bool.eqb]; try assumption.
  rewrite W3. unfold weight. cbn [String.eqb Ascii.eqb Bool.eqb]. replace (2 * (2 * PI * INR j / INR N)) with (4 * PI * INR j / INR N) by (field; apply not_0_INR; lia). reflexivity.
Qed.
Lemma weight_range s t : usual_window s -> 0 <= weight s t <= 1.
Proof.
  intro U. pose proof (COS_bound t). destruct U as [-> | [-> | [-> | ->]]]; unfold weight; cbn [String.eqb Ascii.eqb Bool.eqb]; try lra.
  rewrite cos_2a_cos. nra.
Qed.
Lemma weight_pos s t : usual_window s -> cos t < 1 -> 0 < weight s t.
Proof.
  intros U C. pose proof (COS_bound t). destruct U as [-> | [-> | [-> | ->]]]; unfold weight; cbn [String.eqb Ascii.eqb Bool.eqb]; try lra.
  rewrite cos_2a_cos. nra.
Qed.
Lemma window_one s : usual_window s -> std_win s 1 = [1].
Proof. intros [-> | [-> | [-> | ->]]]; reflexivity. Qed.
Lemma second_angle N : (2 <= N)%nat -> cos (2 * PI * INR 1 / INR N) < 1.
Proof.
  intro HN. assert (P : 2 <= INR N) by (change 2 with (INR 2); now apply le_INR). pose proof PI_RGT_0. rewrite <- cos_0. cbn [INR].
  assert (Q : 0 < / INR N <= / 2) by (split; [apply Rinv_0_lt_compat; lra|apply Rinv_le_contravar; lra]).
  assert (0 < 2 * PI * 1 / INR N) by (unfold Rdiv; apply Rmult_lt_0_compat; lra). assert (2 * PI * 1 / INR N <= PI) by (unfold Rdiv; nra).
  apply cos_decreasing_1; lra.
Qed.
(*@ C101 every usual window has as many weights as samples, all between 0 and 1, reads the same forwards and backwards (periodically), and has positive sum and positive power *)
Lemma window_facts : forall s N, usual_window s -> (1 <= N)%nat ->
  length (std_win s N) = N /\ (forall w, In w (std_win s N) -> 0 <= w <= 1) /\
  (forall j, (1 <= j < N)%nat -> nth (N - j) (std_win s N) 0 = nth j (std_win s N) 0) /\
  0 < Rsum (std_win s N) /\ 0 < power (std_win s N).
Proof.
  intros s N U HN. pose proof (std_windows s N) as L. destruct (Nat.eq_dec N 1) as [->|Ne].
  { rewrite (window_one s U). split; [reflexivity|]. split; [intros w [<-|[]]; lra|]. split; [intros; lia|]. split; [cbn; lra|unfold power; cbn; lra]. }
  assert (H2 : (2 <= N)%nat) by lia. assert (NZ : INR N <> 0) by (apply not_0_INR; lia).
  assert (W : forall w, In w (std_win s N) -> 0 <= w <= 1).
  { intros w I. apply (In_nth _ _ 0) in I as (j & Hj & <-). rewrite L in Hj. rewrite usual_nth by assumption. now apply weight_range. }
  assert (P1 : 0 < nth 1 (std_win s N) 0) by (rewrite usual_nth by (assumption || lia); apply weight_pos; [exact U|now apply second_angle]).
  assert (I1 : In (nth 1 (std_win s N) 0) (std_win s N)) by (apply nth_In; lia).
  split; [exact L|]. split; [exact W|]. split; [|split].
  - intros j Hj. rewrite !usual_nth by (assumption || lia). rewrite minus_INR by lia.
    replace (2 * PI * (INR N - INR j) / INR N) with (2 * PI - 2 * PI * INR j / INR N) by (field; exact NZ). set (t := 2 * PI * INR j / INR N).
    assert (C1 : cos (2 * PI - t) = cos t) by (rewrite cos_minus, cos_2PI, sin_2PI; ring).
    assert (C2 : cos (2 * (2 * PI - t)) = cos (2 * t)) by (rewrite !cos_2a_cos, C1; reflexivity).
    unfold weight. now rewrite C1, C2.
  - destruct (Rsum_nonneg (std_win s N)) as [|Z]; [intros x I; now apply W|assumption|]. exfalso. symmetry in Z.
    pose proof (Rsum_zero_all _ (fun x I => proj1 (W x I)) Z _ I1). lra.
  - unfold power. destruct (Rsum_nonneg (map (fun v => v ^ 2) (std_win s N))) as [|Z]; [intros x I; apply in_map_iff in I as (y & <- & _); apply pow2_ge_0|assumption|]. exfalso. symmetry in Z.
    assert (Sq : forall v, In v (map (fun v => v ^ 2) (std_win s N)) -> 0 <= v) by (intros v I; apply in_map_iff in I as (y & <- & _); apply pow2_ge_0).
    pose proof (Rsum_zero_all _ Sq Z _ (in_map (fun v => v ^ 2) _ _ I1)) as Q. cbv beta in Q. nra.
Qed.
Lemma grid_exists n navgs overlap : (1 <= navgs <= n)%nat -> 0 <= overlap < 1 -> exists N V, N = (n / navgs)%nat /\ welch_grid n navgs overlap N V.
Proof.
  intros Hn Ho. set (N := (n / navgs)%nat). pose proof (Nat.div_mod n navgs ltac:(lia)) as E. pose proof (Nat.mod_upper_bound n navgs ltac:(lia)) as B. fold N in E.
  assert (N1 : (1 <= N)%nat) by (apply Nat.div_le_lower_bound; lia). assert (P : 1 <= INR N) by (change 1 with (INR 1); now apply le_INR).
  pose proof (Rfloor_spec (INR N * overlap) ltac:(nra)) as Q. exists N, (Rfloor (INR N * overlap)). split; [reflexivity|]. unfold welch_grid.
  split; [lia|]. split; [nia|]. split; [nia|]. split; [lia|]. split; [lra|]. apply INR_lt. nra.
Qed.
(*@ C101 with a usual window, any detrending scipy offers, 1 to n averages and an overlap below one, averaged_psd always succeeds; it gives n/navgs/2 + 1 values per column, in the order and under the names of the columns, none negative *)
Lemma psd_always_works : forall dt n cols navgs overlap s d scaling, usual_window s -> (2 <= n)%nat -> 0 < dt -> (1 <= navgs <= n)%nat -> 0 <= overlap < 1 ->
  scaling = "density" \/ scaling = "spectrum" -> Forall (fun col => length (snd col) = n) cols -> cols <> [] ->
  exists f out, averaged_psd std_win std_dtr dt n (Frame cols) (Z.of_nat navgs) overlap s d scaling = Ok (f, out) /\
    length f = (n / navgs / 2 + 1)%nat /\ map fst out = map fst cols /\
    forall nm v, In (nm, v) out -> length v = length f /\ forall p, In p v -> 0 <= p.
Proof.
  intros dt n cols navgs overlap s d scaling U Hn D Hv Ho Hs F Nc. destruct (grid_exists n navgs overlap Hv Ho) as (N & V & EN & G).
  pose proof G as (G1 & G2 & G3 & G4 & G5 & G6). destruct (segments_exist n N V G6 ltac:(nia)) as [K Fi].
  destruct (window_facts s N U G4) as (_ & _ & _ & Ps & Pp).
  assert (NI : exists c, 0 <= c /\ norm_is (std_win s N) dt scaling c).
  { destruct Hs as [-> | ->].
    - exists (dt / power (std_win s N)). split; [apply Rle_mult_inv_pos; lra|]. left. repeat split. lra.
    - exists (1 / Rsum (std_win s N) ^ 2). split; [apply Rle_mult_inv_pos; nra|]. right. repeat split. lra. }
  destruct NI as (c & Hc & NI).
  destruct (psd_value std_win std_dtr dt n navgs overlap s d scaling N V K c cols std_windows std_keeps Hn ltac:(lra) G Fi NI F Nc) as (out & E & Nm & Q).
  eexists; exists out. split; [exact E|]. rewrite map_length, seq_length, <- EN. split; [reflexivity|]. split; [exact Nm|].
  intros nm v I. apply In_nth_error in I as (i & Hi). assert (C : exists x, nth_error cols i = Some (nm, x)).
  { assert (M : nth_error (map fst out) i = Some nm) by (rewrite nth_error_map, Hi; reflexivity). rewrite Nm, nth_error_map in M. destruct (nth_error cols i) as [[a x]|]; [|discriminate]. cbn in M. injection M as ->. now exists x. }
  destruct C as (x & Cx). destruct (Q i nm x Cx) as (v' & Hv' & Lv & Vk). rewrite Hi in Hv'. injection Hv' as <-. split; [exact Lv|].
  intros p I. apply (In_nth _ _ 0) in I as (k & Hk & <-). rewrite Vk by lia. apply Rmult_le_pos.
  - apply Rmult_le_pos; [unfold sides; destruct (_ || _)%bool; lra|exact Hc].
  - apply avg_nonneg. intro. apply pow2_ge_0.
Qed.
(*@ C101 the same for averaged_tf with column counts it accepts: it always succeeds, and every coherence it reports is between 0 and 1 *)
Lemma tf_always_works : forall dt n ins outs navgs overlap s d, usual_window s -> (2 <= n)%nat -> 0 < dt -> (1 <= navgs <= n)%nat -> 0 <= overlap < 1 ->
  Forall (fun col => length (snd col) = n) (ins ++ outs) -> matchable ins outs -> ins <> [] -> outs <> [] ->
  exists f out, averaged_tf std_win std_dtr dt n (Frame ins) (Frame outs) (Z.of_nat navgs) overlap s d = Ok (f, out) /\
    length f = (n / navgs / 2 + 1)%nat /\ length out = Nat.max (length ins) (length outs) /\
    forall nm tf coh, In (nm, (tf, coh)) out -> length tf = length f /\ length coh = length f /\ forall c, In (Some c) coh -> 0 <= c <= 1.
Proof.
  intros dt n ins outs navgs overlap s d U Hn D Hv Ho F M Ni No. destruct (grid_exists n navgs overlap Hv Ho) as (N & V & EN & G).
  pose proof G as (G1 & G2 & G3 & G4 & G5 & G6). destruct (segments_exist n N V G6 ltac:(nia)) as [K Fi].
  destruct (window_facts s N U G4) as (_ & _ & _ & Ps & Pp).
  destruct (tf_value std_win std_dtr dt n ins outs navgs overlap s d N V K std_windows std_keeps Hn ltac:(lra) G Fi ltac:(lra) F M Ni No) as (out & E & L & Q).
  eexists; exists out. split; [exact E|]. rewrite map_length, seq_length, <- EN. split; [reflexivity|]. split; [exact L|].
  intros nm tf coh I. apply In_nth_error in I as (i & Hi). assert (Li : (i < length out)%nat) by (apply nth_error_Some; congruence).
  destruct (Q i Li) as (a & x & b & y & tf' & coh' & _ & _ & Ho' & L1 & L2 & Vk). rewrite Hi in Ho'. injection Ho' as _ <- <-. split; [exact L1|]. split; [exact L2|].
  intros c I. apply (In_nth _ _ None) in I as (k & Hk & Ek). destruct (Vk k ltac:(lia)) as [_ V2]. rewrite Ek in V2.
  set (X := fun s0 => seg_spectrum (std_win s N) (detrend_by std_dtr d) x N V s0 k) in *. set (Y := fun s0 => seg_spectrum (std_win s N) (detrend_by std_dtr d) y N V s0 k) in *.
  destruct (Req_EM_T (auto K X * auto K Y) 0) as [|Nz]; [discriminate|]. injection V2 as ->.
  pose proof (auto_nonneg K X). pose proof (auto_nonneg K Y). pose proof (cross_bound K X Y). pose proof (pow2_ge_0 (Cmod (cross K X Y))).
  assert (0 < auto K X * auto K Y) by (assert (0 <= auto K X * auto K Y) by (now apply Rmult_le_pos); lra).
  split; [now apply Rle_mult_inv_pos|]. apply Rmult_le_reg_r with (auto K X * auto K Y); [auto|]. unfold Rdiv. rewrite Rmult_assoc, Rinv_l by auto. lra.
Qed.
(*@ex C101 the documented default call on a short record: hamming, linear, half overlap, two averages *)
Lemma default_example : exists f out,
  averaged_psd std_win std_dtr 1 8 (Frame [("a", [0; 1; 0; -1; 0; 1; 0; -1]); ("b", [1; 2; 3; 4; 5; 6; 7; 8])]) 2 (1 / 2) "hamming" (Some "linear") "density" = Ok (f, out) /\
  length f = 3%nat /\ map fst out = ["a"; "b"].
Proof.
  destruct (psd_always_works 1 8 [("a", [0; 1; 0; -1; 0; 1; 0; -1]); ("b", [1; 2; 3; 4; 5; 6; 7; 8])] 2 (1 / 2) "hamming" (Some "linear") "density") as (f & out & E & L & Nm & _);
    [right; left; reflexivity|lia|lra|lia|lra|left; reflexivity|repeat constructor|discriminate|].
  exists f, out. split; [exact E|]. split; [exact L|exact Nm].
Qed.
