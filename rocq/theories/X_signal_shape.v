(** Tables of different shapes in compute_delays (C87). *)
From Coq Require Import String.
From Verif Require Import Prelude RealBase Fl RealStat Spec_signal M_cmv M_signal_corr P_signal P_corr P_delay P_fft X_signal_delay X_signal_fft.
From Coq Require Import Lra Psatz.
Local Open Scope R_scope.

Lemma loop_rows_short dt n ins : dt <> 0 -> (0 < n)%nat -> forall outs,
  (length outs <= length ins)%nat -> Forall (fun a => length a = n) ins -> Forall (fun a => length a = n) outs ->
  loop_rows (map (fun l => IZR l * dt) (correlation_lags n n)) ins outs
  = Ok (map2 (row_of dt n) ins outs ++ map (fun _ => (0, 0, 0, 0)) (skipn (length outs) ins)).
Proof.
  intros D Hn. induction ins as [|a ins IH]; intros [|b outs] E Fi Fo; try (cbn in E; lia); [reflexivity|reflexivity|].
  inversion Fi; inversion Fo; subst. cbn [loop_rows]. rewrite loop_row_eq by auto. cbn [rbind].
  rewrite IH by (auto; cbn in E; lia). reflexivity.
Qed.
Lemma loop_rows_long dt n ins : dt <> 0 -> (0 < n)%nat -> forall outs,
  (length ins < length outs)%nat -> Forall (fun a => length a = n) ins -> Forall (fun a => length a = n) outs ->
  loop_rows (map (fun l => IZR l * dt) (correlation_lags n n)) ins outs = Err IndexError.
Proof.
  intros D Hn. induction ins as [|a ins IH]; intros [|b outs] E Fi Fo; try (cbn in E; lia); [reflexivity|].
  inversion Fi; inversion Fo; subst. cbn [loop_rows]. rewrite loop_row_eq by auto. cbn [rbind].
  rewrite IH by (auto; cbn in E; lia). reflexivity.
Qed.

Lemma combine_app_eq {A B} (l1 : list A) : forall (l2 : list A) (r1 r2 : list B), length l1 = length r1 ->
  combine (l1 ++ l2) (r1 ++ r2) = combine l1 r1 ++ combine l2 r2.
Proof. induction l1 as [|x l1 IH]; intros l2 [|y r1] r2 E; try discriminate; [reflexivity|]. cbn. f_equal. apply IH. now injection E. Qed.

Lemma demean_length l : length (demean l) = length l.
Proof. unfold demean. apply map_length. Qed.
Lemma no_step_zeros n : (2 <= n)%nat -> exists i j r, zero_index (map (fun l => IZR l * 0) (correlation_lags n n)) = i :: j :: r.
Proof.
  intro Hn. pose proof (lags_length n n) as L. destruct (correlation_lags n n) as [|a [|b l]]; cbn [length] in L; try lia.
  unfold zero_index. cbn [map length seq combine filter snd]. rewrite !Reqb_true by ring. cbn [map]. eauto.
Qed.
(*@ C87 two equal first time stamps: 'loop' mode raises ValueError whatever the scaling, 'fft' mode answers, with delay 0 for every pair *)
Lemma no_step : forall n ins outs, (2 <= n)%nat -> ins <> [] -> outs <> [] -> table n ins -> table n outs -> forall scaling,
  compute_delays 0 n n ins outs "loop" scaling = Err ValueError /\
  forall D, compute_delays 0 n n ins outs "fft" scaling = Ok D -> Forall (fun d => d = 0) (d_delay D).
Proof.
  intros n ins outs Hn Ni No Ti To scaling. split.
  - unfold compute_delays. destruct (Nat.ltb_spec n 2); [lia|].
    assert (G : forall i o, i <> [] -> o <> [] -> table n i -> table n o -> loop_rows (map (fun l => IZR l * 0) (correlation_lags n n)) i o = Err ValueError).
    { intros [|a i] [|b o] N1 N2 T1 T2; try contradiction. cbn [loop_rows]. unfold table in T1, T2. inversion T1 as [|? ? La _]; inversion T2 as [|? ? Lb _]; subst.
      replace (loop_row (map (fun l => IZR l * 0) (correlation_lags (length a) (length a))) a b) with (@Err (R * R * R * R) ValueError); [reflexivity|].
      unfold loop_row. assert (Na : a <> []) by (intros ->; cbn in Hn; lia). assert (Nb : b <> []) by (intros ->; cbn in Lb; lia).
      rewrite correlate_as_map, Lb by auto. destruct (argmax_lags (lag_sum a b) (length a) (length a) ltac:(lia) ltac:(lia)) as [_ [H2 _]].
      rewrite !map_length, !lags_length. destruct (Nat.leb_spec (length a + length a - 1) (argmax (map (lag_sum a b) (correlation_lags (length a) (length a))))); [lia|].
      destruct (no_step_zeros (length a) Hn) as (z & z' & r & ->). reflexivity. }
    unfold scale_rows. destruct (String.eqb scaling "coeff").
    + assert (T1 : table n (map demean ins)) by (unfold table in *; apply Forall_map; eapply Forall_impl; [|exact Ti]; intros; cbn; now rewrite demean_length).
      assert (T2 : table n (map demean outs)) by (unfold table in *; apply Forall_map; eapply Forall_impl; [|exact To]; intros; cbn; now rewrite demean_length).
      destruct (bcast2 _ _ _) as [sc|e] eqn:B; cbn [rbind].
      * change (String.eqb "loop" "loop") with true. cbv iota.
        destruct ins as [|a ins]; [contradiction|]. destruct outs as [|b outs]; [contradiction|]. cbn [map] in *.
        rewrite (G (demean a :: map demean ins) (demean b :: map demean outs)) by (auto; discriminate). reflexivity.
      * unfold bcast2 in B. destruct (Nat.eqb _ _); [discriminate|]. destruct (map Rstd (map demean ins)) as [|x [|x' xs]]; destruct (map Rstd (map demean outs)) as [|y [|y' ys]]; congruence.
    + destruct (String.eqb scaling "none"); [|reflexivity]. cbn [rbind]. change (String.eqb "loop" "loop") with true. cbv iota.
      destruct ins as [|a ins]; [contradiction|]. destruct outs as [|b outs]; [contradiction|]. rewrite G by auto. reflexivity.
  - intros D E. unfold compute_delays in E. destruct (Nat.ltb_spec n 2); [discriminate|].
    destruct (scale_rows n ins outs scaling) as [[[i' o'] sc]|]; [|discriminate]. cbn [rbind] in E.
    change (String.eqb "fft" "loop") with false in E. change (String.eqb "fft" "fft") with true in E. cbv iota zeta in E.
    destruct (negb _); [discriminate|]. set (corr := map2 (fft_xcorr n) i' o') in *. clearbody corr.
    destruct (mul_inplace (map2 _ corr _) sc) as [peak|]; [|discriminate]. cbn [rbind] in E.
    destruct (mul_inplace (map Rmean corr) sc) as [mean|]; [|discriminate]. cbn [rbind] in E.
    destruct (mapM _ corr) as [zero|]; [|discriminate]. cbn [rbind] in E. injection E as <-. cbn [d_delay].
    unfold quiet_to_zero, map2. apply Forall_forall. intros d I. apply in_map_iff in I. destruct I as ([d0 p0] & <- & I). cbn [fst snd].
    destruct (fltb p0 _); [reflexivity|]. apply in_combine_l in I. apply in_map_iff in I. destruct I as (k0 & <- & _).
    assert (Z : forall l : list R, Forall (fun v => v = 0) l -> nth k0 l 0 = 0).
    { intros l F. destruct (nth_in_or_default k0 l 0) as [I'|I']; [|exact I']. rewrite Forall_forall in F. now apply F. }
    rewrite Z; [apply Ropp_0|]. unfold roll_left. apply Forall_app.
    assert (W : Forall (fun v => v = 0) (map (fun l => IZR l * 0) (correlation_lags n n))) by (apply Forall_map; apply Forall_forall; intros; ring).
    rewrite Forall_forall in W. split; apply Forall_forall; intros v I'; apply W.
    + rewrite <- (firstn_skipn (n - 1) (map _ _)). apply in_or_app. now right.
    + rewrite <- (firstn_skipn (n - 1) (map _ _)). apply in_or_app. now left.
Qed.

(*@ C87 more columns in the second table than in the first: 'loop' mode stops with IndexError ('none') *)
Lemma more_columns : forall dt n ins outs, dt <> 0 -> (2 <= n)%nat -> (length ins < length outs)%nat ->
  table n ins -> table n outs -> compute_delays dt n n ins outs "loop" "none" = Err IndexError.
Proof.
  intros dt n ins outs D Hn E Ti To. unfold compute_delays. destruct (Nat.ltb_spec n 2); [lia|].
  change (scale_rows n ins outs "none") with (Ok (A := list (list R) * list (list R) * option (list fl)) (ins, outs, None)).
  cbn [rbind]. change (String.eqb "loop" "loop") with true. cbv iota.
  destruct ins as [|a0 ins]; [reflexivity|]. destruct outs as [|b0 outs]; [cbn in E; lia|].
  rewrite loop_rows_long by (auto; lia). reflexivity.
Qed.

(*@ C87 fewer columns in the second table, scaling 'none': accepted; every unmatched column is silently reported with delay 0 and zero metrics, the matched ones as usual *)
Lemma fewer_columns : forall dt n ins outs, dt <> 0 -> (2 <= n)%nat -> (length outs < length ins)%nat -> outs <> [] ->
  table n ins -> table n outs ->
  exists D zero, compute_delays dt n n ins outs "loop" "none" = Ok D /\ d_zero D = Flat zero /\
    length (d_delay D) = length ins /\
    (forall i, (length outs <= i < length ins)%nat -> nth_error (d_delay D) i = Some 0 /\
       nth_error (d_peak D) i = Some (Fin 0) /\ nth_error (d_mean D) i = Some (Fin 0) /\ nth_error zero i = Some (Fin 0)) /\
    (forall i a b, nth_error ins i = Some a -> nth_error outs i = Some b ->
       exists d p, xcorr_delay dt a b "none" = Ok (d, Fin p) /\ nth_error (d_peak D) i = Some (Fin p) /\
       nth_error (d_delay D) i = Some (if Rltb p (/ 10 ^ 10) then 0 else d)).
Proof.
  intros dt n ins outs Hd Hn E No Ti To. unfold compute_delays. destruct (Nat.ltb_spec n 2); [lia|].
  change (scale_rows n ins outs "none") with (Ok (A := list (list R) * list (list R) * option (list fl)) (ins, outs, None)).
  cbn [rbind]. change (String.eqb "loop" "loop") with true. cbv iota.
  destruct ins as [|a0 ins0] eqn:Ei; [cbn in E; lia|]. rewrite <- Ei in *. destruct outs as [|b0 outs0] eqn:Eo; [easy|]. rewrite <- Eo in *. clear Ei Eo.
  rewrite loop_rows_short by (auto; lia). cbn [rbind mul_inplace]. do 2 eexists. split; [reflexivity|]. cbn [d_zero d_delay d_peak d_mean].
  split; [reflexivity|]. rewrite !map_map, !map_app, !map_map. cbn [fst snd].
  assert (Lm : length (map2 (row_of dt n) ins outs) = length outs).
  { unfold map2. rewrite map_length, combine_length. lia. }
  set (row := map2 (row_of dt n) ins outs) in *.
  assert (Lq : forall (f : R * R * R * R -> R) (g : R * R * R * R -> fl),
     quiet_to_zero (map f row ++ map (fun _ : list R => 0) (skipn (length outs) ins)) (map g row ++ map (fun _ : list R => Fin 0) (skipn (length outs) ins))
     = map (fun r => zap (g r) (f r)) row ++ map (fun _ : list R => zap (Fin 0) 0) (skipn (length outs) ins)).
  { intros f g. unfold quiet_to_zero, map2. rewrite combine_app_eq by (now rewrite !map_length). rewrite map_app. f_equal.
    - clear. induction row as [|r rs IHr]; [reflexivity|]. cbn. f_equal. apply IHr.
    - clear. induction (skipn (length outs) ins) as [|r rs IHr]; [reflexivity|]. cbn. f_equal. apply IHr. }
  rewrite Lq. split; [rewrite app_length, !map_length, Lm, skipn_length; lia|]. split.
  - intros i Hi. rewrite !nth_error_app2 by (rewrite map_length, Lm; lia). rewrite !map_length, Lm, !nth_error_map.
    destruct (nth_error (skipn (length outs) ins) (i - length outs)) eqn:En.
    + cbn. repeat split; auto. f_equal. unfold zap. destruct (fltb _ _); reflexivity.
    + apply nth_error_None in En. rewrite skipn_length in En. lia.
  - intros i a b Ha Hb. destruct (table_pair n ins outs i a b Ti To ltac:(lia) Ha Hb) as [La [Lb _]].
    assert (Hi : (i < length outs)%nat) by (apply nth_error_Some; congruence).
    do 2 eexists. split; [apply (xd_none dt n); auto|].
    rewrite !nth_error_app1 by (rewrite map_length, Lm; lia). rewrite !nth_error_map. unfold row. rewrite nth_error_map2, Ha, Hb.
    cbn [option_map row_of fst snd]. split; reflexivity.
Qed.

(*@ C87 under 'coeff' a different number of columns is refused (ValueError), except one column on either side *)
Lemma coeff_columns : forall dt n m ins outs mode, (2 <= n)%nat -> length ins <> length outs ->
  length ins <> 1%nat -> length outs <> 1%nat -> compute_delays dt n m ins outs mode "coeff" = Err ValueError.
Proof.
  intros dt n m ins outs mode Hn E E1 E2. unfold compute_delays. destruct (Nat.ltb_spec n 2); [lia|].
  unfold scale_rows. change (String.eqb "coeff" "coeff") with true. cbv iota.
  unfold bcast2. rewrite !map_length. destruct (Nat.eqb_spec (length ins) (length outs)); [easy|].
  destruct ins as [|a [|a' ins]]; destruct outs as [|b [|b' outs]]; try easy; reflexivity.
Qed.

(*@ C87 a single second column under 'coeff' is accepted against any number of first columns, and all but the first of these get delay 0 *)
Lemma coeff_one_out : forall dt n ins b, dt <> 0 -> (2 <= n)%nat -> (2 <= length ins)%nat -> table n ins -> length b = n ->
  exists D, compute_delays dt n n ins [b] "loop" "coeff" = Ok D /\ length (d_delay D) = length ins /\
    (forall i, (1 <= i < length ins)%nat -> nth_error (d_delay D) i = Some 0) /\
    (forall i a, (1 <= i)%nat -> nth_error ins i = Some a -> ~ constant a -> ~ constant b -> nth_error (d_peak D) i = Some (Fin 0)) /\
    (forall i a, (1 <= i)%nat -> nth_error ins i = Some a -> constant a \/ constant b -> nth_error (d_peak D) i = Some Nan).
Proof.
  intros dt n ins b Hd Hn Hi Ti Lb. destruct ins as [|a0 rest]; [cbn in Hi; lia|].
  assert (Nr : rest <> []) by (intros ->; cbn in Hi; lia).
  set (k := fun a => finv (INR n * Rstd (demean a) * Rstd (demean b))).
  unfold compute_delays. destruct (Nat.ltb_spec n 2); [lia|].
  unfold scale_rows. change (String.eqb "coeff" "coeff") with true. cbv iota.
  assert (B : bcast2 (fun a b => finv (INR n * a * b)) (map Rstd (map demean (a0 :: rest))) (map Rstd (map demean [b])) = Ok (map k (a0 :: rest))).
  { unfold bcast2. rewrite !map_length. destruct (Nat.eqb_spec (length (a0 :: rest)) (length [b])) as [E|_]; [cbn in E, Hi; lia|].
    destruct rest as [|a1 r]; [easy|]. cbn [map]. rewrite !map_map. reflexivity. }
  rewrite B. cbn [rbind]. change (String.eqb "loop" "loop") with true. cbv iota.
  assert (F1 : Forall (fun a => length a = n) (map demean (a0 :: rest))) by (now apply Forall_centred).
  assert (F2 : Forall (fun a => length a = n) (map demean [b])) by (apply Forall_centred; constructor; auto).
  pose proof (loop_rows_short dt n (map demean (a0 :: rest)) Hd ltac:(lia) (map demean [b]) ltac:(cbn; lia) F1 F2) as Lr.
  cbn [map] in Lr. cbn [map]. rewrite Lr. cbn [rbind]. clear Lr.
  replace (map2 (row_of dt n) (demean a0 :: map demean rest) [demean b]) with [row_of dt n (demean a0) (demean b)]
    by (unfold map2; cbn [combine map fst snd]; now rewrite combine_nil).
  cbn [length skipn app map]. rewrite !map_map.
  rewrite !mul_inplace_eq by (cbn [length]; now rewrite !map_length).
  cbn [rbind]. eexists. split; [reflexivity|]. cbn [d_delay d_peak].
  assert (M : forall (x : R) y, map2 (fun x k => fmul (Fin x) k) (x :: map (fun _ : list R => 0) rest) (y :: map k rest)
            = fmul (Fin x) y :: map (fun a => fmul (Fin 0) (k a)) rest).
  { intros x y. unfold map2. cbn [combine map fst snd]. f_equal. clear. induction rest as [|a r IH]; [reflexivity|]. cbn. f_equal. exact IH. }
  cbn [fst snd]. rewrite !M.
  assert (Q : forall d x, quiet_to_zero (d :: map (fun _ : list R => 0) rest) (x :: map (fun a => fmul (Fin 0) (k a)) rest)
            = zap x d :: map (fun _ => 0) rest).
  { intros d x. unfold quiet_to_zero, map2. cbn [combine map fst snd]. f_equal. clear.
    induction rest as [|a r IH]; [reflexivity|]. cbn [map combine fst snd]. f_equal; [|exact IH]. now destruct (fltb _ _). }
  rewrite Q. split; [cbn [length]; now rewrite map_length|].
  assert (K : forall a, In a rest -> (constant a \/ constant b -> k a = Pinf) /\ (~ constant a -> ~ constant b -> is_finite (k a) = true)).
  { intros a Ia. assert (La : length a = n) by (inversion Ti as [|? ? ? Fr]; rewrite Forall_forall in Fr; auto).
    assert (Na : a <> []) by (intros ->; cbn in La; lia). assert (Nb : b <> []) by (intros ->; cbn in Lb; lia).
    unfold k, finv. rewrite !demean_centred, !Rstd_centred. split.
    - intro Kc. assert (D0 : INR n * Rstd a * Rstd b = 0).
      { rewrite !Rstd_energy by auto.
        destruct Kc as [Kc|Kc]; rewrite (energy_all_zero _ (centred_zero _ Kc)); unfold Rdiv; rewrite Rmult_0_l, sqrt_0; ring. }
      rewrite D0, fdiv_zero. apply sgn_inf_pos. lra.
    - intros Ka Kb. rewrite fdiv_fin; [reflexivity|].
      rewrite Rmult_assoc, <- La, std_prod by (congruence || auto).
      apply centred_energy_pos in Ka, Kb. apply sqrt_lt_R0 in Ka, Kb. nra. }
  split; [|split].
  - intros i Hi'. destruct i as [|i]; [lia|]. cbn [nth_error]. rewrite nth_error_map.
    destruct (nth_error rest i) eqn:En; [reflexivity|]. apply nth_error_None in En. cbn [length] in Hi'. lia.
  - intros i a Hi' Ha Ka Kb. destruct i as [|i]; [lia|]. cbn [nth_error] in *. rewrite nth_error_map, Ha. cbn [option_map].
    destruct (K a (nth_error_In _ _ Ha)) as [_ Kf]. specialize (Kf Ka Kb). destruct (k a); try discriminate. cbn. now rewrite Rmult_0_l.
  - intros i a Hi' Ha Kc. destruct i as [|i]; [lia|]. cbn [nth_error] in *. rewrite nth_error_map, Ha. cbn [option_map].
    destruct (K a (nth_error_In _ _ Ha)) as [Kp _]. rewrite (Kp Kc). cbn. now rewrite sgn_inf_0.
Qed.

Lemma loop_row_rows dt n m a b : dt <> 0 -> (0 < n)%nat -> (0 < m)%nat -> length a = n -> length b = m ->
  let k := argmax (map (lag_sum a b) (correlation_lags n m)) in
  loop_row (map (fun l => IZR l * dt) (correlation_lags n n)) a b
  = if Nat.leb (2 * n - 1) k then Err IndexError
    else Ok (- (IZR (Z.of_nat k - Z.of_nat (n - 1)) * dt), lag_sum a b (Z.of_nat k - Z.of_nat (m - 1)),
             Rmean (map (lag_sum a b) (correlation_lags n m)), lag_sum a b (Z.of_nat n - Z.of_nat m)).
Proof.
  intros D Hn Hm La Lb k. assert (Na : a <> []) by (intros ->; cbn in La; lia).
  assert (Nb : b <> []) by (intros ->; cbn in Lb; lia).
  unfold loop_row. rewrite correlate_as_map, La, Lb by auto. fold k.
  destruct (argmax_lags (lag_sum a b) n m Hn Hm) as [_ [H2 _]]. fold k in H2.
  rewrite !map_length, !lags_length. replace (n + n - 1)%nat with (2 * n - 1)%nat by lia.
  destruct (Nat.leb_spec (2 * n - 1) k); [reflexivity|].
  rewrite zero_index_lags by auto. destruct (Nat.leb_spec (n + m - 1) (n - 1)); [lia|].
  rewrite !nth_map_lags by lia. replace (Z.of_nat (n - 1) - Z.of_nat (m - 1))%Z with (Z.of_nat n - Z.of_nat m)%Z by lia. reflexivity.
Qed.
Lemma xd_none_rows dt a b : (2 <= length a)%nat -> b <> [] ->
  let L := (Z.of_nat (argmax (map (lag_sum a b) (correlation_lags (length a) (length b)))) - Z.of_nat (length b - 1))%Z in
  xcorr_delay dt a b "none" = Ok (- (IZR L * dt), Fin (lag_sum a b L)).
Proof.
  intros Ha Nb L. assert (Na : a <> []) by (intros ->; cbn in Ha; lia). pose proof (ne_len b Nb).
  unfold xcorr_delay. rewrite correlation_eq by (auto; cbn; tauto). cbn [rbind fst snd].
  change (scale_val a b (lower "none")) with (fun L => Fin (lag_sum a b L)).
  destruct (Nat.ltb_spec (length a) 2); [lia|].
  rewrite <- (map_map (lag_sum a b) Fin), fargmax_fin.
  destruct (argmax_lags (lag_sum a b) (length a) (length b) ltac:(lia) ltac:(lia)) as [_ [H2 _]].
  rewrite lags_nth_d by auto. rewrite (map_map (lag_sum a b) Fin), (nth_map_lags (fun x => Fin (lag_sum a b x))) by auto.
  reflexivity.
Qed.

(*@ C87 a second table with fewer rows is accepted in 'loop' mode ('none'): every delay is reported (n-m) steps too large *)
Lemma fewer_rows : forall dt n m ins outs, dt <> 0 -> (2 <= n)%nat -> (0 < m <= n)%nat -> length ins = length outs -> ins <> [] ->
  table n ins -> table m outs ->
  exists D, compute_delays dt n m ins outs "loop" "none" = Ok D /\ length (d_delay D) = length ins /\
    forall i a b, nth_error ins i = Some a -> nth_error outs i = Some b ->
      exists d p, xcorr_delay dt a b "none" = Ok (d, Fin p) /\ nth_error (d_peak D) i = Some (Fin p) /\
        (/ 10 ^ 10 <= p -> nth_error (d_delay D) i = Some (d + INR (n - m) * dt)) /\
        (p < / 10 ^ 10 -> nth_error (d_delay D) i = Some 0).
Proof.
  intros dt n m ins outs Hd Hn Hm El Ni Ti To.
  set (K := fun a b => argmax (map (lag_sum a b) (correlation_lags n m))).
  set (row := fun a b : list R => (- (IZR (Z.of_nat (K a b) - Z.of_nat (n - 1)) * dt), lag_sum a b (Z.of_nat (K a b) - Z.of_nat (m - 1)),
             Rmean (map (lag_sum a b) (correlation_lags n m)), lag_sum a b (Z.of_nat n - Z.of_nat m))).
  assert (Lr : loop_rows (map (fun l => IZR l * dt) (correlation_lags n n)) ins outs = Ok (map2 row ins outs)).
  { clear Ni. revert outs El To. induction ins as [|a ins IH]; intros [|b outs] E To; try discriminate; [reflexivity|].
    inversion Ti; inversion To; subst. cbn [loop_rows]. rewrite loop_row_rows with (n := length a) (m := length b) by (auto; lia).
    destruct (argmax_lags (lag_sum a b) (length a) (length b) ltac:(lia) ltac:(lia)) as [_ [H9 _]].
    destruct (Nat.leb_spec (2 * length a - 1) (argmax (map (lag_sum a b) (correlation_lags (length a) (length b))))); [lia|].
    cbn [rbind]. rewrite IH by auto. reflexivity. }
  unfold compute_delays. destruct (Nat.ltb_spec n 2); [lia|].
  change (scale_rows n ins outs "none") with (Ok (A := list (list R) * list (list R) * option (list fl)) (ins, outs, None)).
  cbn [rbind]. change (String.eqb "loop" "loop") with true. cbv iota. rewrite Lr.
  assert (Mt : forall (T : Type) (x y : T), match ins, outs with [], _ | _, [] => x | _, _ => y end = y).
  { intros. destruct ins, outs; easy. }
  destruct ins as [|a0 i0] eqn:Ei; [easy|]. rewrite <- Ei in *. destruct outs as [|b0 o0] eqn:Eo; [subst ins; discriminate|]. rewrite <- Eo in *.
  clear Mt. clear Ei Eo. cbn [rbind mul_inplace]. eexists. split; [reflexivity|]. cbn [d_delay d_peak].
  rewrite !map_map, !map_map2. unfold quiet_to_zero. rewrite map2_map2. split; [now apply map2_length|].
  intros i a b Ha Hb.
  assert (La : length a = n) by (apply nth_error_In in Ha; unfold table in Ti; rewrite Forall_forall in Ti; auto).
  assert (Lb : length b = m) by (apply nth_error_In in Hb; unfold table in To; rewrite Forall_forall in To; auto).
  do 2 eexists. split; [apply xd_none_rows; [lia|intros ->; cbn in Lb; lia]|].
  rewrite !nth_error_map2, Ha, Hb. unfold row. cbn [fst snd]. rewrite La, Lb. fold (K a b). split; [reflexivity|].
  split; intro Hp.
  - f_equal. etransitivity; [apply zap_ge; exact Hp|]. rewrite !minus_IZR, <- !INR_IZR_INZ, !minus_INR by lia. cbn [INR]. ring.
  - f_equal. apply zap_lt. exact Hp.
Qed.

(*@ C87 a second table with more rows: the delay is (m-n) steps too small, or IndexError when the best lag lies past the first table's lags *)
Lemma more_rows : forall dt n m a b, dt <> 0 -> (2 <= n)%nat -> (n < m)%nat -> length a = n -> length b = m ->
  exists L p, xcorr_delay dt a b "none" = Ok (- (IZR L * dt), Fin p) /\
    ((2 * Z.of_nat n <= L + Z.of_nat m)%Z -> compute_delays dt n m [a] [b] "loop" "none" = Err IndexError) /\
    ((L + Z.of_nat m < 2 * Z.of_nat n)%Z -> / 10 ^ 10 <= p ->
       exists D, compute_delays dt n m [a] [b] "loop" "none" = Ok D /\ d_delay D = [- (IZR L * dt) - INR (m - n) * dt] /\ d_peak D = [Fin p]).
Proof.
  intros dt n m a b Hd Hn Hm La Lb. do 2 eexists. split; [apply xd_none_rows; [lia|intros ->; cbn in Lb; lia]|].
  rewrite La, Lb. set (k := argmax (map (lag_sum a b) (correlation_lags n m))).
  unfold compute_delays. destruct (Nat.ltb_spec n 2); [lia|].
  change (scale_rows n [a] [b] "none") with (Ok (A := list (list R) * list (list R) * option (list fl)) ([a], [b], None)).
  cbn [rbind]. change (String.eqb "loop" "loop") with true. cbv iota. cbn [loop_rows].
  rewrite (loop_row_rows dt n m a b) by (auto; lia). fold k. split.
  - intro HL. destruct (Nat.leb_spec (2 * n - 1) k); [reflexivity|lia].
  - intros HL Hp. destruct (Nat.leb_spec (2 * n - 1) k); [lia|]. cbn [rbind map fst snd mul_inplace].
    eexists. split; [reflexivity|]. cbn [d_delay d_peak]. split; [|reflexivity].
    unfold quiet_to_zero, map2. cbn [combine map fst snd]. f_equal. etransitivity; [apply zap_ge; exact Hp|].
    rewrite !minus_IZR, <- !INR_IZR_INZ, !minus_INR by lia. cbn [INR]. ring.
Qed.

(*@ex C87 a record of 4 samples against the same pulse in a record of 2: the true delay is 0, reported as 2 steps *)
Lemma shape_ex : xcorr_delay 1 [1; 0; 0; 0] [1; 0] "none" = Ok (- (IZR 0 * 1), Fin 1) /\
  exists D, compute_delays 1 4 2 [[1; 0; 0; 0]] [[1; 0]] "loop" "none" = Ok D /\ d_delay D = [2].
Proof.
  assert (A : forall L, lag_sum [1; 0; 0; 0] [1; 0] L = at0 [1; 0; 0; 0] L).
  { intro L. unfold lag_sum, Rsum. cbn [length seq map fold_right]. rewrite !at0_nat. cbn [nth].
    change (Z.of_nat 0 + L)%Z with L. lra. }
  assert (P : argmax (map (lag_sum [1; 0; 0; 0] [1; 0]) (correlation_lags 4 2)) = 1%nat).
  { apply argmax_unique.
    - cbn. lia.
    - intros j Hj. rewrite map_length, lags_length in Hj. rewrite !nth_map_lags by (auto; lia). rewrite !A.
      do 5 (destruct j as [|j]; [at0c; lra|]). lia.
    - intros j Hj. rewrite !nth_map_lags by lia. rewrite !A. destruct j; [|lia]. at0c. lra. }
  assert (X : xcorr_delay 1 [1; 0; 0; 0] [1; 0] "none" = Ok (- (IZR 0 * 1), Fin 1)).
  { rewrite xd_none_rows by (cbn; lia || easy). cbn [length]. rewrite P. rewrite A. f_equal. }
  split; [exact X|].
  destruct (fewer_rows 1 4 2 [[1; 0; 0; 0]] [[1; 0]] ltac:(lra) ltac:(lia) ltac:(lia) eq_refl ltac:(easy)) as [D [E [L V]]];
    try (repeat constructor).
  exists D. split; [exact E|]. destruct (V 0%nat _ _ eq_refl eq_refl) as [d [p [Ex [_ [V1 _]]]]].
  rewrite X in Ex. injection Ex as <- <-. specialize (V1 ltac:(cbn; lra)).
  destruct (d_delay D) as [|x [|y r]]; try discriminate. cbn in V1. injection V1 as ->. f_equal. cbn. lra.
Qed.
