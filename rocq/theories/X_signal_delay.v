(** Delays from cross-correlation (C44, C45). *)
From Coq Require Import String.
From Verif Require Import Prelude RealBase Fl RealStat Spec_signal M_cmv M_signal_corr P_signal P_corr P_delay.
From Coq Require Import Lra Psatz.
Local Open Scope R_scope.

Lemma known_of a b s r : correlation a b s = Ok r -> known_scaling (lower s).
Proof.
  intro E. destruct (in_dec string_dec (lower s) ["energy"; "coeff"; "unbiased_energy"; "unbiased_coeff"; "none"]%string) as [I|N]; auto.
  rewrite correlation_unknown in E by exact N. discriminate.
Qed.
Lemma corr_result a b s r : a <> [] -> b <> [] -> correlation a b s = Ok r ->
  r = (map (scale_val a b (lower s)) (correlation_lags (length a) (length b)), correlation_lags (length a) (length b)).
Proof. intros Na Nb E. pose proof (known_of a b s r E). rewrite correlation_eq in E by auto. congruence. Qed.

(*@ C44 xcorr_delay: minus the first lag at which the correlation is largest, a whole number of steps inside the lag range, with the value there *)
Lemma xcorr_delay_best : forall dt a b s r, (2 <= length a)%nat -> b <> [] -> correlation a b s = Ok r ->
  Forall (fun v => exists x, v = Fin x) (fst r) ->
  exists L p, xcorr_delay dt a b s = Ok (- (IZR L * dt), Fin p) /\ first_peak r L p /\
    lag_of (length a) (length b) L /\
    (length b = length a -> 0 <= dt -> Rabs (- (IZR L * dt)) <= INR (length a - 1) * dt).
Proof.
  intros dt a b s r Ha Nb Er F. assert (Na : a <> []) by (intros ->; cbn in Ha; lia).
  pose proof (known_of a b s r Er) as K. pose proof (corr_result a b s r Na Nb Er) as ->.
  set (lg := correlation_lags (length a) (length b)) in *. cbn [fst] in F.
  set (g := fun L => match scale_val a b (lower s) L with Fin x => x | _ => 0 end).
  assert (G : forall L, lag_of (length a) (length b) L -> scale_val a b (lower s) L = Fin (g L)).
  { intros L HL. rewrite Forall_forall in F. destruct (F (scale_val a b (lower s) L)) as [x Hx].
    - apply in_map_iff. exists L. split; auto. apply lags_In; auto. now apply ne_len.
    - unfold g. now rewrite Hx. }
  destruct (xcorr_delay_fin dt a b s g Ha Nb K G) as [L [E [HL M]]].
  exists L, (g L). split; [exact E|]. split; [|split; auto].
  - split.
    + apply at_lag_map. split; [apply lags_In; auto; now apply ne_len|]. now rewrite G.
    + intros L' v H. apply at_lag_map in H as [I ->]. apply lags_In in I; [|now apply ne_len].
      exists (g L'). split; [now apply G|]. now apply M.
  - intros El Hd. rewrite Rabs_Ropp, Rabs_mult, (Rabs_right dt) by lra. apply Rmult_le_compat_r; auto.
    rewrite INR_IZR_INZ, <- abs_IZR. apply IZR_le. unfold lag_of in HL. lia.
Qed.

(*@ C44 it fails exactly for unknown scalings (ValueError) and for a single sample (IndexError) *)
Lemma xcorr_delay_fails : forall dt a b s, a <> [] -> b <> [] ->
  (~ known_scaling (lower s) -> xcorr_delay dt a b s = Err ValueError) /\
  (known_scaling (lower s) -> (length a < 2)%nat -> xcorr_delay dt a b s = Err IndexError) /\
  (known_scaling (lower s) -> (2 <= length a)%nat -> exists d p, xcorr_delay dt a b s = Ok (d, p)).
Proof.
  intros dt a b s Na Nb. unfold xcorr_delay. split; [|split].
  - intro N. now rewrite correlation_unknown.
  - intros K H. rewrite correlation_eq by auto. cbn [rbind]. now apply Nat.ltb_lt in H as ->.
  - intros K H. rewrite correlation_eq by auto. cbn [rbind]. apply Nat.ltb_ge in H as ->. eauto.
Qed.

(*@ C44 a constant signal under 'coeff': NaN, and the spurious delay of all available steps *)
Lemma xcorr_delay_constant : forall dt a b, (2 <= length a)%nat -> b <> [] -> constant a \/ constant b ->
  xcorr_delay dt a b "coeff" = Ok (INR (length b - 1) * dt, Nan).
Proof.
  intros dt a b Ha Nb K. assert (Na : a <> []) by (intros ->; cbn in Ha; lia).
  unfold xcorr_delay. rewrite correlation_eq by (auto; cbn; tauto). cbn [rbind fst snd].
  destruct (Nat.ltb_spec (length a) 2); [lia|]. pose proof (ne_len b Nb).
  change (scale_val a b (lower "coeff")) with (coeff_val a b).
  assert (V : forall L, coeff_val a b L = Nan).
  { intro L. unfold coeff_val.
    assert (N0 : lag_sum (centred a) (centred b) L = 0).
    { destruct K; [apply lag_sum_zero_l|apply lag_sum_zero_r]; now apply centred_zero. }
    assert (D0 : INR (length a) * (Rstd a * Rstd b) = 0).
    { rewrite !Rstd_energy by auto.
      destruct K as [K|K]; rewrite (energy_all_zero _ (centred_zero _ K)); unfold Rdiv; rewrite Rmult_0_l, sqrt_0; ring. }
    rewrite N0, D0, fdiv_zero. apply sgn_inf_0. }
  rewrite fargmax_nan by (apply Forall_map, Forall_forall; intros; apply V).
  rewrite lags_nth_d, nth_map_lags by lia. rewrite V. f_equal. f_equal.
  rewrite INR_IZR_INZ. cbn [Z.of_nat]. rewrite Z.sub_0_l, opp_IZR. ring.
Qed.

(*@ C44 compute_delays (loop) on equally shaped tables reports for every pair what xcorr_delay reports, with delays of quiet peaks (< 1e-10) set to 0 *)
Lemma delays_loop : forall dt n ins outs s, dt <> 0 -> (2 <= n)%nat ->
  length ins = length outs -> ins <> [] -> table n ins -> table n outs ->
  (s = "coeff" \/ s = "none")%string ->
  exists D zero, compute_delays dt n n ins outs "loop" s = Ok D /\ d_zero D = Flat zero /\
    length (d_delay D) = length ins /\ length (d_peak D) = length ins /\ length (d_mean D) = length ins /\
    length zero = length ins /\
    forall i a b, nth_error ins i = Some a -> nth_error outs i = Some b ->
      exists r d p z, correlation a b s = Ok r /\ xcorr_delay dt a b s = Ok (d, p) /\ at_lag r 0 z /\
        nth_error (d_peak D) i = Some p /\
        nth_error (d_delay D) i = Some (if fltb p (Fin (/ 10 ^ 10)) then 0 else d) /\
        nth_error (d_mean D) i = Some (fl_mean (fst r)) /\
        nth_error zero i = Some z.
Proof.
  intros dt n ins outs s D Hn El Ni Ti To Hs.
  assert (Len : forall i a b, nth_error ins i = Some a -> nth_error outs i = Some b ->
                length a = n /\ length b = n /\ a <> [] /\ b <> []).
  { intros i a b Ha Hb. apply nth_error_In in Ha, Hb. unfold table in *. rewrite Forall_forall in Ti, To.
    apply Ti in Ha. apply To in Hb. repeat split; auto; intros ->; cbn in *; lia. }
  assert (Lne : correlation_lags n n <> []).
  { intro E. pose proof (lags_length n n) as H. rewrite E in H. cbn in H. lia. }
  destruct Hs as [-> | ->].
  - rewrite loop_coeff by auto. eexists. eexists. split; [reflexivity|]. cbn [d_zero d_delay d_peak d_mean].
    split; [reflexivity|]. rewrite !map2_length by auto. repeat (split; [reflexivity|]).
    intros i a b Ha Hb. destruct (Len i a b Ha Hb) as [La [Lb [Na Nb]]].
    rewrite correlation_eq by (auto; cbn; tauto).
    eexists. do 3 eexists. split; [reflexivity|]. split; [apply (xd_coeff dt n); auto|].
    change (scale_val a b (lower "coeff")) with (coeff_val a b).
    rewrite !nth_error_map2, Ha, Hb. cbn [fst]. rewrite La, Lb.
    split; [apply at_lag_map; split; [apply lags_In; [lia|unfold lag_of; lia]|reflexivity]|].
    split; [reflexivity|]. split; [reflexivity|]. split.
    + f_equal. unfold mean_over. rewrite <- mean_scaled.
      * rewrite map_map. f_equal. apply map_ext. intro L. now rewrite coeff_val_mul, La.
      * intro E. now apply map_eq_nil in E.
      * destruct (factor_cases n a b ltac:(lia) La Lb) as [Z|Fk]; [left|now right].
        intros x Hx. apply in_map_iff in Hx as [L [<- _]]. apply Z.
    + f_equal. now rewrite coeff_val_mul, La.
  - rewrite loop_none by auto. eexists. eexists. split; [reflexivity|]. cbn [d_zero d_delay d_peak d_mean].
    split; [reflexivity|]. rewrite !map2_length by auto. repeat (split; [reflexivity|]).
    intros i a b Ha Hb. destruct (Len i a b Ha Hb) as [La [Lb [Na Nb]]].
    rewrite correlation_eq by (auto; cbn; tauto).
    eexists. do 3 eexists. split; [reflexivity|]. split; [apply (xd_none dt n); auto|].
    change (scale_val a b (lower "none")) with (fun L => Fin (lag_sum a b L)).
    rewrite !nth_error_map2, Ha, Hb. cbn [fst]. rewrite La, Lb.
    split; [apply at_lag_map; split; [apply lags_In; [lia|unfold lag_of; lia]|reflexivity]|].
    split; [reflexivity|]. split; [reflexivity|]. split; [|reflexivity].
    f_equal. unfold mean_over. rewrite <- (map_map (lag_sum a b) Fin), fl_mean_fin; [reflexivity|].
    intro E. now apply map_eq_nil in E.
Qed.

(*@ C44 so for every pair with a finite peak, peak_corr is at least zero_corr and at least mean_corr *)
Lemma delays_peak_dominates : forall dt n ins outs s D zero i p, dt <> 0 -> (2 <= n)%nat ->
  length ins = length outs -> ins <> [] -> table n ins -> table n outs ->
  (s = "coeff" \/ s = "none")%string ->
  compute_delays dt n n ins outs "loop" s = Ok D -> d_zero D = Flat zero ->
  nth_error (d_peak D) i = Some (Fin p) ->
  exists z m, nth_error zero i = Some (Fin z) /\ nth_error (d_mean D) i = Some (Fin m) /\ z <= p /\ m <= p.
Proof.
  intros dt n ins outs s D zero i p Hd Hn El Ni Ti To Hs E Ez Ep.
  destruct (delays_loop dt n ins outs s Hd Hn El Ni Ti To Hs) as [D' [zero' [E' [Ez' [L1 [L2 [L3 [L4 V]]]]]]]].
  assert (D' = D) by congruence. subst D'. assert (zero' = zero) by congruence. subst zero'.
  assert (Hi : (i < length ins)%nat) by (rewrite <- L2; apply nth_error_Some; congruence).
  destruct (nth_error ins i) as [a|] eqn:Ha; [|apply nth_error_None in Ha; lia].
  destruct (nth_error outs i) as [b|] eqn:Hb; [|apply nth_error_None in Hb; lia].
  destruct (V i a b Ha Hb) as [r [d [p' [z [Er [Ex [Az [Vp [_ [Vm Vz]]]]]]]]]].
  assert (p' = Fin p) by congruence. subst p'.
  assert (La : length a = n) by (apply nth_error_In in Ha; unfold table in Ti; rewrite Forall_forall in Ti; auto).
  assert (Lb : length b = n) by (apply nth_error_In in Hb; unfold table in To; rewrite Forall_forall in To; auto).
  assert (Na : a <> []) by (intros ->; cbn in La; lia).
  assert (Nb : b <> []) by (intros ->; cbn in Lb; lia).
  (* every value is finite *)
  assert (F : Forall (fun v => exists x, v = Fin x) (fst r)).
  { pose proof (corr_result a b s r Na Nb Er) as R0.
    destruct Hs as [-> | ->].
    - destruct (factor_cases n a b ltac:(lia) La Lb) as [Z|Fk].
      + (* all zero and finite peak: the factor must be finite *)
        rewrite xd_coeff with (n := n) in Ex by (auto; lia).
        assert (Ep' : fmul (Fin (lag_sum (centred a) (centred b) (peak_lag n (centred a) (centred b)))) (coeff_factor n a b) = Fin p) by congruence.
        destruct (coeff_factor n a b) as [k| | |] eqn:Ek.
        * rewrite R0. cbn [fst]. apply Forall_map, Forall_forall. intros L _.
          change (scale_val a b (lower "coeff")) with (coeff_val a b). rewrite coeff_val_mul, La, Ek. eexists. reflexivity.
        * rewrite Z in Ep'. cbn in Ep'. rewrite sgn_inf_0 in Ep'. discriminate.
        * rewrite Z in Ep'. cbn in Ep'. rewrite Ropp_0, sgn_inf_0 in Ep'. discriminate.
        * discriminate.
      + rewrite R0. cbn [fst]. apply Forall_map, Forall_forall. intros L _.
        change (scale_val a b (lower "coeff")) with (coeff_val a b). rewrite coeff_val_mul, La.
        destruct (coeff_factor n a b); try discriminate. eexists. reflexivity.
    - rewrite R0. cbn [fst]. apply Forall_map, Forall_forall. intros L _. eexists. reflexivity. }
  destruct (xcorr_delay_best dt a b s r ltac:(lia) Nb Er F) as [L [p0 [Ex0 [[A M] _]]]].
  assert (p0 = p) by congruence. subst p0.
  destruct (M 0%Z z Az) as [z0 [-> [Hz _]]].
  pose proof (corr_result a b s r Na Nb Er) as R0.
  assert (exists xs, fst r = map Fin xs /\ forall x, In x xs -> x <= p) as [xs [Exs Hxs]].
  { clear - F M R0. exists (map (fun L => match scale_val a b (lower s) L with Fin x => x | _ => 0 end) (correlation_lags (length a) (length b))).
    subst r. cbn [fst snd] in *. rewrite map_map. rewrite Forall_map, Forall_forall in F. split.
    - apply map_ext_in. intros L9 HL. destruct (F L9 HL) as [x ->]. reflexivity.
    - intros x Hx. apply in_map_iff in Hx as [L' [<- HL']]. destruct (F L' HL') as [x Hx].
      destruct (M L' (Fin x)) as [x' [E [H _]]]; [apply at_lag_map; auto|]. rewrite Hx. congruence. }
  assert (Nx : xs <> []).
  { intros ->. rewrite R0 in Exs. cbn [fst] in Exs. apply map_eq_nil in Exs.
    pose proof (lags_length (length a) (length b)) as H. rewrite Exs in H. cbn in H. lia. }
  exists z0, (Rmean xs). split; [exact Vz|]. split; [rewrite Vm, Exs, fl_mean_fin by auto; reflexivity|]. split; auto.
  pose proof (Rmean_between xs (Rmin_of xs) p Nx) as B. destruct B as [_ B]; auto.
  intros x Hx. split; [now apply Rmin_of_le|now apply Hxs].
Qed.

(*@ C44 a constant column under 'coeff' is reported as NaN metrics with the spurious delay (n-1) steps, not 0 *)
Lemma delays_constant : forall dt n ins outs D zero i a b, dt <> 0 -> (2 <= n)%nat ->
  length ins = length outs -> ins <> [] -> table n ins -> table n outs ->
  compute_delays dt n n ins outs "loop" "coeff" = Ok D -> d_zero D = Flat zero ->
  nth_error ins i = Some a -> nth_error outs i = Some b -> constant a \/ constant b ->
  nth_error (d_delay D) i = Some (INR (n - 1) * dt) /\ nth_error (d_peak D) i = Some Nan /\
  nth_error (d_mean D) i = Some Nan /\ nth_error zero i = Some Nan.
Proof.
  intros dt n ins outs D zero i a b Hd Hn El Ni Ti To E Ez Ha Hb K.
  destruct (delays_loop dt n ins outs "coeff" Hd Hn El Ni Ti To (or_introl eq_refl)) as [D' [zero' [E' [Ez' [_ [_ [_ [_ V]]]]]]]].
  assert (D' = D) by congruence. subst D'. assert (zero' = zero) by congruence. subst zero'.
  destruct (V i a b Ha Hb) as [r [d [p [z [Er [Ex [Az [Vp [Vd [Vm Vz]]]]]]]]]].
  assert (La : length a = n) by (apply nth_error_In in Ha; unfold table in Ti; rewrite Forall_forall in Ti; auto).
  assert (Lb : length b = n) by (apply nth_error_In in Hb; unfold table in To; rewrite Forall_forall in To; auto).
  assert (Na : a <> []) by (intros ->; cbn in La; lia).
  assert (Nb : b <> []) by (intros ->; cbn in Lb; lia).
  rewrite xcorr_delay_constant in Ex by (auto; lia). rewrite Lb in Ex.
  assert (d = INR (n - 1) * dt) by congruence. assert (p = Nan) by congruence. subst d p.
  assert (F : Forall (fun v => v = Nan) (fst r)).
  { rewrite (corr_result a b "coeff" r Na Nb Er). cbn [fst]. apply Forall_map, Forall_forall. intros L _.
    change (coeff_val a b L = Nan). unfold coeff_val.
    assert (N0 : lag_sum (centred a) (centred b) L = 0).
    { destruct K; [apply lag_sum_zero_l|apply lag_sum_zero_r]; now apply centred_zero. }
    assert (D0 : INR (length a) * (Rstd a * Rstd b) = 0).
    { rewrite !Rstd_energy by auto.
      destruct K as [K|K]; rewrite (energy_all_zero _ (centred_zero _ K)); unfold Rdiv; rewrite Rmult_0_l, sqrt_0; ring. }
    rewrite N0, D0, fdiv_zero. apply sgn_inf_0. }
  split; [exact Vd|]. split; [exact Vp|]. split.
  - rewrite Vm. f_equal. apply fl_mean_nan; auto. intro E0. destruct Az as [k [_ E2]]. rewrite E0 in E2. now destruct k.
  - rewrite Vz. f_equal. destruct Az as [k [_ E2]]. apply nth_error_In in E2. rewrite Forall_forall in F. now apply F.
Qed.

(*@ C44 under 'coeff' the reported mean_corr is 0 for every pair of non-constant columns, whatever the data *)
Lemma delays_mean_zero : forall dt n ins outs D i a b, dt <> 0 -> (2 <= n)%nat ->
  length ins = length outs -> ins <> [] -> table n ins -> table n outs ->
  compute_delays dt n n ins outs "loop" "coeff" = Ok D ->
  nth_error ins i = Some a -> nth_error outs i = Some b -> ~ constant a -> ~ constant b ->
  nth_error (d_mean D) i = Some (Fin 0).
Proof.
  intros dt n ins outs D i a b Hd Hn El Ni Ti To E Ha Hb Ka Kb.
  rewrite loop_coeff in E by auto. injection E as <-. cbn [d_mean].
  rewrite nth_error_map2, Ha, Hb. f_equal.
  assert (La : length a = n) by (apply nth_error_In in Ha; unfold table in Ti; rewrite Forall_forall in Ti; auto).
  assert (Lb : length b = n) by (apply nth_error_In in Hb; unfold table in To; rewrite Forall_forall in To; auto).
  assert (M : mean_over n (centred a) (centred b) = 0).
  { unfold mean_over, Rmean.
    replace (correlation_lags n n) with (correlation_lags (length (centred a)) (length (centred b)))
      by (rewrite !centred_length, La, Lb; reflexivity).
    rewrite total_overlap, centred_sum. unfold Rdiv. ring. }
  rewrite M. unfold coeff_factor, finv. rewrite !Rstd_centred, fdiv_fin.
  - cbn. f_equal. ring.
  - rewrite Rmult_assoc, <- La, std_prod by (try congruence; intros ->; cbn in La; lia).
    apply centred_energy_pos in Ka, Kb. apply sqrt_lt_R0 in Ka, Kb. nra.
Qed.

(*@ C44 refusals of compute_delays: a single row, an unknown scaling (case-sensitive here), an unknown mode, an empty table *)
Lemma delays_refused : forall dt n m ins outs mode s,
  ((n < 2)%nat -> compute_delays dt n m ins outs mode s = Err IndexError) /\
  ((2 <= n)%nat -> s <> "coeff"%string -> s <> "none"%string -> compute_delays dt n m ins outs mode s = Err ValueError) /\
  ((2 <= n)%nat -> length ins = length outs -> (s = "coeff" \/ s = "none")%string ->
     mode <> "loop"%string -> mode <> "fft"%string -> compute_delays dt n m ins outs mode s = Err ValueError) /\
  ((2 <= n)%nat -> (s = "coeff" \/ s = "none")%string -> compute_delays dt n m [] [] "loop" s = Err IndexError).
Proof.
  intros dt n m ins outs mode s. unfold compute_delays. split; [|split; [|split]].
  - intro H. now apply Nat.ltb_lt in H as ->.
  - intros H N1 N2. apply Nat.ltb_ge in H as ->. unfold scale_rows.
    destruct (String.eqb_spec s "coeff"); [easy|]. destruct (String.eqb_spec s "none"); [easy|]. reflexivity.
  - intros H El Hs N1 N2. apply Nat.ltb_ge in H as ->. unfold scale_rows.
    destruct (String.eqb_spec mode "loop"); [easy|]. destruct (String.eqb_spec mode "fft"); [easy|].
    destruct Hs as [-> | ->]; [|reflexivity].
    change (String.eqb "coeff" "coeff") with true. cbv iota. rewrite bcast2_eq by (now rewrite !map_length). reflexivity.
  - intros H Hs. apply Nat.ltb_ge in H as ->. now destruct Hs as [-> | ->].
Qed.

(** ** Pure shifts *)
Lemma classic_lt a i : (exists k, (k < i)%Z /\ at0 a k <> 0) \/ (forall k, (k < i)%Z -> at0 a k = 0).
Proof.
  destruct (Z.ltb_spec i 0) as [L|L]; [right; intros; apply at0_out; lia|].
  rewrite <- (Z2Nat.id i L). generalize (Z.to_nat i) as n. clear. induction n as [|n IH].
  - right. intros. apply at0_out. lia.
  - destruct IH as [[k [Hk Nk]]|Z]; [left; exists k; split; auto; lia|].
    destruct (Req_dec (at0 a (Z.of_nat n)) 0) as [E|N].
    + right. intros k Hk. destruct (Z.eq_dec k (Z.of_nat n)) as [-> | Nk]; auto. apply Z. lia.
    + left. exists (Z.of_nat n). split; auto. lia.
Qed.
Lemma delayed_everywhere a b s : delayed_by a b s -> forall i, at0 b i = at0 a (i - s).
Proof.
  intros [El [V F]] i. destruct (Z.ltb_spec i 0) as [L|L]; [|destruct (Z.leb_spec (Z.of_nat (length a)) i) as [G|G]].
  - rewrite at0_out by lia. destruct (Req_dec (at0 a (i - s)) 0) as [E|N]; auto. apply F in N. lia.
  - rewrite at0_out by lia. destruct (Req_dec (at0 a (i - s)) 0) as [E|N]; auto. apply F in N. lia.
  - rewrite <- (Z2Nat.id i) by lia. apply V. lia.
Qed.
Lemma delayed_lag_sum a b s L : delayed_by a b s -> lag_sum a b L = lag_sum a a (L + s).
Proof.
  intro H. rewrite !lag_sum_alt. apply Rsumn_ext. intros i _. rewrite (delayed_everywhere a b s H). f_equal. f_equal. lia.
Qed.
Lemma first_nonzero a i : at0 a i <> 0 -> exists j, at0 a j <> 0 /\ forall k, (k < j)%Z -> at0 a k = 0.
Proof.
  intro N. assert (Hi : (0 <= i)%Z) by (destruct (Z.ltb_spec i 0); [exfalso; apply N; apply at0_out; lia|lia]).
  revert N. pattern i. apply Zlt_0_ind; [|exact Hi]. clear i Hi. intros i IH Hi N.
  destruct (classic_lt a i) as [[k [Hk Nk]]|Z].
  - apply (IH k); auto. split; [|lia]. destruct (Z.ltb_spec k 0); [exfalso; apply Nk; apply at0_out; lia|lia].
  - exists i. split; auto.
Qed.

Lemma auto_strict_pos a d : 0 < energy a -> (0 < d)%Z -> lag_sum a a d < energy a.
Proof.
  intros Ep Hd. apply Rnot_le_lt. intro H.
  assert (exists i, at0 a i <> 0) as [i Ni].
  { destruct (classic_lt a (Z.of_nat (length a))) as [[k [_ Nk]]|Z]; [eauto|]. exfalso.
    assert (energy a = 0); [|lra]. apply energy_all_zero. intros x Hx. apply In_nth with (d := 0) in Hx as [j [Hj <-]].
    rewrite <- at0_nat. apply Z. lia. }
  apply first_nonzero in Ni as [j [Nj Zj]].
  assert (Hj : (0 <= j < Z.of_nat (length a))%Z).
  { destruct (Z.ltb_spec j 0); [exfalso; apply Nj, at0_out; lia|].
    destruct (Z.leb_spec (Z.of_nat (length a)) j); [exfalso; apply Nj, at0_out; lia|lia]. }
  set (q := fun i => (at0 a (Z.of_nat i) - at0 a (Z.of_nat i - d)) ^ 2).
  assert (S : Rsumn (length a) q <= 0).
  { assert (E : Rsumn (length a) q = Rsumn (length a) (fun i => at0 a (Z.of_nat i) ^ 2)
                + Rsumn (length a) (fun i => at0 a (Z.of_nat i + - d) ^ 2) - 2 * lag_sum a a d).
    { rewrite lag_sum_alt. unfold Rsumn. rewrite <- Rsum_map_scal, <- Rsum_map_plus, <- Rsum_map_minus.
      apply Rsum_map_ext. intros k _. unfold q. rewrite Z.add_opp_r. ring. }
    rewrite E, <- energy_sumn. pose proof (shifted_energy_le a (length a) (- d)). lra. }
  assert (Q : q (Z.to_nat j) = 0).
  { apply (Rsum_zero_all (map q (seq 0 (length a)))).
    - intros x Hx. apply in_map_iff in Hx as [k [<- _]]. unfold q. apply pow2_ge_0.
    - apply Rle_antisym; [exact S|]. apply Rsum_nonneg. intros x Hx. apply in_map_iff in Hx as [k [<- _]]. unfold q. apply pow2_ge_0.
    - apply in_map_iff. exists (Z.to_nat j). split; auto. apply in_seq. lia. }
  unfold q in Q. rewrite Z2Nat.id in Q by lia. rewrite (Zj (j - d)%Z) in Q by lia. apply Nj. nra.
Qed.
Lemma auto_strict a d : 0 < energy a -> d <> 0%Z -> lag_sum a a d < energy a.
Proof.
  intros Ep Hd. destruct (Z.lt_trichotomy d 0) as [L|[E|G]]; [|easy|now apply auto_strict_pos].
  rewrite lag_sum_swap. apply auto_strict_pos; auto. lia.
Qed.
Lemma delayed_range a b s : 0 < energy a -> delayed_by a b s -> lag_of (length a) (length b) (- s).
Proof.
  intros Ep [El [_ F]].
  assert (exists i, at0 a i <> 0) as [i Ni].
  { destruct (classic_lt a (Z.of_nat (length a))) as [[k [_ Nk]]|Z]; [eauto|]. exfalso.
    assert (energy a = 0); [|lra]. apply energy_all_zero. intros x Hx. apply In_nth with (d := 0) in Hx as [j [Hj <-]].
    rewrite <- at0_nat. apply Z. lia. }
  pose proof (F i Ni).
  assert (Hj : (0 <= i < Z.of_nat (length a))%Z).
  { destruct (Z.ltb_spec i 0); [exfalso; apply Ni, at0_out; lia|].
    destruct (Z.leb_spec (Z.of_nat (length a)) i); [exfalso; apply Ni, at0_out; lia|lia]. }
  unfold lag_of. lia.
Qed.

(*@ C45 the raw correlation of a signal with its delayed copy is strictly largest at lag -s, with the energy as value *)
Lemma shift_peak : forall a b s sc, 0 < energy a -> delayed_by a b s -> lower sc = "none"%string ->
  exists r, correlation a b sc = Ok r /\ at_lag r (- s) (Fin (energy a)) /\
    forall L v, at_lag r L v -> L <> (- s)%Z -> exists x, v = Fin x /\ x < energy a.
Proof.
  intros a b s sc Ep H Es.
  assert (Na : a <> []) by (intros ->; cbn in Ep; unfold energy in Ep; cbn in Ep; lra).
  assert (Nb : b <> []) by (intros ->; destruct H as [El _]; destruct a; [easy|discriminate]).
  rewrite correlation_eq by (auto; rewrite Es; cbn; tauto). eexists. split; [reflexivity|]. rewrite Es.
  change (scale_val a b "none") with (fun L => Fin (lag_sum a b L)). split.
  - apply at_lag_map. split; [apply lags_In; [now apply ne_len|now apply delayed_range]|].
    rewrite (delayed_lag_sum a b s _ H), Z.add_opp_diag_l, lag_sum_self. reflexivity.
  - intros L v Hv N. apply at_lag_map in Hv as [_ ->]. eexists. split; [reflexivity|].
    rewrite (delayed_lag_sum a b s _ H). apply auto_strict; auto. lia.
Qed.

(*@ C45 xcorr_delay recovers the delay exactly (scalings 'none' and 'energy'), peak value the energy or 1 *)
Lemma shift_xcorr : forall dt a b s sc, 0 < energy a -> delayed_by a b s -> (2 <= length a)%nat ->
  (lower sc = "none"%string -> xcorr_delay dt a b sc = Ok (IZR s * dt, Fin (energy a))) /\
  (lower sc = "energy"%string -> xcorr_delay dt a b sc = Ok (IZR s * dt, Fin 1)).
Proof.
  intros dt a b s sc Ep H Ha.
  assert (Na : a <> []) by (intros ->; cbn in Ha; lia).
  assert (Nb : b <> []) by (intros ->; destruct H as [El _]; destruct a; [easy|discriminate]).
  pose proof (delayed_range a b s Ep H) as Rg.
  split; intro Es.
  - destruct (xcorr_delay_fin dt a b sc (lag_sum a b) Ha Nb) as [L [E [HL M]]].
    + rewrite Es. cbn. tauto.
    + intros. rewrite Es. reflexivity.
    + assert (L = - s)%Z.
      { destruct (Z.eq_dec L (- s)) as [|N]; auto. exfalso.
        destruct (M (- s)%Z Rg) as [M1 _]. rewrite !(delayed_lag_sum a b s _ H), Z.add_opp_diag_l, lag_sum_self in M1.
        pose proof (auto_strict a (L + s) Ep ltac:(lia)). lra. }
      subst L. rewrite E, (delayed_lag_sum a b s _ H), Z.add_opp_diag_l, lag_sum_self, opp_IZR. f_equal. f_equal. ring.
  - destruct (xcorr_delay_fin dt a b sc (fun L => lag_sum a b L / energy a) Ha Nb) as [L [E [HL M]]].
    + rewrite Es. cbn. tauto.
    + intros. rewrite Es. change (energy_val a b L = Fin (lag_sum a b L / energy a)). unfold energy_val. apply fdiv_fin. lra.
    + assert (L = - s)%Z.
      { destruct (Z.eq_dec L (- s)) as [|N]; auto. exfalso.
        destruct (M (- s)%Z Rg) as [M1 _]. rewrite !(delayed_lag_sum a b s _ H), Z.add_opp_diag_l, lag_sum_self in M1.
        pose proof (auto_strict a (L + s) Ep ltac:(lia)) as Lt.
        apply (Rmult_le_compat_r (energy a)) in M1; [|lra]. unfold Rdiv in M1. rewrite !Rmult_assoc, Rinv_l in M1 by lra. lra. }
      subst L. rewrite E, (delayed_lag_sum a b s _ H), Z.add_opp_diag_l, lag_sum_self, opp_IZR. f_equal. f_equal; [ring|].
      f_equal. field. lra.
Qed.

(*@ C45 and compute_delays (loop, 'none') recovers it for every such pair of a table, unless the energy is below 1e-10 *)
Lemma shift_delays : forall dt n ins outs D i a b s, dt <> 0 -> (2 <= n)%nat ->
  length ins = length outs -> ins <> [] -> table n ins -> table n outs ->
  compute_delays dt n n ins outs "loop" "none" = Ok D ->
  nth_error ins i = Some a -> nth_error outs i = Some b -> delayed_by a b s -> / 10 ^ 10 <= energy a ->
  nth_error (d_delay D) i = Some (IZR s * dt) /\ nth_error (d_peak D) i = Some (Fin (energy a)).
Proof.
  intros dt n ins outs D i a b s Hd Hn El Ni Ti To E Ha Hb H Ep.
  destruct (delays_loop dt n ins outs "none" Hd Hn El Ni Ti To (or_intror eq_refl)) as [D' [zero' [E' [_ [_ [_ [_ [_ V]]]]]]]].
  assert (D' = D) by congruence. subst D'.
  destruct (V i a b Ha Hb) as [r [d [p [z [Er [Ex [Az [Vp [Vd _]]]]]]]]].
  assert (La : length a = n) by (apply nth_error_In in Ha; unfold table in Ti; rewrite Forall_forall in Ti; auto).
  assert (P10 : 0 < / 10 ^ 10) by (apply Rinv_0_lt_compat, pow_lt; lra).
  destruct (shift_xcorr dt a b s "none" ltac:(lra) H ltac:(lia)) as [X _]. specialize (X eq_refl).
  assert (d = IZR s * dt) by congruence. assert (p = Fin (energy a)) by congruence. subst d p.
  split; [|exact Vp]. rewrite Vd. f_equal. unfold fltb. rewrite Rltb_false; [reflexivity|exact Ep].
Qed.

(** ** Concrete cases *)
Lemma pulse_delayed : delayed_by [0; 1; 2; 0; 0] [0; 0; 0; 1; 2] 2.
Proof.
  split; [reflexivity|]. split.
  - intros n Hn. cbn in Hn. do 5 (destruct n as [|n]; [reflexivity|]). lia.
  - intros i N. cbn [length]. destruct (Z.ltb_spec i 1) as [L|L].
    + exfalso. apply N. destruct (Z.eq_dec i 0) as [-> | N0]; [reflexivity|]. apply at0_out. lia.
    + destruct (Z.ltb_spec i 3); [lia|]. exfalso. apply N.
      destruct (Z.eq_dec i 3) as [-> | N3]; [reflexivity|]. destruct (Z.eq_dec i 4) as [-> | N4]; [reflexivity|].
      apply at0_out. cbn. lia.
Qed.
Definition two_in : list (list R) := [[0; 1; 2; 0; 0]; [7; 7; 7; 7; 7]].
Definition two_out : list (list R) := [[0; 0; 0; 1; 2]; [0; 1; 2; 0; 0]].
(*@ex C44 two columns, one of them constant: the constant one gets delay 4 steps and NaN *)
Lemma delays_ex : table 5 two_in /\ table 5 two_out /\
  exists D, compute_delays 1 5 5 two_in two_out "loop" "coeff" = Ok D /\
  nth_error (d_delay D) 1 = Some 4 /\ nth_error (d_peak D) 1 = Some Nan.
Proof.
  assert (T1 : table 5 two_in) by (repeat constructor).
  assert (T2 : table 5 two_out) by (repeat constructor).
  assert (Ne : two_in <> []) by discriminate. assert (N1 : 1 <> 0) by lra.
  destruct (delays_loop 1 5 two_in two_out "coeff" N1 ltac:(lia) eq_refl Ne T1 T2 (or_introl eq_refl)) as [D [z [E [Ez _]]]].
  split; [exact T1|]. split; [exact T2|]. exists D. split; [exact E|].
  destruct (delays_constant 1 5 two_in two_out D z 1 [7; 7; 7; 7; 7] [0; 1; 2; 0; 0] N1 ltac:(lia) eq_refl Ne T1 T2 E Ez eq_refl eq_refl) as [A [B _]].
  - left. intros x y Hx Hy. cbn in Hx, Hy. intuition congruence.
  - split; auto. rewrite A. f_equal. cbn. lra.
Qed.
(*@ex C45 a pulse delayed by two samples at one sample per 10 s: delay 20 s *)
Lemma shift_ex : delayed_by [0; 1; 2; 0; 0] [0; 0; 0; 1; 2] 2 /\
  xcorr_delay 10 [0; 1; 2; 0; 0] [0; 0; 0; 1; 2] "none" = Ok (2 * 10, Fin (energy [0; 1; 2; 0; 0])).
Proof.
  split; [apply pulse_delayed|]. apply (shift_xcorr 10 _ _ 2 "none").
  - unfold energy. cbn. lra.
  - apply pulse_delayed.
  - cbn. lia.
  - reflexivity.
Qed.
