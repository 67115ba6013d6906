(** compute_cmv joined to the delay estimators: what compute_cmv is told about a pair of signals. *)
From Coq Require Import String Lra Psatz.
From Verif Require Import Prelude PreludeFacts RealBase Fl RealStat P_list M_spatial M_cmv M_signal_corr M_signal_tf M_link Spec_signal Spec_welch Spec_cmv P_signal P_corr P_delay X_signal_corr X_signal_delay X_signal_tf X_signal_tfx.
From Verif Require M_cmv M_signal_corr.
Local Open Scope R_scope.

(** The lag (in samples) of the largest normalised cross-correlation; the smallest such lag. *)
Definition best_lag (n : nat) (x y : list R) (L : Z) : Prop :=
  lag_of n n L /\ forall L', lag_of n n L' -> ncc x y L' <= ncc x y L /\ (ncc x y L' = ncc x y L -> (L <= L')%Z).
(** The two signals are free of gaps and neither is constant. *)
Definition informative (a b : list (option R)) (x y : list R) : Prop :=
  a = map Some x /\ b = map Some y /\ ~ constant x /\ ~ constant y.
(** Every signal has [n] samples. *)
Definition samples (n : nat) (A : list (list (option R))) : Prop := Forall (fun s => length s = n) A.
(** The least-squares solver answers with as many parameters as it was started with. *)
Definition keeps_count (ls : (list R -> list R) -> list R -> list R) : Prop := forall f s, length (ls f s) = length s.

Lemma complete_some s : complete s = true -> exists x, s = map Some x.
Proof.
  induction s as [|[v|] s IH]; intro H; [exists []; reflexivity| |discriminate].
  destruct (IH H) as [x ->]. exists (v :: x). reflexivity.
Qed.
Lemma complete_map x : complete (map Some x) = true.
Proof. induction x; [reflexivity|]. cbn. exact IHx. Qed.

Lemma pairs_length n A B : length A = length B -> length (usable_pairs n A B) = length A.
Proof. intro E. unfold usable_pairs. rewrite map_length, combine_length. lia. Qed.
Lemma nth_combine {X Y} (A : list X) (B : list Y) i a b : nth_error A i = Some a -> nth_error B i = Some b -> nth_error (combine A B) i = Some (a, b).
Proof. revert B i. induction A as [|u A IH]; intros [|v B] [|i]; cbn; try discriminate; [congruence|apply IH]. Qed.
Lemma pairs_nth n A B i a b : nth_error A i = Some a -> nth_error B i = Some b ->
  nth_error (usable_pairs n A B) i = Some (usable_pair n (a, b)).
Proof. intros Ha Hb. unfold usable_pairs. erewrite map_nth_error; [reflexivity|now apply nth_combine]. Qed.
Lemma pairs_table n A B : samples n A -> samples n B -> length A = length B ->
  table n (map fst (usable_pairs n A B)) /\ table n (map snd (usable_pairs n A B)).
Proof.
  intros HA HB E. unfold table. rewrite !Forall_map. unfold usable_pairs. rewrite !Forall_map.
  assert (G : Forall (fun p : list (option R) * list (option R) => length (fst p) = n /\ length (snd p) = n) (combine A B)).
  { apply Forall_forall. intros [a b] I. pose proof (in_combine_l _ _ _ _ I) as Ia. pose proof (in_combine_r _ _ _ _ I) as Ib.
    unfold samples in *. rewrite Forall_forall in HA, HB. cbn. auto. }
  split; (eapply Forall_impl; [|exact G]); intros [a b] [La Lb]; cbn [fst snd] in *; unfold usable_pair; cbn [fst snd];
    destruct (complete a) eqn:Ca; destruct (complete b) eqn:Cb; cbn [andb fst snd]; try apply repeat_length;
    apply complete_some in Ca, Cb; destruct Ca as [x ->], Cb as [y ->]; rewrite map_length in *; rewrite present_map_Some; assumption.
Qed.
Lemma seen_length k n A B : length A = length B -> length (seen_pairs k n A B) = length A.
Proof. intro E. unfold seen_pairs. rewrite map_length, combine_length. lia. Qed.
Lemma seen_nth k n A B i a b : nth_error A i = Some a -> nth_error B i = Some b ->
  nth_error (seen_pairs k n A B) i = Some (seen_pair k n (a, b)).
Proof. intros Ha Hb. unfold seen_pairs. erewrite map_nth_error; [reflexivity|now apply nth_combine]. Qed.
Lemma filled_some x : filled (map Some x) = x.
Proof. unfold filled. rewrite map_map. apply map_id. Qed.
Lemma seen_some k n x y : seen_pair k n (map Some x, map Some y) = (x, y).
Proof. unfold seen_pair. cbn [fst snd]. rewrite !firstn_map, !complete_map, !filled_some. reflexivity. Qed.
Lemma seen_lengths k n a b : length a = n -> length b = n -> length (fst (seen_pair k n (a, b))) = n /\ length (snd (seen_pair k n (a, b))) = n.
Proof. intros La Lb. unfold seen_pair. cbn [fst snd]. destruct (_ && _)%bool; cbn [fst snd]; unfold filled; rewrite ?map_length, ?repeat_length; auto. Qed.
Lemma blanked_length A B f : length A = length B -> length f = length A -> length (blanked A B f) = length A.
Proof. intros E L. unfold blanked. rewrite map2_length; rewrite combine_length; lia. Qed.
Lemma blanked_nth A B f i a b v : nth_error A i = Some a -> nth_error B i = Some b -> nth_error f i = Some v ->
  nth_error (blanked A B f) i = Some (if (complete a && complete b)%bool then v else Nan).
Proof. intros Ha Hb Hf. unfold blanked. rewrite nth_error_map2, (nth_combine _ _ _ _ _ Ha Hb), Hf. reflexivity. Qed.
Lemma constant_dec (x : list R) : constant x \/ ~ constant x.
Proof.
  destruct x as [|x0 r]; [left; intros ? ? []|]. 
  assert (D : (forall z, In z r -> z = x0) \/ (exists z, In z r /\ z <> x0)).
  { induction r as [|y r IH]; [left; intros z []|]. destruct (Req_dec y x0) as [->|N]; [|right; exists y; cbn; auto].
    destruct IH as [A|(z & I & N)]; [left; intros z [<-|I]; auto|right; exists z; cbn; auto]. }
  destruct D as [A|(z & I & N)].
  - left. intros u v [<-|U] [<-|V]; try rewrite (A u U); try rewrite (A v V); reflexivity.
  - right. intro K. apply N. apply K; cbn; auto.
Qed.
Lemma constant_repeat n : constant (repeat 0 n).
Proof. intros x y Hx Hy. apply repeat_spec in Hx, Hy. congruence. Qed.

(** Either a pair is informative, or what the backends see contains a constant column. *)
Lemma usable_cases n a b : length a = n -> length b = n ->
  (exists x y, informative a b x y /\ usable_pair n (a, b) = (x, y) /\ length x = n /\ length y = n) \/
  ((forall x y, ~ informative a b x y) /\ constant (fst (usable_pair n (a, b))) \/ constant (snd (usable_pair n (a, b))) /\ (forall x y, ~ informative a b x y)).
Proof.
  intros La Lb. unfold usable_pair. cbn [fst snd].
  destruct (complete a) eqn:Ca; [destruct (complete b) eqn:Cb|]; cbn [andb fst snd].
  - apply complete_some in Ca, Cb. destruct Ca as [x ->], Cb as [y ->]. rewrite map_length in *. rewrite !present_map_Some.
    assert (Inj : forall u v : list R, map Some u = map Some v -> u = v).
    { intros u v E. rewrite <- (present_map_Some u), <- (present_map_Some v). now rewrite E. }
    destruct (constant_dec x) as [Kx|Kx]; [right; left; split; [|exact Kx]|destruct (constant_dec y) as [Ky|Ky]; [right; right; split; [exact Ky|]|]].
    + intros u v (E1 & E2 & K1 & K2). apply Inj in E1. subst. contradiction.
    + intros u v (E1 & E2 & K1 & K2). apply Inj in E2. subst. contradiction.
    + left. exists x, y. repeat split; auto.
  - right. left. split; [|apply constant_repeat]. intros u v (_ & -> & _). rewrite complete_map in Cb. discriminate.
  - right. left. split; [|apply constant_repeat]. intros u v (-> & _). rewrite complete_map in Ca. discriminate.
Qed.

Lemma ncc_coeff n x y L : length x = n -> length y = n -> ~ constant x -> ~ constant y ->
  fmul (Fin (lag_sum (centred x) (centred y) L)) (coeff_factor n x y) = Fin (ncc x y L).
Proof.
  intros Lx Ly Kx Ky. unfold ncc. rewrite <- (coeff_val_fin x y L); [|congruence|exact Kx|exact Ky]. rewrite coeff_val_mul, Lx. reflexivity.
Qed.
Lemma peak_lag_best n x y : (2 <= n)%nat -> length x = n -> length y = n -> ~ constant x -> ~ constant y ->
  best_lag n x y (peak_lag n (centred x) (centred y)).
Proof.
  intros Hn Lx Ly Kx Ky. destruct (argmax_lags (lag_sum (centred x) (centred y)) n n) as (A & _ & B); [lia|lia|].
  apply centred_energy_pos in Kx, Ky. apply sqrt_lt_R0 in Kx, Ky.
  assert (P : 0 < sqrt (energy (centred x)) * sqrt (energy (centred y))) by now apply Rmult_lt_0_compat.
  split; [exact A|]. intros L' HL. destruct (B L' HL) as [B1 B2]. fold (peak_lag n (centred x) (centred y)) in *. unfold ncc. split.
  - unfold Rdiv. apply Rmult_le_compat_r; [|exact B1]. left. now apply Rinv_0_lt_compat.
  - intro E. apply B2. unfold Rdiv in E. apply Rmult_eq_reg_r in E; [exact E|]. apply Rinv_neq_0_compat. lra.
Qed.
Lemma best_lag_unique n x y L L' : best_lag n x y L -> best_lag n x y L' -> L = L'.
Proof.
  intros [A B] [A' B']. destruct (B L' A') as [B1 B2]. destruct (B' L A) as [B3 B4].
  assert (ncc x y L = ncc x y L') by lra. specialize (B2 (eq_sym H)). specialize (B4 H). lia.
Qed.

(*@ C94 What the 'xcorr' backend tells compute_cmv about each pair of equally long records. Two gap-free, non-constant
    signals: the delay is minus the smallest lag of largest normalised cross-correlation (0 for a peak below 1e-10), the
    peak is that correlation, the mean correlation is exactly 0 whatever the data, the zero-lag value is Pearson's
    coefficient. Any other pair: NaN figures with a spurious delay of (n - 1) steps. *)
Lemma xcorr_backend_tells : forall dt n A B, dt <> 0 -> (2 <= n)%nat -> length A = length B -> A <> [] -> samples n A -> samples n B ->
  exists d zs, xcorr_backend dt n A B = Ok d /\ M_cmv.d_zero d = Some zs /\ d_coh d = None /\
    length (M_cmv.d_delay d) = length A /\ length (M_cmv.d_peak d) = length A /\ length (M_cmv.d_mean d) = length A /\ length zs = length A /\
    forall i a b, nth_error A i = Some a -> nth_error B i = Some b ->
      (forall x y, informative a b x y -> exists L, best_lag n x y L /\
         nth_error (M_cmv.d_delay d) i = Some (Fin (if Rlt_dec (ncc x y L) (/ 10 ^ 10) then 0 else - (IZR L * dt))) /\
         nth_error (M_cmv.d_peak d) i = Some (Fin (ncc x y L)) /\ nth_error (M_cmv.d_mean d) i = Some (Fin 0) /\
         nth_error zs i = Some (Fin (pearson x y))) /\
      ((forall x y, ~ informative a b x y) ->
         nth_error (M_cmv.d_delay d) i = Some (Fin (INR (n - 1) * dt)) /\ nth_error (M_cmv.d_peak d) i = Some Nan /\
         nth_error (M_cmv.d_mean d) i = Some Nan /\ nth_error zs i = Some Nan).
Proof.
  intros dt n A B Hd Hn El NA SA SB. destruct (pairs_table n A B SA SB El) as [T1 T2].
  set (ps := usable_pairs n A B) in *. assert (Lp : length ps = length A) by now apply pairs_length.
  assert (Np : map fst ps <> []) by (destruct ps; [destruct A; [easy|discriminate]|discriminate]).
  assert (Le : length (map fst ps) = length (map snd ps)) by now rewrite !map_length.
  pose proof (loop_coeff dt n n (map fst ps) (map snd ps) Hd Hn Le Np T1 T2) as E. cbv zeta in E.
  destruct (delays_loop dt n (map fst ps) (map snd ps) "coeff" Hd Hn Le Np T1 T2 (or_introl eq_refl)) as (D & z & ED & EZ & L1 & L2 & L3 & L4 & V).
  unfold xcorr_backend. fold ps. rewrite ED. cbn [rbind]. rewrite EZ.
  eexists. exists z. split; [reflexivity|]. cbn [M_cmv.d_zero d_coh M_cmv.d_delay M_cmv.d_peak M_cmv.d_mean].
  split; [reflexivity|]. split; [reflexivity|]. rewrite map_length, L1, L2, L3, L4, map_length, Lp. repeat (split; [reflexivity|]).
  intros i a b Ha Hb. pose proof (pairs_nth n A B i a b Ha Hb) as Hp. fold ps in Hp.
  assert (P1 : nth_error (map fst ps) i = Some (fst (usable_pair n (a, b)))) by now apply map_nth_error.
  assert (P2 : nth_error (map snd ps) i = Some (snd (usable_pair n (a, b)))) by now apply map_nth_error.
  assert (La : length a = n) by (unfold samples in SA; rewrite Forall_forall in SA; apply SA; eapply nth_error_In; eauto).
  assert (Lb : length b = n) by (unfold samples in SB; rewrite Forall_forall in SB; apply SB; eapply nth_error_In; eauto).
  destruct (usable_cases n a b La Lb) as [(x & y & I & U & Lx & Ly)|C].
  - split; [|intro N; now apply N in I]. intros x' y' I'.
    assert (x' = x /\ y' = y) as [-> ->].
    { destruct I as (E1 & E2 & _), I' as (E1' & E2' & _). split; [rewrite <- (present_map_Some x'), <- (present_map_Some x); congruence|rewrite <- (present_map_Some y'), <- (present_map_Some y); congruence]. }
    rewrite U in P1, P2. cbn [fst snd] in P1, P2. destruct I as (_ & _ & Kx & Ky).
    exists (peak_lag n (centred x) (centred y)). split; [now apply peak_lag_best|].
    rewrite E in ED. apply (f_equal (fun r => match r with Ok d => d | Err _ => D end)) in ED. cbv beta iota in ED. rewrite <- ED in EZ |- *. cbn [M_signal_corr.d_delay M_signal_corr.d_peak M_signal_corr.d_mean M_signal_corr.d_zero] in EZ |- *. apply (f_equal (fun r => match r with Flat q => q | Cube _ => z end)) in EZ. cbv beta iota in EZ. rewrite <- EZ.
    rewrite nth_error_map, !nth_error_map2, P1, P2. cbn [option_map]. rewrite !ncc_coeff by assumption.
    unfold zap. cbn [fltb]. split; [|split; [reflexivity|split; [|reflexivity]]].
    + destruct (Rltb_spec (ncc x y (peak_lag n (centred x) (centred y))) (/ 10 ^ 10)), (Rlt_dec (ncc x y (peak_lag n (centred x) (centred y))) (/ 10 ^ 10)); try reflexivity; contradiction.
    + rewrite <- (delays_mean_zero dt n (map fst ps) (map snd ps) _ i x y Hd Hn Le Np T1 T2 E P1 P2 Kx Ky).
      cbn [M_signal_corr.d_mean]. now rewrite nth_error_map2, P1, P2.
  - assert (Ki : constant (fst (usable_pair n (a, b))) \/ constant (snd (usable_pair n (a, b)))) by tauto.
    assert (Ni : forall x y, ~ informative a b x y) by tauto.
    split; [intros x y I; now apply Ni in I|]. intros _.
    destruct (delays_constant dt n (map fst ps) (map snd ps) D z i _ _ Hd Hn Le Np T1 T2 ED EZ P1 P2 Ki) as (D1 & D2 & D3 & D4).
    rewrite nth_error_map, D1. auto.
Qed.

Lemma loop_rows_length lags : forall outs ins rows, loop_rows lags ins outs = Ok rows -> length rows = length ins.
Proof.
  induction outs as [|b outs IH]; intros [|a ins] rows E; cbn in E; try discriminate; try (injection E as <-; cbn; now rewrite ?map_length).
  destruct (loop_row lags a b); [|discriminate]. cbn in E. destruct (loop_rows lags ins outs) eqn:Q; [|discriminate]. cbn in E.
  injection E as <-. cbn. f_equal. now apply IH.
Qed.
Lemma mul_inplace_length v sc r : mul_inplace v sc = Ok r -> length r = length v.
Proof.
  unfold mul_inplace. destruct sc as [s|]; [|intro E; injection E as <-; apply map_length].
  destruct (Nat.eqb_spec (length v) (length s)); [intro E; injection E as <-; now apply map2_length|].
  destruct s as [|k [|? ?]]; intro E; try discriminate. injection E as <-. apply map_length.
Qed.

(*@ C94 Both backends answer once per pair, whatever the tables (the solver keeping its number of parameters). *)
Lemma backends_answer : forall dt n ls win dtr,
  one_answer_per_pair (xcorr_backend dt n) /\ (keeps_count ls -> one_answer_per_pair (tf_backend ls win dtr dt n)).
Proof.
  intros dt n ls win dtr. split.
  - intros A B d El E. unfold xcorr_backend in E. set (ps := usable_pairs n A B) in *.
    assert (Lp : length ps = length A) by now apply pairs_length.
    destruct (compute_delays dt n n (map fst ps) (map snd ps) "loop" "coeff") as [D|] eqn:Q; [|discriminate]. cbn [rbind] in E.
    injection E as <-. cbn [M_cmv.d_delay M_cmv.d_peak M_cmv.d_mean]. rewrite map_length.
    unfold compute_delays in Q. destruct (Nat.ltb n 2); [discriminate|]. unfold scale_rows in Q. cbn [String.eqb Ascii.eqb Bool.eqb] in Q.
    destruct (bcast2 _ _ _) as [sc|]; [|discriminate]. cbn [rbind] in Q.
    set (i1 := map demean (map fst ps)) in *. set (o1 := map demean (map snd ps)) in *.
    assert (Li : length i1 = length A) by (unfold i1; now rewrite !map_length).
    assert (G : forall lags D, (let! rows := loop_rows lags i1 o1 in
          let! peak := mul_inplace (map (fun r => snd (fst (fst r))) rows) (Some sc) in
          let! mean := mul_inplace (map (fun r => snd (fst r)) rows) (Some sc) in
          let! zero := mul_inplace (map snd rows) (Some sc) in
          Ok (mkDelays (quiet_to_zero (map (fun r => fst (fst (fst r))) rows) peak) peak mean (Flat zero))) = Ok D ->
       length (M_signal_corr.d_delay D) = length A /\ length (M_signal_corr.d_peak D) = length A /\ length (M_signal_corr.d_mean D) = length A).
    { intros lags D0 W. destruct (loop_rows lags i1 o1) as [rows|] eqn:RW; [|discriminate]. cbn [rbind] in W. apply loop_rows_length in RW.
      destruct (mul_inplace _ _) as [pk|] eqn:PK in W; [|discriminate]. cbn [rbind] in W.
      destruct (mul_inplace _ _) as [mn|] eqn:MN in W; [|discriminate]. cbn [rbind] in W.
      destruct (mul_inplace _ _) as [zr|] eqn:ZR in W; [|discriminate]. cbn [rbind] in W. injection W as <-.
      apply mul_inplace_length in PK, MN. rewrite map_length in PK, MN. cbn. unfold quiet_to_zero. rewrite map2_length by (rewrite map_length; congruence).
      rewrite map_length. repeat split; congruence. }
    destruct i1; destruct o1; try discriminate. exact (G _ _ Q).
  - intros KC A B d El E. unfold tf_backend in E. set (ps := seen_pairs _ n A B) in *.
    assert (Lp : length ps = length A) by now apply seen_length.
    set (ins := map (pair ""%string) (map fst ps)) in *. set (outs := map (pair ""%string) (map snd ps)) in *.
    assert (Li : length ins = length A) by (unfold ins; now rewrite !map_length).
    assert (Lo : length outs = length A) by (unfold outs; now rewrite !map_length).
    destruct (compute_delays_tf _ _ _ _ _ _ _ _ _ _ _ _ _ _) as [[delay ex]|] eqn:Q; [|discriminate]. cbn [rbind] in E.
    destruct (te_xcorr ex) as [[[pk mn] zr]|] eqn:X; [|discriminate]. injection E as <-. cbn [M_cmv.d_delay M_cmv.d_peak M_cmv.d_mean]. rewrite map_length.
    unfold compute_delays_tf in Q. destruct (_ && _)%bool; [discriminate|].
    destruct (averaged_tf _ _ _ _ _ _ _ _ _ _) as [[freqs tfs]|] eqn:T; [|discriminate]. cbn [rbind String.eqb Ascii.eqb Bool.eqb] in Q.
    assert (LT : length tfs = length A).
    { unfold averaged_tf in T. destruct (sample_rate dt n); [|discriminate]. cbn [rbind] in T.
      unfold pair_columns in T. rewrite Li, Lo, Nat.eqb_refl in T. cbn [rbind] in T.
      destruct (segmenting n 5 (1 / 2)) as [[np nov]|]; [|discriminate]. cbn [rbind] in T. destruct (psd_scale _ _ _ _ _); [|discriminate]. cbn [rbind] in T.
      destruct (some_column _); [|discriminate]. cbn [rbind] in T.
      injection T as _ <-. rewrite map_length, map2_length; congruence. }
    destruct (tf_delay ls freqs (map snd tfs) (Some (6 / 10)) (Some (2 / 100)) "multi") as [[dl ix]|] eqn:TD; [|discriminate]. cbn [rbind] in Q.
    destruct (mapM _ _) as [rows|] eqn:MM; [|discriminate]. cbn [rbind] in Q. injection Q as <- <-. cbn [te_xcorr] in X. injection X as <- <- <-.
    apply mapM_length in MM. rewrite seq_length, Li, Lo, Nat.max_id in MM. rewrite !blanked_length by (rewrite ?map_length; auto).
    unfold tf_delay in TD. cbn [String.eqb Ascii.eqb Bool.eqb] in TD. destruct (map snd tfs) as [|c cs] eqn:CS; [discriminate|]. rewrite <- CS in TD.
    injection TD as <- _. unfold delay_multi. rewrite map2_length by (rewrite KC, !map_length; reflexivity). rewrite map_length. auto.
Qed.
