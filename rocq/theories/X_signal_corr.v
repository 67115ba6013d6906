(** Cross-correlation: values, lags, scalings (C41-C43). *)
From Coq Require Import String.
From Verif Require Import Prelude RealBase Fl RealStat Spec_signal M_cmv M_signal_corr P_signal P_corr.
From Coq Require Import Lra Psatz.
Local Open Scope R_scope.

(*@ C41 the full lag axis in increasing order, one value per lag, for every accepted scaling *)
Lemma corr_axis : forall a b s r, a <> [] -> b <> [] -> correlation a b s = Ok r ->
  length (snd r) = (length a + length b - 1)%nat /\ length (fst r) = length (snd r) /\
  forall k, (k < length (snd r))%nat ->
    nth_error (snd r) k = Some (Z.of_nat k - (Z.of_nat (length b) - 1))%Z.
Proof.
  intros a b s r Na Nb E. pose proof (ne_len b Nb).
  assert (K : known_scaling (lower s)).
  { destruct (in_dec string_dec (lower s) ["energy"; "coeff"; "unbiased_energy"; "unbiased_coeff"; "none"]%string) as [I|N]; auto.
    rewrite correlation_unknown in E by exact N. discriminate. }
  rewrite correlation_eq in E by auto.
  assert (r = (map (scale_val a b (lower s)) (correlation_lags (length a) (length b)), correlation_lags (length a) (length b))) by congruence.
  subst r. cbn [fst snd]. rewrite map_length, lags_length. repeat split.
  intros k Hk. destruct (nth_error (correlation_lags (length a) (length b)) k) as [L|] eqn:F.
  - rewrite (lags_nth _ _ _ _ F). f_equal. lia.
  - apply nth_error_None in F. rewrite lags_length in F. lia.
Qed.

(*@ C41 unscaled: the value at lag L is the overlap sum, at every lag -(len b - 1) .. len a - 1 and at no other *)
Lemma corr_none : forall a b s, a <> [] -> b <> [] -> lower s = "none"%string ->
  exists r, correlation a b s = Ok r /\
    forall L v, at_lag r L v <-> lag_of (length a) (length b) L /\ v = Fin (lag_sum a b L).
Proof.
  intros a b s Na Nb E. rewrite correlation_eq; auto.
  - eexists. split; [reflexivity|]. intros L v. rewrite E. change (scale_val a b "none") with (fun L => Fin (lag_sum a b L)).
    rewrite at_lag_map, lags_In by (now apply ne_len). reflexivity.
  - rewrite E. cbn. tauto.
Qed.

(*@ C41 swapping the signals reverses the lag axis and the values *)
Lemma corr_swap : forall a b s r r', a <> [] -> b <> [] -> lower s = "none"%string ->
  correlation a b s = Ok r -> correlation b a s = Ok r' ->
  fst r' = rev (fst r) /\ (forall L v, at_lag r' L v <-> at_lag r (- L) v).
Proof.
  intros a b s r r' Na Nb E E1 E2.
  assert (K : known_scaling (lower s)) by (rewrite E; cbn; tauto).
  rewrite correlation_eq in E1, E2 by auto. rewrite E in E1, E2.
  change (scale_val a b "none") with (fun L => Fin (lag_sum a b L)) in E1.
  change (scale_val b a "none") with (fun L => Fin (lag_sum b a L)) in E2.
  assert (R1 : r = (map (fun L => Fin (lag_sum a b L)) (correlation_lags (length a) (length b)), correlation_lags (length a) (length b))) by congruence.
  assert (R2 : r' = (map (fun L => Fin (lag_sum b a L)) (correlation_lags (length b) (length a)), correlation_lags (length b) (length a))) by congruence.
  pose proof (ne_len a Na). pose proof (ne_len b Nb).
  subst r r'. split.
  - cbn [fst]. rewrite <- map_rev.
    assert (G : correlation_lags (length b) (length a) = map Z.opp (rev (correlation_lags (length a) (length b)))).
    { unfold correlation_lags. rewrite <- map_rev, map_map.
      apply nth_ext with (d := 0%Z) (d' := 0%Z).
      - rewrite !map_length, rev_length, !seq_length. lia.
      - intros k Hk. rewrite map_length, seq_length in Hk.
        rewrite nth_indep with (d' := (Z.of_nat 0 - Z.of_nat (length a - 1))%Z) by (now rewrite map_length, seq_length).
        rewrite (map_nth (fun k => (Z.of_nat k - Z.of_nat (length a - 1))%Z)), seq_nth by lia.
        rewrite nth_indep with (d' := (- (Z.of_nat 0 - Z.of_nat (length b - 1)))%Z) by (rewrite map_length, rev_length, seq_length; lia).
        rewrite (map_nth (fun k => (- (Z.of_nat k - Z.of_nat (length b - 1)))%Z)), rev_nth by (rewrite seq_length; lia).
        rewrite seq_length, seq_nth by lia. lia. }
    rewrite G, map_map. apply map_ext. intro L. now rewrite lag_sum_swap, Z.opp_involutive.
  - intros L v. rewrite !at_lag_map, !lags_In by auto. rewrite (lag_sum_swap a b). unfold lag_of.
    split; intros [P ->]; (split; [lia|reflexivity]).
Qed.

(*@ C42 scaling names: case does not matter, the five names succeed, every other name is a ValueError *)
Lemma corr_names : forall a b s, a <> [] -> b <> [] ->
  correlation a b s = correlation a b (lower s) /\
  (known_scaling (lower s) -> exists r, correlation a b s = Ok r) /\
  (~ known_scaling (lower s) -> correlation a b s = Err ValueError).
Proof.
  intros a b s Na Nb. split; [|split].
  - unfold correlation. replace (lower (lower s)) with (lower s); [reflexivity|].
    symmetry. induction s as [|c s IH]; cbn; [reflexivity|]. rewrite IH. f_equal.
    destruct c as [[] [] [] [] [] [] [] []]; reflexivity.
  - intro K. rewrite correlation_eq by auto. eauto.
  - apply correlation_unknown.
Qed.

(*@ C42 'coeff' of equally long non-constant signals: the normalised overlap of the deviations from the mean *)
Lemma corr_coeff : forall a b s, length b = length a -> ~ constant a -> ~ constant b -> lower s = "coeff"%string ->
  exists r, correlation a b s = Ok r /\
    forall L v, at_lag r L v <-> lag_of (length a) (length b) L /\
      v = Fin (lag_sum (centred a) (centred b) L / (sqrt (energy (centred a)) * sqrt (energy (centred b)))).
Proof.
  intros a b s E Ka Kb Es.
  assert (Na : a <> []) by (intros ->; apply Ka; now intros x y []).
  assert (Nb : b <> []) by (intros ->; apply Kb; now intros x y []).
  rewrite correlation_eq; auto.
  - eexists. split; [reflexivity|]. intros L v. rewrite Es. change (scale_val a b "coeff") with (coeff_val a b).
    rewrite at_lag_map, lags_In, coeff_val_fin by (auto using ne_len). reflexivity.
  - rewrite Es. cbn. tauto.
Qed.

(*@ C42 its values lie in [-1,1] and the value at lag 0 is Pearson's coefficient *)
Lemma corr_coeff_bounded : forall a b s r, length b = length a -> ~ constant a -> ~ constant b ->
  lower s = "coeff"%string -> correlation a b s = Ok r ->
  (forall L v, at_lag r L v -> exists x, v = Fin x /\ -1 <= x <= 1) /\
  at_lag r 0 (Fin (pearson a b)).
Proof.
  intros a b s r E Ka Kb Es Er. destruct (corr_coeff a b s E Ka Kb Es) as [r' [E' V]].
  assert (r' = r) by congruence. subst r'. split.
  - intros L v H. apply V in H as [_ ->]. eexists. split; [reflexivity|].
    apply ratio_bound; try (now apply centred_energy_pos). apply lag_sum_cs.
  - apply V. split; [|reflexivity].
    assert (Na : a <> []) by (intros ->; apply Ka; now intros x y []). apply ne_len in Na. unfold lag_of. lia.
Qed.

(*@ C42 a non-constant signal correlates with itself with value 1 at lag 0, the largest value *)
Lemma corr_coeff_auto : forall a s r, ~ constant a -> lower s = "coeff"%string -> correlation a a s = Ok r ->
  at_lag r 0 (Fin 1) /\ (forall L v, at_lag r L v -> exists x, v = Fin x /\ x <= 1).
Proof.
  intros a s r Ka Es Er. destruct (corr_coeff_bounded a a s r eq_refl Ka Ka Es Er) as [B P]. split.
  - replace 1 with (pearson a a); auto. unfold pearson. rewrite lag_sum_self.
    apply centred_energy_pos in Ka. rewrite sqrt_sqrt by lra. field. lra.
  - intros L v H. destruct (B L v H) as [x [-> Hx]]. exists x. split; [reflexivity|lra].
Qed.

(*@ C42 adding constants to, or positively rescaling, either signal changes nothing; negative rescaling flips every sign *)
Lemma corr_coeff_affine : forall a b s c d, a <> [] -> b <> [] ->
  lower s = "coeff"%string \/ lower s = "unbiased_coeff"%string ->
  (0 < c -> correlation (map (fun x => c * x + d) a) b s = correlation a b s) /\
  (0 < c -> correlation a (map (fun x => c * x + d) b) s = correlation a b s) /\
  (c < 0 -> forall r, correlation a b s = Ok r ->
     correlation (map (fun x => c * x + d) a) b s = Ok (map fopp (fst r), snd r)).
Proof.
  intros a b s c d Na Nb Es.
  assert (K : known_scaling (lower s)) by (destruct Es as [-> | ->]; cbn; tauto).
  assert (Ma : map (fun x => c * x + d) a <> []) by (now destruct a).
  assert (Mb : map (fun x => c * x + d) b <> []) by (now destruct b).
  split; [|split].
  - intro P. rewrite !correlation_eq by auto. rewrite map_length. f_equal. f_equal. apply map_ext. intro L.
    destruct Es as [-> | ->].
    + change (coeff_val (map (fun x => c * x + d) a) b L = coeff_val a b L). now apply coeff_val_pos_l.
    + change (unbias_val (length (map (fun x => c * x + d) a)) (coeff_val (map (fun x => c * x + d) a) b) L = unbias_val (length a) (coeff_val a b) L).
      unfold unbias_val. now rewrite coeff_val_pos_l, map_length.
  - intro P. rewrite !correlation_eq by auto. rewrite map_length. f_equal. f_equal. apply map_ext. intro L.
    destruct Es as [-> | ->].
    + change (coeff_val a (map (fun x => c * x + d) b) L = coeff_val a b L). now apply coeff_val_pos_r.
    + change (unbias_val (length a) (coeff_val a (map (fun x => c * x + d) b)) L = unbias_val (length a) (coeff_val a b) L).
      unfold unbias_val. now rewrite coeff_val_pos_r.
  - intros P r Er. rewrite correlation_eq in Er by auto. rewrite correlation_eq by auto.
    rewrite map_length.
    assert (r = (map (scale_val a b (lower s)) (correlation_lags (length a) (length b)), correlation_lags (length a) (length b))) by congruence.
    subst r. cbn [fst snd]. f_equal. f_equal. rewrite map_map. apply map_ext. intro L.
    destruct Es as [-> | ->].
    + change (coeff_val (map (fun x => c * x + d) a) b L = fopp (coeff_val a b L)). now apply coeff_val_neg_l.
    + change (unbias_val (length (map (fun x => c * x + d) a)) (coeff_val (map (fun x => c * x + d) a) b) L = fopp (unbias_val (length a) (coeff_val a b) L)).
      unfold unbias_val. rewrite coeff_val_neg_l by auto. rewrite map_length. apply fdiv_opp.
Qed.

(*@ C42 a constant signal makes every 'coeff' value NaN, whatever the other signal *)
Lemma corr_coeff_constant : forall a b s, a <> [] -> b <> [] -> constant a \/ constant b ->
  lower s = "coeff"%string ->
  exists r, correlation a b s = Ok r /\ Forall (fun v => v = Nan) (fst r).
Proof.
  intros a b s Na Nb K Es. rewrite correlation_eq; auto.
  - eexists. split; [reflexivity|]. cbn [fst]. apply Forall_forall. intros v Hv.
    apply in_map_iff in Hv as [L [<- _]]. rewrite Es. change (coeff_val a b L = Nan). unfold coeff_val.
    assert (N0 : lag_sum (centred a) (centred b) L = 0).
    { destruct K; [apply lag_sum_zero_l|apply lag_sum_zero_r]; now apply centred_zero. }
    assert (D0 : INR (length a) * (Rstd a * Rstd b) = 0).
    { rewrite !Rstd_energy by auto.
      destruct K as [K|K]; rewrite (energy_all_zero _ (centred_zero _ K)); unfold Rdiv; rewrite Rmult_0_l, sqrt_0; ring. }
    rewrite N0, D0, fdiv_zero. apply sgn_inf_0.
  - rewrite Es. cbn. tauto.
Qed.

(*@ C42 'energy' divides the overlap sums by the energy of the first signal; an all-zero first signal gives NaN *)
Lemma corr_energy : forall a b s, a <> [] -> b <> [] -> lower s = "energy"%string ->
  exists r, correlation a b s = Ok r /\
    (energy a <> 0 -> forall L v, at_lag r L v <-> lag_of (length a) (length b) L /\ v = Fin (lag_sum a b L / energy a)) /\
    (energy a = 0 -> Forall (fun v => v = Nan) (fst r)).
Proof.
  intros a b s Na Nb Es. rewrite correlation_eq; auto.
  - eexists. split; [reflexivity|]. rewrite Es. change (scale_val a b "energy") with (energy_val a b). split.
    + intros N L v. rewrite at_lag_map, lags_In by (now apply ne_len). unfold energy_val. now rewrite fdiv_fin.
    + intro Z. cbn [fst]. apply Forall_forall. intros v Hv. apply in_map_iff in Hv as [L [<- _]].
      unfold energy_val. rewrite lag_sum_zero_l, Z by (now apply energy_zero). rewrite fdiv_zero. apply sgn_inf_0.
  - rewrite Es. cbn. tauto.
Qed.

(*@ C42 so a signal that is not all zero has 'energy' autocorrelation 1 at lag 0 and at most 1 elsewhere *)
Lemma corr_energy_auto : forall a s r, energy a <> 0 -> lower s = "energy"%string -> correlation a a s = Ok r ->
  at_lag r 0 (Fin 1) /\ (forall L v, at_lag r L v -> exists x, v = Fin x /\ -1 <= x <= 1).
Proof.
  intros a s r N Es Er.
  assert (Na : a <> []) by (intros ->; apply N; reflexivity).
  destruct (corr_energy a a s Na Na Es) as [r' [E' [V _]]]. assert (r' = r) by congruence. subst r'.
  specialize (V N). pose proof (energy_nonneg a). split.
  - apply V. apply ne_len in Na. split; [unfold lag_of; lia|]. rewrite lag_sum_self. f_equal. field. exact N.
  - intros L v Hv. apply V in Hv as [_ ->]. eexists. split; [reflexivity|].
    rewrite <- (sqrt_sqrt (energy a)) by auto. apply ratio_bound; try lra. apply lag_sum_cs.
Qed.

(*@ C43 for equally long signals 'unbiased_..' multiplies each finite biased value by N/(N-|lag|) and keeps NaN *)
Lemma corr_unbiased : forall a b s base r u, a <> [] -> length b = length a ->
  (base = "energy" \/ base = "coeff")%string -> lower s = ("unbiased_" ++ base)%string ->
  correlation a b base = Ok r -> correlation a b s = Ok u ->
  snd u = snd r /\
  (forall L x, at_lag r L (Fin x) -> at_lag u L (Fin (x * (INR (length a) / (INR (length a) - Rabs (IZR L)))))) /\
  (forall L, at_lag r L Nan -> at_lag u L Nan).
Proof.
  intros a b s base r u Na E Hb Es Er Eu.
  assert (Nb : b <> []) by (intros ->; apply Na; now apply length_zero_iff_nil).
  pose proof (INR_length_pos a Na) as P.
  assert (Kr : known_scaling (lower base)) by (destruct Hb as [-> | ->]; cbn; tauto).
  assert (Ku : known_scaling (lower s)) by (rewrite Es; destruct Hb as [-> | ->]; cbn; tauto).
  rewrite correlation_eq in Er, Eu by auto.
  assert (G : forall L, scale_val a b (lower s) L = unbias_val (length a) (scale_val a b (lower base)) L).
  { intro L. rewrite Es. destruct Hb as [-> | ->]; reflexivity. }
  set (lg := correlation_lags (length a) (length b)) in *.
  assert (R1 : r = (map (scale_val a b (lower base)) lg, lg)) by congruence.
  assert (R2 : u = (map (scale_val a b (lower s)) lg, lg)) by congruence.
  subst r u. split; [reflexivity|]. split.
  - intros L x. rewrite !at_lag_map. intros [I V]. split; auto. rewrite G. unfold unbias_val. rewrite <- V.
    apply lags_In in I; [|rewrite E; now apply ne_len]. unfold lag_of in I. rewrite E in I.
    assert (Q : Rabs (IZR L) < INR (length a)).
    { rewrite INR_IZR_INZ, <- abs_IZR. apply IZR_lt. lia. }
    rewrite fdiv_fin.
    + f_equal. field. split; lra.
    + intro Z. apply (Rmult_eq_compat_r (INR (length a))) in Z. unfold Rdiv in Z. rewrite Rmult_assoc, Rinv_l in Z; lra.
  - intros L. rewrite !at_lag_map. intros [I V]. split; auto. rewrite G. unfold unbias_val. now rewrite <- V.
Qed.

(*@ C43 hence lag 0 is unchanged and no magnitude shrinks *)
Lemma corr_unbiased_grows : forall a b s base r u, a <> [] -> length b = length a ->
  (base = "energy" \/ base = "coeff")%string -> lower s = ("unbiased_" ++ base)%string ->
  correlation a b base = Ok r -> correlation a b s = Ok u ->
  (forall x, at_lag r 0 (Fin x) -> at_lag u 0 (Fin x)) /\
  (forall L x, at_lag r L (Fin x) -> exists y, at_lag u L (Fin y) /\ Rabs x <= Rabs y).
Proof.
  intros a b s base r u Na E Hb Es Er Eu.
  destruct (corr_unbiased a b s base r u Na E Hb Es Er Eu) as [_ [V _]].
  pose proof (INR_length_pos a Na) as P. split.
  - intros x Hx. apply V in Hx. rewrite Rabs_R0, Rminus_0_r in Hx.
    replace (x * (INR (length a) / INR (length a))) with x in Hx by (field; lra). exact Hx.
  - intros L x Hx. exists (x * (INR (length a) / (INR (length a) - Rabs (IZR L)))). split; [apply V; exact Hx|].
    assert (Q : 0 <= Rabs (IZR L) < INR (length a)).
    { split; [apply Rabs_pos|].
      destruct (corr_axis a b base r Na ltac:(intros ->; apply Na; now apply length_zero_iff_nil) Er) as [A1 [_ A2]].
      destruct Hx as [k [Hk _]]. assert (k < length (snd r))%nat by (apply nth_error_Some; congruence).
      rewrite A2 in Hk by auto. assert (L = (Z.of_nat k - (Z.of_nat (length b) - 1))%Z) by congruence.
      rewrite INR_IZR_INZ, <- abs_IZR. apply IZR_lt. lia. }
    rewrite Rabs_mult, <- (Rmult_1_r (Rabs x)) at 1. apply Rmult_le_compat_l; [apply Rabs_pos|].
    rewrite Rabs_right.
    + apply Rmult_le_reg_r with (INR (length a) - Rabs (IZR L)); [lra|]. unfold Rdiv.
      rewrite Rmult_assoc, Rinv_l by lra. lra.
    + apply Rle_ge, Rmult_le_pos; [lra|]. apply Rlt_le, Rinv_0_lt_compat. lra.
Qed.

(*@ C43 with a second signal longer than the first, the value at lag -len(first) is never a number, and beyond it the sign is reversed *)
Lemma corr_unbiased_unequal_refuted : forall a b s base r u, a <> [] -> (length a < length b)%nat ->
  (base = "energy" \/ base = "coeff")%string -> lower s = ("unbiased_" ++ base)%string ->
  correlation a b base = Ok r -> correlation a b s = Ok u ->
  (exists v, at_lag u (- Z.of_nat (length a)) v /\ forall y, v <> Fin y) /\
  (forall L x, (L < - Z.of_nat (length a))%Z -> at_lag r L (Fin x) -> exists y, at_lag u L (Fin y) /\ x * y <= 0 /\ (x <> 0 -> x * y < 0)).
Proof.
  intros a b s base r u Na E Hb Es Er Eu.
  assert (Nb : b <> []) by (intros ->; cbn in E; lia).
  pose proof (INR_length_pos a Na) as P.
  assert (Kr : known_scaling (lower base)) by (destruct Hb as [-> | ->]; cbn; tauto).
  assert (Ku : known_scaling (lower s)) by (rewrite Es; destruct Hb as [-> | ->]; cbn; tauto).
  rewrite correlation_eq in Er, Eu by auto.
  assert (G : forall L, scale_val a b (lower s) L = unbias_val (length a) (scale_val a b (lower base)) L).
  { intro L. rewrite Es. destruct Hb as [-> | ->]; reflexivity. }
  set (lg := correlation_lags (length a) (length b)) in *.
  assert (R1 : r = (map (scale_val a b (lower base)) lg, lg)) by congruence.
  assert (R2 : u = (map (scale_val a b (lower s)) lg, lg)) by congruence.
  subst r u. split.
  - eexists. rewrite at_lag_map. split; [split; [|reflexivity]|].
    + apply lags_In; [apply ne_len; exact Nb|]. apply ne_len in Na. unfold lag_of. lia.
    + intros y. rewrite G. unfold unbias_val.
      replace ((INR (length a) - Rabs (IZR (- Z.of_nat (length a)))) / INR (length a)) with 0.
      * destruct (scale_val a b (lower base) (- Z.of_nat (length a))) as [x| | |]; try (unfold fdiv; destruct (Rltb 0 0); easy); try easy.
        rewrite fdiv_zero. apply sgn_inf_not_fin.
      * rewrite opp_IZR, Rabs_Ropp, <- INR_IZR_INZ, Rabs_right by lra. field. lra.
  - intros L x HL. rewrite at_lag_map. intros [I V].
    assert (Q : INR (length a) < Rabs (IZR L)).
    { rewrite INR_IZR_INZ, <- abs_IZR. apply IZR_lt. lia. }
    assert (D : (INR (length a) - Rabs (IZR L)) / INR (length a) < 0).
    { unfold Rdiv. assert (0 < / INR (length a)) by (now apply Rinv_0_lt_compat). nra. }
    exists (x / ((INR (length a) - Rabs (IZR L)) / INR (length a))). rewrite at_lag_map. split; [split; auto|].
    + rewrite G. unfold unbias_val. rewrite <- V. symmetry. apply fdiv_fin. lra.
    + set (d := (INR (length a) - Rabs (IZR L)) / INR (length a)) in *.
      assert (Hi : / d < 0) by (now apply Rinv_lt_0_compat). unfold Rdiv. split; [nra|].
      intro N. assert (0 < x * x) by (destruct (Rtotal_order x 0) as [|[|]]; nra). nra.
Qed.

(** ** Concrete cases *)
Ltac pnat := try change (Pos.to_nat 1) with 1%nat; try change (Pos.to_nat 2) with 2%nat; cbv iota beta.
Definition sig1 : list R := [1; 2; 4].
Definition sig2 : list R := [0; 3; 5].
Lemma sig1_varies : ~ constant sig1.
Proof. intro K. assert (1 = 2) by (apply K; cbn; tauto). lra. Qed.
Lemma sig2_varies : ~ constant sig2.
Proof. intro K. assert (0 = 3) by (apply K; cbn; tauto). lra. Qed.

(*@ex C41 three samples against three: five lags; lag 1 sums a[1]b[0] + a[2]b[1] *)
Lemma corr_none_ex : exists r, correlation sig1 sig2 "None" = Ok r /\ snd r = [-2; -1; 0; 1; 2]%Z /\ at_lag r 1 (Fin 12).
Proof.
  destruct (corr_none sig1 sig2 "None" ltac:(easy) ltac:(easy) eq_refl) as [r [E V]].
  exists r. split; [exact E|]. split.
  - rewrite correlation_eq in E by (easy || (cbn; tauto)). assert (snd r = correlation_lags 3 3) by (injection E as <-; reflexivity).
    rewrite H. reflexivity.
  - apply V. split; [unfold lag_of; cbn; lia|]. apply f_equal. unfold lag_sum. cbn. pnat. lra.
Qed.
(*@ex C42 the hypotheses of the coefficient laws hold for two ordinary records *)
Lemma corr_coeff_ex : ~ constant sig1 /\ ~ constant sig2 /\ length sig2 = length sig1 /\
  exists r, correlation sig1 sig2 "Coeff" = Ok r /\ at_lag r 0 (Fin (pearson sig1 sig2)).
Proof.
  split; [apply sig1_varies|]. split; [apply sig2_varies|]. split; [reflexivity|].
  destruct (corr_names sig1 sig2 "Coeff" ltac:(easy) ltac:(easy)) as [_ [K _]].
  destruct K as [r Er]; [cbn; tauto|]. exists r. split; auto.
  now apply (corr_coeff_bounded sig1 sig2 "Coeff" r eq_refl sig1_varies sig2_varies eq_refl Er).
Qed.
(*@ex C43 the unbiased value can exceed 1: [1,0,1] against itself at lag 2 gives 3/2 *)
Lemma corr_unbiased_ex : exists u, correlation [1; 0; 1] [1; 0; 1] "unbiased_energy" = Ok u /\ at_lag u 2 (Fin (3 / 2)).
Proof.
  destruct (corr_names [1; 0; 1] [1; 0; 1] "unbiased_energy" ltac:(easy) ltac:(easy)) as [_ [K _]].
  destruct K as [u Eu]; [cbn; tauto|]. exists u. split; auto.
  destruct (corr_energy [1; 0; 1] [1; 0; 1] "energy" ltac:(easy) ltac:(easy) eq_refl) as [r [Er [V _]]].
  assert (H : at_lag r 2 (Fin (1 / 2))).
  { apply V; [unfold energy; cbn; lra|]. split; [unfold lag_of; cbn; lia|].
    apply f_equal. unfold lag_sum, energy. cbn. pnat. lra. }
  destruct (corr_unbiased [1; 0; 1] [1; 0; 1] "unbiased_energy" "energy" r u ltac:(easy) eq_refl (or_introl eq_refl) eq_refl Er Eu) as [_ [W _]].
  apply W in H. replace (3 / 2) with (1 / 2 * (INR (length [1; 0; 1]) / (INR (length [1; 0; 1]) - Rabs (IZR 2)))); auto.
  cbn. rewrite Rabs_right by lra. field.
Qed.
(*@ex C43 two samples against three, 'unbiased_energy': infinity at lag -2 *)
Lemma corr_unbiased_unequal_ex : exists u, correlation [1; 1] [1; 1; 1] "unbiased_energy" = Ok u /\ at_lag u (-2) Pinf.
Proof.
  rewrite correlation_eq by (easy || (cbn; tauto)). eexists. split; [reflexivity|].
  rewrite at_lag_map. split; [cbn; tauto|].
  change (Pinf = fdiv (fdiv (Fin (lag_sum [1; 1] [1; 1; 1] (-2))) (Fin (energy [1; 1]))) (Fin ((INR 2 - Rabs (IZR (-2))) / INR 2))).
  assert (A : lag_sum [1; 1] [1; 1; 1] (-2) = 1) by (unfold lag_sum; cbn; pnat; lra).
  assert (B : energy [1; 1] = 2) by (unfold energy; cbn; lra).
  assert (D : (INR 2 - Rabs (IZR (-2))) / INR 2 = 0) by (rewrite Rabs_left by lra; cbn; field).
  rewrite A, B, D, fdiv_fin, fdiv_zero, sgn_inf_pos by lra. reflexivity.
Qed.
