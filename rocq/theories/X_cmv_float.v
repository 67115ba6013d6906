(** cmv.py: the final angle reduction in binary64. *)
From Flocq Require Import Core.
From Verif Require Import Prelude RealBase M_spatial M_spatial_float X_spatial_zone M_cmv_float.
Local Open Scope R_scope.

Lemma fmod_spec a b : 0 < b ->
  (0 <= a -> 0 <= fmod a b < b) /\ (a < 0 -> - b < fmod a b <= 0).
Proof.
  intro B. unfold fmod. assert (E : a = a / b * b) by (field; lra). split; intro A.
  - assert (Q : 0 <= a / b) by (apply Rmult_le_pos; [lra|]; left; now apply Rinv_0_lt_compat).
    destruct (py_int_nonneg _ Q). rewrite E at 1 3. split; nra.
  - assert (Q : a / b < 0). { apply Rmult_lt_reg_r with b; [lra|]. rewrite <- E, Rmult_0_l. exact A. }
    destruct (py_int_neg _ Q). rewrite E at 1 3. split; nra.
Qed.

Local Existing Instance prec53.
Local Existing Instance b64_valid.

Lemma b64_b64 x : is_b64 (b64 x).
Proof. unfold is_b64, b64. apply generic_format_round; auto with typeclass_instances. Qed.

Lemma is_b64_0 : is_b64 0.
Proof. apply generic_format_0. Qed.

Lemma np_mod_range a b : 0 < b -> is_b64 b -> 0 <= np_mod a b <= b.
Proof.
  intros B F. unfold np_mod. cbv zeta. destruct (fmod_spec a b B) as [P N].
  destruct (Rltb_spec (fmod a b) 0) as [L|L].
  - assert (H : - b < fmod a b) by (destruct (Rle_or_lt 0 a) as [Q|Q]; [specialize (P Q)|specialize (N Q)]; lra).
    split.
    + rewrite <- (b64_id 0 is_b64_0). apply b64_mono. lra.
    + apply Rle_trans with (b64 b); [apply b64_mono; lra|]. rewrite (b64_id b F). lra.
  - destruct (Rle_or_lt 0 a) as [Q|Q]; [specialize (P Q)|specialize (N Q)]; lra.
Qed.

Lemma np_mod_close a b : 0 < b -> b < 8 -> exists k, 0 <= a - IZR k * b < b /\ Rabs (np_mod a b - (a - IZR k * b)) <= / 2 ^ 51.
Proof.
  intros B B8. unfold np_mod. cbv zeta. destruct (fmod_spec a b B) as [P N].
  assert (Z : 0 < / 2 ^ 51) by (apply Rinv_0_lt_compat; apply pow_lt; lra).
  destruct (Rltb_spec (fmod a b) 0) as [L|L].
  - assert (H : - b < fmod a b) by (destruct (Rle_or_lt 0 a) as [Q|Q]; [specialize (P Q)|specialize (N Q)]; lra).
    exists (py_int (a / b) - 1)%Z. replace (a - IZR (py_int (a / b) - 1) * b) with (fmod a b + b) by (unfold fmod; rewrite minus_IZR; ring).
    split; [lra|]. replace (/ 2 ^ 51) with (bpow radix2 (3 - 54)).
    + apply b64_err; [|lia]. change (bpow radix2 3) with 8. apply Rabs_def1; lra.
    + change (bpow radix2 (3 - 54)) with (/ IZR (Z.pow_pos 2 51)). f_equal. rewrite pow_IZR. reflexivity.
  - exists (py_int (a / b)). replace (a - IZR (py_int (a / b)) * b) with (fmod a b) by (unfold fmod; ring).
    split; [destruct (Rle_or_lt 0 a) as [Q|Q]; [specialize (P Q)|specialize (N Q)]; lra|].
    rewrite Rminus_diag_eq, Rabs_R0 by reflexivity. lra.
Qed.

Lemma np_pi_bounds : 3 <= np_pi <= 4 /\ np_pi < 4.
Proof.
  assert (L : 3 <= np_pi). { unfold np_pi. rewrite <- (b64_int 3) by (cbn; lia). apply b64_mono. pose proof PI2_3_2. lra. }
  assert (U : np_pi <= 4). { unfold np_pi. rewrite <- (b64_int 4) by (cbn; lia). apply b64_mono. pose proof PI_4. lra. }
  split; [lra|]. destruct U as [|E]; [lra|exfalso].
  assert (X : Rabs (b64 PI - PI) <= bpow radix2 (3 - 54)).
  { apply b64_err; [|lia]. change (bpow radix2 3) with 8. pose proof PI_4. pose proof PI2_3_2. apply Rabs_def1; lra. }
  fold np_pi in X. rewrite E in X. assert (S : bpow radix2 (3 - 54) <= bpow radix2 (-4)) by (apply bpow_le; lia).
  change (bpow radix2 (-4)) with (/ 16) in S.
  assert (P : PI < 3.9).
  { pose proof (PI_ineq 2) as [_ Q]. unfold tg_alt, PI_tg in Q. cbn in Q. lra. }
  unfold Rabs in X. destruct (Rcase_abs (4 - PI)); lra.
Qed.

Lemma is_b64_double x : is_b64 x -> is_b64 (2 * x).
Proof.
  intro F. apply FLT_format_generic in F; [|exact prec53]. destruct F as [f E H1 H2].
  apply generic_format_FLT. exists (Float radix2 (Fnum f) (Fexp f + 1)); cbn [Fnum Fexp]; auto; [|lia].
  rewrite E. unfold F2R. cbn [Fnum Fexp]. rewrite bpow_plus. change (bpow radix2 1) with 2. ring.
Qed.

Lemma is_b64_2pi : is_b64 (2 * np_pi).
Proof. apply is_b64_double, b64_b64. Qed.

(*@ C20 In binary64: the speed is the fitted speed's magnitude; the angle is the fitted angle (plus np.pi, rounded,
    when the fitted speed is negative) up to whole turns of the float 2*np.pi and an error of at most 2^-51;
    it is in the closed interval [0, 2*np.pi]. *)
Lemma normalise_b64 : forall vel theta v t, normalise_cmv_b64 vel theta = (v, t) ->
  v = Rabs vel /\ 0 <= t <= 2 * np_pi /\
  exists k, Rabs (t - ((if Rltb vel 0 then b64 (theta + np_pi) else theta) - IZR k * (2 * np_pi))) <= / 2 ^ 51.
Proof.
  intros vel theta v t. unfold normalise_cmv_b64. destruct np_pi_bounds as [B1 B2].
  set (th := if Rltb vel 0 then b64 (theta + np_pi) else theta).
  assert (E : (if Rltb vel 0 then (vel * -1, b64 (theta + np_pi)) else (vel, theta)) = (Rabs vel, th)).
  { unfold th. destruct (Rltb_spec vel 0); [rewrite Rabs_left by lra|rewrite Rabs_pos_eq by lra]; f_equal. ring. }
  rewrite E. intros [= <- <-]. split; auto. split; [apply np_mod_range; [lra|apply is_b64_2pi]|].
  destruct (np_mod_close th (2 * np_pi)) as (k & _ & H); [lra|lra|]. exists k. exact H.
Qed.

(*@ C20 The half-open upper bound fails in binary64: for the fitted angle -2^-60 the float 2*np.pi itself is returned. *)
Lemma normalise_b64_upper_refuted :
  ~ forall vel theta v t, is_b64 vel -> is_b64 theta -> normalise_cmv_b64 vel theta = (v, t) -> t < 2 * np_pi.
Proof.
  intro H. destruct np_pi_bounds as [B1 B2]. set (u := 2 * np_pi) in *.
  assert (Fu : is_b64 u) by apply is_b64_2pi.
  assert (P60 : 0 < bpow radix2 (-60) < 1).
  { split; [apply bpow_gt_0|]. apply (bpow_lt radix2 (-60) 0). lia. }
  assert (F60 : is_b64 (- bpow radix2 (-60))).
  { unfold is_b64. apply generic_format_opp. apply generic_format_bpow. unfold b64_exp, FLT_exp. lia. }
  enough (E : normalise_cmv_b64 1 (- bpow radix2 (-60)) = (1, u)).
  { apply H in E; auto; [lra|]. apply (is_b64_int 1). cbn. lia. }
  unfold normalise_cmv_b64. rewrite Rltb_false by lra. f_equal. fold u.
  assert (M : fmod (- bpow radix2 (-60)) u = - bpow radix2 (-60)).
  { unfold fmod. replace (py_int (- bpow radix2 (-60) / u)) with 0%Z; [ring|].
    assert (Q : 0 < bpow radix2 (-60) / u < 1).
    { unfold u in *. split; [apply Rdiv_lt_0_compat; lra|]. apply Rmult_lt_reg_r with (2 * np_pi); [lra|]. unfold Rdiv. rewrite Rmult_assoc, Rinv_l by lra. lra. }
    assert (Q' : - bpow radix2 (-60) / u < 0) by (unfold Rdiv in *; lra).
    destruct (py_int_neg _ Q') as [X Y]. unfold Rdiv in *.
    assert (-1 < py_int (- bpow radix2 (-60) * / u))%Z by (apply lt_IZR; lra).
    assert (py_int (- bpow radix2 (-60) * / u) < 1)%Z by (apply lt_IZR; lra). lia. }
  unfold np_mod. cbv zeta. rewrite M. rewrite Rltb_true by lra.
  apply Rle_antisym.
  - apply Rle_trans with (b64 u); [apply b64_mono; lra|]. rewrite (b64_id u Fu). lra.
  - unfold b64. apply round_N_ge_midp; auto with typeclass_instances.
    assert (F4 : is_b64 4) by (apply (is_b64_int 4); cbn; lia).
    assert (G : 4 <= pred radix2 b64_exp u) by (apply pred_ge_gt; auto with typeclass_instances; unfold u; lra).
    assert (E : pred radix2 b64_exp u + ulp radix2 b64_exp (pred radix2 b64_exp u) = u).
    { apply pred_plus_ulp; auto with typeclass_instances. unfold u; lra. }
    assert (U : ulp radix2 b64_exp 4 <= ulp radix2 b64_exp (pred radix2 b64_exp u)).
    { apply ulp_le_pos; auto with typeclass_instances. apply FLT_exp_monotone. lra. }
    change 4 with (bpow radix2 2) in U at 1. rewrite ulp_bpow in U.
    assert (X : bpow radix2 (-58) <= bpow radix2 (b64_exp (2 + 1))) by (apply bpow_le; unfold b64_exp, FLT_exp; lia).
    replace (bpow radix2 (-58)) with (4 * bpow radix2 (-60)) in X by (change (-58)%Z with (2 + -60)%Z; rewrite bpow_plus; reflexivity).
    lra.
Qed.

(*@ex C20 *)
Lemma normalise_b64_example : exists vel theta v t, is_b64 vel /\ is_b64 theta /\ vel < 0 /\ normalise_cmv_b64 vel theta = (v, t).
Proof.
  exists (-1), 1. eexists. eexists. split; [apply (is_b64_int (-1)); cbn; lia|]. split; [apply (is_b64_int 1); cbn; lia|]. split; [lra|].
  apply surjective_pairing.
Qed.
