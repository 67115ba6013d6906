(** stats.py: the averaging width in binary64. *)
From Flocq Require Import Core Relative.
From Verif Require Import Prelude RealBase M_spatial M_spatial_float X_spatial_zone M_stats_float.
Local Open Scope R_scope.

Local Existing Instance prec53.
Local Existing Instance b64_valid.

(*@ C112 Steps of whole seconds: the width is exactly tau steps. *)
Lemma width_whole_seconds : forall tau k, (0 <= tau)%Z -> (0 <= k)%Z -> (tau * k <= 2 ^ 53)%Z -> (k <= 2 ^ 53)%Z ->
  width_b64 tau (k * 1000000000) = (tau * k)%Z.
Proof.
  intros tau k Ht Hk H K. unfold width_b64. rewrite mult_IZR. replace (IZR k * 1000000000 / 1000000000) with (IZR k) by field.
  rewrite (b64_int k) by lia. rewrite <- mult_IZR, b64_int by lia. apply py_int_eq; [lia|]. lra.
Qed.

(** A product of two rounded factors. *)
Lemma b64_rel x : 0 <= x -> x < bpow radix2 53 -> / 1000000000 / 2 <= x -> Rabs (b64 x - x) <= x * bpow radix2 (-53).
Proof.
  intros P U L. unfold b64.
  pose proof (relative_error_N_FLT radix2 (-1074) 53 ltac:(lia) (fun z => negb (Z.even z)) x) as E.
  rewrite Rabs_pos_eq with (x := x) in E by exact P.
  replace (x * bpow radix2 (-53)) with (/ 2 * bpow radix2 (- 53 + 1) * x).
  - apply E. apply Rle_trans with (/ 1000000000 / 2); [|exact L]. change (bpow radix2 (-1074 + 53 - 1)) with (/ IZR (Z.pow_pos 2 1022)).
    replace (/ 1000000000 / 2) with (/ 2000000000) by lra. apply Rinv_le; [lra|]. apply IZR_le. apply Z.leb_le. reflexivity.
  - replace (bpow radix2 (-53)) with (/ 2 * bpow radix2 (-53 + 1)); [ring|]. rewrite bpow_plus. change (bpow radix2 1) with 2. field.
Qed.

Lemma width_error tau step : (1 <= tau)%Z -> (1 <= step)%Z -> IZR tau * (IZR step / 1000000000) <= 2 ^ 32 ->
  Rabs (b64 (IZR tau * b64 (IZR step / 1000000000)) - IZR tau * (IZR step / 1000000000)) <= / 2 ^ 19.
Proof.
  intros Ht Hs U. apply IZR_le in Ht, Hs. set (d := IZR step / 1000000000) in *.
  assert (Ld : / 1000000000 <= d) by (unfold d; lra).
  assert (e19 : / 2 ^ 19 = / 524288) by (f_equal; ring).
  assert (e32 : 2 ^ 32 = 4294967296) by ring. rewrite e32 in U. rewrite e19.
  assert (B53 : bpow radix2 53 = 9007199254740992) by reflexivity.
  assert (Bm : bpow radix2 (-53) = / 9007199254740992) by reflexivity.
  assert (Ud : d <= 4294967296) by nra.
  assert (E1 : Rabs (b64 d - d) <= d * / 9007199254740992) by (rewrite <- Bm; apply b64_rel; lra).
  apply Rabs_le_inv in E1. set (d' := b64 d) in *.
  assert (P1 : IZR tau * d - IZR tau * d * / 9007199254740992 <= IZR tau * d' <= IZR tau * d + IZR tau * d * / 9007199254740992).
  { destruct E1 as [E1a E1b]. split; nra. }
  assert (Q : / 1000000000 / 2 <= IZR tau * d') by (assert (/ 1000000000 <= IZR tau * d) by nra; lra).
  assert (E2 : Rabs (b64 (IZR tau * d') - IZR tau * d') <= IZR tau * d' * / 9007199254740992) by (rewrite <- Bm; apply b64_rel; lra).
  apply Rabs_le_inv in E2. apply Rabs_le. lra.
Qed.

(*@ C112 In general the width differs from the exact one by at most one second, and only when tau steps are within
    2^-19 s of a whole number of seconds (up to 136 years). *)
Lemma width_close : forall tau step w, (1 <= tau)%Z -> (1 <= step)%Z -> IZR tau * (IZR step / 1000000000) <= 2 ^ 32 ->
  IZR w <= IZR tau * (IZR step / 1000000000) < IZR w + 1 ->
  width_b64 tau step = w \/
  (width_b64 tau step = (w + 1)%Z /\ IZR w + 1 - / 2 ^ 19 <= IZR tau * (IZR step / 1000000000)) \/
  (width_b64 tau step = (w - 1)%Z /\ IZR tau * (IZR step / 1000000000) < IZR w + / 2 ^ 19).
Proof.
  intros tau step w Ht Hs U W. pose proof (width_error tau step Ht Hs U) as E. apply Rabs_le_inv in E. unfold width_b64.
  set (x := IZR tau * (IZR step / 1000000000)) in *. set (y := b64 (IZR tau * b64 (IZR step / 1000000000))) in *.
  assert (e19 : / 2 ^ 19 = / 524288) by (f_equal; ring). rewrite e19 in *.
  assert (P : 0 < x). { unfold x. apply IZR_le in Ht, Hs. apply Rmult_lt_0_compat; lra. }
  assert (Py : 0 <= y). { unfold y. rewrite <- (b64_int 0) by (cbn; lia). apply b64_mono. apply Rmult_le_pos; [apply (IZR_le 0); lia|].
    rewrite <- (b64_int 0) by (cbn; lia). apply b64_mono. apply IZR_le in Hs. lra. }
  assert (Wn : (0 <= w)%Z). { apply Z.lt_succ_r. apply lt_IZR. rewrite succ_IZR. lra. }
  destruct (Rlt_or_le y (IZR w)) as [A|A]; [|destruct (Rlt_or_le y (IZR w + 1)) as [B|B]].
  - right; right. assert (Wp : (1 <= w)%Z). { enough (0 < w)%Z by lia. apply lt_IZR. lra. } split; [|lra]. apply py_int_eq; [lia|]. rewrite minus_IZR. lra.
  - left. apply py_int_eq; [lia|lra].
  - right; left. split; [|lra]. apply py_int_eq; [lia|]. rewrite plus_IZR. lra.
Qed.

(*@ C112 A hundred steps of 0.29 s are 29 s, but the averages are taken over 28 s. *)
Lemma width_exact_refuted : IZR 100 * (IZR 290000000 / 1000000000) = 29 /\ width_b64 100 290000000 = 28%Z.
Proof.
  split; [lra|]. unfold width_b64.
  assert (M : mag_val radix2 _ (mag radix2 (IZR 290000000 / 1000000000)) = (-1)%Z).
  { apply mag_unique_pos. change (bpow radix2 (-1 - 1)) with (/ 4). change (bpow radix2 (-1)) with (/ 2). lra. }
  assert (E1 : b64 (IZR 290000000 / 1000000000) = 5224175567749775 * / 18014398509481984).
  { unfold b64, round, scaled_mantissa, cexp. rewrite M. change (b64_exp (-1)) with (-54)%Z. change (bpow radix2 (- -54)) with 18014398509481984.
    rewrite (Znearest_imp _ _ 5224175567749775).
    - reflexivity.
    - apply Rabs_def1; lra. }
  rewrite E1. set (x := IZR 100 * (5224175567749775 * / 18014398509481984)).
  assert (Mx : mag_val radix2 _ (mag radix2 x) = 5%Z).
  { apply mag_unique_pos. change (bpow radix2 (5 - 1)) with 16. change (bpow radix2 5) with 32. unfold x. lra. }
  assert (E2 : b64 x = 8162774324609023 * / 281474976710656).
  { unfold b64, round, scaled_mantissa, cexp. rewrite Mx. change (b64_exp 5) with (-48)%Z. change (bpow radix2 (- -48)) with 281474976710656.
    rewrite (Znearest_imp _ _ 8162774324609023).
    - reflexivity.
    - unfold x. apply Rabs_def1; lra. }
  rewrite E2. apply py_int_eq; [lia|lra].
Qed.
(*@ex C112 *)
Lemma width_example : width_b64 5 60000000000 = 300%Z.
Proof. exact (width_whole_seconds 5 60 ltac:(lia) ltac:(lia) ltac:(lia) ltac:(lia)). Qed.
