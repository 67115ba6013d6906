(** Sizes obtained by truncation, in binary64. *)
From Flocq Require Import Core Relative Mult_error.
From Verif Require Import Prelude RealBase M_spatial M_spatial_float X_spatial_zone M_signal_plant X_stats_float X_vis_hist M_trunc_float.
Local Open Scope R_scope.

Local Existing Instance prec53.
Local Existing Instance b64_valid.

Lemma B53 : bpow radix2 53 = 9007199254740992.
Proof. reflexivity. Qed.
Lemma Bm53 : bpow radix2 (-53) = / 9007199254740992.
Proof. reflexivity. Qed.
Lemma b64_half : b64 (1 / 2) = 1 / 2.
Proof.
  apply b64_id. unfold is_b64. replace (1 / 2) with (bpow radix2 (-1)) by (cbn; lra). apply generic_format_bpow. cbn. lia.
Qed.
Lemma b64_zero : b64 0 = 0.
Proof. apply (b64_int 0). cbn. lia. Qed.
Lemma b64_nonneg x : 0 <= x -> 0 <= b64 x.
Proof. intro H. rewrite <- b64_zero. now apply b64_mono. Qed.

(** Rounding up to a whole number needs closeness. *)
Lemma b64_below x m : 1 <= m -> m <= 9007199254740992 -> 0 <= x -> x <= m * (1 - / 9007199254740992) -> b64 x < m.
Proof.
  intros M1 M2 P H. destruct (Rle_or_lt x (1 / 2)) as [S|S].
  - apply Rle_lt_trans with (1 / 2); [|lra]. rewrite <- b64_half. now apply b64_mono.
  - assert (E : Rabs (b64 x - x) <= x * / 9007199254740992).
    { rewrite <- Bm53. apply b64_rel; [lra|rewrite B53; nra|lra]. }
    apply Rabs_le_inv in E. nra.
Qed.

Lemma below_one o : is_b64 o -> o < 1 -> o <= 1 - / 9007199254740992.
Proof.
  intros F L. assert (F1 : is_b64 1) by (apply (is_b64_int 1); cbn; lia).
  pose proof (pred_ge_gt radix2 b64_exp o 1 F F1 L) as H.
  change 1 with (bpow radix2 0) in H at 1. rewrite pred_bpow in H. exact H.
Qed.

Lemma trunc_close x w : (0 <= w)%Z -> (w + 1 <= 2 ^ 53)%Z -> IZR w <= x < IZR w + 1 ->
  py_int (b64 x) = w \/ (py_int (b64 x) = (w + 1)%Z /\ (IZR w + 1) * (1 - / 2 ^ 53) < x).
Proof.
  intros W0 W1 [L U]. assert (e : 2 ^ 53 = 9007199254740992) by ring. rewrite e.
  assert (A : IZR w <= b64 x) by (rewrite <- (b64_int w) by lia; now apply b64_mono).
  assert (B : b64 x <= IZR w + 1).
  { rewrite <- (plus_IZR w 1), <- (b64_int (w + 1)) by lia. apply b64_mono. rewrite plus_IZR. lra. }
  destruct (Rlt_or_le (b64 x) (IZR w + 1)) as [C|C].
  - left. apply py_int_eq; [easy|lra].
  - right. split; [apply py_int_eq; [lia|rewrite plus_IZR; lra]|].
    destruct (Rlt_or_le ((IZR w + 1) * (1 - / 9007199254740992)) x) as [D|D]; [exact D|exfalso].
    apply IZR_le in W0, W1. rewrite plus_IZR in W1. change (IZR (2 ^ 53)) with 9007199254740992 in W1.
    pose proof (b64_below x (IZR w + 1) ltac:(lra) W1 ltac:(lra) D). lra.
Qed.

(*@ C122 The overlap of the spectral segments: for every binary64 fraction below one it is shorter than the segment, so the
    segments always advance; half of a segment is exact; otherwise it is the exact truncation or, when the product is within a
    relative 2^-53 of the next whole number, that number. *)
Lemma overlap_shorter : forall n o w, (1 <= n <= 2 ^ 53)%Z -> is_b64 o -> 0 <= o < 1 -> IZR w <= IZR n * o < IZR w + 1 ->
  (0 <= noverlap_b64 n o < n)%Z /\ noverlap_b64 n (1 / 2) = (n / 2)%Z /\
  (noverlap_b64 n o = w \/ (noverlap_b64 n o = (w + 1)%Z /\ (IZR w + 1) * (1 - / 2 ^ 53) < IZR n * o)).
Proof.
  intros n o w [N1 N2] F [O0 O1] HW. pose proof (below_one o F O1) as O2. unfold noverlap_b64.
  pose proof (IZR_le _ _ N1) as N1'. pose proof (IZR_le _ _ N2) as N2'. change (IZR (2 ^ 53)) with 9007199254740992 in N2'.
  assert (P : 0 <= IZR n * o) by (apply Rmult_le_pos; lra).
  split; [|split].
  - pose proof (b64_below (IZR n * o) (IZR n) N1' N2' P ltac:(nra)) as L. pose proof (b64_nonneg _ P) as Q.
    destruct (py_int_nonneg _ Q) as [A B]. split.
    + enough (-1 < py_int (b64 (IZR n * o)))%Z by lia. apply lt_IZR. lra.
    + apply lt_IZR. lra.
  - assert (E : b64 (IZR n * (1 / 2)) = IZR n / 2).
    { replace (IZR n * (1 / 2)) with (IZR n / 2) by field. apply b64_id. unfold is_b64, b64_exp.
      apply generic_format_FLT. destruct (Z.eq_dec n (2 ^ 53)) as [E|NE].
      - exists (Float radix2 1 52); [|cbn; lia|cbn; lia]. rewrite E. unfold F2R. cbn. lra.
      - exists (Float radix2 n (-1)); [unfold F2R; cbn; lra|cbn [Fnum]; change (radix2 ^ 53)%Z with (2 ^ 53)%Z; lia|cbn; lia]. }
    rewrite E. pose proof (Z.div_mod n 2 ltac:(lia)) as D. pose proof (Z.mod_pos_bound n 2 ltac:(lia)) as M.
    apply py_int_eq; [apply Z.div_pos; lia|]. assert (IZR n = 2 * IZR (n / 2) + IZR (n mod 2)) as -> by (rewrite <- mult_IZR, <- plus_IZR; now f_equal).
    destruct M as [M1 M2]. apply IZR_le in M1. assert (n mod 2 <= 1)%Z as M3 by lia. apply IZR_le in M3. lra.
  - assert (W0 : (0 <= w)%Z). { enough (-1 < w)%Z by lia. apply lt_IZR. lra. }
    apply trunc_close; [easy| |exact HW]. enough (w < n)%Z by lia. apply lt_IZR. nra.
Qed.

(*@ C122 The pixel a sensor falls on, for a positive speed and positions that are not negative: it never decreases with the
    position, is exact for positions that are a whole number of pixels, and is otherwise the exact one or, within a relative 2^-53
    of the next pixel, that one. *)
Lemma pixel_rounding : forall p q s k w, 0 < s -> 0 <= p <= q ->
  (pixel_b64 p s <= pixel_b64 q s)%Z /\
  ((0 <= k <= 2 ^ 53)%Z -> p = IZR k * s -> pixel_b64 p s = k) /\
  ((w + 1 <= 2 ^ 53)%Z -> IZR w <= p / s < IZR w + 1 ->
     pixel_b64 p s = w \/ (pixel_b64 p s = (w + 1)%Z /\ (IZR w + 1) * (1 - / 2 ^ 53) < p / s)).
Proof.
  intros p q s k w S [P L]. unfold pixel_b64. split; [|split].
  - apply py_int_mono, b64_mono. unfold Rdiv. apply Rmult_le_compat_r; [|exact L]. left. now apply Rinv_0_lt_compat.
  - intros K ->. replace (IZR k * s / s) with (IZR k) by (field; lra). rewrite b64_int by lia. apply py_int_eq; [lia|lra].
  - intros W HW. apply trunc_close; [|exact W|exact HW]. enough (-1 < w)%Z by lia. apply lt_IZR.
    assert (0 <= p / s) by (apply Rmult_le_pos; [exact P|left; now apply Rinv_0_lt_compat]). lra.
Qed.

(*@ C122 The layers of the cloud field: for whole-number scales from 1 on, the size of a layer is the whole part of the field's size
    divided by the power of two, without rounding error. *)
Lemma layer_exact : forall size scale, (0 <= size <= 2 ^ 53)%Z -> (1 <= scale <= 1000)%Z ->
  layer_b64 size scale = (size / 2 ^ (scale - 1))%Z.
Proof.
  intros size scale [S0 S1] [C0 C1]. unfold layer_b64. set (k := (scale - 1)%Z). assert (K : (0 <= k <= 999)%Z) by lia.
  replace (- scale + 1)%Z with (- k)%Z by lia.
  assert (P2 : IZR (2 ^ k) = bpow radix2 k) by (rewrite <- IZR_Zpower by lia; reflexivity).
  assert (Pp : (0 < 2 ^ k)%Z) by (apply Z.pow_pos_nonneg; lia). pose proof (IZR_lt _ _ Pp) as Pp'.
  assert (E : IZR size * bpow radix2 (- k) = IZR size / IZR (2 ^ k)) by (rewrite bpow_opp, P2; reflexivity).
  assert (F : b64 (IZR size * bpow radix2 (- k)) = IZR size * bpow radix2 (- k)).
  { apply b64_id. unfold is_b64, b64_exp. apply generic_format_FLT. destruct (Z.eq_dec size (2 ^ 53)) as [->|NE].
    - exists (Float radix2 1 (53 - k)); [|cbn; lia|cbn [Fexp]; lia]. unfold F2R. cbn [Fnum Fexp].
      unfold Zminus. rewrite bpow_plus. change (bpow radix2 53) with (IZR (2 ^ 53)). ring.
    - exists (Float radix2 size (- k)); [reflexivity|cbn [Fnum]; change (radix2 ^ 53)%Z with (2 ^ 53)%Z; lia|cbn [Fexp]; lia]. }
  rewrite F, E. pose proof (Z.div_mod size (2 ^ k) ltac:(lia)) as D. pose proof (Z.mod_pos_bound size (2 ^ k) Pp) as [M1 M2].
  assert (X : IZR size / IZR (2 ^ k) = IZR (size / 2 ^ k) + IZR (size mod 2 ^ k) / IZR (2 ^ k)).
  { rewrite D at 1. rewrite plus_IZR, mult_IZR. field. lra. }
  apply IZR_le in M1. apply IZR_lt in M2. apply py_int_eq; [apply Z.div_pos; lia|]. rewrite X.
  assert (0 <= IZR (size mod 2 ^ k) / IZR (2 ^ k) < 1); [|lra]. split.
  - apply Rmult_le_pos; [exact M1|]. left. now apply Rinv_0_lt_compat.
  - apply Rmult_lt_reg_r with (IZR (2 ^ k)); [exact Pp'|]. unfold Rdiv. rewrite Rmult_assoc, Rinv_l by lra. lra.
Qed.

(** Quarters are exact. *)
Lemma b64_quarter z : (Z.abs z < 2 ^ 53)%Z -> b64 (IZR z / 4) = IZR z / 4.
Proof.
  intro H. apply b64_id. unfold is_b64, b64_exp. apply generic_format_FLT.
  exists (Float radix2 z (-2)); [unfold F2R; cbn; lra|cbn [Fnum]; change (radix2 ^ 53)%Z with (2 ^ 53)%Z; lia|cbn; lia].
Qed.
Lemma ceil_nat_INR n : ceil_nat (INR n) = n.
Proof.
  unfold ceil_nat. rewrite INR_IZR_INZ, <- opp_IZR.
  replace (Int_part (IZR (- Z.of_nat n))) with (- Z.of_nat n)%Z; [lia|].
  symmetry. destruct (base_Int_part (IZR (- Z.of_nat n))) as [A B].
  apply le_IZR in A. assert (- Z.of_nat n < Int_part (IZR (- Z.of_nat n)) + 1)%Z; [|lia]. apply lt_IZR. rewrite plus_IZR. lra.
Qed.

(*@ C122 The edges of the histograms: multiples of 0.25 without rounding error, symmetric, and reaching strictly beyond the
    largest sample, by at most one bin. *)
Lemma hist_edges_exact : forall m, is_b64 m -> 0 <= m <= 2 ^ 40 -> exists k : nat,
  m < INR k / 4 <= m + 1 / 4 /\ length (hist_edges_b64 m) = (2 * k + 1)%nat /\
  (forall i, (i <= 2 * k)%nat -> nth i (hist_edges_b64 m) 0 = (INR i - INR k) / 4).
Proof.
  intros m F [M0 M1]. assert (e : 2 ^ 40 = 1099511627776) by ring. rewrite e in M1.
  assert (E4 : b64 (m / (1 / 4)) = 4 * m).
  { replace (m / (1 / 4)) with (m * bpow radix2 2) by (change (bpow radix2 2) with 4; field).
    rewrite b64_id; [change (bpow radix2 2) with 4; ring|]. unfold is_b64 in *.
    apply (mult_bpow_pos_exact_FLT radix2 (-1074) 53 m 2 F). lia. }
  destruct (py_int_nonneg (4 * m) ltac:(lra)) as [A B]. set (z := py_int (4 * m)) in *.
  assert (Z0 : (0 <= z)%Z) by (enough (-1 < z)%Z by lia; apply lt_IZR; lra).
  assert (Z1 : (z <= 4398046511104)%Z) by (apply le_IZR; lra).
  set (k := Z.to_nat (z + 1)). assert (K : IZR (z + 1) = INR k) by (unfold k; rewrite INR_IZR_INZ, Z2Nat.id by lia; reflexivity).
  assert (K' : INR k = IZR z + 1) by (rewrite <- K, plus_IZR; reflexivity).
  assert (Kn : (Z.of_nat k = z + 1)%Z) by (unfold k; rewrite Z2Nat.id; lia).
  assert (Lim : hist_lim_b64 m = INR k / 4).
  { unfold hist_lim_b64. rewrite E4. fold z. replace (IZR (z + 1) * (1 / 4)) with (IZR (z + 1) / 4) by field.
    rewrite b64_quarter by lia. now rewrite K. }
  assert (Q : forall x y, (Z.abs y < 2 ^ 53)%Z -> x = IZR y / 4 -> b64 x = x) by (intros x y Hy ->; now apply b64_quarter).
  exists k. split; [lra|].
  assert (Eb : hist_edges_b64 m = map (fun i => (INR i - INR k) / 4) (seq 0 (2 * k + 1))).
  { unfold hist_edges_b64, arange_b64. rewrite Lim.
    assert (S1 : b64 (INR k / 4 + 1 / 4) = INR k / 4 + 1 / 4).
    { apply (Q _ (z + 2)%Z); [lia|]. rewrite plus_IZR, K'. lra. }
    rewrite S1.
    assert (S2 : b64 (INR k / 4 + 1 / 4 - - (INR k / 4)) = INR k / 4 + 1 / 4 - - (INR k / 4)).
    { apply (Q _ (2 * z + 3)%Z); [lia|]. rewrite plus_IZR, mult_IZR, K'. lra. }
    rewrite S2.
    assert (S3 : b64 ((INR k / 4 + 1 / 4 - - (INR k / 4)) / (1 / 4)) = INR (2 * k + 1)).
    { replace ((INR k / 4 + 1 / 4 - - (INR k / 4)) / (1 / 4)) with (INR (2 * k + 1)) by (rewrite plus_INR, mult_INR; cbn; field).
      rewrite INR_IZR_INZ. apply b64_int. lia. }
    rewrite S3, ceil_nat_INR.
    assert (S4 : b64 (- (INR k / 4) + 1 / 4) = - (INR k / 4) + 1 / 4).
    { apply (Q _ (- z)%Z); [lia|]. rewrite opp_IZR, K'. lra. }
    rewrite S4.
    assert (S5 : b64 (- (INR k / 4) + 1 / 4 - - (INR k / 4)) = 1 / 4).
    { replace (- (INR k / 4) + 1 / 4 - - (INR k / 4)) with (IZR 1 / 4) by lra. now apply b64_quarter. }
    rewrite S5. apply map_ext_in. intros i Hi. apply in_seq in Hi.
    destruct i as [|[|i]]; [cbn; lra|cbn; lra|]. set (j := S (S i)) in *.
    assert (S6 : b64 (INR j * (1 / 4)) = INR j * (1 / 4)).
    { apply (Q _ (Z.of_nat j)); [lia|]. rewrite INR_IZR_INZ. lra. }
    rewrite S6. replace (- (INR k / 4) + INR j * (1 / 4)) with ((INR j - INR k) / 4) by lra.
    apply (Q _ (Z.of_nat j - (z + 1))%Z); [lia|]. rewrite minus_IZR, <- INR_IZR_INZ, K. reflexivity. }
  rewrite Eb. split; [now rewrite map_length, seq_length|]. intros i Hi.
  rewrite (nth_indep _ 0 ((INR 0 - INR k) / 4)) by (rewrite map_length, seq_length; lia).
  rewrite (map_nth (fun i => (INR i - INR k) / 4)), seq_nth by lia. reflexivity.
Qed.

(** ** The grid of the copula *)
Lemma b64_abs_err x : Rabs x <= 4 -> Rabs (b64 x - x) <= / 2 ^ 51.
Proof.
  intro H. unfold b64. pose proof (error_le_half_ulp radix2 b64_exp (fun z => negb (Z.even z)) x) as E.
  assert (U : ulp radix2 b64_exp x <= ulp radix2 b64_exp 4).
  { apply ulp_le; [exact b64_valid|apply FLT_exp_monotone|]. rewrite (Rabs_pos_eq 4) by lra. exact H. }
  assert (V : ulp radix2 b64_exp 4 = / 2 ^ 50).
  { change 4 with (bpow radix2 2). rewrite ulp_bpow. change (b64_exp (2 + 1)) with (-50)%Z.
    change (bpow radix2 (-50)) with (/ IZR (Z.pow_pos 2 50)). f_equal. cbn. lra. }
  rewrite V in U. replace (/ 2 ^ 51) with (/ 2 * / 2 ^ 50) by (rewrite <- Rinv_mult; f_equal; ring). lra.
Qed.
Definition cent : R := 5764607523034235 / 576460752303423488.
Lemma b64_cent : b64 (1 / 100) = cent.
Proof.
  assert (M : mag_val radix2 _ (mag radix2 (1 / 100)) = (-6)%Z).
  { apply mag_unique_pos. change (bpow radix2 (-6 - 1)) with (/ 128). change (bpow radix2 (-6)) with (/ 64). lra. }
  unfold b64, round, scaled_mantissa, cexp. rewrite M. change (b64_exp (-6)) with (-59)%Z. change (bpow radix2 (- -59)) with 576460752303423488.
  rewrite (Znearest_imp _ _ 5764607523034235).
  - reflexivity.
  - apply Rabs_def1; lra.
Qed.

(*@ C122 The grid on which the copula tabulates its distribution: 400 points, starting at -2 exactly, in order, each within 10^-12
    of -2 + i/100 (so the last one is below 2). *)
Lemma csi_grid_rounding : length csi_grid_b64 = Z.to_nat 400 /\ nth 0 csi_grid_b64 0 = -2 /\
  (forall i, (i < length csi_grid_b64)%nat -> Rabs (nth i csi_grid_b64 0 - (-2 + INR i / 100)) <= / 10 ^ 12) /\
  (forall i j, (i < j < length csi_grid_b64)%nat -> nth i csi_grid_b64 0 < nth j csi_grid_b64 0).
Proof.
  assert (e51 : 2 ^ 51 = 2251799813685248) by ring. assert (e12 : 10 ^ 12 = 1000000000000) by ring.
  assert (Hc : cent = 5764607523034235 / 576460752303423488) by reflexivity.
  assert (n400 : INR (Z.to_nat 400) = 400) by (rewrite INR_IZR_INZ, Z2Nat.id by lia; reflexivity).
  set (second := b64 (-2 + cent)). set (delta := b64 (second - -2)).
  assert (Es : Rabs (second - (-2 + cent)) <= / 2 ^ 51) by (apply b64_abs_err; apply Rabs_le; lra).
  apply Rabs_le_inv in Es. rewrite e51 in Es.
  assert (Ed : Rabs (delta - (second - -2)) <= / 2 ^ 51) by (apply b64_abs_err; apply Rabs_le; lra).
  apply Rabs_le_inv in Ed. rewrite e51 in Ed.
  assert (Len : ceil_nat (b64 (b64 (2 - -2) / b64 (1 / 100))) = Z.to_nat 400).
  { rewrite b64_cent. replace (2 - -2) with (IZR 4) by lra. rewrite (b64_int 4) by (cbn; lia).
    assert (X : 399 + 1 / 2 <= 4 / cent <= 400).
    { rewrite Hc. split; apply Rmult_le_reg_r with (5764607523034235 / 576460752303423488); try lra; unfold Rdiv at 2; field_simplify; lra. }
    assert (Y : 399 < b64 (4 / cent) <= 400).
    { split.
      - apply Rlt_le_trans with (b64 (IZR 799 / 4 * 2)); [|apply b64_mono; lra].
        replace (IZR 799 / 4 * 2) with (IZR 1598 / 4) by lra. rewrite b64_quarter by (cbn; lia). lra.
      - rewrite <- (b64_int 400) by (cbn; lia). apply b64_mono. lra. }
    unfold ceil_nat. f_equal. destruct (base_Int_part (- b64 (4 / cent))) as [P Q].
    assert (Int_part (- b64 (4 / cent)) < -399)%Z by (apply lt_IZR; lra).
    assert (-401 < Int_part (- b64 (4 / cent)))%Z by (apply lt_IZR; lra). lia. }
  assert (G : csi_grid_b64 = map (fun i => match i with O => -2 | 1%nat => second | _ => b64 (-2 + b64 (INR i * delta)) end) (seq 0 (Z.to_nat 400))).
  { unfold csi_grid_b64, arange_b64. rewrite Len, b64_cent. reflexivity. }
  assert (L : length csi_grid_b64 = Z.to_nat 400) by (rewrite G, map_length, seq_length; reflexivity).
  assert (N : forall i, (i < Z.to_nat 400)%nat -> nth i csi_grid_b64 0 = match i with O => -2 | 1%nat => second | _ => b64 (-2 + b64 (INR i * delta)) end).
  { intros i Hi. rewrite G. set (f := fun i : nat => match i with O => -2 | 1%nat => second | _ => b64 (-2 + b64 (INR i * delta)) end).
    rewrite (nth_indep _ 0 (f O)) by (rewrite map_length, seq_length; exact Hi).
    rewrite (map_nth f), seq_nth by exact Hi. reflexivity. }
  assert (Er : forall i, (i < Z.to_nat 400)%nat -> Rabs (nth i csi_grid_b64 0 - (-2 + INR i / 100)) <= / 10 ^ 12).
  { intros i Hi. rewrite e12, N by exact Hi. assert (Bi : INR i + 1 <= 400) by (rewrite <- n400, <- S_INR; apply le_INR; lia). pose proof (pos_INR i) as Pi.
    destruct i as [|[|i]].
    - cbn. apply Rabs_le. lra.
    - cbn [INR]. apply Rabs_le. lra.
    - set (j := S (S i)) in *. clearbody j.
      assert (Pm : INR j / 100 - 400 * (3 / 2251799813685248) <= INR j * delta <= INR j / 100 + 400 * (3 / 2251799813685248)) by nra.
      assert (E1 : Rabs (b64 (INR j * delta) - INR j * delta) <= / 2 ^ 51) by (apply b64_abs_err; apply Rabs_le; lra).
      apply Rabs_le_inv in E1. rewrite e51 in E1.
      assert (E2 : Rabs (b64 (-2 + b64 (INR j * delta)) - (-2 + b64 (INR j * delta))) <= / 2 ^ 51) by (apply b64_abs_err; apply Rabs_le; lra).
      apply Rabs_le_inv in E2. rewrite e51 in E2. apply Rabs_le. lra. }
  split; [exact L|]. split; [rewrite N by lia; reflexivity|]. split.
  - rewrite L. exact Er.
  - rewrite L. intros i j Hij. pose proof (Er i ltac:(lia)) as Ei. pose proof (Er j ltac:(lia)) as Ej.
    apply Rabs_le_inv in Ei, Ej. rewrite e12 in *. assert (INR i + 1 <= INR j) by (rewrite <- S_INR; apply le_INR; lia). lra.
Qed.

(*@ex C122 *)
Lemma trunc_example : is_b64 (1 / 2) /\ noverlap_b64 101 (1 / 2) = 50%Z /\ pixel_b64 30 10 = 3%Z /\ layer_b64 100 4 = 12%Z.
Proof.
  assert (F : is_b64 (1 / 2)). { unfold is_b64. replace (1 / 2) with (bpow radix2 (-1)) by (cbn; lra). apply generic_format_bpow. cbn. lia. }
  split; [exact F|]. split; [|split].
  - destruct (overlap_shorter 101 (1 / 2) 50) as (_ & E & _); [lia|exact F|lra|lra|]. exact E.
  - destruct (pixel_rounding 30 30 10 3 3) as (_ & E & _); [lra|lra|]. apply E; [lia|lra].
  - rewrite layer_exact by lia. reflexivity.
Qed.

(*@ C122 The decimal reading fails: an overlap written 0.29 of a segment of 100 samples is 28 samples, not 29. *)
Lemma overlap_decimal_refuted : noverlap_b64 100 (b64 (29 / 100)) = 28%Z.
Proof.
  assert (M : mag_val radix2 _ (mag radix2 (29 / 100)) = (-1)%Z).
  { apply mag_unique_pos. change (bpow radix2 (-1 - 1)) with (/ 4). change (bpow radix2 (-1)) with (/ 2). lra. }
  assert (O : b64 (29 / 100) = 5224175567749775 / 18014398509481984).
  { unfold b64, round, scaled_mantissa, cexp. rewrite M. change (b64_exp (-1)) with (-54)%Z. change (bpow radix2 (- -54)) with 18014398509481984.
    rewrite (Znearest_imp _ _ 5224175567749775); [reflexivity|apply Rabs_def1; lra]. }
  unfold noverlap_b64. rewrite O. set (x := 100 * (5224175567749775 / 18014398509481984)).
  assert (M2 : mag_val radix2 _ (mag radix2 x) = 5%Z).
  { apply mag_unique_pos. change (bpow radix2 (5 - 1)) with 16. change (bpow radix2 5) with 32. unfold x. lra. }
  assert (B : b64 x = 8162774324609023 / 281474976710656).
  { unfold b64, round, scaled_mantissa, cexp. rewrite M2. change (b64_exp 5) with (-48)%Z. change (bpow radix2 (- -48)) with 281474976710656.
    rewrite (Znearest_imp _ _ 8162774324609023); [reflexivity|unfold x; apply Rabs_def1; lra]. }
  rewrite B. apply py_int_eq; [lia|lra].
Qed.
