(** spatial.py _calc_zone: the UTM zone of a longitude, exact and in binary64. *)
From Flocq Require Import Core.
From Verif Require Import Prelude RealBase M_spatial M_spatial_float.
Local Open Scope R_scope.

Lemma py_int_nonneg x : 0 <= x -> IZR (py_int x) <= x < IZR (py_int x) + 1.
Proof.
  intro H. unfold py_int. rewrite Rleb_true by easy. destruct (base_Int_part x). lra.
Qed.

Lemma py_int_neg x : x < 0 -> x <= IZR (py_int x) < x + 1 .
Proof.
  intro H. unfold py_int. rewrite Rleb_false by easy. rewrite opp_IZR.
  destruct (base_Int_part (- x)). lra.
Qed.

Lemma py_int_eq x z : (0 <= z)%Z -> IZR z <= x < IZR z + 1 -> py_int x = z.
Proof.
  intros Hz H. apply IZR_le in Hz. destruct (py_int_nonneg x) as [A B]; [lra|].
  assert ((py_int x < z + 1)%Z) by (apply lt_IZR; rewrite plus_IZR; lra).
  assert ((z < py_int x + 1)%Z) by (apply lt_IZR; rewrite plus_IZR; lra). lia.
Qed.

Lemma py_int_mono x y : x <= y -> (py_int x <= py_int y)%Z.
Proof.
  intro H. enough (py_int x < py_int y + 1)%Z by lia. apply lt_IZR. rewrite plus_IZR.
  destruct (Rle_or_lt 0 x) as [Hx|Hx].
  - destruct (py_int_nonneg x Hx), (py_int_nonneg y ltac:(lra)). lra.
  - destruct (py_int_neg x Hx) as [A B]. destruct (Rle_or_lt 0 y) as [Hy|Hy].
    + destruct (py_int_nonneg y Hy) as [C D].
      assert (py_int x < 1)%Z by (apply lt_IZR; lra).
      assert (0 < py_int y + 1)%Z by (apply lt_IZR; rewrite plus_IZR; lra).
      apply Z.lt_succ_r in H1. assert (py_int x <= 0)%Z by lia.
      apply IZR_le in H2. apply IZR_le in H1. lra.
    + destruct (py_int_neg y Hy). lra.
Qed.

(*@ C01 The zone is the 6-degree band containing the longitude. *)
Lemma zone_is_band : forall lon : R, -180 <= lon < 180 ->
  (1 <= calc_zone lon <= 60)%Z /\
  -180 + 6 * (IZR (calc_zone lon) - 1) <= lon < -180 + 6 * IZR (calc_zone lon).
Proof.
  intros lon H. unfold calc_zone. set (v := (lon - -180) / 6 + 1).
  assert (Hv : lon = 6 * v - 186) by (unfold v; lra).
  assert (Hv1 : 1 <= v < 61) by lra.
  destruct (py_int_nonneg v) as [A B]; [lra|].
  assert (Hz : (1 <= py_int v <= 60)%Z).
  { split; [enough (0 < py_int v)%Z by lia|enough (py_int v < 61)%Z by lia]; apply lt_IZR; lra. }
  rewrite Z.min_l by lia. split; [easy|]. lra.
Qed.

(*@ C01 Longitude +180 is zone 60, and anything beyond is clamped to 60. *)
Lemma zone_upper_clamp : forall lon : R, 180 <= lon -> calc_zone lon = 60%Z.
Proof.
  intros lon H. unfold calc_zone. apply Z.min_r. set (v := (lon - -180) / 6 + 1).
  assert (Hv1 : 61 <= v) by (unfold v; lra).
  destruct (py_int_nonneg v) as [A B]; [lra|]. enough (60 < py_int v)%Z by lia. apply lt_IZR; lra.
Qed.

(*@ C01 The zone never decreases with longitude (on all reals). *)
Lemma zone_monotone : forall a b : R, a <= b -> (calc_zone a <= calc_zone b)%Z.
Proof.
  intros a b H. unfold calc_zone. apply Z.min_le_compat_r. apply py_int_mono. lra.
Qed.

(*@ C01 There is no lower clamp: west of -180 the zone is silently not a UTM zone. *)
Lemma zone_no_lower_clamp : forall lon : R, lon < -180 -> (calc_zone lon <= 0)%Z.
Proof.
  intros lon H. unfold calc_zone. set (v := (lon - -180) / 6 + 1).
  assert (Hv : v < 1) by (unfold v; lra). etransitivity; [apply Z.le_min_l|].
  destruct (Rle_or_lt 0 v) as [Hx|Hx].
  - destruct (py_int_nonneg v Hx). enough (py_int v < 1)%Z by lia. apply lt_IZR; lra.
  - destruct (py_int_neg v Hx). enough (py_int v < 1)%Z by lia. apply lt_IZR; lra.
Qed.

(*@ex C01 *)
Lemma zone_boulder : -180 <= -105.27 < 180 /\ calc_zone (-105.27) = 13%Z.
Proof.
  split; [lra|]. destruct (zone_is_band (-105.27) ltac:(lra)) as [_ H].
  assert (12 < calc_zone (-105.27) < 14)%Z by (split; apply lt_IZR; lra). lia.
Qed.

(** ** binary64 *)
Local Instance prec53 : Prec_gt_0 53.
Proof. reflexivity. Qed.
Local Instance b64_valid : Valid_exp b64_exp.
Proof. unfold b64_exp. apply FLT_exp_valid. exact prec53. Qed.

Lemma b64_mono x y : x <= y -> b64 x <= b64 y.
Proof. intro. unfold b64. apply round_le; auto with typeclass_instances. Qed.

Lemma b64_id x : is_b64 x -> b64 x = x.
Proof. intro. unfold b64. apply round_generic; auto with typeclass_instances. Qed.

Lemma is_b64_int z : (Z.abs z <= 2 ^ 53)%Z -> is_b64 (IZR z).
Proof.
  intro H. unfold is_b64, b64_exp. apply generic_format_FLT.
  destruct (Z.eq_dec (Z.abs z) (2 ^ 53)) as [E|NE].
  - exists (Float radix2 (z / 2) 1).
    + unfold F2R. cbn [Fnum Fexp]. replace (bpow radix2 1) with 2 by (cbn; lra).
      assert (Hz : (z = 2 * (z / 2))%Z).
      { assert (z mod 2 = 0)%Z by (destruct (Z.abs_eq_or_opp z); [replace z with (2^53)%Z by lia|replace z with (- 2^53)%Z by lia]; reflexivity).
        pose proof (Z.div_mod z 2 ltac:(lia)). lia. }
      rewrite Hz at 1. rewrite mult_IZR. lra.
    + cbn [Fnum]. change (radix2 ^ 53)%Z with (2 ^ 53)%Z.
      assert (2 * Z.abs (z / 2) <= Z.abs z)%Z by (destruct (Z.abs_eq_or_opp z); [replace z with (2^53)%Z by lia|replace z with (- 2^53)%Z by lia]; cbn; lia). lia.
    + cbn. lia.
  - exists (Float radix2 z 0).
    + unfold F2R. cbn. lra.
    + cbn [Fnum]. change (radix2 ^ 53)%Z with (2 ^ 53)%Z. lia.
    + cbn. lia.
Qed.

Lemma b64_int z : (Z.abs z <= 2 ^ 53)%Z -> b64 (IZR z) = IZR z.
Proof. intro. apply b64_id. now apply is_b64_int. Qed.

(*@ C01 In binary64 the zone is still always a UTM zone, for every longitude in range. *)
Lemma zone_b64_range : forall lon : R, -180 <= lon <= 180 -> (1 <= calc_zone_b64 lon <= 60)%Z.
Proof.
  intros lon H. unfold calc_zone_b64. split; [|apply Z.le_min_r].
  apply Z.min_glb; [|lia]. transitivity (py_int 1); [rewrite (py_int_eq 1 1) by (try lia; lra); lia|]. apply py_int_mono.
  assert (P : forall x z, (Z.abs z <= 2 ^ 53)%Z -> IZR z <= x -> IZR z <= b64 x).
  { intros x z Hz Hx. rewrite <- (b64_int z Hz). now apply b64_mono. }
  apply P; [cbn; lia|]. enough (0 <= b64 (b64 (lon - -180) / 6)) by lra.
  apply P; [cbn; lia|]. enough (0 <= b64 (lon - -180)) by lra.
  apply P; [cbn; lia|]. lra.
Qed.

(*@ C01 In binary64 the zone is still non-decreasing in the longitude. *)
Lemma zone_b64_monotone : forall a b : R, a <= b -> (calc_zone_b64 a <= calc_zone_b64 b)%Z.
Proof.
  intros a b H. unfold calc_zone_b64. apply Z.min_le_compat_r. apply py_int_mono.
  apply b64_mono. apply Rplus_le_compat_r. apply b64_mono. apply Rmult_le_compat_r; [lra|].
  apply b64_mono. lra.
Qed.

(** At a band edge all operations are exact. *)
Lemma zone_b64_edge k : (0 <= k <= 59)%Z -> calc_zone_b64 (-180 + 6 * IZR k) = (k + 1)%Z.
Proof.
  intro Hk. unfold calc_zone_b64.
  replace (-180 + 6 * IZR k - -180) with (IZR (6 * k)) by (rewrite mult_IZR; lra).
  rewrite b64_int by lia. replace (IZR (6 * k) / 6) with (IZR k) by (rewrite mult_IZR; lra).
  rewrite b64_int by lia. replace (IZR k + 1) with (IZR (k + 1)) by (now rewrite plus_IZR).
  rewrite b64_int by lia. rewrite (py_int_eq _ (k + 1)) by (try lia; lra). lia.
Qed.

Lemma b64_err x e : Rabs x < bpow radix2 e -> (-1021 <= e)%Z -> Rabs (b64 x - x) <= bpow radix2 (e - 54).
Proof.
  intros Hx He. unfold b64.
  destruct (Req_dec x 0) as [->|Nx].
  { rewrite round_0 by auto with typeclass_instances. rewrite Rminus_0_r, Rabs_R0. apply bpow_ge_0. }
  eapply Rle_trans; [apply error_le_half_ulp; auto with typeclass_instances|].
  rewrite ulp_neq_0 by easy. unfold cexp, b64_exp, FLT_exp.
  assert (mag radix2 x <= e)%Z by (apply mag_le_bpow; easy).
  replace (bpow radix2 (e - 54)) with (/ 2 * bpow radix2 (e - 53)).
  - apply Rmult_le_compat_l; [lra|]. apply bpow_le. lia.
  - replace (e - 53)%Z with (e - 54 + 1)%Z by lia. rewrite bpow_plus. change (bpow radix2 1) with 2. lra.
Qed.

(*@ C01 The binary64 zone is the true zone, or the next one, and the latter only when the
    longitude is within 2^-43 degrees below the next band edge. *)
Lemma zone_b64_close : forall lon : R, -180 <= lon < 180 ->
  calc_zone_b64 lon = calc_zone lon \/
  (calc_zone_b64 lon = calc_zone lon + 1)%Z /\ -180 + 6 * IZR (calc_zone lon) - / 2 ^ 43 <= lon.
Proof.
  intros lon H. destruct (zone_is_band lon H) as [Hz [L U]]. set (z := calc_zone lon) in *.
  assert (Lo : (z <= calc_zone_b64 lon)%Z).
  { rewrite <- (Z.sub_add 1 z) at 1. rewrite <- (zone_b64_edge (z - 1)) by lia.
    apply zone_b64_monotone. rewrite minus_IZR. lra. }
  destruct (Z.eq_dec (calc_zone_b64 lon) z) as [E|NE]; [now left|right].
  assert (Hi : (calc_zone_b64 lon <= z + 1)%Z).
  { destruct (Z.eq_dec z 60) as [->|]; [unfold calc_zone_b64; lia|].
    rewrite <- (zone_b64_edge z) by lia. apply zone_b64_monotone. lra. }
  split; [lia|].
  destruct (Rle_or_lt (-180 + 6 * IZR z - / 2 ^ 43) lon) as [|Far]; [easy|exfalso].
  apply NE. enough (calc_zone_b64 lon <= z)%Z by lia.
  unfold calc_zone_b64. etransitivity; [apply Z.le_min_l|].
  assert (Hz' : IZR z <= 60) by (apply IZR_le; lia).
  assert (Hz1 : 1 <= IZR z) by (apply IZR_le; lia).
  set (a := b64 (lon - -180)).
  assert (Ha : Rabs (a - (lon - -180)) <= / 2 ^ 45).
  { replace (/ 2 ^ 45) with (bpow radix2 (9 - 54)) by (cbn; lra). apply b64_err; [|lia].
    rewrite Rabs_pos_eq by lra. cbn. lra. }
  apply Rabs_le_inv in Ha.
  set (b := b64 (a / 6)).
  assert (Hb : Rabs (b - a / 6) <= / 2 ^ 48).
  { replace (/ 2 ^ 48) with (bpow radix2 (6 - 54)) by (cbn; lra). apply b64_err; [|lia].
    apply Rabs_def1; cbn; lra. }
  apply Rabs_le_inv in Hb.
  assert (Hc : Rabs (b64 (b + 1) - (b + 1)) <= / 2 ^ 48).
  { replace (/ 2 ^ 48) with (bpow radix2 (6 - 54)) by (cbn; lra). apply b64_err; [|lia].
    apply Rabs_def1; cbn; lra. }
  apply Rabs_le_inv in Hc.
  assert (Hlt : b64 (b + 1) < IZR z + 1) by lra.
  assert (Hge : 0 <= b64 (b + 1)) by lra.
  destruct (py_int_nonneg _ Hge) as [A B].
  enough (py_int (b64 (b + 1)) < z + 1)%Z by lia. apply lt_IZR. rewrite plus_IZR. lra.
Qed.

(*@ C01 The exact band statement is false in binary64: a longitude just west of Greenwich is
    given the zone east of it. *)
Lemma zone_b64_band_refuted : exists lon : R, is_b64 lon /\ -180 <= lon < 180 /\
  ~ (-180 + 6 * (IZR (calc_zone_b64 lon) - 1) <= lon < -180 + 6 * IZR (calc_zone_b64 lon)).
Proof.
  exists (- / 2 ^ 60).
  assert (F : is_b64 (- / 2 ^ 60)).
  { replace (- / 2 ^ 60) with (- bpow radix2 (-60)) by (cbn; lra).
    apply generic_format_opp. apply generic_format_bpow. unfold b64_exp, FLT_exp. lia. }
  split; [exact F|]. split; [lra|].
  assert (E : calc_zone_b64 (- / 2 ^ 60) = 31%Z).
  { unfold calc_zone_b64.
    replace (b64 (- / 2 ^ 60 - -180)) with 180.
    - replace (180 / 6) with 30 by lra. rewrite b64_int by (cbn; lia).
      replace (30 + 1) with 31 by lra. rewrite b64_int by (cbn; lia).
      rewrite (py_int_eq 31 31) by (try lia; lra). reflexivity.
    - symmetry. apply Rle_antisym.
      + apply Rle_trans with (b64 180); [apply b64_mono; lra|]. rewrite b64_int by (cbn; lia). lra.
      + (* 180 - 2^-60 lies within half an ulp of 180 *)
        destruct (Rle_or_lt 180 (b64 (- / 2 ^ 60 - -180))) as [|Lt]; [easy|exfalso].
        set (x := - / 2 ^ 60 - -180) in *.
        assert (Rabs (b64 x - x) <= Rabs (180 - x)).
        { assert (Hn : Rnd_N_pt (generic_format radix2 b64_exp) x (b64 x)) by (apply round_N_pt; auto with typeclass_instances).
          apply Hn. apply is_b64_int. cbn. lia. }
        assert (Fx : is_b64 (b64 x)) by (apply generic_format_round; auto with typeclass_instances).
        (* the largest float below 180 is 180 - 2^-45 *)
        assert (Hp : b64 x <= 180 - / 2 ^ 45).
        { assert (P : 180 - / 2 ^ 45 = pred radix2 b64_exp 180).
          { rewrite pred_eq_pos by lra. unfold pred_pos.
            assert (M : mag radix2 180 = 8%Z :> Z) by (apply mag_unique_pos; cbn; lra).
            rewrite M. rewrite Req_bool_false by (cbn; lra).
            rewrite ulp_neq_0 by lra. unfold cexp. rewrite M. unfold b64_exp, FLT_exp. cbn. lra. }
          rewrite P. apply pred_ge_gt; auto with typeclass_instances. apply is_b64_int. cbn. lia. }
        unfold Rabs in H. destruct (Rcase_abs (b64 x - x)), (Rcase_abs (180 - x)); unfold x in *; lra. }
  rewrite E. intros [A _]. lra.
Qed.
