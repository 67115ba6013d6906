(** Error metrics on machine integers (C130). *)
From Verif Require Import Prelude PreludeFacts RealBase Fl RealStat M_stats Spec_stats M_stats_int Spec_stats_int.
Local Open Scope Z_scope.

Lemma sub_exact b e zs : z_sub e b = Ok zs -> forall z, In z zs -> exact_error b e z.
Proof.
  intros Z z I. unfold z_sub in Z. destruct (Nat.eqb_spec (length e) (length b)) as [L|L].
  - injection Z as <-. apply in_map_iff in I. destruct I as ([y x] & <- & C). exists x, y. split; [easy|]. left.
    clear L. revert b C. induction e as [|u e IH]; intros [|v b] C; try contradiction. destruct C as [E|C]; [injection E as -> ->; now exists 0%nat|].
    destruct (IH b C) as [i Hi]. now exists (S i).
  - destruct e as [|y [|y' e]].
    + destruct b as [|x [|x' b]]; try discriminate. now injection Z as <-.
    + injection Z as <-. apply in_map_iff in I. destruct I as (x & <- & I). exists x, y. split; [easy|]. right. right. easy.
    + destruct b as [|x [|x' b]]; try discriminate. injection Z as <-.
      change (In z (map (fun a => a - x) (y :: y' :: e))) in I. apply in_map_iff in I. destruct I as (a & <- & I). exists x, a. split; [easy|]. right. left. easy.
Qed.

(*@ C130 The error stored for an estimate and its baseline value is the exact one if the type can hold it, and off by a multiple of 2^bits
    otherwise. *)
Lemma int_error_entry : forall t b e ds i d, 0 < bits t -> int_bias_error t b e = Ok ds -> nth_error ds i = Some d ->
  exists z k, exact_error b e z /\ d = z + k * 2 ^ bits t /\ holds t d /\ (holds t z <-> k = 0).
Proof.
  intros t b e ds i d W E N. unfold int_bias_error in E. destruct (z_sub e b) as [zs|] eqn:Z; [|discriminate]. injection E as <-.
  rewrite nth_error_map in N. destruct (nth_error zs i) as [z|] eqn:Nz; [|discriminate]. injection N as <-.
  assert (X : exact_error b e z) by (eapply sub_exact; [eassumption|]; eapply nth_error_In; eassumption).
  assert (P : 0 < 2 ^ bits t) by (apply Z.pow_pos_nonneg; lia).
  assert (H : 2 ^ bits t = 2 * 2 ^ (bits t - 1)) by (rewrite <- Z.pow_succ_r by lia; f_equal; lia).
  exists z. unfold wrap, holds. destruct (signed t).
  - exists (- ((z + 2 ^ (bits t - 1)) / 2 ^ bits t)). assert (D := Z.div_mod (z + 2 ^ (bits t - 1)) (2 ^ bits t)). assert (M := Z.mod_pos_bound (z + 2 ^ (bits t - 1)) (2 ^ bits t)).
    specialize (D ltac:(lia)). specialize (M ltac:(lia)). split; [exact X|]. split; [nia|]. split; [nia|].
    split; [intro Hz; rewrite Z.div_small by lia; easy|]. intro K. assert (Q : (z + 2 ^ (bits t - 1)) / 2 ^ bits t = 0) by lia. rewrite Q in D. nia.
  - exists (- (z / 2 ^ bits t)). assert (D := Z.div_mod z (2 ^ bits t)). assert (M := Z.mod_pos_bound z (2 ^ bits t)).
    specialize (D ltac:(lia)). specialize (M ltac:(lia)). split; [exact X|]. split; [nia|]. split; [nia|].
    split; [intro Hz; rewrite Z.div_small by lia; easy|]. intro K. assert (Q : z / 2 ^ bits t = 0) by lia. rewrite Q in D. nia.
Qed.

Lemma wrap_id t z : 0 < bits t -> holds t z -> wrap t z = z.
Proof.
  intros W. unfold holds, wrap. assert (H : 2 ^ bits t = 2 * 2 ^ (bits t - 1)) by (rewrite <- Z.pow_succ_r by lia; f_equal; lia).
  destruct (signed t); intro B; rewrite Z.mod_small by lia; lia.
Qed.
Lemma sub_real a b : array_sub (map IZR a) (map IZR b) = rmap (map IZR) (z_sub a b).
Proof.
  unfold array_sub, z_sub. rewrite !map_length. destruct (Nat.eqb (length a) (length b)).
  - cbn. f_equal. unfold map2. rewrite map_map. revert b. induction a as [|x a IH]; intros [|y b]; cbn; try easy. now rewrite IH, minus_IZR.
  - destruct a as [|x [|x' a]]; destruct b as [|y [|y' b]]; try reflexivity; cbn; rewrite ?minus_IZR; do 2 f_equal;
      try (f_equal; rewrite !map_map; apply map_ext; intro; now rewrite minus_IZR).
Qed.
Lemma bias_exact t b e : 0 < bits t -> (forall d, exact_error b e d -> holds t d) -> int_bias_error t b e = z_sub e b.
Proof.
  intros W H. unfold int_bias_error. destruct (z_sub e b) as [zs|] eqn:Z; [|easy]. cbn. f_equal. rewrite <- (map_id zs) at 2. apply map_ext_in.
  intros z I. apply wrap_id; [easy|]. apply H. eapply sub_exact; eassumption.
Qed.

(*@ C130 If the type can hold every error, mbe is the one of the same numbers in floating point; if it can hold the absolute values too, so is
    mae; if it can hold the squares, so are mse and rmse. *)
Lemma int_metrics_exact : forall t b e, 0 < bits t -> (forall d, exact_error b e d -> holds t d) ->
  int_mbe t b e = mbe (map IZR b) (map IZR e) /\
  ((forall d, exact_error b e d -> holds t (Z.abs d)) -> int_mae t b e = mae (map IZR b) (map IZR e)) /\
  ((forall d, exact_error b e d -> holds t (d * d)) -> int_mse t b e = mse (map IZR b) (map IZR e) /\ int_rmse t b e = rmse (map IZR b) (map IZR e)).
Proof.
  intros t b e W H. assert (B := bias_exact t b e W H). split; [|split].
  - unfold int_mbe, mbe, bias_error. rewrite B, sub_real. now destruct (z_sub e b).
  - intro A. unfold int_mae, mae, int_absolute_error, absolute_error, bias_error. rewrite B, sub_real. destruct (z_sub e b) as [zs|] eqn:Z; [|easy]. cbn. f_equal. unfold int_mean. f_equal.
    rewrite !map_map. apply map_ext_in. intros z I. rewrite wrap_id; [apply abs_IZR|easy|]. apply A. eapply sub_exact; eassumption.
  - intro S. assert (M : int_mse t b e = mse (map IZR b) (map IZR e)).
    { unfold int_mse, mse, int_squared_error, squared_error, bias_error. rewrite B, sub_real. destruct (z_sub e b) as [zs|] eqn:Z; [|easy]. cbn [rmap]. f_equal. unfold int_mean. f_equal.
      rewrite !map_map. apply map_ext_in. intros z I. rewrite wrap_id; [|easy|apply S; eapply sub_exact; eassumption]. rewrite mult_IZR. cbn. lra. }
    split; [easy|]. unfold int_rmse, rmse. now rewrite M.
Qed.
(*@ C130 In a signed type all four are right as long as no error is larger than B in absolute value and B^2 is below 2^(bits-1), for example
    1000 W/m2 in 32 bits. *)
Lemma int_signed_safe : forall t b e B, signed t = true -> 0 < bits t -> (forall d, exact_error b e d -> Z.abs d <= B) -> B * B < 2 ^ (bits t - 1) ->
  int_mbe t b e = mbe (map IZR b) (map IZR e) /\ int_mae t b e = mae (map IZR b) (map IZR e) /\
  int_mse t b e = mse (map IZR b) (map IZR e) /\ int_rmse t b e = rmse (map IZR b) (map IZR e).
Proof.
  intros t b e B S W H L. assert (Q : forall d, exact_error b e d -> holds t d /\ holds t (Z.abs d) /\ holds t (d * d)).
  { intros d X. specialize (H d X). unfold holds. rewrite S. assert (Z.abs d * Z.abs d <= B * B) by (apply Z.mul_le_mono_nonneg; lia).
    assert (d * d = Z.abs d * Z.abs d) by (destruct (Z.abs_spec d) as [[_ ->]|[_ ->]]; lia).
    assert (Z.abs d <= Z.abs d * Z.abs d) by nia. lia. }
  destruct (int_metrics_exact t b e W) as (M & A & R); [intros d X; now apply Q|]. split; [exact M|]. split; [apply A; intros d X; now apply Q|].
  apply R. intros d X. now apply Q.
Qed.

(*@ C130 In an unsigned type every estimate below its baseline value adds 2^bits to the sum of the errors: mbe is never negative, and mae is
    the same as mbe. *)
Lemma int_unsigned : forall t b e, signed t = false -> 0 < bits t -> length b = length e -> b <> [] ->
  (forall z, In z b \/ In z e -> holds t z) ->
  int_mbe t b e = Ok (Fin (Rmean (errs (map IZR b) (map IZR e)) + IZR (2 ^ bits t) * INR (below_baseline b e) / INR (length b)))%R /\
  int_mae t b e = int_mbe t b e /\ (exists m, int_mbe t b e = Ok (Fin m) /\ 0 <= m)%R.
Proof.
  intros t b e S W L N H.
  assert (P : 0 < 2 ^ bits t) by (apply Z.pow_pos_nonneg; lia).
  assert (U : forall z, wrap t z = z mod 2 ^ bits t) by (intro; unfold wrap; now rewrite S).
  assert (HU : forall z, In z b \/ In z e -> 0 <= z < 2 ^ bits t) by (intros z I; specialize (H z I); unfold holds in H; now rewrite S in H).
  unfold int_mae, int_mbe, int_absolute_error, int_bias_error, z_sub. rewrite <- L, Nat.eqb_refl. cbn [rmap].
  assert (A : map (fun d => wrap t (Z.abs d)) (map (wrap t) (map (fun p => fst p - snd p) (combine e b))) = map (wrap t) (map (fun p => fst p - snd p) (combine e b))).
  { rewrite map_map. apply map_ext. intro z. rewrite !U. assert (M := Z.mod_pos_bound z (2 ^ bits t) P). rewrite Z.abs_eq by lia. now rewrite Z.mod_mod by lia. }
  rewrite A. clear A H.
  assert (SU : Rsum (map IZR (map (wrap t) (map (fun p => fst p - snd p) (combine e b)))) =
    (Rsum (errs (map IZR b) (map IZR e)) + IZR (2 ^ bits t) * INR (below_baseline b e))%R).
  { clear N. unfold below_baseline, errs. revert e L HU. induction b as [|x b IH]; intros [|y e] L HU; try discriminate; [cbn; lra|].
    injection L as L. specialize (IH e L ltac:(intros z I; apply HU; cbn; tauto)). cbn [combine map filter fst snd length].
    assert (Hx := HU x ltac:(cbn; tauto)). assert (Hy := HU y ltac:(cbn; tauto)). rewrite Rsum_cons, IH, U.
    rewrite Rsum_cons. destruct (Z.ltb_spec y x).
    - cbn [length]. rewrite S_INR. replace ((y - x) mod 2 ^ bits t) with (y - x + 2 ^ bits t).
      + rewrite plus_IZR, minus_IZR. cbn [fst snd]. lra.
      + rewrite <- (Z.mod_small (y - x + 2 ^ bits t) (2 ^ bits t)) by lia. rewrite <- (Z.mul_1_l (2 ^ bits t)) at 1. now rewrite Z.mod_add by lia.
    - rewrite Z.mod_small by lia. rewrite minus_IZR. cbn [fst snd]. lra. }
  assert (LN : (0 < INR (length b))%R) by (apply lt_0_INR; destruct b; [easy|cbn; lia]).
  set (ds := map (wrap t) (map (fun p => fst p - snd p) (combine e b))) in *.
  assert (Ld : length ds = length b) by (unfold ds; rewrite !map_length, combine_length; lia).
  assert (LE : length (errs (map IZR b) (map IZR e)) = length b) by (unfold errs; rewrite map_length, combine_length, !map_length; lia).
  assert (V : int_mean ds = Fin (Rsum (map IZR ds) / INR (length b))).
  { unfold int_mean. destruct ds as [|d0 ds']; [destruct b; [easy|discriminate]|]. cbn [map nan_reduce]. f_equal. unfold Rmean. f_equal. f_equal. rewrite <- Ld. cbn. now rewrite map_length. }
  rewrite V. split; [|split].
  - rewrite SU. do 2 f_equal. unfold Rmean. rewrite LE. field. lra.
  - easy.
  - eexists. split; [easy|]. apply Rmult_le_pos; [|left; now apply Rinv_0_lt_compat]. unfold ds. clear - U P. induction (combine e b) as [|p l IH]; [cbn; lra|].
    cbn [map]. rewrite Rsum_cons. apply Rplus_le_le_0_compat; [|exact IH]. apply IZR_le. rewrite U. now apply Z.mod_pos_bound.
Qed.

Definition uint16 : itype := Int false 16.
Definition int16 : itype := Int true 16.
(*@ C130 So the metrics of integer arrays are not those of the same numbers: in uint16 an underestimate of 1 is an overestimate of 65535, and in
    int16 an error of 200 has a negative mean square and no root mean square. *)
Lemma int_metrics_refuted :
  int_mbe uint16 [1] [0] = Ok (Fin 65535) /\ mbe [1%R] [0%R] = Ok (Fin (-1)) /\
  int_mse int16 [800] [1000] = Ok (Fin (-25536)) /\ int_rmse int16 [800] [1000] = Ok Nan /\ mse [800%R] [1000%R] = Ok (Fin 40000).
Proof.
  assert (M : int_mse int16 [800] [1000] = Ok (Fin (-25536))).
  { unfold int_mse, int_squared_error, int_bias_error, z_sub. cbn. unfold Rmean. cbn. do 2 f_equal. lra. }
  split; [unfold int_mbe, int_bias_error, z_sub; cbn; unfold Rmean; cbn; do 2 f_equal; lra|].
  split; [unfold mbe, bias_error, array_sub; cbn; unfold Rmean; cbn; do 2 f_equal; lra|]. split; [exact M|].
  split; [unfold int_rmse; rewrite M; cbn; now rewrite Rltb_true by lra|].
  unfold mse, squared_error, bias_error, array_sub; cbn; unfold Rmean; cbn; do 2 f_equal; lra.
Qed.
(*@ex C130 Irradiance in 32 bits is safe; the unsigned formula on three values. *)
Lemma int_example : (forall d, exact_error [800; 0; 300] [1000; 10; 0] d -> Z.abs d <= 1000) /\ 1000 * 1000 < 2 ^ (bits (Int true 32) - 1) /\
  (forall z, In z [800; 0; 300] \/ In z [1000; 10; 0] -> holds uint16 z) /\ below_baseline [800; 0; 300] [1000; 10; 0] = 1%nat /\
  int_bias_error uint16 [800; 0; 300] [1000; 10; 0] = Ok [200; 10; 65236].
Proof.
  split.
  - intros d (x & y & -> & [(i & Hx & Hy)|[[D _]|[D _]]]); try discriminate.
    destruct i as [|[|[|i]]]; cbn in Hx, Hy; try (injection Hx as <-; injection Hy as <-; cbn; lia). now destruct i.
  - split; [cbn; lia|]. split; [|split; reflexivity]. intros z [I|I]; cbn in I; unfold holds; cbn; lia.
Qed.
