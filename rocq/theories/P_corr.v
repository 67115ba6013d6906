(** correlation as a function of the lag. *)
From Coq Require Import String.
From Verif Require Import Prelude RealBase Fl RealStat P_list Spec_signal M_cmv M_signal_corr P_signal.
From Coq Require Import Lra Psatz.
Local Open Scope R_scope.

Lemma ne_len {A} (a : list A) : a <> [] -> (0 < length a)%nat.
Proof. destruct a; cbn; [easy|lia]. Qed.
Lemma lags_In n m L : (0 < m)%nat -> In L (correlation_lags n m) <-> lag_of n m L.
Proof.
  intro Hm. unfold correlation_lags, lag_of. rewrite in_map_iff. split.
  - intros [k [<- Hk]]. apply in_seq in Hk. lia.
  - intro H. exists (Z.to_nat (L + Z.of_nat (m - 1))). split; [lia|]. apply in_seq. lia.
Qed.
Lemma lags_length n m : length (correlation_lags n m) = (n + m - 1)%nat.
Proof. unfold correlation_lags. now rewrite map_length, seq_length. Qed.
Lemma lags_nth n m k L : nth_error (correlation_lags n m) k = Some L -> L = (Z.of_nat k - Z.of_nat (m - 1))%Z.
Proof.
  intro H. assert (K : (k < n + m - 1)%nat) by (rewrite <- (lags_length n m); apply nth_error_Some; congruence).
  unfold correlation_lags in H. rewrite nth_error_map, nth_error_seq in H by auto. cbn in H. congruence.
Qed.
Lemma at_lag_map f lags L v : at_lag (map f lags, lags) L v <-> In L lags /\ v = f L.
Proof.
  unfold at_lag. cbn. split.
  - intros [k [E1 E2]]. rewrite nth_error_map, E1 in E2. cbn in E2. split; [now apply nth_error_In in E1|congruence].
  - intros [H ->]. apply In_nth_error in H as [k E]. exists k. split; auto. now rewrite nth_error_map, E.
Qed.

Lemma map2_map_self {A B C} (g : B -> A -> C) (f : A -> B) l : map2 g (map f l) l = map (fun x => g (f x) x) l.
Proof. unfold map2. induction l as [|x l IH]; cbn; [reflexivity|]. now rewrite IH. Qed.

Lemma demean_centred a : demean a = centred a.
Proof. reflexivity. Qed.
Lemma centred_length a : length (centred a) = length a.
Proof. unfold centred. apply map_length. Qed.
Lemma centred_ne a : a <> [] -> centred a <> [].
Proof. now destruct a. Qed.

(** The value each scaling assigns to a lag. *)
Definition energy_val (a b : list R) (L : Z) : fl := fdiv (Fin (lag_sum a b L)) (Fin (energy a)).
Definition coeff_val (a b : list R) (L : Z) : fl :=
  fdiv (Fin (lag_sum (centred a) (centred b) L)) (Fin (INR (length a) * (Rstd a * Rstd b))).
Definition unbias_val (n : nat) (f : Z -> fl) (L : Z) : fl := fdiv (f L) (Fin ((INR n - Rabs (IZR L)) / INR n)).

Lemma auto_max a : a <> [] -> Rmax_of (correlate a a) = energy a.
Proof.
  intro Na. apply Rmax_of_unique.
  - rewrite correlate_as_map by auto. apply in_map_iff. exists 0%Z. split; [apply lag_sum_self|].
    apply ne_len in Na. apply lags_In; auto. unfold lag_of. lia.
  - intros x Hx. rewrite correlate_as_map in Hx by auto. apply in_map_iff in Hx as [L [<- _]]. apply lag_sum_self_le.
Qed.

Definition scale_val (a b : list R) (s : string) : Z -> fl :=
  if String.eqb s "energy" then energy_val a b
  else if String.eqb s "coeff" then coeff_val a b
  else if String.eqb s "unbiased_energy" then unbias_val (length a) (energy_val a b)
  else if String.eqb s "unbiased_coeff" then unbias_val (length a) (coeff_val a b)
  else fun L => Fin (lag_sum a b L).

Lemma energy_scaled_map a b : a <> [] -> b <> [] ->
  energy_scaled a b = map (energy_val a b) (correlation_lags (length a) (length b)).
Proof.
  intros Na Nb. unfold energy_scaled. rewrite auto_max by auto. rewrite correlate_as_map by auto. apply map_map.
Qed.
Lemma coeff_scaled_map a b : a <> [] -> b <> [] ->
  coeff_scaled a b = map (coeff_val a b) (correlation_lags (length a) (length b)).
Proof.
  intros Na Nb. unfold coeff_scaled. rewrite !demean_centred, correlate_as_map by (now apply centred_ne).
  rewrite !centred_length. apply map_map.
Qed.
Lemma unbias_map n f lags : unbias n (map f lags) lags = map (unbias_val n f) lags.
Proof. exact (map2_map_self (fun c l => fdiv c (Fin ((INR n - Rabs (IZR l)) / INR n))) f lags). Qed.

Lemma correlation_eq a b s : a <> [] -> b <> [] -> known_scaling (lower s) ->
  correlation a b s = Ok (map (scale_val a b (lower s)) (correlation_lags (length a) (length b)),
                          correlation_lags (length a) (length b)).
Proof.
  intros Na Nb K. unfold correlation, scale_val.
  rewrite energy_scaled_map, coeff_scaled_map, !unbias_map by auto.
  destruct (String.eqb_spec (lower s) "energy"); [reflexivity|].
  destruct (String.eqb_spec (lower s) "coeff"); [reflexivity|].
  destruct (String.eqb_spec (lower s) "unbiased_energy"); [reflexivity|].
  destruct (String.eqb_spec (lower s) "unbiased_coeff"); [reflexivity|].
  destruct (String.eqb_spec (lower s) "none").
  - rewrite correlate_as_map by auto. now rewrite map_map.
  - exfalso. unfold known_scaling in K. cbn in K. intuition congruence.
Qed.
Lemma correlation_unknown a b s : ~ known_scaling (lower s) -> correlation a b s = Err ValueError.
Proof.
  intro K. unfold known_scaling in K. cbn in K. unfold correlation.
  repeat match goal with |- context [String.eqb ?x ?y] => destruct (String.eqb_spec x y) end; try reflexivity; exfalso; intuition.
Qed.

(** Standard deviations through energies. *)
Lemma Rstd_energy a : a <> [] -> Rstd a = sqrt (energy (centred a) / INR (length a)).
Proof.
  intro Na. unfold Rstd, Rvar, Rmean at 1, energy, centred. rewrite !map_map, map_length. reflexivity.
Qed.
Lemma std_prod a b : a <> [] -> length b = length a ->
  INR (length a) * (Rstd a * Rstd b) = sqrt (energy (centred a)) * sqrt (energy (centred b)).
Proof.
  intros Na E. assert (Nb : b <> []) by (intros ->; apply Na; now apply length_zero_iff_nil).
  pose proof (INR_length_pos a Na) as P.
  rewrite !Rstd_energy by auto. rewrite E.
  rewrite !sqrt_div by (auto using energy_nonneg).
  pose proof (sqrt_lt_R0 _ P) as Q. pose proof (sqrt_sqrt (INR (length a)) (Rlt_le _ _ P)) as T.
  rewrite <- T at 1. field. lra.
Qed.
Lemma centred_zero a : constant a -> forall x, In x (centred a) -> x = 0.
Proof.
  intros K x Hx. unfold centred in Hx. apply in_map_iff in Hx as [y [<- Hy]].
  assert (E : a = map (fun _ => y) a).
  { rewrite <- (map_id a) at 1. apply map_ext_in. intros z Hz. now apply K. }
  assert (Rmean a = y); [|lra]. rewrite E. apply Rmean_const. now destruct a.
Qed.
Lemma energy_all_zero a : (forall x, In x a -> x = 0) -> energy a = 0.
Proof.
  intro K. unfold energy. rewrite Rsum_map_ext with (g := fun _ => 0) by (intros x Hx; rewrite (K x Hx); lra).
  rewrite Rsum_map_const. lra.
Qed.
Lemma at0_all_zero a i : (forall x, In x a -> x = 0) -> at0 a i = 0.
Proof.
  intro K. unfold at0. destruct (_ || _)%bool; [reflexivity|].
  destruct (Nat.lt_ge_cases (Z.to_nat i) (length a)); [apply K; now apply nth_In|now apply nth_overflow].
Qed.
Lemma lag_sum_zero_l a b L : (forall x, In x a -> x = 0) -> lag_sum a b L = 0.
Proof.
  intro K. unfold lag_sum. rewrite Rsum_map_ext with (g := fun _ => 0).
  - rewrite Rsum_map_const. lra.
  - intros. rewrite (at0_all_zero a) by auto. lra.
Qed.
Lemma lag_sum_zero_r a b L : (forall x, In x b -> x = 0) -> lag_sum a b L = 0.
Proof. intro K. rewrite lag_sum_swap. now apply lag_sum_zero_l. Qed.
Lemma centred_energy_pos a : ~ constant a -> 0 < energy (centred a).
Proof.
  intro N. destruct (Rle_lt_or_eq_dec _ _ (energy_nonneg (centred a))) as [L|E]; auto. exfalso. apply N.
  intros x y Hx Hy. pose proof (energy_zero _ (eq_sym E)) as Z.
  assert (x - Rmean a = 0) by (apply Z, in_map_iff; now exists x).
  assert (y - Rmean a = 0) by (apply Z, in_map_iff; now exists y). lra.
Qed.
Lemma coeff_val_fin a b L : length b = length a -> ~ constant a -> ~ constant b ->
  coeff_val a b L = Fin (lag_sum (centred a) (centred b) L / (sqrt (energy (centred a)) * sqrt (energy (centred b)))).
Proof.
  intros E Ka Kb. unfold coeff_val.
  assert (Na : a <> []) by (intros ->; apply Ka; now intros x y []).
  rewrite std_prod by auto. apply fdiv_fin.
  apply centred_energy_pos in Ka, Kb. apply sqrt_lt_R0 in Ka, Kb. nra.
Qed.
Lemma ratio_bound x u v : 0 < u -> 0 < v -> x ^ 2 <= u * v -> -1 <= x / (sqrt u * sqrt v) <= 1.
Proof.
  intros U V H. rewrite <- sqrt_mult by lra. assert (P : 0 < u * v) by nra.
  pose proof (sqrt_lt_R0 _ P) as Q. pose proof (sqrt_sqrt _ (Rlt_le _ _ P)) as T.
  assert (B : Rabs x <= sqrt (u * v)).
  { apply Rsqr_incr_0; unfold Rsqr; [|apply Rabs_pos|lra]. rewrite <- Rabs_mult, Rabs_right by nra. nra. }
  assert (A1 : x <= sqrt (u * v)) by (pose proof (Rle_abs x); lra).
  assert (A2 : - x <= sqrt (u * v)) by (pose proof (Rle_abs (- x)); rewrite Rabs_Ropp in *; lra).
  split.
  - apply Rmult_le_reg_r with (sqrt (u * v)); auto. unfold Rdiv. rewrite Rmult_assoc, Rinv_l by lra. lra.
  - apply Rmult_le_reg_r with (sqrt (u * v)); auto. unfold Rdiv. rewrite Rmult_assoc, Rinv_l by lra. lra.
Qed.

(** Affine changes of a signal. *)
Lemma Rmean_affine c d a : a <> [] -> Rmean (map (fun x => c * x + d) a) = c * Rmean a + d.
Proof.
  intro Na. rewrite (Rmean_map_plus (fun x => c * x) (fun _ => d)), Rmean_const, Rmean_scal; auto.
Qed.
Lemma centred_affine c d a : centred (map (fun x => c * x + d) a) = map (fun x => c * x) (centred a).
Proof.
  destruct a as [|x0 r]; [reflexivity|]. set (a := x0 :: r).
  unfold centred. rewrite Rmean_affine by easy. rewrite !map_map. apply map_ext. intro x. lra.
Qed.
Lemma at0_scal c a i : at0 (map (fun x => c * x) a) i = c * at0 a i.
Proof. unfold at0. rewrite map_length. destruct (_ || _)%bool; [lra|]. apply nth_map_scal. Qed.
Lemma lag_sum_scal_l c a b L : lag_sum (map (fun x => c * x) a) b L = c * lag_sum a b L.
Proof.
  unfold lag_sum. rewrite <- Rsum_map_scal. apply Rsum_map_ext. intros n _. rewrite at0_scal. ring.
Qed.
Lemma lag_sum_scal_r c a b L : lag_sum a (map (fun x => c * x) b) L = c * lag_sum a b L.
Proof. rewrite lag_sum_swap, lag_sum_scal_l, lag_sum_swap. f_equal. f_equal. apply Z.opp_involutive. Qed.
Lemma energy_scal c a : energy (map (fun x => c * x) a) = c ^ 2 * energy a.
Proof. unfold energy. rewrite map_map, <- Rsum_map_scal. apply Rsum_map_ext. intros. ring. Qed.
Lemma Rstd_affine c d a : Rstd (map (fun x => c * x + d) a) = Rabs c * Rstd a.
Proof.
  destruct a as [|x0 r]; [cbn; unfold Rstd, Rvar, Rmean; cbn; unfold Rdiv; rewrite Rmult_0_l, sqrt_0; lra|].
  set (a := x0 :: r). pose proof (INR_length_pos a ltac:(easy)) as P.
  rewrite !Rstd_energy by easy. rewrite centred_affine, energy_scal, map_length.
  replace (c ^ 2 * energy (centred a) / INR (length a)) with (Rabs c ^ 2 * (energy (centred a) / INR (length a))).
  - rewrite sqrt_mult.
    + rewrite sqrt_pow2 by apply Rabs_pos. reflexivity.
    + nra.
    + apply Rmult_le_pos; [apply energy_nonneg|]. apply Rlt_le, Rinv_0_lt_compat, P.
  - rewrite pow2_abs. field. lra.
Qed.
Lemma fdiv_scale c x y : 0 < c -> fdiv (Fin (c * x)) (Fin (c * y)) = fdiv (Fin x) (Fin y).
Proof.
  intro P. cbn. destruct (Reqb_spec y 0) as [->|N].
  - rewrite Reqb_true by lra. unfold sgn_inf.
    destruct (Rltb_spec 0 x); [rewrite Rltb_true by nra; reflexivity|]. rewrite (Rltb_false 0 (c * x)) by nra.
    destruct (Rltb_spec x 0); [rewrite Rltb_true by nra; reflexivity|]. now rewrite Rltb_false by nra.
  - rewrite Reqb_false by nra. f_equal. field. lra.
Qed.
Lemma fdiv_opp x y : fdiv (fopp x) (Fin y) = fopp (fdiv x (Fin y)).
Proof.
  destruct x as [x| | |]; cbn; try (destruct (Rltb y 0); reflexivity).
  - destruct (Reqb y 0); [|cbn; f_equal; unfold Rdiv; ring].
    unfold sgn_inf.
    destruct (Rltb_spec 0 x), (Rltb_spec x 0), (Rltb_spec 0 (-x)), (Rltb_spec (-x) 0); try reflexivity; lra.
Qed.
Lemma coeff_val_pos_l c d a b L : 0 < c -> coeff_val (map (fun x => c * x + d) a) b L = coeff_val a b L.
Proof.
  intro P. unfold coeff_val. rewrite centred_affine, lag_sum_scal_l, Rstd_affine, map_length, Rabs_right by lra.
  rewrite <- (fdiv_scale c (lag_sum _ _ _) _ P). f_equal. f_equal. ring.
Qed.
Lemma coeff_val_pos_r c d a b L : 0 < c -> coeff_val a (map (fun x => c * x + d) b) L = coeff_val a b L.
Proof.
  intro P. unfold coeff_val. rewrite centred_affine, lag_sum_scal_r, Rstd_affine, Rabs_right by lra.
  rewrite <- (fdiv_scale c (lag_sum _ _ _) _ P). f_equal. f_equal. ring.
Qed.
Lemma coeff_val_neg_l c d a b L : c < 0 -> coeff_val (map (fun x => c * x + d) a) b L = fopp (coeff_val a b L).
Proof.
  intro P. unfold coeff_val. rewrite centred_affine, lag_sum_scal_l, Rstd_affine, map_length, Rabs_left by lra.
  rewrite <- fdiv_opp. cbn [fopp].
  rewrite <- (fdiv_scale (- c) (- lag_sum _ _ _) _ ltac:(lra)). f_equal; f_equal; ring.
Qed.
