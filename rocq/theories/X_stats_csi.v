(** Clear-sky index (irradiance.clearsky_index). *)
From Verif Require Import Prelude PreludeFacts RealBase Fl RealStat M_stats Spec_stats.
Local Open Scope R_scope.

Lemma fmax0 x : fmaximum (Fin x) (Fin 0) = Fin (Rmax x 0).
Proof. unfold fmaximum. cbn. destruct (Rleb_spec x 0); f_equal; unfold Rmax; destruct (Rle_dec x 0); lra. Qed.
Lemma fminm x m : fminimum (Fin x) (Fin m) = Fin (Rmin x m).
Proof. unfold fminimum. cbn. destruct (Rleb_spec x m); f_equal; unfold Rmin; destruct (Rle_dec x m); lra. Qed.

Lemma csi_fin g c m : pvlib_csi (Fin g) (Fin c) (Fin m) =
  Fin (Rmin (Rmax (if Req_EM_T c 0 then 0 else g / c) 0) m).
Proof.
  unfold pvlib_csi. destruct (Req_EM_T c 0) as [->|N].
  - rewrite fdiv_zero. unfold sgn_inf. destruct (Rltb 0 g); [|destruct (Rltb g 0)]; cbn [is_finite negb orb]; now rewrite fmax0, fminm.
  - rewrite fdiv_fin by easy. cbn [is_finite negb orb]. now rewrite fmax0, fminm.
Qed.
Lemma csi_nan g c m : is_finite g = false \/ is_finite c = false -> pvlib_csi g c m = Nan.
Proof.
  intros H. unfold pvlib_csi. assert (E : (negb (is_finite g) || negb (is_finite c))%bool = true).
  { destruct H as [-> | ->]; [reflexivity|apply Bool.orb_true_r]. }
  rewrite E. reflexivity.
Qed.

Lemma nth_csi l cs m i g c : nth_error l i = Some g -> nth_error cs i = Some c ->
  nth_error (map2 (fun g k => pvlib_csi g k m) l cs) i = Some (pvlib_csi g c m).
Proof. intros A B. rewrite nth_error_map2, A, B. reflexivity. Qed.

(*@ C40 One value per sample: NaN exactly when an input is not finite; otherwise the ratio clipped to [0, max], 0 for a zero clear sky. *)
Lemma csi_column : forall l cs m, length l = length cs -> 0 <= m ->
  exists out, clearsky_index (Col l) cs (Fin m) = Col out /\ length out = length l /\
  forall i g c, nth_error l i = Some g -> nth_error cs i = Some c -> exists k, nth_error out i = Some k /\
    (k = Nan <-> is_finite g = false \/ is_finite c = false) /\
    (forall x y, g = Fin x -> c = Fin y -> exists r, k = Fin r /\ 0 <= r <= m /\
       (y = 0 -> r = 0) /\ (y <> 0 -> x / y <= 0 -> r = 0) /\ (y <> 0 -> m <= x / y -> r = m) /\
       (y <> 0 -> 0 <= x / y <= m -> r = x / y)).
Proof.
  intros l cs m L Hm. eexists. split; [reflexivity|]. split; [now rewrite map2_length|].
  intros i g c G Cc. exists (pvlib_csi g c (Fin m)). split; [exact (nth_csi _ _ _ _ _ _ G Cc)|]. split.
  - split; [|apply csi_nan]. destruct g as [x| | |]; [|now left|now left|now left]. destruct c as [y| | |]; [|now right|now right|now right].
    now rewrite csi_fin.
  - intros x y -> ->. rewrite csi_fin. eexists. split; [reflexivity|].
    destruct (Req_EM_T y 0) as [->|N].
    + rewrite Rmax_left, Rmin_left by lra. repeat split; try easy; lra.
    + unfold Rmin, Rmax. destruct (Rle_dec (x / y) 0); [destruct (Rle_dec 0 m)|destruct (Rle_dec (x / y) m)]; repeat split; intros; lra.
Qed.

(*@ C40 Only the ratio matters: a common change of units changes nothing; the index grows with ghi. *)
Lemma csi_ratio : forall x x' y k m,
  (k <> 0 -> clearsky_index (Col [Fin (k * x)]) [Fin (k * y)] (Fin m) = clearsky_index (Col [Fin x]) [Fin y] (Fin m)) /\
  (0 <= m -> 0 < y -> x <= x' -> exists r r', clearsky_index (Col [Fin x]) [Fin y] (Fin m) = Col [Fin r] /\
     clearsky_index (Col [Fin x']) [Fin y] (Fin m) = Col [Fin r'] /\ r <= r').
Proof.
  intros x x' y k m. unfold clearsky_index, map2. cbn [combine map fst snd]. rewrite !csi_fin. split.
  - intro K. do 3 f_equal. destruct (Req_EM_T y 0) as [->|N].
    + rewrite Rmult_0_r. destruct (Req_EM_T 0 0); [easy|lra].
    + destruct (Req_EM_T (k * y) 0) as [E|_]; [apply Rmult_integral in E; tauto|]. do 2 f_equal. field. now split.
  - intros Hm Hy Hx. do 2 eexists. split; [reflexivity|]. split; [reflexivity|]. destruct (Req_EM_T y 0); [lra|].
    assert (x / y <= x' / y) by (apply Rmult_le_compat_r; [left; now apply Rinv_0_lt_compat|easy]).
    unfold Rmin, Rmax. destruct (Rle_dec (x / y) 0), (Rle_dec (x' / y) 0); repeat destruct (Rle_dec _ _); lra.
Qed.

(*@ C40 A table is handled column by column, always with the bound 2. *)
Lemma csi_table : forall cols cs mx, exists out, clearsky_index (Table cols) cs mx = Table out /\ length out = length cols /\
  forall j c, nth_error cols j = Some c -> exists k, nth_error out j = Some k /\ clearsky_index (Col c) cs (Fin 2) = Col k.
Proof.
  intros cols cs mx. eexists. split; [reflexivity|]. split; [apply map_length|]. intros j c E. rewrite nth_error_map, E. eexists. split; reflexivity.
Qed.

(*@ C40 So the requested bound is not respected for tables. *)
Lemma csi_table_bound_refuted : exists cols cs m k, clearsky_index (Table cols) cs (Fin m) = Table [[Fin k]] /\ m < k.
Proof.
  exists [[Fin 3]], [Fin 2], 1, (3/2). unfold clearsky_index, map2. cbn [combine map fst snd]. rewrite csi_fin. split; [|lra].
  do 4 f_equal. destruct (Req_EM_T 2 0); [lra|]. rewrite Rmax_left, Rmin_left; lra.
Qed.

(*@ex C40 *)
Lemma csi_example : clearsky_index (Col [Fin 500; Nan; Fin 5]) [Fin 1000; Fin 1; Fin 0] (Fin 2) = Col [Fin (1/2); Nan; Fin 0].
Proof.
  unfold clearsky_index, map2. cbn [combine map fst snd]. rewrite !csi_fin, csi_nan by now left.
  destruct (Req_EM_T 1000 0); [lra|]. destruct (Req_EM_T 0 0); [|lra]. rewrite (Rmax_left (500 / 1000)), (Rmax_left 0), !Rmin_left by lra.
  do 3 f_equal. lra.
Qed.
