(** argmax and the delay estimators as functions of the lag. *)
From Coq Require Import String.
From Verif Require Import Prelude PreludeFacts RealBase Fl RealStat P_list Spec_signal M_cmv M_signal_corr P_signal P_corr.
From Coq Require Import Lra Psatz.
Local Open Scope R_scope.

Lemma argmax_from_spec l : forall best bv i,
  (best < i)%nat ->
  exists k v, argmax_from best bv i l = k /\
    ((k = best /\ v = bv) \/ (exists j, (j < length l)%nat /\ k = (i + j)%nat /\ v = nth j l 0 /\ bv < v)) /\
    bv <= v /\
    (forall j, (j < length l)%nat -> nth j l 0 <= v) /\
    (forall j, (j < length l)%nat -> (i + j < k)%nat -> nth j l 0 < v).
Proof.
  induction l as [|x l IH]; intros best bv i Hb; cbn [argmax_from].
  - exists best, bv. repeat split; auto; try lra; cbn; intros; lia.
  - destruct (Rltb_spec bv x) as [L|L].
    + destruct (IH i x (S i) ltac:(lia)) as [k [v [E [C [B [M F]]]]]]. exists k, v. split; auto.
      split; [|split; [lra|split]].
      * right. destruct C as [[-> ->]|[j [Hj [-> [-> Hx]]]]].
        -- exists 0%nat. cbn. repeat split; try lia; lra.
        -- exists (S j). cbn. repeat split; try lia; lra.
      * intros [|j] Hj; cbn in *; [lra|]. apply M. lia.
      * intros [|j] Hj Hk; cbn in *.
        -- destruct C as [[-> ->]|[j [Hj' [-> [-> Hx]]]]]; [lia|lra].
        -- apply F; lia.
    + destruct (IH best bv (S i) ltac:(lia)) as [k [v [E [C [B [M F]]]]]]. exists k, v. split; auto.
      split; [|split; [lra|split]].
      * destruct C as [C|[j [Hj [-> [-> Hx]]]]]; [left; auto|right].
        exists (S j). cbn. repeat split; try lia; lra.
      * intros [|j] Hj; cbn in *; [lra|]. apply M. lia.
      * intros [|j] Hj Hk; cbn in *.
        -- destruct C as [[-> ->]|[j [Hj' [-> [-> Hx]]]]]; [lia|lra].
        -- apply F; lia.
Qed.
Lemma argmax_spec l : l <> [] ->
  (argmax l < length l)%nat /\
  (forall j, (j < length l)%nat -> nth j l 0 <= nth (argmax l) l 0) /\
  (forall j, (j < argmax l)%nat -> nth j l 0 < nth (argmax l) l 0).
Proof.
  destruct l as [|x l]; [easy|]. intros _. unfold argmax.
  destruct (argmax_from_spec l 0 x 1 ltac:(lia)) as [k [v [E [C [B [M F]]]]]]. rewrite E.
  assert (V : nth k (x :: l) 0 = v /\ (k < length (x :: l))%nat).
  { destruct C as [[-> ->]|[j [Hj [-> [-> Hx]]]]]; cbn; split; auto; lia. }
  destruct V as [-> Hk]. repeat split; auto.
  - intros [|j] Hj; cbn in *; [auto|]. apply M. lia.
  - intros [|j] Hj.
    + cbn. destruct C as [[-> ->]|[j [Hj' [-> [-> Hx]]]]]; [lia|lra].
    + cbn. cbn in Hk. apply F; lia.
Qed.
Lemma argmax_unique l k : (k < length l)%nat ->
  (forall j, (j < length l)%nat -> nth j l 0 <= nth k l 0) ->
  (forall j, (j < k)%nat -> nth j l 0 < nth k l 0) -> argmax l = k.
Proof.
  intros Hk M F. assert (N : l <> []) by (intros ->; cbn in Hk; lia).
  destruct (argmax_spec l N) as [Hk' [M' F']].
  destruct (Nat.lt_trichotomy (argmax l) k) as [L|[E|L]]; auto; exfalso.
  - pose proof (F _ L). pose proof (M' _ Hk). lra.
  - pose proof (F' _ L). pose proof (M _ Hk'). lra.
Qed.

Lemma fargmax_from_fin l : forall best bv i, fargmax_from best (Fin bv) i (map Fin l) = argmax_from best bv i l.
Proof.
  induction l as [|x l IH]; intros; cbn; [reflexivity|]. destruct (Rltb bv x); apply IH.
Qed.
Lemma fargmax_fin l : fargmax (map Fin l) = argmax l.
Proof. destruct l as [|x l]; [reflexivity|]. apply fargmax_from_fin. Qed.
Lemma fargmax_nan l : Forall (fun v => v = Nan) l -> fargmax l = 0%nat.
Proof.
  destruct l as [|x l]; [reflexivity|]. intro H. inversion H as [|y ys Hx Hl]. subst. cbn.
  assert (G : forall i l, fargmax_from 0 Nan i l = 0%nat); [|apply G].
  clear. intros i l. revert i. induction l as [|x l IH]; intro i; cbn; auto.
Qed.
(** The first entry that is not NaN-dominated, in general: the result is a valid position. *)

Lemma lags_nth_d n m k : (k < n + m - 1)%nat -> nth k (correlation_lags n m) 0%Z = (Z.of_nat k - Z.of_nat (m - 1))%Z.
Proof.
  intro H. destruct (nth_error (correlation_lags n m) k) as [L|] eqn:E.
  - rewrite (nth_error_nth _ _ _ E). now apply lags_nth in E.
  - apply nth_error_None in E. rewrite lags_length in E. lia.
Qed.
Lemma nth_map_lags {B} (f : Z -> B) n m k d : (k < n + m - 1)%nat ->
  nth k (map f (correlation_lags n m)) d = f (Z.of_nat k - Z.of_nat (m - 1))%Z.
Proof.
  intro H. rewrite nth_indep with (d' := f 0%Z) by (rewrite map_length, lags_length; auto).
  rewrite map_nth. now rewrite lags_nth_d.
Qed.
(** A real-valued curve over the lags: its argmax as a lag. *)
Lemma argmax_lags (g : Z -> R) n m : (0 < n)%nat -> (0 < m)%nat ->
  let L := (Z.of_nat (argmax (map g (correlation_lags n m))) - Z.of_nat (m - 1))%Z in
  lag_of n m L /\ (argmax (map g (correlation_lags n m)) < n + m - 1)%nat /\
  (forall L', lag_of n m L' -> g L' <= g L /\ (g L' = g L -> (L <= L')%Z)).
Proof.
  intros Hn Hm L. set (l := map g (correlation_lags n m)) in *.
  assert (Len : length l = (n + m - 1)%nat) by (unfold l; now rewrite map_length, lags_length).
  assert (N : l <> []) by (intro E; rewrite E in Len; cbn in Len; lia).
  destruct (argmax_spec l N) as [Hk [M F]]. rewrite Len in *.
  split; [unfold lag_of, L; lia|]. split; auto.
  intros L' H'. unfold lag_of in H'.
  set (j := Z.to_nat (L' + Z.of_nat (m - 1))).
  assert (Hj : (j < n + m - 1)%nat) by (unfold j; lia).
  assert (Gj : nth j l 0 = g L').
  { unfold l. rewrite nth_map_lags by auto. f_equal. unfold j. lia. }
  assert (Gk : nth (argmax l) l 0 = g L).
  { unfold l at 2. rewrite nth_map_lags by auto. reflexivity. }
  split.
  - rewrite <- Gj, <- Gk. now apply M.
  - intro E. destruct (Nat.lt_ge_cases j (argmax l)) as [Lt|Ge].
    + apply F in Lt. rewrite Gj, Gk in Lt. lra.
    + unfold L, j in *. lia.
Qed.

(** xcorr_delay on a finite curve and on an all-NaN one. *)
Lemma xcorr_delay_fin dt a b s g : (2 <= length a)%nat -> b <> [] -> known_scaling (lower s) ->
  (forall L, lag_of (length a) (length b) L -> scale_val a b (lower s) L = Fin (g L)) ->
  exists L, xcorr_delay dt a b s = Ok (- (IZR L * dt), Fin (g L)) /\ lag_of (length a) (length b) L /\
    (forall L', lag_of (length a) (length b) L' -> g L' <= g L /\ (g L' = g L -> (L <= L')%Z)).
Proof.
  intros Ha Nb K G. assert (Na : a <> []) by (intros ->; cbn in Ha; lia).
  assert (E : map (scale_val a b (lower s)) (correlation_lags (length a) (length b))
            = map Fin (map g (correlation_lags (length a) (length b)))).
  { rewrite map_map. apply map_ext_in. intros L HL. apply G. apply lags_In in HL; auto. now apply ne_len. }
  unfold xcorr_delay. rewrite correlation_eq by auto. cbn [rbind fst snd].
  destruct (Nat.ltb_spec (length a) 2); [lia|].
  rewrite E, fargmax_fin.
  destruct (argmax_lags g (length a) (length b) (ne_len a Na) (ne_len b Nb)) as [H1 [H2 H3]].
  exists (Z.of_nat (argmax (map g (correlation_lags (length a) (length b)))) - Z.of_nat (length b - 1))%Z.
  split; [|split; auto].
  rewrite lags_nth_d by auto. rewrite map_map. rewrite (nth_map_lags (fun x => Fin (g x))) by auto. reflexivity.
Qed.

(** ** compute_delays, mode 'loop', equally shaped tables *)
(** The lag of the first maximum of the overlap sums of two rows of [n] samples. *)
Definition peak_lag (n : nat) (a b : list R) : Z :=
  (Z.of_nat (argmax (map (lag_sum a b) (correlation_lags n n))) - Z.of_nat (n - 1))%Z.
Definition mean_over (n : nat) (a b : list R) : R := Rmean (map (lag_sum a b) (correlation_lags n n)).

Lemma zero_index_none l : forall s, (forall x, In x l -> x <> 0) ->
  map fst (filter (fun p => Reqb (snd p) 0) (combine (seq s (length l)) l)) = [].
Proof.
  induction l as [|x l IH]; intros s H; cbn; [reflexivity|].
  rewrite Reqb_false by (apply H; cbn; auto). apply IH. intros y Hy. apply H. now right.
Qed.
Lemma zero_index_one l : forall s z, (z < length l)%nat -> (forall j, (j < length l)%nat -> nth j l 1 = 0 <-> j = z) ->
  map fst (filter (fun p => Reqb (snd p) 0) (combine (seq s (length l)) l)) = [(s + z)%nat].
Proof.
  induction l as [|x l IH]; intros s z Hz H; cbn in Hz; [lia|]. cbn.
  destruct z as [|z].
  - rewrite Reqb_true by (apply (H 0%nat); cbn; lia). cbn. rewrite Nat.add_0_r. f_equal.
    apply zero_index_none. intros y Hy E. apply In_nth with (d := 1) in Hy as [j [Hj Ey]].
    assert (S j = 0)%nat by (apply H; cbn; [lia|congruence]). lia.
  - rewrite Reqb_false by (intro E; assert (0 = S z)%nat by (apply H; cbn; auto; lia); lia).
    rewrite (IH (S s) z).
    + f_equal. lia.
    + lia.
    + intros j Hj. specialize (H (S j)). cbn in H. rewrite H by lia. lia.
Qed.
Lemma zero_index_is l z : (z < length l)%nat -> (forall j, (j < length l)%nat -> nth j l 1 = 0 <-> j = z) -> zero_index l = [z].
Proof. intros. unfold zero_index. now apply (zero_index_one l 0 z). Qed.

Lemma zero_index_lags dt n : dt <> 0 -> (0 < n)%nat ->
  zero_index (map (fun l => IZR l * dt) (correlation_lags n n)) = [(n - 1)%nat].
Proof.
  intros D Hn. apply zero_index_is; rewrite map_length, lags_length; [lia|].
  intros j Hj. rewrite nth_map_lags by auto. split.
  - intro E. apply Rmult_integral in E as [E|E]; [|easy]. apply eq_IZR_R0 in E. lia.
  - intros ->. rewrite Z.sub_diag. lra.
Qed.

Lemma loop_row_eq dt n a b : dt <> 0 -> (0 < n)%nat -> length a = n -> length b = n ->
  loop_row (map (fun l => IZR l * dt) (correlation_lags n n)) a b
  = Ok (- (IZR (peak_lag n a b) * dt), lag_sum a b (peak_lag n a b), mean_over n a b, lag_sum a b 0).
Proof.
  intros D Hn La Lb. assert (Na : a <> []) by (intros ->; cbn in La; lia).
  assert (Nb : b <> []) by (intros ->; cbn in Lb; lia).
  unfold loop_row. rewrite correlate_as_map, La, Lb by auto.
  destruct (argmax_lags (lag_sum a b) n n Hn Hn) as [_ [H2 _]].
  rewrite !map_length, !lags_length. destruct (Nat.leb_spec (n + n - 1) (argmax (map (lag_sum a b) (correlation_lags n n)))); [lia|].
  rewrite zero_index_lags by auto. destruct (Nat.leb_spec (n + n - 1) (n - 1)); [lia|].
  rewrite !nth_map_lags by lia. rewrite Z.sub_diag. reflexivity.
Qed.

Definition row_of (dt : R) (n : nat) (a b : list R) : R * R * R * R :=
  (- (IZR (peak_lag n a b) * dt), lag_sum a b (peak_lag n a b), mean_over n a b, lag_sum a b 0).
Lemma loop_rows_eq dt n ins : dt <> 0 -> (0 < n)%nat -> forall outs,
  length ins = length outs -> Forall (fun a => length a = n) ins -> Forall (fun a => length a = n) outs ->
  loop_rows (map (fun l => IZR l * dt) (correlation_lags n n)) ins outs = Ok (map2 (row_of dt n) ins outs).
Proof.
  intros D Hn. induction ins as [|a ins IH]; intros [|b outs] E Fi Fo; try discriminate; [reflexivity|].
  inversion Fi; inversion Fo; subst. cbn [loop_rows]. rewrite loop_row_eq by auto. cbn [rbind].
  rewrite IH by auto. reflexivity.
Qed.

Lemma map_map2 {A B C D} (f : C -> D) (g : A -> B -> C) l : forall l', map f (map2 g l l') = map2 (fun x y => f (g x y)) l l'.
Proof. unfold map2. intros. now rewrite map_map. Qed.
Lemma map2_map2 {A B C D E} (f : C -> D -> E) (g : A -> B -> C) (h : A -> B -> D) l :
  forall l', map2 f (map2 g l l') (map2 h l l') = map2 (fun x y => f (g x y) (h x y)) l l'.
Proof.
  induction l as [|x l IH]; intros [|y l']; try reflexivity. unfold map2 in *. cbn. f_equal. apply IH.
Qed.
Lemma map2_maps {A A' B B' C} (f : A' -> B' -> C) (g : A -> A') (h : B -> B') l : forall l',
  map2 f (map g l) (map h l') = map2 (fun x y => f (g x) (h y)) l l'.
Proof.
  induction l as [|x l IH]; intros [|y l']; try reflexivity. unfold map2 in *. cbn. f_equal. apply IH.
Qed.

Lemma Forall_centred n l : Forall (fun a : list R => length a = n) l -> Forall (fun a => length a = n) (map demean l).
Proof. intro H. apply Forall_map. eapply Forall_impl; [|exact H]. intros a E. unfold demean. now rewrite map_length. Qed.

Definition coeff_factor (n : nat) (a b : list R) : fl := finv (INR n * Rstd (centred a) * Rstd (centred b)).
Definition zap (p : fl) (d : R) : R := if fltb p (Fin (/ 10 ^ 10)) then 0 else d.

Lemma loop_none dt n m ins outs : dt <> 0 -> (2 <= n)%nat -> length ins = length outs -> ins <> [] ->
  Forall (fun a => length a = n) ins -> Forall (fun a => length a = n) outs ->
  compute_delays dt n m ins outs "loop" "none" = Ok (mkDelays
    (map2 (fun a b => zap (Fin (lag_sum a b (peak_lag n a b))) (- (IZR (peak_lag n a b) * dt))) ins outs)
    (map2 (fun a b => Fin (lag_sum a b (peak_lag n a b))) ins outs)
    (map2 (fun a b => Fin (mean_over n a b)) ins outs)
    (Flat (map2 (fun a b => Fin (lag_sum a b 0)) ins outs))).
Proof.
  intros D Hn E Ni Fi Fo. unfold compute_delays. destruct (Nat.ltb_spec n 2); [lia|].
  change (scale_rows n ins outs "none") with (Ok (A := list (list R) * list (list R) * option (list fl)) (ins, outs, None)).
  cbn [rbind]. change (String.eqb "loop" "loop") with true. cbv iota.
  destruct ins as [|a0 ins]; [easy|]. destruct outs as [|b0 outs]; [discriminate|].
  rewrite loop_rows_eq by (auto; lia). cbn [rbind mul_inplace]. rewrite !map_map, !map_map2.
  f_equal. f_equal. unfold quiet_to_zero. rewrite map2_map2. reflexivity.
Qed.

Lemma bcast2_eq f a b : length a = length b -> bcast2 f a b = Ok (map2 f a b).
Proof. intro E. unfold bcast2. now rewrite E, Nat.eqb_refl. Qed.
Lemma mul_inplace_eq v s : length v = length s -> mul_inplace v (Some s) = Ok (map2 (fun x k => fmul (Fin x) k) v s).
Proof. intro E. unfold mul_inplace. now rewrite E, Nat.eqb_refl. Qed.

Lemma loop_coeff dt n m ins outs : dt <> 0 -> (2 <= n)%nat -> length ins = length outs -> ins <> [] ->
  Forall (fun a => length a = n) ins -> Forall (fun a => length a = n) outs ->
  let P a b := peak_lag n (centred a) (centred b) in
  let k a b := coeff_factor n a b in
  compute_delays dt n m ins outs "loop" "coeff" = Ok (mkDelays
    (map2 (fun a b => zap (fmul (Fin (lag_sum (centred a) (centred b) (P a b))) (k a b)) (- (IZR (P a b) * dt))) ins outs)
    (map2 (fun a b => fmul (Fin (lag_sum (centred a) (centred b) (P a b))) (k a b)) ins outs)
    (map2 (fun a b => fmul (Fin (mean_over n (centred a) (centred b))) (k a b)) ins outs)
    (Flat (map2 (fun a b => fmul (Fin (lag_sum (centred a) (centred b) 0)) (k a b)) ins outs))).
Proof.
  intros D Hn E Ni Fi Fo P k. unfold compute_delays. destruct (Nat.ltb_spec n 2); [lia|].
  unfold scale_rows. change (String.eqb "coeff" "coeff") with true. cbv iota.
  rewrite bcast2_eq by (now rewrite !map_length). cbn [rbind].
  change (String.eqb "loop" "loop") with true. cbv iota.
  destruct (map demean ins) as [|a0 i'] eqn:Ei; [destruct ins; [easy|discriminate]|].
  destruct (map demean outs) as [|b0 o'] eqn:Eo; [destruct outs; [destruct ins; [easy|discriminate]|discriminate]|].
  rewrite <- Ei, <- Eo. clear a0 i' b0 o' Ei Eo.
  rewrite loop_rows_eq by (auto using Forall_centred; try lia; now rewrite !map_length). cbn [rbind].
  rewrite !map2_maps, !map_map2.
  rewrite !mul_inplace_eq by (rewrite !map2_length; auto). cbn [rbind].
  rewrite !map2_map2. f_equal. f_equal. unfold quiet_to_zero. rewrite map2_map2. reflexivity.
Qed.

(** ** Linking the table version to the single-pair version *)
Lemma finv_mul x d : fmul (Fin x) (finv d) = fdiv (Fin x) (Fin d).
Proof.
  unfold finv. destruct (Req_dec d 0) as [-> | N].
  - rewrite !fdiv_zero. rewrite (sgn_inf_pos 1) by lra. reflexivity.
  - rewrite !fdiv_fin by auto. cbn. f_equal. field. exact N.
Qed.
Lemma centred_centred a : centred (centred a) = centred a.
Proof.
  destruct a as [|x0 r]; [reflexivity|]. set (a := x0 :: r).
  assert (M : Rmean (centred a) = 0).
  { unfold centred. rewrite (Rmean_map_minus (fun x => x) (fun _ => Rmean a)), map_id, Rmean_const by easy. lra. }
  unfold centred at 1. rewrite M. rewrite <- (map_id (centred a)) at 2. apply map_ext. intro. lra.
Qed.
Lemma Rstd_centred a : Rstd (centred a) = Rstd a.
Proof.
  destruct a as [|x0 r]; [reflexivity|]. set (a := x0 :: r).
  rewrite !Rstd_energy by easy. now rewrite centred_centred, centred_length.
Qed.
Lemma coeff_val_mul a b L : coeff_val a b L = fmul (Fin (lag_sum (centred a) (centred b) L)) (coeff_factor (length a) a b).
Proof.
  unfold coeff_factor, coeff_val. rewrite finv_mul, !Rstd_centred. f_equal. f_equal. ring.
Qed.
Lemma argmax_scal c l : 0 < c -> argmax (map (fun x => c * x) l) = argmax l.
Proof.
  intro P. destruct l as [|x0 r]; [reflexivity|]. set (l := x0 :: r).
  destruct (argmax_spec l ltac:(easy)) as [H1 [H2 H3]].
  apply argmax_unique; rewrite ?map_length; auto; intros j Hj; rewrite !nth_map_scal.
  - apply Rmult_le_compat_l; [lra|auto].
  - apply Rmult_lt_compat_l; auto.
Qed.
Lemma argmax_zeros l : (forall x, In x l -> x = 0) -> argmax l = 0%nat.
Proof.
  intro Z. destruct l as [|x0 r]; [reflexivity|].
  assert (Zn : forall j, nth j (x0 :: r) 0 = 0).
  { intro j. destruct (Nat.lt_ge_cases j (length (x0 :: r))); [apply Z; now apply nth_In|now apply nth_overflow]. }
  apply argmax_unique; [cbn; lia| |lia]. intros j Hj. rewrite !Zn. lra.
Qed.
Lemma xd_none dt n a b : (2 <= n)%nat -> length a = n -> length b = n ->
  xcorr_delay dt a b "none" = Ok (- (IZR (peak_lag n a b) * dt), Fin (lag_sum a b (peak_lag n a b))).
Proof.
  intros Hn La Lb. assert (Na : a <> []) by (intros ->; cbn in La; lia).
  assert (Nb : b <> []) by (intros ->; cbn in Lb; lia).
  unfold xcorr_delay. rewrite correlation_eq by (auto; cbn; tauto). cbn [rbind fst snd].
  change (scale_val a b (lower "none")) with (fun L => Fin (lag_sum a b L)).
  rewrite La, Lb. destruct (Nat.ltb_spec n 2); [lia|].
  rewrite <- (map_map (lag_sum a b) Fin), fargmax_fin.
  destruct (argmax_lags (lag_sum a b) n n ltac:(lia) ltac:(lia)) as [_ [H2 _]].
  rewrite lags_nth_d by auto. rewrite (map_map (lag_sum a b) Fin), (nth_map_lags (fun x => Fin (lag_sum a b x))) by auto.
  reflexivity.
Qed.
Lemma std_nonneg a : 0 <= Rstd a.
Proof. apply sqrt_pos. Qed.
Lemma std_zero_centred a : a <> [] -> Rstd a = 0 -> forall x, In x (centred a) -> x = 0.
Proof.
  intros Na E. rewrite Rstd_energy in E by auto. pose proof (INR_length_pos a Na) as P.
  apply sqrt_eq_0 in E.
  - apply energy_zero. apply (Rmult_eq_compat_r (INR (length a))) in E. unfold Rdiv in E. rewrite Rmult_assoc, Rinv_l in E; lra.
  - apply Rmult_le_pos; [apply energy_nonneg|]. now apply Rlt_le, Rinv_0_lt_compat.
Qed.
Lemma xd_coeff dt n a b : (2 <= n)%nat -> length a = n -> length b = n ->
  xcorr_delay dt a b "coeff" = Ok (- (IZR (peak_lag n (centred a) (centred b)) * dt),
    fmul (Fin (lag_sum (centred a) (centred b) (peak_lag n (centred a) (centred b)))) (coeff_factor n a b)).
Proof.
  intros Hn La Lb. assert (Na : a <> []) by (intros ->; cbn in La; lia).
  assert (Nb : b <> []) by (intros ->; cbn in Lb; lia).
  unfold xcorr_delay. rewrite correlation_eq by (auto; cbn; tauto). cbn [rbind fst snd].
  change (scale_val a b (lower "coeff")) with (coeff_val a b).
  rewrite La, Lb. destruct (Nat.ltb_spec n 2); [lia|].
  set (g := lag_sum (centred a) (centred b)).
  assert (F : fargmax (map (coeff_val a b) (correlation_lags n n)) = argmax (map g (correlation_lags n n))).
  { destruct (Req_dec (INR n * (Rstd a * Rstd b)) 0) as [D|D].
    - assert (Z : forall L, g L = 0).
      { intro L. unfold g. assert (0 < INR n) by (apply lt_0_INR; lia).
        apply Rmult_integral in D as [D|D]; [lra|]. apply Rmult_integral in D as [D|D].
        - apply lag_sum_zero_l. now apply std_zero_centred.
        - apply lag_sum_zero_r. now apply std_zero_centred. }
      rewrite argmax_zeros by (intros x Hx; apply in_map_iff in Hx as [L [<- _]]; apply Z).
      apply fargmax_nan. apply Forall_forall. intros v Hv. apply in_map_iff in Hv as [L [<- _]].
      unfold coeff_val. fold g. rewrite Z, La, D, fdiv_zero. apply sgn_inf_0.
    - assert (Dp : 0 < INR n * (Rstd a * Rstd b)).
      { pose proof (std_nonneg a). pose proof (std_nonneg b). pose proof (pos_INR n).
        destruct (Rle_lt_or_eq_dec 0 (INR n * (Rstd a * Rstd b))); auto.
        - apply Rmult_le_pos; [auto|]. now apply Rmult_le_pos.
        - congruence. }
      assert (E : map (coeff_val a b) (correlation_lags n n)
                = map Fin (map (fun x => / (INR n * (Rstd a * Rstd b)) * x) (map g (correlation_lags n n)))).
      { rewrite !map_map. apply map_ext. intro L. unfold coeff_val. rewrite La, fdiv_fin by auto. fold g.
        f_equal. unfold Rdiv. ring. }
      rewrite E, fargmax_fin, argmax_scal; [reflexivity|]. now apply Rinv_0_lt_compat. }
  rewrite F. destruct (argmax_lags g n n ltac:(lia) ltac:(lia)) as [_ [H2 _]].
  rewrite lags_nth_d, (nth_map_lags (coeff_val a b)), coeff_val_mul, La by auto. reflexivity.
Qed.

Lemma fl_mean_fin l : l <> [] -> fl_mean (map Fin l) = Fin (Rmean l).
Proof.
  intro N. unfold fl_mean. replace (fold_right fadd (Fin 0) (map Fin l)) with (Fin (Rsum l)).
  - rewrite map_length. apply fdiv_fin. pose proof (INR_length_pos l N). lra.
  - clear N. induction l as [|x l IH]; cbn; [reflexivity|]. rewrite <- IH. reflexivity.
Qed.
Lemma fl_mean_nan l : l <> [] -> Forall (fun v => v = Nan) l -> fl_mean l = Nan.
Proof. intros N F. destruct l as [|x l]; [easy|]. inversion F. subst. reflexivity. Qed.
Lemma mean_scaled k l : l <> [] -> (forall x, In x l -> x = 0) \/ is_finite k = true ->
  fl_mean (map (fun x => fmul (Fin x) k) l) = fmul (Fin (Rmean l)) k.
Proof.
  intros N [Z|F].
  - assert (M : Rmean l = 0).
    { unfold Rmean. replace (Rsum l) with 0; [unfold Rdiv; ring|]. symmetry. rewrite <- (map_id l).
      rewrite Rsum_map_ext with (g := fun _ => 0) by (intros; now apply Z). rewrite Rsum_map_const. ring. }
    rewrite M. replace (map (fun x => fmul (Fin x) k) l) with (map (fun _ => fmul (Fin 0) k) l)
      by (apply map_ext_in; intros; now rewrite (Z a)).
    destruct k as [r| | |].
    + change (fmul (Fin 0) (Fin r)) with (Fin (0 * r)). rewrite <- (map_map (fun _ => 0 * r) Fin).
      rewrite fl_mean_fin by (now destruct l). rewrite Rmean_const by auto. reflexivity.
    + assert (X : fmul (Fin 0) Pinf = Nan) by (cbn; apply sgn_inf_0). rewrite X.
      apply fl_mean_nan; [now destruct l|]. apply Forall_map, Forall_forall. reflexivity.
    + assert (X : fmul (Fin 0) Ninf = Nan) by (cbn; rewrite Ropp_0; apply sgn_inf_0). rewrite X.
      apply fl_mean_nan; [now destruct l|]. apply Forall_map, Forall_forall. reflexivity.
    + apply fl_mean_nan; [now destruct l|]. apply Forall_map, Forall_forall. reflexivity.
  - destruct k as [r| | |]; try discriminate. cbn.
    rewrite <- (map_map (fun x => x * r) Fin), fl_mean_fin by (now destruct l). f_equal.
    unfold Rmean. rewrite map_length, Rsum_map_scal_r, map_id. unfold Rdiv. ring.
Qed.
Lemma factor_cases n a b : (0 < n)%nat -> length a = n -> length b = n ->
  (forall L, lag_sum (centred a) (centred b) L = 0) \/ is_finite (coeff_factor n a b) = true.
Proof.
  intros Hn La Lb. assert (Na : a <> []) by (intros ->; cbn in La; lia).
  assert (Nb : b <> []) by (intros ->; cbn in Lb; lia).
  unfold coeff_factor, finv. rewrite !Rstd_centred. assert (0 < INR n) by (apply lt_0_INR; lia).
  destruct (Req_dec (Rstd a) 0) as [A|A]; [left; intro; apply lag_sum_zero_l; now apply std_zero_centred|].
  destruct (Req_dec (Rstd b) 0) as [B|B]; [left; intro; apply lag_sum_zero_r; now apply std_zero_centred|].
  right. rewrite fdiv_fin; [reflexivity|].
  intro Z. apply Rmult_integral in Z as [Z|Z]; [|easy]. apply Rmult_integral in Z as [Z|Z]; [lra|easy].
Qed.

(** The sum of all overlap sums factorises. *)
Lemma window_sum a K c : (c <= 0)%Z -> (Z.of_nat (length a) <= Z.of_nat K + c)%Z ->
  Rsumn K (fun k => at0 a (Z.of_nat k + c)) = Rsum a.
Proof.
  intros Hc HK. rewrite Rsum_as_sumn.
  transitivity (Rsumn K (fun k => Rsumn (length a) (fun i => if Z.eqb (Z.of_nat i) (Z.of_nat k + c) then nth i a 0 else 0))).
  - apply Rsumn_ext. intros k _. symmetry. apply (pick_at0 a (Z.of_nat k + c) (fun x => x)). reflexivity.
  - rewrite Rsumn_swap. apply Rsumn_ext. intros i Hi.
    rewrite Rsumn_ext with (g := fun k => if Z.eqb (Z.of_nat k) (Z.of_nat i - c) then nth i a 0 else 0).
    + rewrite (Rsumn_pick K (Z.of_nat i - c) (fun _ => nth i a 0)).
      destruct (Z.leb_spec 0 (Z.of_nat i - c)), (Z.ltb_spec (Z.of_nat i - c) (Z.of_nat K)); cbn; try reflexivity; lia.
    + intros k _. destruct (Z.eqb_spec (Z.of_nat i) (Z.of_nat k + c)), (Z.eqb_spec (Z.of_nat k) (Z.of_nat i - c)); try reflexivity; lia.
Qed.
Lemma total_overlap a b : Rsum (map (lag_sum a b) (correlation_lags (length a) (length b))) = Rsum a * Rsum b.
Proof.
  destruct b as [|b0 b']; [|].
  { rewrite Rsum_map_ext with (g := fun _ => 0) by (intros; reflexivity). rewrite Rsum_map_const. cbn. lra. }
  set (b := b0 :: b'). assert (Hb : (0 < length b)%nat) by (cbn; lia).
  unfold correlation_lags. rewrite map_map. unfold lag_sum.
  change (Rsumn (length a + length b - 1) (fun k => Rsumn (length b) (fun n => at0 a (Z.of_nat n + (Z.of_nat k - Z.of_nat (length b - 1))) * at0 b (Z.of_nat n))) = Rsum a * Rsum b).
  rewrite Rsumn_swap, (Rsum_as_sumn b), <- Rsumn_scal. apply Rsumn_ext. intros n Hn.
  rewrite at0_nat.
  rewrite Rsumn_ext with (g := fun k => nth n b 0 * at0 a (Z.of_nat k + (Z.of_nat n - Z.of_nat (length b - 1)))).
  - rewrite Rsumn_scal, window_sum by lia. ring.
  - intros k _. rewrite Rmult_comm. f_equal. f_equal. lia.
Qed.
Lemma centred_sum a : Rsum (centred a) = 0.
Proof.
  destruct a as [|x0 r]; [reflexivity|]. set (a := x0 :: r).
  unfold centred. rewrite (Rsum_map_minus (fun x => x) (fun _ => Rmean a)), map_id, Rsum_map_const.
  unfold Rmean. pose proof (INR_length_pos a ltac:(easy)). field. lra.
Qed.
