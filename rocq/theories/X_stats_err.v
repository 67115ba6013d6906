(** Error metrics (stats.py). *)
From Coq Require Import Permutation Sorted.
From Verif Require Import Prelude PreludeFacts RealBase Fl RealStat M_stats Spec_stats.
Local Open Scope R_scope.

Lemma array_sub_errs b e : length b = length e -> array_sub e b = Ok (errs b e).
Proof.
  intro L. unfold array_sub. rewrite L, Nat.eqb_refl. f_equal. unfold errs, map2.
  apply nth_error_ext. revert e L. induction b as [|x b IH]; intros [|y e] L n; cbn in L; try discriminate; [easy|].
  destruct n; cbn; [easy|]. apply IH. congruence.
Qed.
Lemma errs_length b e : length b = length e -> length (errs b e) = length b.
Proof. intro L. unfold errs. rewrite map_length, combine_length. lia. Qed.
Lemma errs_ne b e : length b = length e -> b <> [] -> errs b e <> [].
Proof. intros L N E. apply (f_equal (@length R)) in E. rewrite errs_length in E by easy. destruct b; easy. Qed.
Lemma errs_seq b e n : length b = n -> length e = n -> errs b e = map (fun i => nth i e 0 - nth i b 0) (seq 0 n).
Proof.
  intros Lb Le. apply nth_error_ext. intro i. unfold errs. rewrite !nth_error_map.
  destruct (Nat.lt_ge_cases i n) as [Hi|Hi].
  - rewrite (nth_error_nth' _ (0, 0)) by (rewrite combine_length; lia).
    rewrite combine_nth by lia. rewrite (nth_error_nth' (seq 0 n) O) by (rewrite seq_length; lia).
    rewrite seq_nth by lia. reflexivity.
  - rewrite !(proj2 (nth_error_None _ _)); [easy| |]; rewrite ?seq_length, ?combine_length; lia.
Qed.

Lemma nan_reduce_ne f l : l <> [] -> nan_reduce f l = Fin (f l).
Proof. now destruct l. Qed.
Lemma map_ne {A B} (f : A -> B) l : l <> [] -> map f l <> [].
Proof. now destruct l. Qed.
Lemma fsqrt_fin r : 0 <= r -> fsqrt (Fin r) = Fin (sqrt r).
Proof. intro. cbn. now rewrite Rltb_false. Qed.
Lemma avg_sq_nonneg l : 0 <= avg (map (fun x => x ^ 2) l).
Proof. apply Rmean_nonneg. intros y Hy. apply in_map_iff in Hy. destruct Hy as [x [<- _]]. apply pow2_ge_0. Qed.

(*@ C32 What the four metrics compute on arrays of equal length. *)
Lemma metric_values : forall b e, length b = length e -> b <> [] ->
  bias_error b e = Ok (errs b e) /\
  squared_error b e = Ok (map (fun d => d ^ 2) (errs b e)) /\
  absolute_error b e = Ok (map Rabs (errs b e)) /\
  mse b e = Ok (Fin (avg (map (fun d => d ^ 2) (errs b e)))) /\
  rmse b e = Ok (Fin (sqrt (avg (map (fun d => d ^ 2) (errs b e))))) /\
  mae b e = Ok (Fin (avg (map Rabs (errs b e)))) /\
  mbe b e = Ok (Fin (avg (errs b e))).
Proof.
  intros b e L N. pose proof (errs_ne b e L N) as NE.
  assert (B : bias_error b e = Ok (errs b e)) by now apply array_sub_errs.
  unfold rmse, mse, mae, mbe, squared_error, absolute_error. rewrite B. cbn [rmap].
  rewrite !nan_reduce_ne by (auto using map_ne). cbn [rmap].
  rewrite fsqrt_fin by apply avg_sq_nonneg. repeat split.
Qed.

Lemma mean_sq_le l : l <> [] -> avg l ^ 2 <= avg (map (fun x => x ^ 2) l).
Proof.
  intro NE. pose proof (INR_length_pos l NE) as P.
  pose proof (Rsum_cauchy_schwarz (fun x => x) (fun _ => 1) l) as CS. cbv beta in CS.
  rewrite (Rsum_map_ext (fun x => x * 1) (fun x => x) l) in CS by (intros; ring). rewrite map_id in CS.
  rewrite (Rsum_map_ext (fun _ => 1 ^ 2) (fun _ => 1) l) in CS by (intros; ring). rewrite Rsum_map_const in CS.
  unfold avg. rewrite map_length. set (n := INR (length l)) in *.
  replace ((Rsum l / n) ^ 2) with (Rsum l ^ 2 * / n ^ 2) by (field; lra).
  replace (Rsum (map (fun x => x ^ 2) l) / n) with (Rsum (map (fun x => x ^ 2) l) * (n * 1) * / n ^ 2) by (field; lra).
  apply Rmult_le_compat_r; [|lra]. left. apply Rinv_0_lt_compat. nra.
Qed.

Lemma avg_spread l : l <> [] -> avg (map (fun x => x ^ 2) l) = avg l ^ 2 + spread l.
Proof.
  intro NE. unfold spread. set (m := avg l).
  assert (E : avg (map (fun x => (x - m) ^ 2) l) = avg (map (fun x => x ^ 2) l) - 2 * m * m + m ^ 2).
  { unfold m at 3. unfold avg at 3. change (Rsum l / INR (length l)) with (Rmean l).
    change (Rmean (map (fun x => (x - m) ^ 2) l) = Rmean (map (fun x => x ^ 2) l) - 2 * m * Rmean l + m ^ 2).
    transitivity (Rmean (map (fun x => (x ^ 2 - (2 * m) * x) + m ^ 2) l)).
    - f_equal. apply map_ext. intro. ring.
    - rewrite Rmean_map_plus, Rmean_map_minus, Rmean_map_scal, Rmean_const, map_id by easy. reflexivity. }
  rewrite E. ring.
Qed.

(*@ C32 Ordering of the metrics. *)
Lemma metric_ordering : forall b e, length b = length e -> b <> [] ->
  exists MSE RMSE MAE MBE,
    mse b e = Ok (Fin MSE) /\ rmse b e = Ok (Fin RMSE) /\ mae b e = Ok (Fin MAE) /\ mbe b e = Ok (Fin MBE) /\
    RMSE = sqrt MSE /\ Rabs MBE <= MAE <= RMSE /\
    (exists d, In d (errs b e) /\ RMSE <= Rabs d /\ forall d', In d' (errs b e) -> Rabs d' <= Rabs d) /\
    MSE = MBE ^ 2 + spread (errs b e).
Proof.
  intros b e L N. destruct (metric_values b e L N) as (_ & _ & _ & E1 & E2 & E3 & E4).
  pose proof (errs_ne b e L N) as NE. set (l := errs b e) in *. clearbody l.
  exists (avg (map (fun d => d ^ 2) l)), (sqrt (avg (map (fun d => d ^ 2) l))), (avg (map Rabs l)), (avg l).
  split; [easy|]. split; [easy|]. split; [easy|]. split; [easy|]. split; [easy|].
  pose proof (INR_length_pos l NE) as P.
  split; [split|split].
  - unfold avg. rewrite map_length. unfold Rdiv. rewrite Rabs_mult, (Rabs_right (/ INR (length l))).
    + apply Rmult_le_compat_r; [left; now apply Rinv_0_lt_compat|apply Rsum_abs].
    + left. now apply Rinv_0_lt_compat.
  - assert (A0 : 0 <= avg (map Rabs l)).
    { apply Rmean_nonneg. intros y Hy. apply in_map_iff in Hy. destruct Hy as [x [<- _]]. apply Rabs_pos. }
    rewrite <- (sqrt_pow2 (avg (map Rabs l)) A0). apply sqrt_le_1_alt.
    pose proof (mean_sq_le (map Rabs l) (map_ne _ _ NE)) as Q. rewrite map_map in Q.
    rewrite (map_ext (fun x => Rabs x ^ 2) (fun x => x ^ 2)) in Q by (intro; apply pow2_abs). exact Q.
  - pose proof (Rmax_of_in (map Rabs l) (map_ne _ _ NE)) as M. apply in_map_iff in M. destruct M as (d & Ed & Hd).
    exists d. split; [easy|]. assert (B : forall d', In d' l -> Rabs d' <= Rabs d).
    { intros d' Hd'. rewrite Ed. apply Rmax_of_ge. now apply in_map. }
    split; [|easy]. rewrite <- (sqrt_pow2 (Rabs d) (Rabs_pos d)). apply sqrt_le_1_alt.
    apply (Rmean_between (map (fun d => d ^ 2) l) 0); [now apply map_ne|].
    intros x Hx. apply in_map_iff in Hx. destruct Hx as (y & <- & Hy). split; [apply pow2_ge_0|].
    rewrite <- (pow2_abs y). specialize (B y Hy). pose proof (Rabs_pos y). nra.
  - now apply avg_spread.
Qed.

(*@ C32 Arrays of different lengths are refused; a single value is compared with every entry; nothing gives NaN. *)
Lemma metric_shapes : forall b e,
  (length b <> length e -> length b <> 1%nat -> length e <> 1%nat ->
     mse b e = Err ValueError /\ rmse b e = Err ValueError /\ mae b e = Err ValueError /\ mbe b e = Err ValueError) /\
  (forall x, b = [x] -> mse b e = mse (map (fun _ => x) e) e /\ rmse b e = rmse (map (fun _ => x) e) e /\
                        mae b e = mae (map (fun _ => x) e) e /\ mbe b e = mbe (map (fun _ => x) e) e) /\
  (forall y, e = [y] -> mse b e = mse b (map (fun _ => y) b) /\ rmse b e = rmse b (map (fun _ => y) b) /\
                        mae b e = mae b (map (fun _ => y) b) /\ mbe b e = mbe b (map (fun _ => y) b)) /\
  (mse [] [] = Ok Nan /\ rmse [] [] = Ok Nan /\ mae [] [] = Ok Nan /\ mbe [] [] = Ok Nan).
Proof.
  intros b e.
  assert (all : forall b e b' e', bias_error b e = bias_error b' e' ->
     mse b e = mse b' e' /\ rmse b e = rmse b' e' /\ mae b e = mae b' e' /\ mbe b e = mbe b' e').
  { intros * E. unfold rmse, mse, mae, mbe, squared_error, absolute_error. rewrite E. auto. }
  split; [|split; [|split]].
  - intros N1 N2 N3. assert (E : bias_error b e = Err ValueError).
    { unfold bias_error, array_sub. rewrite (proj2 (Nat.eqb_neq _ _)) by congruence.
      destruct e as [|y [|]], b as [|x [|]]; cbn in *; try easy; congruence. }
    unfold rmse, mse, mae, mbe, squared_error, absolute_error. rewrite E. auto.
  - intros x ->. apply all. unfold bias_error. rewrite (array_sub_errs (map _ e) e) by now rewrite map_length.
    unfold array_sub. destruct e as [|y [|y' e]]; try reflexivity.
    cbn [length Nat.eqb]. f_equal. unfold errs. set (l := y :: y' :: e). clearbody l.
    induction l as [|z l IH]; cbn; [easy|]. f_equal. apply IH.
  - intros y ->. apply all. unfold bias_error. rewrite (array_sub_errs b (map _ b)) by now rewrite map_length.
    unfold array_sub. destruct b as [|x [|x' b]]; try reflexivity.
    cbn [length Nat.eqb]. f_equal. unfold errs. set (l := x :: x' :: b). clearbody l.
    induction l as [|z l IH]; cbn; [easy|]. f_equal. apply IH.
  - repeat split.
Qed.

(*@ex C32 *)
Lemma metric_example :
  mse [0; 0] [3; -1] = Ok (Fin 5) /\ mae [0; 0] [3; -1] = Ok (Fin 2) /\ mbe [0; 0] [3; -1] = Ok (Fin 1).
Proof.
  destruct (metric_values [0; 0] [3; -1] eq_refl) as (_ & _ & _ & -> & _ & -> & ->); [easy|].
  unfold errs, avg; cbn [combine map fst snd length Rsum fold_right INR].
  rewrite (Rabs_right (3 - 0)), (Rabs_left (-1 - 0)) by lra. repeat split; do 2 f_equal; field.
Qed.

(** ** C33 *)
Lemma avg_zero_nonneg l : l <> [] -> (forall x, In x l -> 0 <= x) -> avg l = 0 -> forall x, In x l -> x = 0.
Proof.
  intros NE P E. apply Rsum_zero_all; [easy|]. unfold avg in E. pose proof (INR_length_pos l NE) as Q.
  apply Rmult_integral in E. destruct E as [E|E]; [easy|]. exfalso. apply Rinv_neq_0_compat in E; lra.
Qed.
Lemma errs_zero b e : length b = length e -> (forall d, In d (errs b e) -> d = 0) -> b = e.
Proof.
  revert e. induction b as [|x b IH]; intros [|y e] L Z; cbn in L; try discriminate; [easy|].
  assert (y - x = 0) by (apply Z; now left). f_equal; [lra|]. apply IH; [congruence|]. intros d Hd. apply Z. now right.
Qed.
Lemma errs_self b d : In d (errs b b) -> d = 0.
Proof. unfold errs. intro Hd. apply in_map_iff in Hd. destruct Hd as ([x y] & <- & Hp).
  assert (x = y); [|cbn; subst; lra]. revert Hp. induction b as [|z b IH]; [easy|]. intros [E|Hp]; [now inversion E|auto]. Qed.

Lemma avg_all_zero l : (forall x, In x l -> x = 0) -> avg l = 0.
Proof.
  intro Z. unfold avg. assert (E : Rsum l = 0).
  { rewrite <- (map_id l), (Rsum_map_ext (fun x => x) (fun _ => 0) l Z), Rsum_map_const. ring. }
  rewrite E. unfold Rdiv. ring.
Qed.

(*@ C33 The metrics vanish exactly for equal series. *)
Lemma metric_zero : forall b e, length b = length e -> b <> [] ->
  (mse b e = Ok (Fin 0) <-> b = e) /\ (rmse b e = Ok (Fin 0) <-> b = e) /\ (mae b e = Ok (Fin 0) <-> b = e).
Proof.
  intros b e L N. destruct (metric_values b e L N) as (_ & _ & _ & E1 & E2 & E3 & E4).
  pose proof (errs_ne b e L N) as NE. rewrite E1, E2, E3.
  assert (SQ : avg (map (fun d => d ^ 2) (errs b e)) = 0 <-> b = e).
  { split; intro E.
    - apply errs_zero; [easy|]. intros d Hd.
      assert (d ^ 2 = 0).
      { apply (avg_zero_nonneg (map (fun d => d ^ 2) (errs b e))); [now apply map_ne| |easy|now apply (in_map (fun d => d ^ 2))].
        intros x Hx. apply in_map_iff in Hx. destruct Hx as (y & <- & _). apply pow2_ge_0. }
      nra.
    - subst. apply avg_all_zero. intros x Hx. apply in_map_iff in Hx. destruct Hx as (y & <- & Hy).
      rewrite (errs_self e y Hy). ring. }
  split; [|split].
  - split; intro E; [apply SQ; congruence|]. apply SQ in E. congruence.
  - split; intro E.
    + apply SQ. apply sqrt_eq_0; [apply avg_sq_nonneg|congruence].
    + apply SQ in E. rewrite E. now rewrite sqrt_0.
  - split; intro E.
    + apply errs_zero; [easy|]. intros d Hd.
      assert (A : Rabs d = 0).
      { apply (avg_zero_nonneg (map Rabs (errs b e))); [now apply map_ne| |congruence|now apply (in_map Rabs)].
        intros x Hx. apply in_map_iff in Hx. destruct Hx as (y & <- & _). apply Rabs_pos. }
      destruct (Req_dec d 0) as [|Nd]; [easy|]. now apply Rabs_no_R0 in Nd.
    + subst. do 2 f_equal. apply avg_all_zero. intros x Hx. apply in_map_iff in Hx. destruct Hx as (y & <- & Hy).
      rewrite (errs_self e y Hy). apply Rabs_R0.
Qed.

Lemma errs_swap b e : length b = length e -> errs e b = map Ropp (errs b e).
Proof.
  revert e. induction b as [|x b IH]; intros [|y e] L; cbn in L; try discriminate; [easy|].
  change (x - y :: errs e b = - (y - x) :: map Ropp (errs b e)). f_equal; [ring|]. apply IH. congruence.
Qed.
Lemma avg_map_opp l : avg (map Ropp l) = - avg l.
Proof. unfold avg. rewrite map_length. assert (E : Rsum (map Ropp l) = - Rsum l).
  { induction l as [|x l IH]; cbn [map]; rewrite ?Rsum_cons, ?Rsum_nil; [ring|]. rewrite IH. ring. }
  rewrite E. unfold Rdiv. ring. Qed.

(*@ C33 Swapping the arguments: mse, rmse, mae unchanged, mbe changes sign. *)
Lemma metric_swap : forall b e m, length b = length e ->
  mse e b = mse b e /\ rmse e b = rmse b e /\ mae e b = mae b e /\
  (mbe b e = Ok (Fin m) -> mbe e b = Ok (Fin (- m))).
Proof.
  intros b e m L. unfold rmse, mse, mae, mbe, squared_error, absolute_error, bias_error.
  rewrite !array_sub_errs by congruence. rewrite (errs_swap b e L). cbn [rmap].
  rewrite !map_map. rewrite (map_ext (fun x => (- x) ^ 2) (fun x => x ^ 2)) by (intro; ring).
  rewrite (map_ext (fun x => Rabs (- x)) Rabs) by (intro; apply Rabs_Ropp).
  split; [easy|]. split; [easy|]. split; [easy|]. intro E.
  destruct (errs b e) as [|x l] eqn:El; [discriminate|]. rewrite nan_reduce_ne in E by easy.
  rewrite nan_reduce_ne by easy. do 2 f_equal. change Rmean with avg in *. rewrite avg_map_opp. congruence.
Qed.

(*@ C33 Adding the same series to both inputs changes nothing. *)
Lemma metric_shift : forall b e c, length b = length e -> length c = length b ->
  mse (map2 Rplus b c) (map2 Rplus e c) = mse b e /\ rmse (map2 Rplus b c) (map2 Rplus e c) = rmse b e /\
  mae (map2 Rplus b c) (map2 Rplus e c) = mae b e /\ mbe (map2 Rplus b c) (map2 Rplus e c) = mbe b e.
Proof.
  intros b e c L Lc. unfold rmse, mse, mae, mbe, squared_error, absolute_error, bias_error.
  rewrite !array_sub_errs by (rewrite ?map2_length by congruence; congruence).
  assert (E : errs (map2 Rplus b c) (map2 Rplus e c) = errs b e); [|rewrite E; auto].
  revert e c L Lc. induction b as [|x b IH]; intros [|y e] [|z c] L Lc; cbn in L, Lc; try discriminate; [easy|].
  change ((y + z) - (x + z) :: errs (map2 Rplus b c) (map2 Rplus e c) = y - x :: errs b e).
  f_equal; [ring|]. apply IH; congruence.
Qed.

(*@ C33 Scaling both inputs by k. *)
Lemma metric_scale : forall b e k, length b = length e -> b <> [] ->
  exists MSE RMSE MAE MBE,
    mse b e = Ok (Fin MSE) /\ rmse b e = Ok (Fin RMSE) /\ mae b e = Ok (Fin MAE) /\ mbe b e = Ok (Fin MBE) /\
    mse (map (Rmult k) b) (map (Rmult k) e) = Ok (Fin (k ^ 2 * MSE)) /\
    rmse (map (Rmult k) b) (map (Rmult k) e) = Ok (Fin (Rabs k * RMSE)) /\
    mae (map (Rmult k) b) (map (Rmult k) e) = Ok (Fin (Rabs k * MAE)) /\
    mbe (map (Rmult k) b) (map (Rmult k) e) = Ok (Fin (k * MBE)).
Proof.
  intros b e k L N. destruct (metric_values b e L N) as (_ & _ & _ & E1 & E2 & E3 & E4).
  destruct (metric_values (map (Rmult k) b) (map (Rmult k) e)) as (_ & _ & _ & F1 & F2 & F3 & F4);
    [now rewrite !map_length|now apply map_ne|].
  assert (EE : errs (map (Rmult k) b) (map (Rmult k) e) = map (fun d => k * d) (errs b e)).
  { clear -L. revert e L. induction b as [|x b IH]; intros [|y e] L; cbn in L; try discriminate; [easy|].
    change (k * y - k * x :: errs (map (Rmult k) b) (map (Rmult k) e) = k * (y - x) :: map (fun d => k * d) (errs b e)).
    f_equal; [ring|]. apply IH. congruence. }
  rewrite EE, map_map in F1, F2, F3. rewrite EE in F4.
  set (l := errs b e) in *. clearbody l.
  assert (S2 : avg (map (fun x => (k * x) ^ 2) l) = k ^ 2 * avg (map (fun x => x ^ 2) l)).
  { rewrite (map_ext (fun x => (k * x) ^ 2) (fun x => k ^ 2 * x ^ 2)) by (intro; ring). apply (Rmean_map_scal (k ^ 2) (fun x => x ^ 2)). }
  assert (S1 : avg (map (fun x => Rabs (k * x)) l) = Rabs k * avg (map Rabs l)).
  { rewrite (map_ext (fun x => Rabs (k * x)) (fun x => Rabs k * Rabs x)) by (intro; apply Rabs_mult). apply (Rmean_map_scal (Rabs k) Rabs). }
  assert (S0 : avg (map (fun x => k * x) l) = k * avg l) by apply Rmean_scal.
  rewrite S2 in F1, F2. rewrite S1 in F3. rewrite S0 in F4.
  do 4 eexists. do 4 (split; [eassumption|]). split; [easy|]. split; [|easy].
  rewrite F2. do 2 f_equal. rewrite sqrt_mult; [|apply pow2_ge_0|apply avg_sq_nonneg].
  f_equal. rewrite <- pow2_abs. apply sqrt_pow2, Rabs_pos.
Qed.

Lemma minkowski (f g : nat -> R) l : l <> [] ->
  sqrt (avg (map (fun i => (f i + g i) ^ 2) l)) <= sqrt (avg (map (fun i => f i ^ 2) l)) + sqrt (avg (map (fun i => g i ^ 2) l)).
Proof.
  intro NE. pose proof (INR_length_pos l NE) as P.
  set (A := avg (map (fun i => f i ^ 2) l)). set (B := avg (map (fun i => g i ^ 2) l)).
  assert (HA : 0 <= A) by (apply Rmean_nonneg; intros x Hx; apply in_map_iff in Hx; destruct Hx as [y [<- _]]; apply pow2_ge_0).
  assert (HB : 0 <= B) by (apply Rmean_nonneg; intros x Hx; apply in_map_iff in Hx; destruct Hx as [y [<- _]]; apply pow2_ge_0).
  set (C := avg (map (fun i => f i * g i) l)).
  assert (E : avg (map (fun i => (f i + g i) ^ 2) l) = A + 2 * C + B).
  { unfold A, B, C. change avg with Rmean.
    transitivity (Rmean (map (fun i => (f i ^ 2 + 2 * (f i * g i)) + g i ^ 2) l)).
    - f_equal. apply map_ext. intro. ring.
    - rewrite !Rmean_map_plus, Rmean_map_scal. reflexivity. }
  assert (CS : C ^ 2 <= A * B).
  { pose proof (Rsum_cauchy_schwarz f g l) as Q. unfold A, B, C, avg. rewrite !map_length. set (n := INR (length l)) in *.
    replace ((Rsum (map (fun i => f i * g i) l) / n) ^ 2) with (Rsum (map (fun i => f i * g i) l) ^ 2 * / n ^ 2) by (field; lra).
    replace (Rsum (map (fun i => f i ^ 2) l) / n * (Rsum (map (fun i => g i ^ 2) l) / n))
      with (Rsum (map (fun i => f i ^ 2) l) * Rsum (map (fun i => g i ^ 2) l) * / n ^ 2) by (field; lra).
    apply Rmult_le_compat_r; [|easy]. left. apply Rinv_0_lt_compat. nra. }
  rewrite E. pose proof (sqrt_pos A). pose proof (sqrt_pos B).
  pose proof (sqrt_sqrt A HA). pose proof (sqrt_sqrt B HB).
  assert (C <= sqrt A * sqrt B).
  { destruct (Rle_or_lt C 0); [nra|]. apply Rsqr_incr_0_var; [|nra]. unfold Rsqr. 
    replace (sqrt A * sqrt B * (sqrt A * sqrt B)) with (A * B) by (rewrite <- (sqrt_sqrt A HA) at 1; rewrite <- (sqrt_sqrt B HB) at 1; ring). nra. }
  apply Rsqr_incr_0_var; [|lra]. destruct (Rle_or_lt 0 (A + 2 * C + B)).
  - rewrite Rsqr_sqrt by easy. unfold Rsqr. nra.
  - rewrite sqrt_neg_0 by lra. unfold Rsqr. nra.
Qed.

(*@ C33 Triangle inequality for rmse and mae. *)
Lemma metric_triangle : forall a b c, length a = length b -> length b = length c -> a <> [] ->
  exists R1 R2 R3 A1 A2 A3,
    rmse a b = Ok (Fin R1) /\ rmse b c = Ok (Fin R2) /\ rmse a c = Ok (Fin R3) /\ R3 <= R1 + R2 /\
    mae a b = Ok (Fin A1) /\ mae b c = Ok (Fin A2) /\ mae a c = Ok (Fin A3) /\ A3 <= A1 + A2.
Proof.
  intros a b c L1 L2 N. assert (Nb : b <> []) by (intros ->; destruct a; easy).
  destruct (metric_values a b L1 N) as (_ & _ & _ & _ & E1 & F1 & _).
  destruct (metric_values b c L2 Nb) as (_ & _ & _ & _ & E2 & F2 & _).
  destruct (metric_values a c ltac:(congruence) N) as (_ & _ & _ & _ & E3 & F3 & _).
  remember (length a) as n eqn:Hn.
  rewrite (errs_seq a b n), map_map in E1, F1 by congruence.
  rewrite (errs_seq b c n), map_map in E2, F2 by congruence.
  rewrite (errs_seq a c n), map_map in E3, F3 by congruence.
  do 6 eexists. do 3 (split; [eassumption|]).
  assert (NS : seq 0 n <> []) by (subst n; destruct a; easy).
  split; [|do 3 (split; [eassumption|])].
  - pose proof (minkowski (fun i => nth i b 0 - nth i a 0) (fun i => nth i c 0 - nth i b 0) (seq 0 n) NS) as M.
    cbv beta in M. rewrite (map_ext (fun i => (nth i b 0 - nth i a 0 + (nth i c 0 - nth i b 0)) ^ 2) (fun i => (nth i c 0 - nth i a 0) ^ 2)) in M.
    + exact M.
    + intro. f_equal. ring.
  - change avg with Rmean. rewrite <- Rmean_map_plus. apply Rmean_map_le. intros i _.
    replace (nth i c 0 - nth i a 0) with ((nth i b 0 - nth i a 0) + (nth i c 0 - nth i b 0)) by ring. apply Rabs_triang.
Qed.

(*@ex C33 *)
Lemma metric_zero_example : rmse [1; 2] [1; 2] = Ok (Fin 0) /\ mbe [1; 2] [2; 1] = Ok (Fin 0) /\ mae [1; 2] [2; 1] = Ok (Fin 1).
Proof.
  split; [now apply metric_zero|].
  destruct (metric_values [1; 2] [2; 1] eq_refl) as (_ & _ & _ & _ & _ & -> & ->); [easy|].
  unfold errs, avg; cbn [combine map fst snd length Rsum fold_right INR].
  rewrite (Rabs_right (2 - 1)), (Rabs_left (1 - 2)) by lra. split; do 2 f_equal; field.
Qed.
