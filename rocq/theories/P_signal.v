(** Sums over lags: the convolution model computes the overlap sums; Cauchy-Schwarz on shifted signals. *)
From Verif Require Import Prelude RealBase Fl RealStat P_list Spec_signal M_signal_corr.
From Coq Require Import Lra Psatz.
Local Open Scope R_scope.

Lemma padded_add_nth a : forall b k, nth k (padded_add a b) 0 = nth k a 0 + nth k b 0.
Proof.
  induction a as [|x a IH]; intros [|y b] k; cbn [padded_add].
  - destruct k; cbn; lra.
  - destruct k; cbn; lra.
  - destruct k; cbn; lra.
  - destruct k; cbn; [reflexivity|]. apply IH.
Qed.
Lemma padded_add_length a : forall b, length (padded_add a b) = Nat.max (length a) (length b).
Proof. induction a as [|x a IH]; intros [|y b]; cbn; auto. Qed.

Lemma convolve_length a : forall b, a <> [] -> b <> [] -> length (convolve a b) = (length a + length b - 1)%nat.
Proof.
  induction a as [|x a IH]; intros b Na Nb; [easy|]. cbn [convolve].
  rewrite padded_add_length, map_length.
  destruct a as [|y a]; [cbn; destruct b; cbn; [easy|lia]|].
  cbn [length]. cbn [length] in IH. rewrite IH by easy. destruct b; cbn; [easy|]. lia.
Qed.

Lemma nth_map_scal x b k : nth k (map (fun y => x * y) b) 0 = x * nth k b 0.
Proof.
  destruct (Nat.lt_ge_cases k (length b)) as [L|L].
  - rewrite nth_indep with (d' := x * 0) by (now rewrite map_length). now rewrite map_nth with (f := fun y => x * y).
  - rewrite !nth_overflow by (rewrite ?map_length; lia). lra.
Qed.

Lemma convolve_nth a : forall b k, nth k (convolve a b) 0 =
  Rsumn (length a) (fun i => nth i a 0 * (if Nat.leb i k then nth (k - i) b 0 else 0)).
Proof.
  induction a as [|x a IH]; intros b k; [now destruct k|].
  cbn [convolve length]. rewrite padded_add_nth, nth_map_scal, Rsumn_first.
  rewrite Nat.sub_0_r. cbn [Nat.leb nth]. f_equal.
  assert (E : forall (z : list R), nth k (match a with [] => [] | _ => 0 :: z end) 0
            = match a with [] => 0 | _ => match k with O => 0 | S k' => nth k' z 0 end end).
  { intro z. destruct a; [now destruct k|]. now destruct k. }
  rewrite E. destruct a as [|y a]; [reflexivity|].
  destruct k as [|k].
  - symmetry. unfold Rsumn. rewrite Rsum_map_ext with (g := fun _ => 0) by (intros; cbn; lra).
    rewrite Rsum_map_const. lra.
  - rewrite IH. apply Rsumn_ext. intros i Hi. cbn. reflexivity.
Qed.

Lemma at0_in a n : (n < length a)%nat -> at0 a (Z.of_nat n) = nth n a 0.
Proof.
  intro L. unfold at0. destruct (Z.ltb_spec (Z.of_nat n) 0); [lia|].
  destruct (Z.leb_spec (Z.of_nat (length a)) (Z.of_nat n)); [lia|]. cbn. now rewrite Nat2Z.id.
Qed.
Lemma at0_out a i : (i < 0 \/ Z.of_nat (length a) <= i)%Z -> at0 a i = 0.
Proof.
  intro L. unfold at0. destruct (Z.ltb_spec i 0); [reflexivity|].
  destruct (Z.leb_spec (Z.of_nat (length a)) i); [reflexivity|lia].
Qed.
Lemma at0_nat a n : at0 a (Z.of_nat n) = nth n a 0.
Proof.
  destruct (Nat.lt_ge_cases n (length a)); [now apply at0_in|].
  rewrite at0_out by lia. now rewrite nth_overflow.
Qed.
Lemma at0_to_nat a i : (0 <= i)%Z -> at0 a i = nth (Z.to_nat i) a 0.
Proof. intro. rewrite <- at0_nat. now rewrite Z2Nat.id. Qed.

(** Picking one term of a sum. *)
Lemma Rsumn_pick n j (f : nat -> R) :
  Rsumn n (fun i => if Z.eqb (Z.of_nat i) j then f i else 0)
  = if (Z.leb 0 j && Z.ltb j (Z.of_nat n))%bool then f (Z.to_nat j) else 0.
Proof.
  induction n as [|n IH].
  - rewrite Rsumn_0. destruct (Z.leb_spec 0 j), (Z.ltb_spec j (Z.of_nat 0)); cbn; try reflexivity; lia.
  - rewrite Rsumn_S, IH.
    destruct (Z.eqb_spec (Z.of_nat n) j) as [<-|N].
    + destruct (Z.leb_spec 0 (Z.of_nat n)); [|lia].
      destruct (Z.ltb_spec (Z.of_nat n) (Z.of_nat n)); [lia|].
      destruct (Z.ltb_spec (Z.of_nat n) (Z.of_nat (S n))); [|lia]. cbn. rewrite Nat2Z.id. lra.
    + destruct (Z.leb_spec 0 j); cbn [andb]; [|lra].
      destruct (Z.ltb_spec j (Z.of_nat n)), (Z.ltb_spec j (Z.of_nat (S n))); try lra; lia.
Qed.
Lemma pick_at0 (a : list R) j (g : R -> R) : g 0 = 0 ->
  Rsumn (length a) (fun i => if Z.eqb (Z.of_nat i) j then g (nth i a 0) else 0) = g (at0 a j).
Proof.
  intro G. rewrite (Rsumn_pick (length a) j (fun i => g (nth i a 0))). unfold at0.
  destruct (Z.leb_spec 0 j), (Z.ltb_spec j 0); cbn; try lia; auto.
  destruct (Z.ltb_spec j (Z.of_nat (length a))), (Z.leb_spec (Z.of_nat (length a)) j); auto; lia.
Qed.
Lemma Rsumn_scal n c f : Rsumn n (fun i => c * f i) = c * Rsumn n f.
Proof. apply Rsum_map_scal. Qed.

Lemma lag_sum_alt a b L : lag_sum a b L = Rsumn (length a) (fun i => at0 a (Z.of_nat i) * at0 b (Z.of_nat i - L)).
Proof.
  unfold lag_sum. change (Rsum (map ?f (seq 0 ?n))) with (Rsumn n f).
  transitivity (Rsumn (length b) (fun n => Rsumn (length a) (fun i =>
                  if Z.eqb (Z.of_nat i) (Z.of_nat n + L) then nth i a 0 * nth n b 0 else 0))).
  { apply Rsumn_ext. intros n Hn. rewrite at0_nat.
    exact (eq_sym (pick_at0 a (Z.of_nat n + L) (fun x => x * nth n b 0) (Rmult_0_l _))). }
  rewrite Rsumn_swap. apply Rsumn_ext. intros i Hi. rewrite at0_nat.
  rewrite <- (pick_at0 b (Z.of_nat i - L) (fun x => nth i a 0 * x) (Rmult_0_r _)).
  apply Rsumn_ext. intros n Hn.
  destruct (Z.eqb_spec (Z.of_nat i) (Z.of_nat n + L)), (Z.eqb_spec (Z.of_nat n) (Z.of_nat i - L)); try reflexivity; lia.
Qed.
Lemma lag_sum_swap a b L : lag_sum b a L = lag_sum a b (- L).
Proof.
  rewrite lag_sum_alt. unfold lag_sum, Rsumn. apply Rsum_map_ext. intros i _.
  rewrite Rmult_comm. f_equal.
Qed.

Lemma correlate_nth a b k : b <> [] -> (k < length a + length b - 1)%nat ->
  nth k (correlate a b) 0 = lag_sum a b (Z.of_nat k - Z.of_nat (length b - 1)).
Proof.
  intros Nb Hk. assert (0 < length b)%nat by (destruct b; cbn; [easy|lia]).
  unfold correlate. rewrite convolve_nth, lag_sum_alt. apply Rsumn_ext. intros i Hi.
  rewrite at0_nat. f_equal.
  destruct (Nat.leb_spec i k) as [L|L].
  - destruct (Nat.lt_ge_cases (k - i) (length b)) as [L'|L'].
    + rewrite rev_nth by lia. rewrite at0_to_nat by lia. f_equal. lia.
    + rewrite nth_overflow by (rewrite rev_length; lia). rewrite at0_out; [reflexivity|]. lia.
  - rewrite at0_out; [reflexivity|]. lia.
Qed.
Lemma correlate_length a b : a <> [] -> b <> [] -> length (correlate a b) = (length a + length b - 1)%nat.
Proof.
  intros Na Nb. unfold correlate. rewrite convolve_length, rev_length; auto.
  intro E. apply Nb. rewrite <- (rev_involutive b), E. reflexivity.
Qed.
Lemma correlate_as_map a b : a <> [] -> b <> [] ->
  correlate a b = map (lag_sum a b) (correlation_lags (length a) (length b)).
Proof.
  intros Na Nb. unfold correlation_lags. rewrite map_map.
  apply nth_ext with (d := 0) (d' := 0).
  - rewrite correlate_length, map_length, seq_length by auto. reflexivity.
  - intros k Hk. rewrite correlate_length in Hk by auto.
    rewrite correlate_nth by auto.
    rewrite nth_indep with (d' := lag_sum a b (Z.of_nat 0 - Z.of_nat (length b - 1))) by (now rewrite map_length, seq_length).
    rewrite map_nth with (f := fun k => lag_sum a b (Z.of_nat k - Z.of_nat (length b - 1))).
    now rewrite seq_nth.
Qed.

(** ** Energies and Cauchy-Schwarz *)
Lemma energy_nonneg a : 0 <= energy a.
Proof. apply Rsum_nonneg. intros x Hx. apply in_map_iff in Hx as [y [<- _]]. nra. Qed.
Lemma energy_sumn a : energy a = Rsumn (length a) (fun i => at0 a (Z.of_nat i) ^ 2).
Proof.
  unfold energy. rewrite Rsum_as_sumn, map_length. apply Rsumn_ext. intros i Hi.
  rewrite at0_nat. rewrite nth_indep with (d' := 0 ^ 2) by (now rewrite map_length).
  now rewrite (map_nth (fun x => x ^ 2)).
Qed.
Lemma energy_zero a : energy a = 0 -> forall x, In x a -> x = 0.
Proof.
  intros E x Hx. assert (x ^ 2 = 0).
  { apply Rsum_zero_all with (l := map (fun x => x ^ 2) a); auto.
    - intros y Hy. apply in_map_iff in Hy as [z [<- _]]. nra.
    - apply in_map_iff. now exists x. }
  nra.
Qed.
(** A shifted window of a signal has at most the energy of the signal. *)
Lemma shifted_energy_le a m d : Rsumn m (fun n => at0 a (Z.of_nat n + d) ^ 2) <= energy a.
Proof.
  rewrite energy_sumn.
  apply Rle_trans with (Rsumn m (fun n => Rsumn (length a) (fun i => if Z.eqb (Z.of_nat i) (Z.of_nat n + d) then nth i a 0 ^ 2 else 0))).
  { right. apply Rsumn_ext. intros n Hn. symmetry. apply (pick_at0 a (Z.of_nat n + d) (fun x => x ^ 2)). lra. }
  rewrite Rsumn_swap. unfold Rsumn at 1 3. apply Rsum_map_le. intros i _. rewrite at0_nat.
  rewrite Rsumn_ext with (g := fun n => if Z.eqb (Z.of_nat n) (Z.of_nat i - d) then nth i a 0 ^ 2 else 0).
  - rewrite (Rsumn_pick m (Z.of_nat i - d) (fun _ => nth i a 0 ^ 2)).
    destruct (_ && _)%bool; nra.
  - intros n _. destruct (Z.eqb_spec (Z.of_nat i) (Z.of_nat n + d)), (Z.eqb_spec (Z.of_nat n) (Z.of_nat i - d)); try reflexivity; lia.
Qed.
Lemma lag_sum_cs a b L : lag_sum a b L ^ 2 <= energy a * energy b.
Proof.
  unfold lag_sum.
  eapply Rle_trans.
  - pose proof (Rsum_cauchy_schwarz (fun n => at0 a (Z.of_nat n + L)) (fun n => at0 b (Z.of_nat n)) (seq 0 (length b))) as H.
    exact H.
  - apply Rmult_le_compat.
    + apply Rsum_nonneg. intros x Hx. apply in_map_iff in Hx as [y [<- _]]. nra.
    + apply Rsum_nonneg. intros x Hx. apply in_map_iff in Hx as [y [<- _]]. nra.
    + pose proof (shifted_energy_le a (length b) L) as H. unfold Rsumn in H. exact H.
    + right. rewrite energy_sumn. reflexivity.
Qed.
Lemma lag_sum_self a : lag_sum a a 0 = energy a.
Proof.
  rewrite energy_sumn. unfold lag_sum, Rsumn. apply Rsum_map_ext. intros i _. rewrite Z.add_0_r. ring.
Qed.
Lemma lag_sum_self_le a L : lag_sum a a L <= energy a.
Proof.
  pose proof (lag_sum_cs a a L). pose proof (energy_nonneg a).
  apply Rnot_lt_le. intro. nra.
Qed.
