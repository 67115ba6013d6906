(** Facts about complex sums and the discrete Fourier transform. *)
From Verif Require Import Prelude RealBase P_list Dft.
From Coquelicot Require Import Complex.
From Coq Require Import Lra Psatz.
Local Open Scope R_scope.
Local Open Scope C_scope.

Lemma Csum_cons x l : Csum (x :: l) = x + Csum l.
Proof. reflexivity. Qed.
Lemma Csum_app l l' : Csum (l ++ l') = Csum l + Csum l'.
Proof.
  induction l as [|x l IH]; [cbn [app]; change (Csum []) with (RtoC 0); now rewrite Cplus_0_l|].
  rewrite <- app_comm_cons, !Csum_cons, IH. apply Cplus_assoc.
Qed.
Lemma Csumn_0 f : Csumn 0 f = RtoC 0.
Proof. reflexivity. Qed.
Lemma Csumn_S n f : Csumn (S n) f = Csumn n f + f n.
Proof.
  unfold Csumn. rewrite seq_S, map_app, Csum_app. cbn [map plus]. rewrite Csum_cons. change (Csum []) with (RtoC 0). now rewrite Cplus_0_r.
Qed.
Lemma Csumn_ext n f g : (forall i, (i < n)%nat -> f i = g i) -> Csumn n f = Csumn n g.
Proof. induction n as [|n IH]; intro H; [reflexivity|]. rewrite !Csumn_S, IH, H; auto. Qed.
Lemma Csumn_plus n f g : Csumn n (fun i => f i + g i) = Csumn n f + Csumn n g.
Proof. induction n as [|n IH]; [rewrite !Csumn_0; ring|]. rewrite !Csumn_S, IH. ring. Qed.
Lemma Csumn_scal n c f : Csumn n (fun i => c * f i) = c * Csumn n f.
Proof. induction n as [|n IH]; [rewrite !Csumn_0; ring|]. rewrite !Csumn_S, IH. ring. Qed.
Lemma Csumn_scal_r n c f : Csumn n (fun i => f i * c) = Csumn n f * c.
Proof. rewrite Cmult_comm, <- Csumn_scal. apply Csumn_ext. intros. ring. Qed.
Lemma Csumn_zero n f : (forall i, (i < n)%nat -> f i = RtoC 0) -> Csumn n f = RtoC 0.
Proof. induction n as [|n IH]; intro H; [reflexivity|]. rewrite Csumn_S, IH, H by auto. ring. Qed.
Lemma Csumn_swap n m (f : nat -> nat -> C) :
  Csumn n (fun i => Csumn m (fun j => f i j)) = Csumn m (fun j => Csumn n (fun i => f i j)).
Proof.
  induction n as [|n IH].
  - rewrite Csumn_0. symmetry. apply Csumn_zero. reflexivity.
  - rewrite Csumn_S, IH, <- Csumn_plus. apply Csumn_ext. intros. now rewrite Csumn_S.
Qed.
Lemma Cconj_mul x y : Cconj (x * y) = Cconj x * Cconj y.
Proof. apply injective_projections; cbn; ring. Qed.
Lemma Csumn_conj n f : Cconj (Csumn n f) = Csumn n (fun i => Cconj (f i)).
Proof.
  induction n as [|n IH]; [unfold Cconj; cbn; now rewrite Ropp_0|]. rewrite !Csumn_S, <- IH.
  apply injective_projections; cbn; lra.
Qed.
Lemma Csumn_RtoC n f : Csumn n (fun i => RtoC (f i)) = RtoC (Rsumn n f).
Proof. induction n as [|n IH]; [reflexivity|]. rewrite Csumn_S, IH, Rsumn_S, RtoC_plus. reflexivity. Qed.
Lemma Csumn_pick n j f : (j < n)%nat -> Csumn n (fun i => if Nat.eqb i j then f i else RtoC 0) = f j.
Proof.
  induction n as [|n IH]; intro H; [lia|]. rewrite Csumn_S.
  destruct (Nat.eqb_spec n j) as [<- | N].
  - rewrite Csumn_zero; [ring|]. intros i Hi. destruct (Nat.eqb_spec i n); [lia|reflexivity].
  - rewrite IH by lia. ring.
Qed.
Lemma Csumn_const n c : Csumn n (fun _ => c) = RtoC (INR n) * c.
Proof.
  induction n as [|n IH]; [rewrite Csumn_0; cbn [INR]; ring|]. rewrite Csumn_S, IH, S_INR, RtoC_plus. ring.
Qed.
Lemma Csum_as_sumn l : Csum l = Csumn (length l) (fun i => nth i l (RtoC 0)).
Proof.
  unfold Csumn. f_equal. apply nth_ext with (d := RtoC 0) (d' := RtoC 0).
  - now rewrite map_length, seq_length.
  - intros i Hi. rewrite nth_indep with (l := map _ _) (d' := nth 0 l (RtoC 0)) by (now rewrite map_length, seq_length).
    rewrite (map_nth (fun i => nth i l (RtoC 0))). now rewrite seq_nth.
Qed.

Fixpoint cpow (w : C) (n : nat) : C := match n with O => RtoC 1 | S n => w * cpow w n end.

(** ** The unit circle *)
Lemma cis_plus a b : cis (a + b) = cis a * cis b.
Proof. unfold cis. rewrite cos_plus, sin_plus. apply injective_projections; cbn; ring. Qed.
Lemma cis_0 : cis 0 = RtoC 1.
Proof. unfold cis. now rewrite cos_0, sin_0. Qed.
Lemma cis_conj t : Cconj (cis t) = cis (- t).
Proof. unfold cis, Cconj. cbn. now rewrite cos_neg, sin_neg. Qed.
Lemma cis_mod t : Cmod (cis t) = 1.
Proof.
  unfold Cmod, cis. cbn [fst snd]. replace (cos t ^ 2 + sin t ^ 2)%R with 1%R; [apply sqrt_1|].
  pose proof (sin2_cos2 t) as H. unfold Rsqr in H. lra.
Qed.
Lemma cis_nz t : cis t <> RtoC 0.
Proof. intro E. pose proof (cis_mod t) as H. rewrite E, Cmod_0 in H. lra. Qed.
Lemma cis_turns_nat n : cis (2 * PI * INR n) = RtoC 1.
Proof.
  induction n as [|n IH]; [cbn; rewrite Rmult_0_r; apply cis_0|].
  rewrite S_INR, Rmult_plus_distr_l, Rmult_1_r, cis_plus, IH. unfold cis. rewrite cos_2PI, sin_2PI.
  apply injective_projections; cbn; ring.
Qed.
Lemma cis_turns k : cis (2 * PI * IZR k) = RtoC 1.
Proof.
  destruct (Z_le_gt_dec 0 k) as [H|H].
  - rewrite <- (Z2Nat.id k H), <- INR_IZR_INZ. apply cis_turns_nat.
  - pose proof (cis_turns_nat (Z.to_nat (- k))) as E. rewrite INR_IZR_INZ, Z2Nat.id, opp_IZR in E by lia.
    replace (2 * PI * IZR k)%R with (- (2 * PI * - IZR k))%R by ring.
    rewrite <- cis_conj, E. unfold Cconj. cbn. now rewrite Ropp_0.
Qed.
Lemma cis_plus_turns t k : cis (t + 2 * PI * IZR k) = cis t.
Proof. rewrite cis_plus, cis_turns. ring. Qed.
Lemma cis_mult_nat t n : cis (INR n * t) = cpow (cis t) n.
Proof.
  induction n as [|n IH]; [cbn; rewrite Rmult_0_l; apply cis_0|].
  rewrite S_INR, Rmult_plus_distr_r, Rmult_1_l, cis_plus, IH. cbn. ring.
Qed.
Lemma cis_eq_1 t : (0 < t < 2 * PI)%R -> cis t <> RtoC 1.
Proof.
  intros H E. unfold cis in E. injection E as E _.
  assert (P : (0 < sin (t / 2))%R) by (apply sin_gt_0; lra).
  replace t with (2 * (t / 2))%R in E by field. rewrite cos_2a_sin in E. nra.
Qed.

(** ** Orthogonality *)
Lemma geometric w n : (w - RtoC 1) * Csumn n (fun k => cpow w k) = cpow w n - RtoC 1.
Proof. induction n as [|n IH]; [rewrite Csumn_0; cbn [cpow]; ring|]. rewrite Csumn_S, Cmult_plus_distr_l, IH. cbn. ring. Qed.
Lemma roots_sum N d : (0 < N)%nat ->
  Csumn N (fun k => cis (2 * PI * INR k * IZR d / INR N))
  = if Z.eqb (d mod Z.of_nat N) 0 then RtoC (INR N) else RtoC 0.
Proof.
  intro HN. assert (P : (0 < INR N)%R) by (now apply lt_0_INR).
  set (r := (d mod Z.of_nat N)%Z). set (q := (d / Z.of_nat N)%Z).
  assert (E : d = (Z.of_nat N * q + r)%Z) by (apply Z.div_mod; lia).
  assert (Rr : (0 <= r < Z.of_nat N)%Z) by (apply Z.mod_pos_bound; lia).
  assert (W : cis (2 * PI * IZR d / INR N) = cis (2 * PI * IZR r / INR N)).
  { rewrite E, plus_IZR, mult_IZR, <- INR_IZR_INZ.
    replace (2 * PI * (INR N * IZR q + IZR r) / INR N)%R with (2 * PI * IZR r / INR N + 2 * PI * IZR q)%R by (field; lra).
    apply cis_plus_turns. }
  rewrite Csumn_ext with (g := fun k => cpow (cis (2 * PI * IZR r / INR N)) k).
  - destruct (Z.eqb_spec r 0) as [Z|Z].
    + rewrite Z. replace (2 * PI * IZR 0 / INR N)%R with 0%R by (field; lra). rewrite cis_0.
      rewrite Csumn_ext with (g := fun _ => RtoC 1).
      * rewrite Csumn_const. ring.
      * intros i _. induction i as [|i IH]; [reflexivity|]. cbn. rewrite IH. ring.
    + pose proof (geometric (cis (2 * PI * IZR r / INR N)) N) as G.
      rewrite <- cis_mult_nat in G.
      replace (INR N * (2 * PI * IZR r / INR N))%R with (2 * PI * IZR r)%R in G by (field; lra).
      rewrite cis_turns in G. replace (RtoC 1 - RtoC 1) with (RtoC 0) in G by ring.
      assert (Nz : cis (2 * PI * IZR r / INR N) - RtoC 1 <> RtoC 0).
      { intro F. assert (F' : cis (2 * PI * IZR r / INR N) = RtoC 1).
        { replace (cis (2 * PI * IZR r / INR N)) with ((cis (2 * PI * IZR r / INR N) - RtoC 1) + RtoC 1) by ring.
          rewrite F. ring. }
        revert F'. apply cis_eq_1. pose proof PI_RGT_0.
        assert (0 < IZR r < INR N)%R by (rewrite INR_IZR_INZ; split; apply IZR_lt; lia).
        assert (0 < IZR r / INR N < 1)%R.
        { split; [apply Rdiv_lt_0_compat; lra|]. apply Rmult_lt_reg_r with (INR N); auto.
          unfold Rdiv. rewrite Rmult_assoc, Rinv_l by lra. lra. }
        replace (2 * PI * IZR r / INR N)%R with (2 * PI * (IZR r / INR N))%R by (field; lra). nra. }
      destruct (Ceq_dec (Csumn N (fun k => cpow (cis (2 * PI * IZR r / INR N)) k)) (RtoC 0)) as [|N0]; auto.
      exfalso. revert G. apply Cmult_neq_0; auto.
  - intros k _. rewrite <- W, <- cis_mult_nat. f_equal. field. lra.
Qed.

(** ** Transforms *)
Lemma fft_length x : length (fft x) = length x.
Proof. unfold fft. now rewrite map_length, seq_length. Qed.
Lemma ifft_length x : length (ifft x) = length x.
Proof. unfold ifft. now rewrite map_length, seq_length. Qed.
Lemma fft_nth x k d : (k < length x)%nat -> nth k (fft x) d = fft_bin x k.
Proof.
  intro H. unfold fft. rewrite nth_indep with (d' := fft_bin x 0) by (now rewrite map_length, seq_length).
  rewrite map_nth. now rewrite seq_nth.
Qed.
Lemma ifft_nth x k d : (k < length x)%nat -> nth k (ifft x) d = ifft_bin x k.
Proof.
  intro H. unfold ifft. rewrite nth_indep with (d' := ifft_bin x 0) by (now rewrite map_length, seq_length).
  rewrite map_nth. now rewrite seq_nth.
Qed.
(** The inverse transform of fft(a) * conj(fft(b)) is the circular correlation. *)
Lemma circular a b m : length b = length a -> (m < length a)%nat ->
  ifft_bin (map2 (fun x y => x * Cconj y) (fft (map RtoC a)) (fft (map RtoC b))) m
  = RtoC (Rsumn (length a) (fun p => Rsumn (length a) (fun q =>
      if Z.eqb ((Z.of_nat m + Z.of_nat q - Z.of_nat p) mod Z.of_nat (length a)) 0 then nth p a 0 * nth q b 0 else 0)))%R.
Proof.
  intros El Hm. set (N := length a) in *. assert (P : (0 < INR N)%R) by (apply lt_0_INR; lia).
  assert (Len : length (map2 (fun x y => x * Cconj y) (fft (map RtoC a)) (fft (map RtoC b))) = N).
  { rewrite map2_length; rewrite !fft_length, !map_length; auto. }
  unfold ifft_bin. rewrite Len.
  assert (Na : forall (l : list R) p, nth p (map RtoC l) (RtoC 0) = RtoC (nth p l 0%R)).
  { intros l p. apply (map_nth RtoC). }
  assert (S : Csumn N (fun k => nth k (map2 (fun x y => x * Cconj y) (fft (map RtoC a)) (fft (map RtoC b))) (RtoC 0) * cis (2 * PI * INR k * INR m / INR N))
          = RtoC (INR N) * RtoC (Rsumn N (fun p => Rsumn N (fun q =>
      if Z.eqb ((Z.of_nat m + Z.of_nat q - Z.of_nat p) mod Z.of_nat N) 0 then nth p a 0 * nth q b 0 else 0)))%R).
  { transitivity (Csumn N (fun k => Csumn N (fun p => Csumn N (fun q =>
       RtoC (nth p a 0 * nth q b 0)%R * cis (2 * PI * INR k * IZR (Z.of_nat m + Z.of_nat q - Z.of_nat p) / INR N))))).
    - apply Csumn_ext. intros k Hk.
      rewrite (map2_nth _ _ _ k (RtoC 0) (RtoC 0)) by (rewrite !fft_length, !map_length; lia).
      rewrite !fft_nth by (rewrite map_length; lia). unfold fft_bin. rewrite !map_length, El. fold N.
      rewrite Csumn_conj. rewrite <- Cmult_assoc, <- Csumn_scal_r. apply Csumn_ext. intros p Hp.
      rewrite <- Csumn_scal_r, <- Csumn_scal. apply Csumn_ext. intros q Hq.
      rewrite !Na. rewrite Cconj_mul. rewrite cis_conj, Ropp_involutive.
      replace (Cconj (RtoC (nth q b 0%R))) with (RtoC (nth q b 0%R)) by (unfold Cconj, RtoC; cbn; now rewrite Ropp_0).
      rewrite RtoC_mult.
      replace (2 * PI * INR k * IZR (Z.of_nat m + Z.of_nat q - Z.of_nat p) / INR N)%R
        with (- (2 * PI * INR k * INR p / INR N) + (2 * PI * INR k * INR q / INR N + 2 * PI * INR k * INR m / INR N))%R
        by (rewrite minus_IZR, plus_IZR, <- !INR_IZR_INZ; field; lra).
      rewrite !cis_plus. ring.
    - rewrite Csumn_swap, <- Csumn_RtoC, <- Csumn_scal. apply Csumn_ext. intros p Hp.
      rewrite Csumn_swap, <- Csumn_RtoC, <- Csumn_scal. apply Csumn_ext. intros q Hq.
      rewrite Csumn_scal, roots_sum by lia.
      destruct (Z.eqb _ 0); ring. }
  rewrite S. field. intro E. apply RtoC_inj in E. lra.
Qed.
