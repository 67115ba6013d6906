(** Lemmas about filtering in the frequency domain. *)
From Verif Require Import Prelude PreludeFacts RealBase Fl RealStat Dft Phase M_spatial M_cmv M_signal_corr M_signal_tf M_signal_plant Spec_welch Spec_plant P_list P_dft P_welch P_signal P_phase P_fft P_parseval P_plant P_cam X_signal_interp.
From Coquelicot Require Import Complex.
From Coq Require Import Lra Psatz Permutation.
Local Open Scope R_scope.

Section Op.
  Variable n : nat.
  Hypothesis Pn : (0 < n)%nat.
  Let N := INR n.
  Definition ang (k i : nat) : R := 2 * PI * INR k * INR i / INR n.
  Definition ft (x : nat -> C) (k : nat) : C := Csumn n (fun i => Cmult (x i) (cis (- ang k i))).
  Definition op (H : nat -> C) (x : nat -> C) (j : nat) : C :=
    Cdiv (Csumn n (fun k => Cmult (Cmult (ft x k) (H k)) (cis (ang k j)))) (RtoC (INR n)).
  Lemma INR_n_nz : INR n <> 0.
  Proof. apply not_0_INR. lia. Qed.
  Lemma RtoC_n_nz : RtoC (INR n) <> RtoC 0.
  Proof. intro E. apply INR_n_nz. now apply RtoC_inj. Qed.

  Lemma op_ext H H' x x' j : (forall k, (k < n)%nat -> H k = H' k) -> (forall i, (i < n)%nat -> x i = x' i) -> op H x j = op H' x' j.
  Proof.
    intros A B. unfold op. f_equal. apply Csumn_ext. intros k Hk. rewrite A by exact Hk. do 2 f_equal. apply Csumn_ext. intros i Hi. now rewrite B.
  Qed.
  Lemma op_plus H x y j : op H (fun i => Cplus (x i) (y i)) j = Cplus (op H x j) (op H y j).
  Proof.
    unfold op, Cdiv. rewrite <- Cmult_plus_distr_r. f_equal. rewrite <- Csumn_plus. apply Csumn_ext. intros k _.
    replace (ft (fun i => Cplus (x i) (y i)) k) with (Cplus (ft x k) (ft y k)); [ring|].
    unfold ft. rewrite <- Csumn_plus. apply Csumn_ext. intros i _. ring.
  Qed.
  Lemma op_scal H c x j : op H (fun i => Cmult c (x i)) j = Cmult c (op H x j).
  Proof.
    unfold op, Cdiv. rewrite Cmult_assoc. f_equal. rewrite <- Csumn_scal. apply Csumn_ext. intros k _.
    replace (ft (fun i => Cmult c (x i)) k) with (Cmult c (ft x k)); [ring|].
    unfold ft. rewrite <- Csumn_scal. apply Csumn_ext. intros i _. ring.
  Qed.

  (** a pure tone *)
  Lemma ft_tone m k : (m < n)%nat -> (k < n)%nat -> ft (fun i => cis (ang m i)) k = if Nat.eqb k m then RtoC (INR n) else RtoC 0.
  Proof.
    intros Hm Hk. unfold ft.
    rewrite (Csumn_ext n _ (fun i => cis (2 * PI * INR i * IZR (Z.of_nat m - Z.of_nat k) / INR n))).
    - rewrite roots_sum by exact Pn. destruct (Nat.eqb_spec k m) as [->|D].
      + rewrite Z.sub_diag, Z.mod_0_l by lia. reflexivity.
      + destruct (Z.eqb_spec ((Z.of_nat m - Z.of_nat k) mod Z.of_nat n) 0) as [E|]; [|reflexivity].
        exfalso. apply Z.mod_divide in E; [|lia]. destruct E as [q E]. assert (q = 0)%Z by nia. subst q. lia.
    - intros i _. rewrite <- cis_plus. f_equal. unfold ang. rewrite minus_IZR, <- !INR_IZR_INZ. field. apply INR_n_nz.
  Qed.
  Lemma op_tone H m j : (m < n)%nat -> op H (fun i => cis (ang m i)) j = Cmult (H m) (cis (ang m j)).
  Proof.
    intro Hm. unfold op.
    rewrite (Csumn_ext n _ (fun k => if Nat.eqb k m then Cmult (Cmult (RtoC (INR n)) (H k)) (cis (ang k j)) else RtoC 0)).
    - rewrite Csumn_pick by exact Hm. field. apply RtoC_n_nz.
    - intros k Hk. rewrite ft_tone by auto. destruct (Nat.eqb k m); ring.
  Qed.

  (** gain and delay *)
  Lemma op_delay c (m : Z) x j : (j < n)%nat ->
    op (fun k => Cmult c (cis (- (2 * PI * INR k * IZR m / INR n)))) x j = Cmult c (x (Z.to_nat ((Z.of_nat j - m) mod Z.of_nat n))).
  Proof.
    intro Hj. set (r := Z.to_nat ((Z.of_nat j - m) mod Z.of_nat n)).
    pose proof (Z.mod_pos_bound (Z.of_nat j - m) (Z.of_nat n) ltac:(lia)) as B.
    assert (Hr : (r < n)%nat) by (unfold r; lia).
    unfold op.
    rewrite (Csumn_ext n _ (fun k => Csumn n (fun i => Cmult (Cmult c (x i)) (cis (2 * PI * INR k * IZR (Z.of_nat j - m - Z.of_nat i) / INR n))))).
    - rewrite Csumn_swap.
      rewrite (Csumn_ext n _ (fun i => if Nat.eqb i r then Cmult (Cmult c (x i)) (RtoC (INR n)) else RtoC 0)).
      + rewrite Csumn_pick by exact Hr. field. apply RtoC_n_nz.
      + intros i Hi. rewrite Csumn_scal, roots_sum by exact Pn.
        assert (E : Z.eqb ((Z.of_nat j - m - Z.of_nat i) mod Z.of_nat n) 0 = Nat.eqb i r).
        { pose proof (Z.div_mod (Z.of_nat j - m) (Z.of_nat n) ltac:(lia)) as D.
          destruct (Nat.eqb_spec i r) as [->|Ne].
          - apply Z.eqb_eq. unfold r. rewrite Z2Nat.id by lia. apply Z.mod_divide; [lia|]. exists ((Z.of_nat j - m) / Z.of_nat n)%Z. lia.
          - apply Z.eqb_neq. intro E. apply Ne. apply Z.mod_divide in E; [|lia]. destruct E as [q E].
            unfold r in *. apply Nat2Z.inj. rewrite Z2Nat.id by lia.
            assert (Q : (q = (Z.of_nat j - m) / Z.of_nat n)%Z) by nia. nia. }
        rewrite E. destruct (Nat.eqb i r); ring.
    - intros k Hk. unfold ft. rewrite <- !Csumn_scal_r. apply Csumn_ext. intros i Hi.
      transitivity (Cmult (Cmult c (x i)) (Cmult (Cmult (cis (- ang k i)) (cis (- (2 * PI * INR k * IZR m / INR n)))) (cis (ang k j)))); [ring|].
      rewrite <- !cis_plus. do 2 f_equal. unfold ang. rewrite !minus_IZR, <- !INR_IZR_INZ. field. apply INR_n_nz.
  Qed.

  (** Plancherel for the inverse transform of any bins *)
  Lemma plancherel (Y : nat -> C) :
    Rsumn n (fun j => Cmod (Cdiv (Csumn n (fun k => Cmult (Y k) (cis (ang k j)))) (RtoC (INR n))) ^ 2) =
    Rsumn n (fun k => Cmod (Y k) ^ 2) / INR n.
  Proof.
    assert (M2 : forall z, RtoC (Cmod z ^ 2) = Cmult z (Cconj z)).
    { intro z. rewrite mod2_parts. unfold Cmult, Cconj, RtoC. cbn [fst snd]. f_equal; ring. }
    apply RtoC_inj. rewrite RtoC_div by apply INR_n_nz. rewrite <- !Csumn_RtoC.
    rewrite (Csumn_ext n (fun j => RtoC (Cmod _ ^ 2)) (fun j =>
       Csumn n (fun k => Csumn n (fun l => Cmult (Cdiv (Cmult (Y k) (Cconj (Y l))) (Cmult (RtoC (INR n)) (RtoC (INR n)))) (cis (2 * PI * INR j * IZR (Z.of_nat k - Z.of_nat l) / INR n)))))).
    - rewrite Csumn_swap.
      rewrite (Csumn_ext n (fun i => Csumn n (fun j => Csumn n _)) (fun k => Cdiv (Cmult (Y k) (Cconj (Y k))) (RtoC (INR n)))).
      + unfold Cdiv. rewrite Csumn_scal_r. f_equal. apply Csumn_ext. intros k _. symmetry. apply M2.
      + intros k Hk. rewrite Csumn_swap.
        rewrite (Csumn_ext n _ (fun l => if Nat.eqb l k then Cdiv (Cmult (Y k) (Cconj (Y l))) (RtoC (INR n)) else RtoC 0)).
        * now rewrite Csumn_pick.
        * intros l Hl. rewrite Csumn_scal, roots_sum by exact Pn. destruct (Nat.eqb_spec l k) as [->|D].
          -- rewrite Z.sub_diag, Z.mod_0_l by lia. cbn [Z.eqb]. field. apply RtoC_n_nz.
          -- destruct (Z.eqb_spec ((Z.of_nat k - Z.of_nat l) mod Z.of_nat n) 0) as [E|]; [|ring].
             exfalso. apply Z.mod_divide in E; [|lia]. destruct E as [q E]. assert (q = 0)%Z by nia. subst q. lia.
    - intros j _. rewrite M2. unfold Cdiv. rewrite Cconj_mul.
      replace (Cconj (Cinv (RtoC (INR n)))) with (Cinv (RtoC (INR n))) by (rewrite <- RtoC_inv by apply INR_n_nz; unfold Cconj, RtoC; cbn; f_equal; ring).
      rewrite Csumn_conj.
      transitivity (Cmult (Cmult (Csumn n (fun k => Cmult (Y k) (cis (ang k j)))) (Csumn n (fun l => Cconj (Cmult (Y l) (cis (ang l j)))))) (Cmult (Cinv (RtoC (INR n))) (Cinv (RtoC (INR n))))); [ring|].
      rewrite <- !Csumn_scal_r. apply Csumn_ext. intros k _. rewrite <- Csumn_scal, <- Csumn_scal_r. apply Csumn_ext. intros l _.
      rewrite Cconj_mul, cis_conj.
      replace (2 * PI * INR j * IZR (Z.of_nat k - Z.of_nat l) / INR n) with (ang k j + - ang l j)
        by (unfold ang; rewrite minus_IZR, <- !INR_IZR_INZ; field; apply INR_n_nz).
      rewrite cis_plus. field. apply RtoC_n_nz.
  Qed.
End Op.

Lemma fourier_ft sig k : fourier sig k = ft (length sig) (fun i => RtoC (nth i sig 0)) k.
Proof.
  rewrite <- fft_bin_fourier. unfold fft_bin, ft. rewrite map_length. apply Csumn_ext. intros i _. now rewrite (map_nth RtoC).
Qed.
Lemma fst_div_R (z : C) r : r <> 0 -> fst (Cdiv z (RtoC r)) = fst z / r.
Proof. intro N. unfold Cdiv. rewrite <- RtoC_inv by exact N. unfold Cmult, RtoC. cbn. unfold Rdiv. ring. Qed.
Lemma spectral_op sig H : spectral_product sig H = map (fun j => fst (op (length sig) H (fun i => RtoC (nth i sig 0)) j)) (seq 0 (length sig)).
Proof.
  unfold spectral_product. destruct (Nat.eq_dec (length sig) 0) as [E|E]; [rewrite E; reflexivity|].
  apply map_ext. intro j. unfold op. rewrite fst_div_R by (apply not_0_INR; exact E). f_equal.
  rewrite Csumn_parts. cbn [fst]. apply Rsumn_ext. intros k _. now rewrite <- fourier_ft.
Qed.
Lemma spectral_length sig H : length (spectral_product sig H) = length sig.
Proof. rewrite spectral_op. now rewrite map_length, seq_length. Qed.
Lemma spectral_ext sig H H' : (forall k, (k < length sig)%nat -> H k = H' k) -> spectral_product sig H = spectral_product sig H'.
Proof.
  intro E. rewrite !spectral_op. apply map_ext. intro j. f_equal. apply op_ext; auto.
Qed.

(** gain and circular delay *)
Lemma spectral_delay sig (c : C) m :
  spectral_product sig (fun k => Cmult c (phasor (- (2 * PI * INR k * IZR m / INR (length sig))))) = map (Rmult (fst c)) (delayed m sig).
Proof.
  rewrite spectral_op. unfold delayed. rewrite map_map. apply map_ext_in. intros j I. apply in_seq in I.
  change (fun k => Cmult c (phasor (- (2 * PI * INR k * IZR m / INR (length sig))))) with (fun k => Cmult c (cis (- (2 * PI * INR k * IZR m / INR (length sig))))).
  rewrite op_delay by lia. unfold Cmult, RtoC. cbn [fst snd]. ring.
Qed.
Lemma delayed_0 sig : delayed 0 sig = sig.
Proof.
  unfold delayed. apply nth_ext with (d := 0) (d' := 0); [now rewrite map_length, seq_length|]. intros j Hj. rewrite map_length, seq_length in Hj.
  rewrite nth_map_seq by exact Hj. rewrite Z.sub_0_r, Z.mod_small, Nat2Z.id by lia. reflexivity.
Qed.
Lemma spectral_flat sig c : spectral_product sig (fun _ => c) = map (Rmult (fst c)) sig.
Proof.
  rewrite <- (delayed_0 sig) at 2. rewrite <- spectral_delay. apply spectral_ext. intros k _.
  replace (- (2 * PI * INR k * 0 / INR (length sig))) with 0 by (unfold Rdiv; ring). change (phasor 0) with (cis 0). rewrite cis_0. ring.
Qed.
Lemma nth_map2_plus a b i : length a = length b -> nth i (map2 Rplus a b) 0 = nth i a 0 + nth i b 0.
Proof.
  revert b i. induction a as [|x a IH]; intros [|y b] i L; try discriminate; [cbn; destruct i; cbn; ring|]. destruct i; [reflexivity|].
  change (nth i (map2 Rplus a b) 0 = nth i a 0 + nth i b 0). apply IH. cbn in L. lia.
Qed.
Lemma spectral_linear s1 s2 a b H : length s1 = length s2 ->
  spectral_product (map2 Rplus (map (Rmult a) s1) (map (Rmult b) s2)) H =
  map2 Rplus (map (Rmult a) (spectral_product s1 H)) (map (Rmult b) (spectral_product s2 H)).
Proof.
  intro L. assert (Ln : length (map2 Rplus (map (Rmult a) s1) (map (Rmult b) s2)) = length s1) by (rewrite map2_length; rewrite !map_length; lia).
  apply nth_ext with (d := 0) (d' := 0); [rewrite spectral_length, Ln, map2_length; rewrite !map_length, !spectral_length; lia|].
  intros j Hj. rewrite spectral_length, Ln in Hj.
  assert (Mn : forall c (l : list R) i, nth i (map (Rmult c) l) 0 = c * nth i l 0) by (intros c l i; rewrite <- (Rmult_0_r c) at 1; apply map_nth).
  rewrite nth_map2_plus by (rewrite !map_length, !spectral_length; exact L). rewrite !Mn. rewrite !spectral_op. rewrite Ln, <- L. rewrite !nth_map_seq by exact Hj.
  rewrite (op_ext (length s1) H H _ (fun i => Cplus (Cmult (RtoC a) (RtoC (nth i s1 0))) (Cmult (RtoC b) (RtoC (nth i s2 0))))); auto.
  - rewrite op_plus, !op_scal. unfold Cplus, Cmult, RtoC. cbn [fst snd]. ring.
  - intros i _. rewrite nth_map2_plus by (rewrite !map_length; exact L). rewrite !Mn, RtoC_plus, !RtoC_mult. reflexivity.
Qed.

(** sum of the output *)
Lemma spectral_sum sig H : Rsum (spectral_product sig H) = fst (H 0%nat) * Rsum sig.
Proof.
  rewrite spectral_op. set (n := length sig). destruct (Nat.eq_dec n 0) as [E|E].
  { assert (sig = []) as -> by (apply length_zero_iff_nil; exact E). cbn. ring. }
  assert (Pn : (0 < n)%nat) by lia.
  change (Rsum (map ?f (seq 0 n))) with (Rsumn n f).
  transitivity (fst (Csumn n (fun j => op n H (fun i => RtoC (nth i sig 0)) j))); [rewrite Csumn_parts; reflexivity|].
  unfold op, Cdiv. rewrite Csumn_scal_r, Csumn_swap.
  rewrite (Csumn_ext n _ (fun k => if Nat.eqb k 0 then Cmult (Cmult (ft n (fun i => RtoC (nth i sig 0)) k) (H k)) (RtoC (INR n)) else RtoC 0)).
  - rewrite Csumn_pick by exact Pn.
    replace (ft n (fun i => RtoC (nth i sig 0)) 0) with (RtoC (Rsum sig)).
    + transitivity (fst (Cmult (RtoC (Rsum sig)) (H 0%nat))); [f_equal; field; now apply RtoC_n_nz|]. unfold Cmult, RtoC. cbn [fst snd]. ring.
    + rewrite Rsum_as_sumn. fold n. rewrite <- Csumn_RtoC. unfold ft. apply Csumn_ext. intros i _. unfold ang. cbn [INR].
      replace (- (2 * PI * 0 * INR i / INR n)) with 0 by (unfold Rdiv; ring). rewrite cis_0. ring.
  - intros k Hk. rewrite Csumn_scal.
    rewrite (Csumn_ext n _ (fun j => cis (2 * PI * INR j * IZR (Z.of_nat k) / INR n))) by (intros j _; f_equal; unfold ang; rewrite <- INR_IZR_INZ; unfold Rdiv; ring).
    rewrite roots_sum by exact Pn. rewrite Z.mod_small by lia. destruct (Nat.eqb_spec k 0) as [->|D]; [reflexivity|].
    destruct (Z.eqb_spec (Z.of_nat k) 0); [lia|ring].
Qed.

(** energy *)
Lemma spectral_energy sig H g : 0 <= g -> (forall k, (k < length sig)%nat -> Cmod (H k) <= g) ->
  power (spectral_product sig H) <= g ^ 2 * power sig.
Proof.
  intros Pg Hg. set (n := length sig) in *. destruct (Nat.eq_dec n 0) as [E|E].
  { assert (sig = []) as -> by (apply length_zero_iff_nil; exact E). cbn. lra. }
  assert (Pn : (0 < n)%nat) by lia. assert (Pr : 0 < INR n) by (now apply lt_0_INR).
  unfold power. rewrite spectral_op. fold n. rewrite map_map.
  change (Rsum (map ?f (seq 0 n))) with (Rsumn n f).
  set (x := fun i => RtoC (nth i sig 0)).
  apply Rle_trans with (Rsumn n (fun j => Cmod (op n H x j) ^ 2)).
  { unfold Rsumn. apply Rsum_map_le. intros j _. rewrite mod2_parts. pose proof (pow2_ge_0 (snd (op n H x j))). lra. }
  unfold op. rewrite plancherel by exact Pn.
  assert (Hx : Rsumn n (fun k => Cmod (ft n x k) ^ 2) = INR n * Rsum (map (fun v => v ^ 2) sig)).
  { pose proof (parseval sig) as Pv. fold n in Pv. unfold power in Pv. rewrite <- Pv. apply Rsumn_ext. intros k _. now rewrite fourier_ft. }
  apply Rle_trans with (g ^ 2 * Rsumn n (fun k => Cmod (ft n x k) ^ 2) / INR n).
  - unfold Rdiv. apply Rmult_le_compat_r; [left; now apply Rinv_0_lt_compat|]. rewrite <- Rsumn_scal. unfold Rsumn. apply Rsum_map_le.
    intros k I. apply in_seq in I. rewrite Cmod_mult, Rpow_mult_distr, Rmult_comm. apply Rmult_le_compat_r; [apply pow2_ge_0|].
    apply pow_incr. split; [apply Cmod_ge_0|apply Hg; lia].
  - rewrite Hx. right. field. lra.
Qed.

(** a vibration at a bin's frequency *)
Lemma spectral_tone n m a (H : nat -> C) : (0 < m < n)%nat -> H (n - m)%nat = Cconj (H m) ->
  spectral_product (vibration n m a) H = vibration n m (Cmult a (H m)).
Proof.
  intros Hm Hs. assert (Pn : (0 < n)%nat) by lia. assert (Nn : INR n <> 0) by (apply not_0_INR; lia).
  assert (Lv : length (vibration n m a) = n) by (unfold vibration; now rewrite map_length, seq_length).
  rewrite spectral_op, Lv. unfold vibration at 2. apply map_ext. intro j.
  rewrite (op_ext n H H _ (fun i => Cplus (Cmult (Cmult (RtoC (/ 2)) a) (cis (ang n m i))) (Cmult (Cmult (RtoC (/ 2)) (Cconj a)) (cis (ang n (n - m) i))))); auto.
  - rewrite op_plus, !op_scal, !op_tone by lia. rewrite Hs.
    assert (Cj : cis (ang n (n - m) j) = Cconj (cis (ang n m j))).
    { rewrite cis_conj. unfold ang. rewrite minus_INR by lia.
      rewrite <- (cis_plus_turns (- (2 * PI * INR m * INR j / INR n)) (Z.of_nat j)). f_equal. rewrite <- INR_IZR_INZ. field. exact Nn. }
    rewrite Cj. change (phasor (2 * PI * INR m * INR j / INR n)) with (cis (ang n m j)). set (w := cis (ang n m j)). set (h := H m).
    unfold Cplus, Cmult, Cconj, RtoC. cbn [fst snd]. field.
  - intros i Hi. unfold vibration. rewrite nth_map_seq by exact Hi. change (phasor (2 * PI * INR m * INR i / INR n)) with (cis (ang n m i)).
    assert (Cj : cis (ang n (n - m) i) = Cconj (cis (ang n m i))).
    { rewrite cis_conj. unfold ang. rewrite minus_INR by lia.
      rewrite <- (cis_plus_turns (- (2 * PI * INR m * INR i / INR n)) (Z.of_nat i)). f_equal. rewrite <- INR_IZR_INZ. field. exact Nn. }
    rewrite Cj. set (w := cis (ang n m i)). unfold Cplus, Cmult, Cconj, RtoC. cbn [fst snd]. f_equal; field.
Qed.

(** interpolation of a constant table *)
Lemma interp_const rows c f : NoDup (map fst rows) -> (2 <= length rows)%nat -> (forall g z, In (g, z) rows -> z = c) -> in_range rows f ->
  interp_tf_at rows f = Ok c.
Proof.
  intros ND L Hc [(g & z & Hg & Lg) (g' & z' & Hg' & Lg')].
  pose proof (by_freq_increasing rows ND) as I.
  assert (Ls : length (by_freq rows) = length rows) by apply sort_by_length.
  destruct (find_row rows _ Hg) as [i [Hi Ei]]. destruct (find_row rows _ Hg') as [j [Hj Ej]].
  destruct (find_segment (map fst (by_freq rows)) f I) as (k & Hk & Kf); [rewrite map_length; lia| |].
  - split.
    + pose proof (increasing_le _ 0 i I ltac:(rewrite map_length; lia)) as Q. rewrite (nth_fst _ i), Ei in Q. cbn [fst] in Q. lra.
    + pose proof (increasing_le _ j (length (map fst (by_freq rows)) - 1) I ltac:(rewrite map_length; lia)) as Q. rewrite (nth_fst _ j), Ej in Q. cbn [fst] in Q. lra.
  - rewrite map_length in Hk. rewrite !nth_fst in Kf. destruct (interp_at_index (by_freq rows) k f I Hk Kf) as (M & Ph & Z0 & Z1 & J).
    assert (V : forall q, (q < length (by_freq rows))%nat -> snd (nth q (by_freq rows) (0, RtoC 0)) = c).
    { intros q Hq. destruct (nth q (by_freq rows) (0, RtoC 0)) as [a b] eqn:E. cbn. apply (Hc a). apply (sort_by_In (fun p q => Rleb (fst p) (fst q))). fold (by_freq rows). rewrite <- E. now apply nth_In. }
    unfold interp_tf_at. rewrite M, Ph. cbn [rbind]. rewrite V in * by lia. rewrite (V (S k)) in * by lia.
    set (u := unwrap _) in *. f_equal.
    destruct (Ceq_dec c (RtoC 0)) as [->|Nc].
    + rewrite Cmod_0. replace (0 + _ * (0 - 0)) with 0 by ring. ring.
    + assert (Eu : nth (S k) u 0 = nth k u 0).
      { apply same_turn_close; [|pose proof PI_RGT_0; lra]. apply cis_inj.
        assert (Nm : RtoC (Cmod c) <> RtoC 0) by (intro K; apply RtoC_inj in K; apply Nc; now apply Cmod_eq_0).
        assert (K : Cmult (RtoC (Cmod c)) (cis (nth (S k) u 0)) = Cmult (RtoC (Cmod c)) (cis (nth k u 0))) by congruence.
        rewrite <- (Cmult_1_l (cis (nth (S k) u 0))), <- (Cmult_1_l (cis (nth k u 0))), <- (Cinv_l _ Nm), <- !Cmult_assoc, K. reflexivity. }
      rewrite Eu. replace (Cmod c + _ * (Cmod c - Cmod c)) with (Cmod c) by ring. replace (nth k u 0 + _ * (nth k u 0 - nth k u 0)) with (nth k u 0) by ring. exact Z0.
Qed.
