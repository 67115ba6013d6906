(** Parseval's identity for the DFT of real signals and its one-sided form. *)
From Coq Require Import String.
From Verif Require Import Prelude PreludeFacts RealBase Dft Spec_welch P_signal P_corr P_dft P_welch.
From Coq Require Import Lra Psatz.
From Coquelicot Require Import Complex.
Local Open Scope R_scope.

Lemma Rsumn_split a b f : Rsumn (a + b) f = Rsumn a f + Rsumn b (fun i => f (a + i)%nat).
Proof. induction b as [|b IH]; [rewrite Nat.add_0_r, Rsumn_0; lra|]. rewrite Nat.add_succ_r, !Rsumn_S, IH. lra. Qed.
Lemma Rsumn_rev n f : Rsumn n f = Rsumn n (fun i => f (n - 1 - i)%nat).
Proof.
  induction n as [|n IH]; [reflexivity|]. rewrite Rsumn_S, IH.
  replace (Rsumn (S n) (fun i => f (S n - 1 - i)%nat)) with (Rsumn (1 + n) (fun i => f (S n - 1 - i)%nat)) by reflexivity.
  rewrite Rsumn_split, Rsumn_S, Rsumn_0. replace (S n - 1 - 0)%nat with n by lia.
  rewrite (Rsumn_ext n (fun i => f (n - 1 - i)%nat) (fun i => f (S n - 1 - (1 + i))%nat)); [lra|]. intros i Hi. f_equal. lia.
Qed.
Lemma one_sided N f : (1 <= N)%nat -> (forall k, (0 < k < N)%nat -> f (N - k)%nat = f k) ->
  Rsumn (N / 2 + 1) (fun k => sides N k * f k) = Rsumn N f.
Proof.
  intros HN Sy. destruct (Nat.Even_or_Odd N) as [[h E]|[h E]].
  - replace (N / 2)%nat with h by (rewrite E, Nat.mul_comm, Nat.div_mul; lia).
    replace (h + 1)%nat with (1 + (h - 1) + 1)%nat by lia. rewrite !Rsumn_split.
    assert (Q : Rsumn N f = Rsumn (1 + (h - 1) + 1 + (h - 1)) f) by (f_equal; lia). rewrite Q. clear Q. rewrite (Rsumn_split (1 + (h - 1) + 1) (h - 1)), !Rsumn_split, !Rsumn_S, !Rsumn_0.
    rewrite (Rsumn_rev (h - 1) (fun i => f (1 + (h - 1) + 1 + i)%nat)).
    rewrite (Rsumn_ext (h - 1) (fun i => f (1 + (h - 1) + 1 + (h - 1 - 1 - i))%nat) (fun i => f (1 + i)%nat)).
    2:{ intros i Hi. rewrite <- (Sy (1 + i)%nat) by lia. f_equal. lia. }
    rewrite (Rsumn_ext (h - 1) (fun i => sides N (1 + i) * f (1 + i)%nat) (fun i => 2 * f (1 + i)%nat)).
    2:{ intros i Hi. unfold sides. destruct (Nat.eqb_spec (1 + i) 0); [lia|]. destruct (Nat.eqb_spec (2 * (1 + i)) N); [lia|]. reflexivity. }
    rewrite Rsumn_scal. replace (sides N 0) with 1 by reflexivity.
    replace (sides N (1 + (h - 1) + 0)) with 1.
    2:{ unfold sides. destruct (Nat.eqb_spec (2 * (1 + (h - 1) + 0)) N); [|lia]. now rewrite orb_true_r. }
    lra.
  - replace (N / 2)%nat with h by (rewrite E, Nat.mul_comm, Nat.div_add_l; cbn; lia).
    replace (h + 1)%nat with (1 + h)%nat by lia. rewrite Rsumn_split.
    assert (Q : Rsumn N f = Rsumn (1 + h + h) f) by (f_equal; lia). rewrite Q. clear Q. rewrite (Rsumn_split (1 + h) h), Rsumn_split, !Rsumn_S, !Rsumn_0.
    rewrite (Rsumn_rev h (fun i => f (1 + h + i)%nat)).
    rewrite (Rsumn_ext h (fun i => f (1 + h + (h - 1 - i))%nat) (fun i => f (1 + i)%nat)).
    2:{ intros i Hi. rewrite <- (Sy (1 + i)%nat) by lia. f_equal. lia. }
    rewrite (Rsumn_ext h (fun i => sides N (1 + i) * f (1 + i)%nat) (fun i => 2 * f (1 + i)%nat)).
    2:{ intros i Hi. unfold sides. destruct (Nat.eqb_spec (1 + i) 0); [lia|]. destruct (Nat.eqb_spec (2 * (1 + i)) N); [lia|]. reflexivity. }
    rewrite Rsumn_scal. replace (sides N 0) with 1 by reflexivity. lra.
Qed.
Lemma mod2_parts (z : C) : Cmod z ^ 2 = fst z ^ 2 + snd z ^ 2.
Proof. unfold Cmod. apply pow2_sqrt. apply Rplus_le_le_0_compat; apply pow2_ge_0. Qed.
Lemma fourier_mirror v k : (0 < k < length v)%nat -> Cmod (fourier v (length v - k)) ^ 2 = Cmod (fourier v k) ^ 2.
Proof.
  intro H. set (N := length v) in *. assert (N0 : INR N <> 0) by (apply not_0_INR; lia).
  rewrite !mod2_parts. unfold fourier. cbn [fst snd]. fold N.
  assert (A : forall j, 2 * PI * INR (N - k) * INR j / INR N = - (2 * PI * INR k * INR j / INR N) + 2 * PI * IZR (Z.of_nat j)).
  { intro j. rewrite minus_INR, <- INR_IZR_INZ by lia. field. exact N0. }
  assert (B : forall j, cos (2 * PI * INR (N - k) * INR j / INR N) = cos (2 * PI * INR k * INR j / INR N) /\
                        sin (2 * PI * INR (N - k) * INR j / INR N) = - sin (2 * PI * INR k * INR j / INR N)).
  { intro j. pose proof (cis_plus_turns (- (2 * PI * INR k * INR j / INR N)) (Z.of_nat j)) as P. rewrite <- A in P.
    unfold cis in P. injection P as P1 P2. rewrite P1, P2, cos_neg, sin_neg. auto. }
  rewrite (Rsum_map_ext _ (fun j => nth j v 0 * cos (2 * PI * INR k * INR j / INR N)) (seq 0 N))
    by (intros j _; now rewrite (proj1 (B j))).
  rewrite (Rsum_map_ext (fun j => nth j v 0 * sin (2 * PI * INR (N - k) * INR j / INR N)) (fun j => - (nth j v 0 * sin (2 * PI * INR k * INR j / INR N))) (seq 0 N))
    by (intros j _; rewrite (proj2 (B j)); ring).
  change (Rsum (map (fun j => - (nth j v 0 * sin (2 * PI * INR k * INR j / INR N))) (seq 0 N)))
    with (Rsumn N (fun j => - (nth j v 0 * sin (2 * PI * INR k * INR j / INR N)))).
  rewrite Rsumn_opp. unfold Rsumn. ring.
Qed.
Lemma parseval v : Rsumn (length v) (fun k => Cmod (fourier v k) ^ 2) = INR (length v) * power v.
Proof.
  destruct v as [|x0 v0]; [cbn; lra|]. set (v := x0 :: v0). assert (L : (0 < length v)%nat) by (cbn; lia). clearbody v. clear x0 v0.
  set (N := length v) in *. assert (N0 : INR N <> 0) by (apply not_0_INR; lia).
  pose proof (circular v v 0 eq_refl L) as E. fold N in E.
  unfold ifft_bin in E.
  assert (Ll : length (map2 (fun x y => (x * Cconj y)%C) (fft (map RtoC v)) (fft (map RtoC v))) = N).
  { rewrite map2_length by reflexivity. now rewrite fft_length, map_length. }
  rewrite Ll in E.
  rewrite (Csumn_ext N _ (fun k => RtoC (Cmod (fourier v k) ^ 2))) in E.
  2:{ intros k Hk. rewrite map2_nth with (a := RtoC 0) (b := RtoC 0) by (rewrite ?fft_length, ?map_length; auto).
      rewrite fft_nth by (now rewrite map_length). rewrite fft_bin_fourier, Cmult_comm with (y := Cconj _), Cconj_self.
      replace (2 * PI * INR k * INR 0 / INR N) with 0 by (cbn; field; exact N0). rewrite cis_0. apply Cmult_1_r. }
  rewrite Csumn_RtoC in E.
  match type of E with _ = RtoC (Rsumn N ?f) => rewrite (Rsumn_ext N f (fun p => nth p v 0 ^ 2)) in E end.
  2:{ intros p Hp. cbv beta. rewrite (Rsumn_ext N _ (fun q => if Z.eqb (Z.of_nat q) (Z.of_nat p) then nth p v 0 * nth q v 0 else 0)).
      - rewrite Rsumn_pick. destruct (Z.leb_spec 0 (Z.of_nat p)); [|lia]. destruct (Z.ltb_spec (Z.of_nat p) (Z.of_nat N)); [|lia].
        cbn [andb]. rewrite Nat2Z.id. ring.
      - intros q Hq. destruct (Z.eqb_spec (Z.of_nat q) (Z.of_nat p)) as [Eq|Nq].
        + replace (Z.of_nat 0 + Z.of_nat q - Z.of_nat p)%Z with 0%Z by lia. rewrite Z.mod_0_l by lia. reflexivity.
        + destruct (Z.eqb_spec ((Z.of_nat 0 + Z.of_nat q - Z.of_nat p) mod Z.of_nat N) 0) as [Em|]; [|reflexivity]. exfalso.
          apply Z.mod_divide in Em; [|lia]. destruct Em as [c Hc].
          assert (c = 0)%Z by nia. subst c. lia. }
  assert (P : power v = Rsumn N (fun p => nth p v 0 ^ 2)).
  { unfold power, Rsumn. f_equal. rewrite <- (map_map (fun p => nth p v 0) (fun z => z ^ 2)). f_equal.
    apply nth_ext with (d := 0) (d' := 0); [now rewrite map_length, seq_length|]. intros i Hi. now rewrite nth_map_seq. }
  rewrite P. apply RtoC_inj. rewrite RtoC_mult, <- E. field. intro Z. apply N0. now apply RtoC_inj.
Qed.
