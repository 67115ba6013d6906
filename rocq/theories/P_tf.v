(** Lemmas on averaged spectra: Cauchy-Schwarz, least squares. *)
From Coq Require Import String.
From Verif Require Import Prelude PreludeFacts RealBase Fl RealStat Dft Phase Spec_welch M_cmv M_signal_corr M_signal_tf P_signal P_corr P_dft P_welch P_parseval.
From Coq Require Import Lra Psatz.
From Coquelicot Require Import Complex.
Local Open Scope R_scope.

Lemma avg_scale K c f : avg K (fun s => c * f s) = c * avg K f.
Proof. unfold avg. rewrite Rsum_map_scal. unfold Rdiv. ring. Qed.
Lemma avg_plus K f g : avg K (fun s => f s + g s) = avg K f + avg K g.
Proof. unfold avg. rewrite Rsum_map_plus. unfold Rdiv. ring. Qed.
Lemma avg_nonneg K f : (forall s, 0 <= f s) -> 0 <= avg K f.
Proof.
  intro H. unfold avg. assert (0 <= Rsum (map f (seq 0 K))).
  { apply Rsum_nonneg. intros z Hz. apply in_map_iff in Hz. destruct Hz as [u [<- _]]. apply H. }
  destruct K; [cbn; unfold Rdiv; rewrite Rinv_0; lra|]. apply Rle_mult_inv_pos; [auto|apply lt_0_INR; lia].
Qed.
Lemma avg_one f : avg 1 f = f 0%nat.
Proof. unfold avg. cbn. field. Qed.
Lemma auto_nonneg K X : 0 <= auto K X.
Proof. apply avg_nonneg. intro. apply pow2_ge_0. Qed.
Lemma auto_zero K X : (1 <= K)%nat -> auto K X = 0 -> forall s, (s < K)%nat -> X s = RtoC 0.
Proof.
  intros HK E s Hs. unfold auto, avg in E.
  assert (INR K <> 0) by (apply not_0_INR; lia).
  assert (Z : Rsum (map (fun s => Cmod (X s) ^ 2) (seq 0 K)) = 0).
  { apply Rmult_eq_reg_r with (/ INR K); [|now apply Rinv_neq_0_compat]. unfold Rdiv in E. lra. }
  apply Cmod_eq_0. assert (Cmod (X s) ^ 2 = 0); [|nra].
  apply (Rsum_zero_all (map (fun s => Cmod (X s) ^ 2) (seq 0 K))); auto.
  - intros z Hz. apply in_map_iff in Hz. destruct Hz as [u [<- _]]. apply pow2_ge_0.
  - apply in_map_iff. exists s. split; [reflexivity|]. apply in_seq. lia.
Qed.
(** Completing the square: the mean squared residual of a gain [H]. *)
Lemma residual_identity K X Y (H : C) : auto K X <> 0 ->
  avg K (fun s => Cmod (Cminus (Y s) (Cmult H (X s))) ^ 2)
  = auto K Y - Cmod (cross K X Y) ^ 2 / auto K X
    + auto K X * Cmod (Cminus H (Cdiv (cross K X Y) (RtoC (auto K X)))) ^ 2.
Proof.
  intro N. destruct H as [p q].
  rewrite (avg_ext K _ (fun s => Cmod (Y s) ^ 2 + ((p ^ 2 + q ^ 2) * Cmod (X s) ^ 2
     + (- 2 * p * fst (Cmult (Cconj (X s)) (Y s)) + - 2 * q * snd (Cmult (Cconj (X s)) (Y s)))))).
  2:{ intros s _. rewrite !mod2_parts. destruct (X s) as [a b], (Y s) as [c d]. cbn. ring. }
  rewrite !avg_plus, !avg_scale. fold (auto K X) (auto K Y). rewrite !mod2_parts.
  unfold cross, cavg. cbn [fst snd].
  set (u := avg K (fun s => fst (Cmult (Cconj (X s)) (Y s)))). set (v := avg K (fun s => snd (Cmult (Cconj (X s)) (Y s)))).
  set (g := auto K X) in *. unfold Cminus, Cdiv, Cplus, Copp, Cmult, Cinv, RtoC. cbn [fst snd]. field. exact N.
Qed.
Lemma cross_bound K X Y : Cmod (cross K X Y) ^ 2 <= auto K X * auto K Y.
Proof.
  destruct (Req_dec (auto K X) 0) as [Z|N].
  - destruct K as [|K].
    + unfold cross, cavg, avg. cbn. unfold Rdiv. rewrite !Rmult_0_l. change (0, 0) with (RtoC 0). rewrite Cmod_0. rewrite Z. lra.
    + pose proof (auto_zero (S K) X ltac:(lia) Z) as A.
      assert (E : cross (S K) X Y = RtoC 0).
      { unfold cross, cavg. rewrite (avg_ext (S K) (fun s => fst (Cmult (Cconj (X s)) (Y s))) (fun _ => 0)), (avg_ext (S K) (fun s => snd (Cmult (Cconj (X s)) (Y s))) (fun _ => 0)).
        - unfold avg. rewrite Rsum_map_const, Rmult_0_r. unfold Rdiv. rewrite Rmult_0_l. reflexivity.
        - intros i Hi. rewrite (A i Hi). cbn. ring.
        - intros i Hi. rewrite (A i Hi). cbn. ring. }
      rewrite E, Cmod_0, Z. lra.
  - pose proof (residual_identity K X Y (Cdiv (cross K X Y) (RtoC (auto K X))) N) as E.
    set (h := Cdiv (cross K X Y) (RtoC (auto K X))) in *. replace (Cminus h h) with (RtoC 0) in E by ring. rewrite Cmod_0 in E.
    pose proof (avg_nonneg K (fun s => Cmod (Cminus (Y s) (Cmult h (X s))) ^ 2) (fun s => pow2_ge_0 _)) as P.
    pose proof (auto_nonneg K X) as Q. assert (0 < auto K X) by lra.
    assert (Cmod (cross K X Y) ^ 2 / auto K X <= auto K Y) by lra.
    apply (Rmult_le_compat_r (auto K X)) in H0; [|lra]. unfold Rdiv in H0. rewrite Rmult_assoc, Rinv_l in H0 by auto. lra.
Qed.
Lemma cross_gain K X Y c : (forall s, (s < K)%nat -> Y s = Cmult c (X s)) -> cross K X Y = Cmult c (RtoC (auto K X)).
Proof.
  intro H. unfold cross, cavg, auto. destruct c as [p q].
  rewrite (avg_ext K (fun s => fst (Cmult (Cconj (X s)) (Y s))) (fun s => p * Cmod (X s) ^ 2)).
  2:{ intros s Hs. rewrite (H s Hs), mod2_parts. destruct (X s). cbn. ring. }
  rewrite (avg_ext K (fun s => snd (Cmult (Cconj (X s)) (Y s))) (fun s => q * Cmod (X s) ^ 2)).
  2:{ intros s Hs. rewrite (H s Hs), mod2_parts. destruct (X s). cbn. ring. }
  rewrite !avg_scale. unfold Cmult, RtoC. cbn [fst snd]. f_equal; ring.
Qed.
Lemma auto_gain K X Y c : (forall s, (s < K)%nat -> Y s = Cmult c (X s)) -> auto K Y = Cmod c ^ 2 * auto K X.
Proof.
  intro H. unfold auto. rewrite <- avg_scale. apply avg_ext. intros s Hs. rewrite (H s Hs), Cmod_mult. ring.
Qed.
Lemma fourier_scale g v k : fourier (map (Rmult g) v) k = Cmult (RtoC g) (fourier v k).
Proof.
  unfold fourier. rewrite map_length.
  assert (N : forall j, nth j (map (Rmult g) v) 0 = g * nth j v 0).
  { intro j. replace 0 with (g * 0) at 1 by ring. apply map_nth. }
  rewrite (Rsum_map_ext (fun j => nth j (map (Rmult g) v) 0 * cos _) (fun j => g * (nth j v 0 * cos (2 * PI * INR k * INR j / INR (length v))))) by (intros; rewrite N; ring).
  rewrite (Rsum_map_ext (fun j => nth j (map (Rmult g) v) 0 * sin _) (fun j => g * (nth j v 0 * sin (2 * PI * INR k * INR j / INR (length v))))) by (intros; rewrite N; ring).
  rewrite !Rsum_map_scal. unfold Cmult, RtoC. cbn [fst snd]. f_equal; ring.
Qed.
Lemma tapered_scale w g v : tapered w (map (Rmult g) v) = map (Rmult g) (tapered w v).
Proof.
  unfold tapered. rewrite map_length, map_map. apply map_ext. intro j.
  replace (nth j (map (Rmult g) v) 0) with (g * nth j v 0); [ring|]. symmetry. replace 0 with (g * 0) at 1 by ring. apply map_nth.
Qed.
Lemma chunk_scale g x s N : chunk (map (Rmult g) x) s N = map (Rmult g) (chunk x s N).
Proof.
  unfold chunk. rewrite map_map. apply map_ext. intro j. replace 0 with (g * 0) at 1 by ring. apply map_nth.
Qed.
Lemma seg_spectrum_scale w dtr d g x N V s k : homogeneous dtr ->
  seg_spectrum w (detrend_by dtr d) (map (Rmult g) x) N V s k = Cmult (RtoC g) (seg_spectrum w (detrend_by dtr d) x N V s k).
Proof.
  intro H. unfold seg_spectrum. rewrite chunk_scale.
  replace (detrend_by dtr d (map (Rmult g) (chunk x (s * (N - V)) N))) with (map (Rmult g) (detrend_by dtr d (chunk x (s * (N - V)) N))).
  2:{ destruct d; cbn; [now rewrite H|reflexivity]. }
  rewrite tapered_scale. apply fourier_scale.
Qed.
