(** Lemmas on the correlation metrics of compute_delays_tf. *)
From Coq Require Import String.
From Verif Require Import Prelude PreludeFacts RealBase Fl RealStat Dft Phase Spec_signal Spec_tfdelay M_cmv M_signal_corr M_signal_tf P_signal P_corr P_delay P_dft P_phase P_list P_tfdelay.
From Coq Require Import Lra Psatz.
Local Open Scope string_scope.
Local Open Scope R_scope.

Lemma interp_step x0 x1 xs f0 f1 fp x : np_interp_from (x0 :: x1 :: xs) (f0 :: f1 :: fp) x =
  if Rltb x x0 then Nan else if Reqb x x0 then f0
  else if Rltb x x1 then fadd (fmul (fdiv (fsub f1 f0) (Fin (x1 - x0))) (Fin (x - x0))) f0 else np_interp_from (x1 :: xs) (f1 :: fp) x.
Proof. reflexivity. Qed.
Lemma interp_outside xs : forall fp x, increasing xs -> length fp = length xs -> (x < nth 0 xs 0 \/ nth (length xs - 1) xs 0 < x) -> np_interp_from xs fp x = Nan.
Proof.
  induction xs as [|x0 [|x1 xs] IH]; intros [|f0 [|f1 fp]] x I L H; try discriminate L; try reflexivity.
  - cbn in *. destruct (Reqb_spec x x0); [destruct H; lra|reflexivity].
  - rewrite interp_step. pose proof (I 0%nat (length (x0 :: x1 :: xs) - 1)%nat ltac:(cbn; lia)) as Q. change (nth 0 (x0 :: x1 :: xs) 0) with x0 in Q.
    destruct (Rltb_spec x x0) as [A|A]; [reflexivity|]. destruct H as [H|H]; [cbn in H; lra|].
    destruct (Reqb_spec x x0) as [B|B]; [lra|].
    pose proof (increasing_le (x0 :: x1 :: xs) 1 (length (x0 :: x1 :: xs) - 1) I ltac:(cbn; lia)) as Q1. change (nth 1 (x0 :: x1 :: xs) 0) with x1 in Q1.
    destruct (Rltb_spec x x1) as [D|D]; [lra|].
    apply (IH (f1 :: fp)); [eapply increasing_tail; eauto|cbn in L |- *; lia|right].
    replace (length (x0 :: x1 :: xs) - 1)%nat with (S (length (x1 :: xs) - 1)) in H by (cbn [length]; lia). exact H.
Qed.
Lemma interp_node xs : forall fp i, increasing xs -> length fp = length xs -> (i < length xs)%nat -> np_interp_from xs fp (nth i xs 0) = nth i fp Nan.
Proof.
  induction xs as [|x0 [|x1 xs] IH]; intros [|f0 [|f1 fp]] i I L H; try discriminate L; cbn [length] in H; try lia.
  - replace i with 0%nat by lia. cbn. destruct (Reqb_spec x0 x0); [reflexivity|lra].
  - rewrite interp_step. destruct i as [|i].
    + cbn [nth]. destruct (Rltb_spec x0 x0); [lra|]. destruct (Reqb_spec x0 x0); [reflexivity|lra].
    + pose proof (I 0%nat (S i) ltac:(cbn; lia)) as Q. pose proof (increasing_le (x0 :: x1 :: xs) 1 (S i) I ltac:(cbn; lia)) as Q1.
      change (nth (S i) (x0 :: x1 :: xs) 0) with (nth i (x1 :: xs) 0) in *. change (nth 0 (x0 :: x1 :: xs) 0) with x0 in Q. change (nth 1 (x0 :: x1 :: xs) 0) with x1 in Q1.
      destruct (Rltb_spec (nth i (x1 :: xs) 0) x0); [lra|]. destruct (Reqb_spec (nth i (x1 :: xs) 0) x0); [lra|]. destruct (Rltb_spec (nth i (x1 :: xs) 0) x1); [lra|].
      change (nth (S i) (f0 :: f1 :: fp) Nan) with (nth i (f1 :: fp) Nan). apply (IH (f1 :: fp)); [eapply increasing_tail; eauto|cbn in L |- *; lia|cbn; lia].
Qed.
Lemma interp_between xs : forall ys i x, increasing xs -> length ys = length xs -> (S i < length xs)%nat -> nth i xs 0 <= x <= nth (S i) xs 0 ->
  np_interp_from xs (map Fin ys) x = Fin (nth i ys 0 + (nth (S i) ys 0 - nth i ys 0) * ((x - nth i xs 0) / (nth (S i) xs 0 - nth i xs 0))).
Proof.
  induction xs as [|x0 [|x1 xs] IH]; intros [|y0 [|y1 ys]] i x I L H B; try discriminate L; cbn [length] in H; try lia.
  destruct i as [|i].
  - cbn [nth] in *. cbn [map]. rewrite interp_step. pose proof (I 0%nat 1%nat ltac:(cbn; lia)) as Q. cbn in Q.
    destruct (Rltb_spec x x0); [lra|]. destruct (Reqb_spec x x0) as [-> |N]; [f_equal; field; lra|].
    destruct (Rltb_spec x x1) as [D|D].
    + unfold fsub. cbn [fopp fadd]. rewrite fdiv_fin by lra. cbn [fmul fadd]. f_equal. field. lra.
    + assert (x = x1) by lra. subst x. change (Fin y1 :: map Fin ys) with (map Fin (y1 :: ys)).
      change x1 with (nth 0 (x1 :: xs) 0) at 2. rewrite interp_node; [|eapply increasing_tail; eauto|rewrite map_length; cbn in *; lia|cbn; lia]. cbn. f_equal. field. lra.
  - change (nth (S (S i)) (x0 :: x1 :: xs) 0) with (nth (S i) (x1 :: xs) 0) in *. change (nth (S i) (x0 :: x1 :: xs) 0) with (nth i (x1 :: xs) 0) in *.
    change (nth (S (S i)) (y0 :: y1 :: ys) 0) with (nth (S i) (y1 :: ys) 0). change (nth (S i) (y0 :: y1 :: ys) 0) with (nth i (y1 :: ys) 0).
    pose proof (I 0%nat (S i) ltac:(cbn; lia)) as Q. pose proof (increasing_le (x0 :: x1 :: xs) 1 (S i) I ltac:(cbn; lia)) as Q1.
    change (nth (S i) (x0 :: x1 :: xs) 0) with (nth i (x1 :: xs) 0) in *. change (nth 0 (x0 :: x1 :: xs) 0) with x0 in Q. change (nth 1 (x0 :: x1 :: xs) 0) with x1 in Q1.
    rewrite <- (IH (y1 :: ys) i x); [|eapply increasing_tail; eauto|cbn in L |- *; lia|cbn; lia|auto].
    cbn [map]. rewrite interp_step. destruct (Rltb_spec x x0); [lra|]. destruct (Reqb_spec x x0); [lra|]. destruct (Rltb_spec x x1); [lra|]. reflexivity.
Qed.
Lemma interp_nan xs : forall fp x, Forall (fun v => v = Nan) fp -> np_interp_from xs fp x = Nan.
Proof.
  induction xs as [|x0 [|x1 xs] IH]; intros [|f0 [|f1 fp]] x F; try reflexivity; inversion F as [|? ? F0 F1]; subst.
  - cbn. destruct (Reqb x x0); reflexivity.
  - cbn. destruct (Reqb x x0); reflexivity.
  - inversion F1 as [|? ? F2 F3]; subst. rewrite interp_step. destruct (Rltb x x0); [reflexivity|]. destruct (Reqb x x0); [reflexivity|]. destruct (Rltb x x1); [reflexivity|]. apply IH. auto.
Qed.
Definition secs (dt : R) (n m : nat) : list R := map (fun l => IZR l * dt) (correlation_lags n m).
Lemma secs_length dt n m : length (secs dt n m) = (n + m - 1)%nat.
Proof. unfold secs. now rewrite map_length, lags_length. Qed.
Lemma secs_nth dt n m k : (k < n + m - 1)%nat -> nth k (secs dt n m) 0 = IZR (Z.of_nat k - Z.of_nat (m - 1)) * dt.
Proof. intro H. unfold secs. now rewrite (nth_map_lags (fun l => IZR l * dt)). Qed.
Lemma secs_increasing dt n m : 0 < dt -> increasing (secs dt n m).
Proof.
  intros D i j [H1 H2]. rewrite secs_length in H2. rewrite !secs_nth by lia. apply Rmult_lt_compat_r; [auto|]. apply IZR_lt. lia.
Qed.
