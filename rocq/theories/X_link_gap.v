(** Gaps in the records given to compute_cmv with its spectral delay estimator (C94). *)
From Coq Require Import String.
From Verif Require Import Prelude PreludeFacts RealBase Fl RealStat Dft Phase Spec_welch Spec_tfdelay M_spatial M_cmv M_signal_corr M_signal_tf M_link P_list P_dft P_tf P_tfdelay P_welch X_signal_psd X_signal_tf X_signal_tfdelay X_signal_tfx X_field_delays X_signal_wave Spec_cmv Spec_spatial X_link_delay X_link_good Spec_gap P_gap X_predict.
From Verif Require M_cmv M_signal_corr.
From Coq Require Import Lra Psatz.
Local Open Scope string_scope.
Local Open Scope R_scope.

Lemma multi_pairs ls win dtr dt n ref navgs cl lim overlap window : solver ls ->
  (exists e, forall ps xc, ps <> [] -> compute_delays_tf ls win dtr dt n (inputs ref ps) (outputs ps) navgs cl (Some lim) "multi" overlap window xc = Err e) \/
  (exists freqs col, (exists fr, freqs = 0 :: fr) /\
     (forall p k, fst (snd p) = repeat 0 k -> (forall z, In z (fst (snd (col p))) -> z = None) /\ (forall c, In c (snd (snd (col p))) -> c = None)) /\
     (forall ps, ps <> [] -> averaged_tf win dtr dt n (Frame (inputs ref ps)) (Frame (outputs ps)) navgs overlap window None = Ok (freqs, map col ps)) /\
     (forall ps, ps <> [] -> exists ex, compute_delays_tf ls win dtr dt n (inputs ref ps) (outputs ps) navgs cl (Some lim) "multi" overlap window false =
        Ok (map (fun p => one_delay ls cl (Some lim) "multi" freqs (snd (col p))) ps, ex) /\ te_coh ex = map (fun p => mean_coh freqs lim (snd (snd (col p)))) ps) /\
     forall ps xc ds ex, ps <> [] -> compute_delays_tf ls win dtr dt n (inputs ref ps) (outputs ps) navgs cl (Some lim) "multi" overlap window xc = Ok (ds, ex) ->
       ds = map (fun p => one_delay ls cl (Some lim) "multi" freqs (snd (col p))) ps /\ te_coh ex = map (fun p => mean_coh freqs lim (snd (snd (col p)))) ps).
Proof.
  intros Sl. destruct (averaged_pairs win dtr dt n ref navgs overlap window None) as [[e E]|(freqs & col & E & Hf & Hc & Hz)].
  - left. exists e. intros ps xc No. unfold compute_delays_tf. rewrite not_short by now rewrite !map_length. now rewrite E by exact No.
  - right. exists freqs, col. split; [exact Hf|]. split; [exact (Hz eq_refl)|]. split; [exact E|].
    assert (T : forall ps, ps <> [] -> exists ix, tf_delay ls freqs (map snd (map col ps)) cl (Some lim) "multi" =
        Ok (map (fun p => one_delay ls cl (Some lim) "multi" freqs (snd (col p))) ps, ix)).
    { intros ps No. unfold tf_delay. cbn [String.eqb Ascii.eqb Bool.eqb]. destruct (map snd (map col ps)) as [|c0 cs] eqn:Em; [destruct ps; easy|]. rewrite <- Em.
      eexists. f_equal. f_equal. rewrite delay_multi_eq; [rewrite !map_map; reflexivity|easy|].
      apply Forall_forall. intros c Ic. apply in_map_iff in Ic. destruct Ic as (c' & <- & Ic). apply in_map_iff in Ic. destruct Ic as (o & <- & _). apply Hc. }
    split.
    + intros ps No. unfold compute_delays_tf. rewrite not_short by now rewrite !map_length. rewrite E by exact No. cbn [rbind String.eqb Ascii.eqb Bool.eqb].
      destruct (T ps No) as [ix ->]. cbn [rbind]. eexists. split; [reflexivity|]. cbn [te_coh]. now rewrite map_map.
    + intros ps xc ds ex No. unfold compute_delays_tf. rewrite not_short by now rewrite !map_length. rewrite E by exact No. cbn [rbind String.eqb Ascii.eqb Bool.eqb].
      destruct (T ps No) as [ix ->]. cbn [rbind]. destruct xc.
      * destruct (mapM _ _) as [rows|]; cbn [rbind]; [|discriminate]. intro Q. injection Q as <- <-. split; [reflexivity|]. cbn [te_coh]. now rewrite map_map.
      * intro Q. injection Q as <- <-. split; [reflexivity|]. cbn [te_coh]. now rewrite map_map.
Qed.

(*@ C94 Gaps and the spectral backend: each pair's delay and coherence are what compute_delays_tf gives for that pair alone, samples in rows that no segment
    reads (five averages, half overlap) may be missing or hold anything, and a gap in a row that is read makes the delay NaN and the coherence 0. *)
Lemma tf_backend_gaps : forall ls win dtr dt n A B d, solver ls -> length A = length B -> samples n A -> samples n B ->
  tf_backend ls win dtr dt n A B = Ok d -> exists cs, d_coh d = Some cs /\
  forall i a b, nth_error A i = Some a -> nth_error B i = Some b -> exists dl c, nth_error (M_cmv.d_delay d) i = Some dl /\ nth_error cs i = Some c /\
    (forall x y, same_where_read n 5 (1 / 2) a x -> same_where_read n 5 (1 / 2) b y -> exists d' c' ex,
       compute_delays_tf ls win dtr dt n [("", x)] [("", y)] 5 (Some (6 / 10)) (Some (2 / 100)) "multi" (1 / 2) "hamming" false = Ok ([d'], ex) /\ te_coh ex = [c'] /\
       dl = of_option d' /\ c = of_option c') /\
    (gap_read n 5 (1 / 2) a \/ gap_read n 5 (1 / 2) b -> dl = Nan /\ c = Fin 0).
Proof.
  intros ls win dtr dt n A B d Sl El SA SB. replace (1 / 2) with (/ 2) by lra. unfold tf_backend. replace (1 / 2) with (/ 2) by lra. intro E.
  set (k := rows_read n 5 (/ 2)) in *. set (qs := seen_pairs k n A B) in *.
  set (ps := map (fun q : list R * list R => ("", q)) qs).
  assert (Ei : map (pair "") (map fst qs) = inputs "" ps) by (unfold ps; rewrite !map_map; reflexivity).
  assert (Eo : map (pair "") (map snd qs) = outputs ps) by (unfold ps; rewrite !map_map; reflexivity).
  rewrite Ei, Eo in E. destruct (compute_delays_tf _ _ _ _ _ _ _ _ _ _ _ _ _ _) as [[ds ex]|] eqn:Q; [|discriminate]. cbn [rbind] in E.
  destruct (te_xcorr ex) as [[[pk mn] zr]|]; [|discriminate]. injection E as <-. cbn [M_cmv.d_delay d_coh].
  eexists. split; [reflexivity|]. intros i a b Ha Hb.
  pose proof (seen_nth k n A B i a b Ha Hb) as Hq. fold qs in Hq. set (p := ("", seen_pair k n (a, b))).
  assert (Hp : nth_error ps i = Some p) by (unfold ps; now rewrite nth_error_map, Hq).
  assert (Np : ps <> []) by (intro F; rewrite F in Hp; destruct i; discriminate).
  assert (La : length a = n) by (unfold samples in SA; rewrite Forall_forall in SA; apply SA; eapply nth_error_In; eauto).
  assert (Lb : length b = n) by (unfold samples in SB; rewrite Forall_forall in SB; apply SB; eapply nth_error_In; eauto).
  destruct (multi_pairs ls win dtr dt n "" 5 (Some (6 / 10)) (2 / 100) (/ 2) "hamming" Sl) as [[e E']|(freqs & col & (fr & Ef) & Hz & Ea & E1 & E2)].
  { rewrite E' in Q by exact Np. discriminate. }
  destruct (E2 ps true ds ex Np Q) as [-> Ec]. rewrite Ec.
  exists (of_option (one_delay ls (Some (6 / 10)) (Some (2 / 100)) "multi" freqs (snd (col p)))), (of_option (mean_coh freqs (2 / 100) (snd (snd (col p))))).
  split; [rewrite !nth_error_map, Hp; reflexivity|]. split; [rewrite !nth_error_map, Hp; reflexivity|].
  destruct (proj1 (averaged_defined win dtr dt n (inputs "" ps) (outputs ps) 5 "hamming" None ltac:(now rewrite !map_length) ltac:(destruct ps; easy)) (ex_intro _ _ (Ea ps Np)))
    as (_ & _ & Bn).
  destruct (half_grid n 5 ltac:(lia)) as (N & V & G). change 5%Z with (Z.of_nat 5) in k. split.
  - intros x y Sx Sy. destruct (same_filled _ _ _ _ _ _ _ G La Sx) as [C1 K1]. destruct (same_filled _ _ _ _ _ _ _ G Lb Sy) as [C2 K2]. fold k in C1, C2, K1, K2.
    destruct Sx as [Lx _], Sy as [Ly _]. set (p' := ("", (x, y))).
    assert (Eq : col p = col p').
    { pose proof (Ea [p] ltac:(discriminate)) as A1. pose proof (Ea [p'] ltac:(discriminate)) as A2. cbn [map] in A1, A2.
      unfold p in A1 at 1 2 3. unfold seen_pair in A1. cbn [fst snd] in A1. rewrite C1, C2 in A1. cbn [andb fst snd] in A1. unfold p' in A2 at 1 2 3. cbn [fst snd] in A2.
      rewrite (averaged_same win dtr dt n "" "" (filled a) (filled b) x y 5 (/ 2) "hamming" None) in A1 by (first [exact K1|exact K2|unfold filled; rewrite ?map_length; congruence]).
      rewrite A2 in A1. injection A1 as A1. now symmetry. }
    destruct (E1 [p'] ltac:(discriminate)) as (ex' & X1 & X2). cbn [map] in X1, X2. rewrite <- Eq in X1, X2. cbn [fst snd p'] in X1.
    eexists _, _, _. split; [exact X1|]. split; [exact X2|]. now split.
  - intro Gp. assert (Cf : (complete (firstn k a) && complete (firstn k b))%bool = false).
    { apply andb_false_iff. destruct Gp as [Gp|Gp]; [left|right]; now apply (gap_incomplete _ _ _ _ _ _ G). }
    assert (Ep : fst (snd p) = repeat 0 n) by (unfold p, seen_pair; cbn [fst snd]; now rewrite Cf).
    destruct (Hz p _ Ep) as [Zt Zc]. split.
    + replace (one_delay _ _ _ _ freqs (snd (col p))) with (@None R); [reflexivity|]. symmetry. unfold one_delay. cbn [String.eqb Ascii.eqb Bool.eqb].
      replace (all_missing (fst (snd (col p)))) with true; [reflexivity|]. symmetry. unfold all_missing. apply forallb_forall. intros z Iz. now rewrite (Zt z Iz).
    + assert (Sm : forall m : list bool, Rsum (map (fun c : option R => match c with Some v => v | None => 0 end) (select m (snd (snd (col p))))) = 0).
      { clear -Zc. intro m. revert m Zc. induction (snd (snd (col p))) as [|c l IH]; intros [|b0 m] Zc; try reflexivity.
        rewrite select_cons. destruct b0; [cbn [map]; rewrite Rsum_cons, (Zc c (or_introl eq_refl))|]; rewrite IH by (intros; apply Zc; now right); ring. }
      unfold mean_coh. rewrite Sm, Ef. cbn [map]. rewrite Rltb_true by lra. cbn [filter length Nat.eqb of_option]. f_equal. unfold Rdiv. ring.
Qed.

Definition ramp20 : list R := map INR (seq 0 20).
Definition late_gap : list (option R) := (map Some ramp20 ++ [None])%list.
Definition early_gap : list (option R) := None :: map Some ramp20.
(*@ex C94 21 rows in segments of four, half overlapping: the last row is not read. *)
Lemma tf_gaps_example : samples 21 [late_gap; early_gap] /\ (forall z, same_where_read 21 5 (1 / 2) late_gap (ramp20 ++ [z])%list) /\
  gap_read 21 5 (1 / 2) early_gap /\ ~ gap_read 21 5 (1 / 2) late_gap.
Proof.
  assert (U : forall N V, welch_grid 21 5 (1 / 2) N V -> N = 4%nat /\ V = 2%nat).
  { intros N V (B & C1 & C2 & C3 & C4 & C5). assert (N = 4%nat) by lia. subst N. split; [reflexivity|]. cbn [INR] in C4.
    assert (V < 3)%nat by (apply INR_lt; cbn; lra). assert (1 < V)%nat by (apply INR_lt; cbn; lra). lia. }
  assert (G : welch_grid 21 5 (1 / 2) 4 2) by (unfold welch_grid; cbn [INR]; repeat split; try lia; lra).
  assert (Rd : forall t, row_read 21 5 (1 / 2) t -> (t < 20)%nat) by (intros t (N & V & s & Gw & B1 & B2); apply U in Gw; lia).
  assert (Sw : forall z, same_where_read 21 5 (1 / 2) late_gap (ramp20 ++ [z])%list).
  { intro z. split; [reflexivity|]. intros t Rt. apply Rd in Rt. unfold late_gap.
    rewrite !nth_error_app1 by (rewrite ?map_length; exact Rt). rewrite nth_error_map. destruct (nth_error ramp20 t) eqn:E; [reflexivity|]. apply nth_error_None in E. cbn in E. lia. }
  split; [repeat constructor|]. split; [exact Sw|]. split.
  - exists 0%nat. split; [exists 4%nat, 2%nat, 0%nat; split; [exact G|lia]|reflexivity].
  - intros (t & Rt & Ht). destruct (Sw 0) as [_ H]. rewrite (H t Rt) in Ht. injection Ht as Ht. apply nth_error_None in Ht. cbn in Ht. apply Rd in Rt. lia.
Qed.
