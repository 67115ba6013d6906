(** Concrete cases for the spectra, transfer functions, delays and the cloud advection filter. *)
From Coq Require Import String.
From Verif Require Import Prelude PreludeFacts RealBase Fl RealStat Dft Phase Spec_welch Spec_tfdelay Spec_plant M_cmv M_signal_corr M_signal_tf M_signal_plant P_signal P_corr P_dft P_welch P_parseval
  X_signal_psd X_signal_tf X_signal_tfdelay X_signal_tfx X_signal_cam.
From Coq Require Import Lra Psatz.
From Coquelicot Require Import Complex.
Local Open Scope string_scope.
Local Open Scope R_scope.

(*@ex C47 a two-sample record and a rectangular window meet the hypotheses for both scalings *)
Lemma psd_example : windows box_win /\ keeps_length no_dtr /\ welch_grid 2 1 (/ 2) 2 1 /\ segments_fit 2 2 1 1 /\
  norm_is (box_win "boxcar" 2) 1 "density" (1 / 2) /\ norm_is (box_win "boxcar" 2) 1 "spectrum" (1 / 4) /\
  exists v, averaged_psd box_win no_dtr 1 2 (Frame [("a", [3; 4])]) 1 (/ 2) "boxcar" None "spectrum" = Ok ([0; / 2], [("a", v)]) /\
    length v = 2%nat /\ nth 0 v 0 = 49 / 4.
Proof.
  assert (P1 : power (box_win "boxcar" 2) = 2) by (cbn; lra). assert (P2 : Rsum (box_win "boxcar" 2) = 2) by (cbn; lra).
  assert (N2 : norm_is (box_win "boxcar" 2) 1 "spectrum" (1 / 4)) by (right; rewrite P2; repeat split; lra).
  split; [apply box_windows|]. split; [apply no_dtr_keeps|]. split; [apply demo_grid|]. split; [apply demo_fit|].
  split; [left; rewrite P1; repeat split; lra|]. split; [exact N2|].
  destruct (psd_value box_win no_dtr 1 2 1 (/ 2) "boxcar" None "spectrum" 2 1 1 (1 / 4) [("a", [3; 4])] box_windows no_dtr_keeps ltac:(lia) ltac:(lra) demo_grid demo_fit N2 ltac:(repeat constructor) ltac:(discriminate)) as (o & E & Nm & V).
  destruct (V 0%nat "a" [3; 4] eq_refl) as (v & Ev & Lv & Vv). destruct o as [|[nm w] [|? ?]]; try discriminate. injection Ev as -> ->.
  exists v. split; [|split; [exact Lv|]].
  - change (Z.of_nat 1) with 1%Z in E. rewrite E. f_equal. f_equal. cbn. f_equal; [lra|]. f_equal. lra.
  - rewrite Vv by (cbn; lia). unfold avg. cbn [seq map]. rewrite mod2_parts. unfold seg_spectrum, fourier, tapered, chunk, detrend_by, box_win, sides. cbn -[cos sin PI].
    rewrite ?Rmult_0_r, ?Rmult_0_l. unfold Rdiv. rewrite ?Rmult_0_l, ?Rmult_0_r, cos_0, sin_0. field.
Qed.
(*@ex C48 one input against two outputs: the single column is used twice *)
Lemma tf_example : welch_grid 4 2 0 2 0 /\ segments_fit 4 2 0 2 /\ matchable [("a", [1; 0; 1; 0])] [("b", [1; 0; -1; 0]); ("c", [2; 0; 2; 0])] /\
  exists f out, averaged_tf box_win no_dtr 1 4 (Frame [("a", [1; 0; 1; 0])]) (Frame [("b", [1; 0; -1; 0]); ("c", [2; 0; 2; 0])]) 2 0 "boxcar" None = Ok (f, out) /\
    map fst out = ["a_b"; "a_c"].
Proof.
  assert (G : welch_grid 4 2 0 2 0) by (unfold welch_grid; cbn; repeat split; try lia; lra).
  assert (F : segments_fit 4 2 0 2) by (unfold segments_fit; lia).
  assert (M : matchable [("a", [1; 0; 1; 0])] [("b", [1; 0; -1; 0]); ("c", [2; 0; 2; 0])]) by (unfold matchable; cbn; lia).
  split; [exact G|]. split; [exact F|]. split; [exact M|].
  destruct (tf_value box_win no_dtr 1 4 [("a", [1; 0; 1; 0])] [("b", [1; 0; -1; 0]); ("c", [2; 0; 2; 0])] 2 0 "boxcar" None 2 0 2 box_windows no_dtr_keeps ltac:(lia) ltac:(lra) G F
    ltac:(cbn; lra) ltac:(repeat constructor) M ltac:(easy) ltac:(easy)) as (out & E & L & V).
  eexists _, out. split; [exact E|]. cbn in L.
  destruct (V 0%nat ltac:(lia)) as (a & x & b & y & tf & coh & P1 & P2 & N1 & _). destruct (V 1%nat ltac:(lia)) as (a' & x' & b' & y' & tf' & coh' & P1' & P2' & N1' & _).
  cbn in P1, P2, P1', P2'. injection P1 as <- <-. injection P2 as <- <-. injection P1' as <- <-. injection P2' as <- <-.
  destruct out as [|o1 [|o2 [|? ?]]]; try discriminate. cbn in N1, N1'. injection N1 as ->. injection N1' as ->. reflexivity.
Qed.
(** A quarter second of delay, read at four frequencies. *)
Definition quarter : list C := map (fun f => cis (- (2 * PI * f * / 4))) [0; 1; 2; 3].
(*@ex C51 all three methods find a quarter second in a noiseless table *)
Lemma delay_example : exists ls, solver ls /\ table [0; 1; 2; 3] [(map Some quarter, map (fun _ => Some 1) quarter)] /\
  forall method, In method ["multi"; "fit"; "diff"] -> exists ix,
    tf_delay ls [0; 1; 2; 3] [(map Some quarter, map (fun _ => Some 1) quarter)] (Some (/ 2)) (Some 4) method = Ok ([Some (/ 4)], ix).
Proof.
  destruct solver_exists as [ls S]. exists ls. split; [exact S|]. assert (T : table [0; 1; 2; 3] [(map Some quarter, map (fun _ => Some 1) quarter)]) by (repeat constructor).
  split; [exact T|].
  assert (U : bins_of [0; 1; 2; 3] (map Some quarter) (map (fun _ => Some 1) quarter) = map (fun f => mkBin f (Some (cis (- (2 * PI * f * / 4)))) (Some 1)) [0; 1; 2; 3]) by reflexivity.
  assert (B : filter (fun b => if below_dec (Some 4) b then true else false) (bins_of [0; 1; 2; 3] (map Some quarter) (map (fun _ => Some 1) quarter))
              = bins_of [0; 1; 2; 3] (map Some quarter) (map (fun _ => Some 1) quarter)).
  { rewrite U. cbn [map filter]. repeat (match goal with |- context [below_dec ?a ?b] => destruct (below_dec a b) as [|N]; [|exfalso; apply N; cbn; lra] end). reflexivity. }
  assert (UB : used (Some (/ 2)) (Some 4) (bins_of [0; 1; 2; 3] (map Some quarter) (map (fun _ => Some 1) quarter))
              = bins_of [0; 1; 2; 3] (map Some quarter) (map (fun _ => Some 1) quarter)).
  { unfold used. rewrite U. cbn [map filter].
    repeat (match goal with |- context [below_dec ?a ?b] => destruct (below_dec a b) as [|N]; [|exfalso; apply N; cbn; lra] end).
    repeat (match goal with |- context [coherent_dec ?a ?b] => destruct (coherent_dec a b) as [|N]; [|exfalso; apply N; cbn; exists 1; split; [reflexivity|lra]] end). reflexivity. }
  assert (Ph : forall b, In b (bins_of [0; 1; 2; 3] (map Some quarter) (map (fun _ => Some 1) quarter)) ->
             exists r, 0 < r /\ b_tf b = Some (Cmult (RtoC r) (cis (- (2 * PI * b_freq b * / 4))))).
  { rewrite U. intros b I. apply in_map_iff in I. destruct I as (f & <- & _). exists 1. split; [lra|]. cbn [b_tf b_freq]. now rewrite Cmult_1_l. }
  assert (St : forall i b b', nth_error (bins_of [0; 1; 2; 3] (map Some quarter) (map (fun _ => Some 1) quarter)) i = Some b ->
     nth_error (bins_of [0; 1; 2; 3] (map Some quarter) (map (fun _ => Some 1) quarter)) (Datatypes.S i) = Some b' -> Rabs ((b_freq b' - b_freq b) * / 4) < / 2).
  { rewrite U. intros i b b' I I'. rewrite nth_error_map in I, I'. do 4 (destruct i as [|i]; [cbn in I, I'; try discriminate; injection I as <-; injection I' as <-; cbn [b_freq]; rewrite Rabs_pos_eq; lra|]).
    destruct i; discriminate. }
  intros method [<-|[<-|[<-|[]]]].
  - apply multi_recovers; auto; rewrite ?B; auto.
    + intros b r E. rewrite U in E. injection E as <- _. cbn [b_freq]. rewrite Rmult_0_l, Rabs_R0. lra.
    + rewrite UB, U. cbn. lra.
  - apply fit_recovers; auto; cbv zeta; rewrite ?UB; auto.
    + intros b r E. rewrite U in E. injection E as <- _. cbn [b_freq]. rewrite Rmult_0_l, Rabs_R0. lra.
    + exists (mkBin 1 (Some (cis (- (2 * PI * 1 * / 4)))) (Some 1)). rewrite U. split; [right; now left|]. cbn. lra.
  - apply diff_recovers; auto.
    + cbn; lia.
    + rewrite UB, U. easy.
    + intros [|[|[|[|k]]]] Hk; cbn in *; try lia; lra.
    + intros k Hk. exists 1. split; [lra|]. rewrite Cmult_1_l. unfold quarter. destruct k as [|[|[|[|k]]]]; cbn in *; try lia; reflexivity.
    + intros [|[|[|[|k]]]] Hk; cbn in *; try lia; rewrite Rabs_pos_eq; lra.
Qed.
(*@ex C52 of four bins one fails the coherence limit, one has no coherence and one lies at the frequency limit *)
Lemma mask_example : exists ls ds m, solver ls /\
  tf_delay ls [0; 1; 2; 3] [(map Some quarter, [Some 1; Some (/ 2); None; Some 1])] (Some (/ 2)) (Some 3) "multi" = Ok (ds, [m]) /\ m = [true; false; false; false].
Proof.
  destruct solver_exists as [ls S]. set (cols := [(map Some quarter, [Some 1; Some (/ 2); None; Some 1])]).
  assert (T : table [0; 1; 2; 3] cols) by (repeat constructor).
  destruct (multi_value ls [0; 1; 2; 3] cols (Some (/ 2)) (Some 3) S T ltac:(easy)) as (ds & ix & E & _).
  destruct (mask_value ls [0; 1; 2; 3] cols _ _ _ ds ix T E) as [L V]. destruct ix as [|m [|? ?]]; try discriminate.
  destruct (V 0%nat _ _ eq_refl) as (m' & Em & Lm & Vm). injection Em as <-. exists ls, ds, m. split; [exact S|]. split; [exact E|].
  destruct (Vm 0%nat _ _ eq_refl eq_refl) as (b0 & E0 & H0). destruct (Vm 1%nat _ _ eq_refl eq_refl) as (b1 & E1 & H1).
  destruct (Vm 2%nat _ _ eq_refl eq_refl) as (b2 & E2 & H2). destruct (Vm 3%nat _ _ eq_refl eq_refl) as (b3 & E3 & H3).
  destruct m as [|x0 [|x1 [|x2 [|x3 [|? ?]]]]]; try discriminate. cbn in E0, E1, E2, E3. injection E0 as ->. injection E1 as ->. injection E2 as ->. injection E3 as ->.
  assert (A0 : b0 = true). { apply H0. split; intros l Hl; injection Hl as <-; [exists 1; split; [easy|lra]|lra]. }
  assert (A1 : b1 = false). { destruct b1; [|easy]. destruct (proj1 H1 eq_refl) as [Q _]. destruct (Q _ eq_refl) as (v & Ev & Lv). injection Ev as <-. lra. }
  assert (A2 : b2 = false). { destruct b2; [|easy]. destruct (proj1 H2 eq_refl) as [Q _]. destruct (Q _ eq_refl) as (v & Ev & Lv). discriminate. }
  assert (A3 : b3 = false). { destruct b3; [|easy]. destruct (proj1 H3 eq_refl) as [_ Q]. specialize (Q _ eq_refl). lra. }
  now subst.
Qed.
(*@ex C57 a two-point grid from -1: symmetric, and the filter of a site at -1 passed at speed 2 leads by half a second *)
Lemma cam_example : 2 * -1 = IZR (-1) * (INR 2 * 1) /\
  exists rows, plant1d_to_camfilter [Some 1; Some 0] [-1; 0] 2 = Ok rows /\
    map fst rows = [0; -1] /\ map snd rows = [Some (advected 2 0 [(-1, 1); (0, 0)]); Some (advected 2 (-1) [(-1, 1); (0, 0)])].
Proof.
  assert (E : 2 * -1 = IZR (-1) * (INR 2 * 1)) by (cbn; lra). split; [exact E|].
  pose proof (cam_symmetric [1; 0] (-1) 1 2 (-1) ltac:(cbn; lia) ltac:(lra) ltac:(lra) ltac:(cbn; lra) E) as V.
  assert (EQ : equispaced (-1) 1 (length [1; 0]) = [-1; 0]) by (unfold equispaced; cbn; f_equal; [lra|]; f_equal; lra).
  assert (SH : shares [1; 0] = [1; 0]) by (unfold shares; cbn; f_equal; [lra|]; f_equal; lra). rewrite EQ, SH in V. cbn [map] in V.
  assert (F0 : bin_frequency (length [1; 0]) 0 (1 / Rabs 2) = 0) by (unfold bin_frequency, Rdiv; cbn; lra).
  assert (F1 : bin_frequency (length [1; 0]) 1 (1 / Rabs 2) = -1) by (unfold bin_frequency; rewrite Rabs_pos_eq by lra; cbn; field).
  cbn [length seq map] in V. cbn [length] in F0, F1. cbv zeta in V. rewrite F0, F1 in V. eexists. split; [exact V|]. split; reflexivity.
Qed.
