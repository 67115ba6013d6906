(** Which rows the segments of Welch's method read. *)
From Coq Require Import String Lra Psatz.
From Verif Require Import Prelude PreludeFacts RealBase Fl RealStat Dft Phase Spec_welch Spec_gap M_cmv M_signal_corr M_signal_tf M_link P_list P_dft P_welch.
From Coquelicot Require Import Complex.
Local Open Scope R_scope.

Lemma grid_unique n navgs o N V N' V' : welch_grid n navgs o N V -> welch_grid n navgs o N' V' -> N = N' /\ V = V'.
Proof. intros A B. apply segmenting_ok in A, B. rewrite A in B. injection B as B1 B2. lia. Qed.
Lemma rows_read_eq n navgs o N V K : welch_grid n navgs o N V -> segments_fit n N V K ->
  rows_read n (Z.of_nat navgs) o = (N + (K - 1) * (N - V))%nat.
Proof.
  intros G F. unfold rows_read. rewrite (segmenting_ok _ _ _ _ _ G). destruct G as (_ & _ & _ & _ & _ & L).
  rewrite (segments_fit_eq _ _ _ _ L F). destruct F as (F1 & _). nia.
Qed.
Lemma rows_read_iff n navgs o N V t : welch_grid n navgs o N V -> ((t < rows_read n (Z.of_nat navgs) o)%nat <-> row_read n navgs o t).
Proof.
  intro G. pose proof G as (G1 & G2 & G3 & G4 & G5 & G6). destruct (segments_exist n N V G6 ltac:(nia)) as [K F].
  rewrite (rows_read_eq _ _ _ _ _ _ G F). destruct F as (F1 & F2 & F3). split.
  - intro L. pose proof (Nat.div_mod t (N - V) ltac:(lia)) as E. pose proof (Nat.mod_upper_bound t (N - V) ltac:(lia)) as B.
    set (q := (t / (N - V))%nat) in *. destruct (le_lt_dec q (K - 1)) as [Q|Q].
    + exists N, V, q. split; [exact G|]. split; nia.
    + exists N, V, (K - 1)%nat. split; [exact G|]. split; nia.
  - intros (N' & V' & s & G' & A & B). destruct (grid_unique _ _ _ _ _ _ _ G G') as [<- <-].
    assert (s <= K - 1)%nat by (destruct (le_lt_dec s (K - 1)); [assumption|nia]). nia.
Qed.

Lemma segment_firstn x np nv s k : (Z.to_nat (Z.of_nat s * (np - nv)) + Z.to_nat np <= k)%nat -> segment (firstn k x) np nv s = segment x np nv s.
Proof. intro H. unfold segment. rewrite skipn_firstn_comm, firstn_firstn. f_equal. lia. Qed.
Lemma segment_same x x' n navgs o np nv s : segmenting n navgs o = Ok (np, nv) -> (s < n_segments (Z.of_nat n) np nv)%nat ->
  firstn (rows_read n navgs o) x = firstn (rows_read n navgs o) x' -> segment x np nv s = segment x' np nv s.
Proof.
  intros E Hs F. set (k := rows_read n navgs o) in *.
  assert (B : (Z.to_nat (Z.of_nat s * (np - nv)) + Z.to_nat np <= k)%nat).
  { assert (P : (1 <= np /\ nv < np)%Z).
    { unfold segmenting in E. destruct (Z.eqb navgs 0); [discriminate|]. destruct (Z.ltb_spec (Z.of_nat n / navgs) 1); [discriminate|].
      destruct (Z.leb_spec (Z.of_nat n / navgs) (trunc (IZR (Z.of_nat n / navgs) * o))); [discriminate|]. injection E as <- <-. lia. }
    unfold k, rows_read. rewrite E. set (K := n_segments (Z.of_nat n) np nv) in *.
    assert (Z.of_nat s * (np - nv) <= (Z.of_nat K - 1) * (np - nv))%Z by (apply Z.mul_le_mono_nonneg_r; lia).
    assert (0 <= Z.of_nat s * (np - nv))%Z by nia. lia. }
  rewrite <- (segment_firstn x np nv s k B), <- (segment_firstn x' np nv s k B). now rewrite F.
Qed.
Lemma csd_same win dtr sc window d x y x' y' n navgs o np nv j : segmenting n navgs o = Ok (np, nv) -> length x = n -> length x' = n ->
  firstn (rows_read n navgs o) x = firstn (rows_read n navgs o) x' -> firstn (rows_read n navgs o) y = firstn (rows_read n navgs o) y' ->
  csd_bin win dtr sc window d x y np nv j = csd_bin win dtr sc window d x' y' np nv j.
Proof.
  intros E L L' Fx Fy. unfold csd_bin. cbv zeta. rewrite L, L'. f_equal. apply Csumn_ext. intros s Hs. unfold seg_bin.
  now rewrite (segment_same x x' n navgs o np nv s E Hs Fx), (segment_same y y' n navgs o np nv s E Hs Fy).
Qed.
Lemma averaged_same win dtr dt n a b x y x' y' navgs o window d : length x = n -> length x' = n -> length y = n -> length y' = n ->
  firstn (rows_read n navgs o) x = firstn (rows_read n navgs o) x' -> firstn (rows_read n navgs o) y = firstn (rows_read n navgs o) y' ->
  averaged_tf win dtr dt n (Frame [(a, x)]) (Frame [(b, y)]) navgs o window d = averaged_tf win dtr dt n (Frame [(a, x')]) (Frame [(b, y')]) navgs o window d.
Proof.
  intros L1 L2 L3 L4 Fx Fy. unfold averaged_tf. destruct (sample_rate dt n) as [fs|]; [|reflexivity]. cbn [rbind pair_columns length Nat.eqb].
  destruct (segmenting n navgs o) as [[np nv]|] eqn:E; [|reflexivity]. cbn [rbind]. destruct (psd_scale _ _ _ _ _) as [sc|]; [|reflexivity].
  unfold map2. cbn [rbind some_column map combine fst snd].
  assert (Sx : forall j, psd_bin win dtr sc window d x np nv j = psd_bin win dtr sc window d x' np nv j).
  { intro j. unfold psd_bin. f_equal. eapply csd_same; eauto. }
  assert (Sy : forall j, psd_bin win dtr sc window d y np nv j = psd_bin win dtr sc window d y' np nv j).
  { intro j. unfold psd_bin. f_equal. eapply csd_same; eauto. }
  assert (Sc : forall j, csd_bin win dtr sc window d x y np nv j = csd_bin win dtr sc window d x' y' np nv j) by (intro j; eapply csd_same; eauto).
  apply (f_equal Ok). apply (f_equal (pair _)). apply (f_equal (fun c => [c])). apply (f_equal (pair _)).
  apply f_equal2; apply map_ext; intro j; now rewrite ?Sx, ?Sy, ?Sc.
Qed.

Lemma complete_in s : complete s = true <-> ~ In None s.
Proof.
  unfold complete. rewrite forallb_forall. split.
  - intros H I. specialize (H _ I). discriminate.
  - intros H [v|] I; [reflexivity|contradiction].
Qed.
Lemma In_firstn_nth {A} (l : list A) k a : In a (firstn k l) <-> exists t, (t < k)%nat /\ nth_error l t = Some a.
Proof.
  split.
  - intro I. apply In_nth_error in I. destruct I as [t H]. assert (L : (t < k)%nat).
    { assert (t < length (firstn k l))%nat by (apply nth_error_Some; congruence). rewrite firstn_length in *. lia. }
    rewrite nth_error_firstn in H by exact L. eauto.
  - intros (t & L & H). apply nth_error_In with t. now rewrite nth_error_firstn.
Qed.
Lemma nth_firstn_lt {A} (l : list A) k t d : (t < k)%nat -> nth t (firstn k l) d = nth t l d.
Proof. revert k t. induction l as [|x l IH]; intros [|k] [|t] H; try lia; try reflexivity. cbn. apply IH. lia. Qed.
Lemma gap_incomplete n navgs o N V s : welch_grid n navgs o N V -> gap_read n navgs o s -> complete (firstn (rows_read n (Z.of_nat navgs) o) s) = false.
Proof.
  intros G (t & Rt & E). destruct (complete _) eqn:C; [|reflexivity]. apply complete_in in C. exfalso. apply C. apply In_firstn_nth. exists t.
  split; [|exact E]. now apply (rows_read_iff _ _ _ _ _ _ G).
Qed.
Lemma same_filled n navgs o N V s x : welch_grid n navgs o N V -> length s = n -> same_where_read n navgs o s x ->
  complete (firstn (rows_read n (Z.of_nat navgs) o) s) = true /\
  firstn (rows_read n (Z.of_nat navgs) o) (filled s) = firstn (rows_read n (Z.of_nat navgs) o) x.
Proof.
  intros G Ln (L & H). split.
  - apply complete_in. intro I. apply In_firstn_nth in I. destruct I as (t & Lt & E). apply (rows_read_iff _ _ _ _ _ _ G) in Lt. rewrite (H t Lt) in E.
    injection E as E. apply nth_error_None in E. assert (t < length s)%nat by (apply nth_error_Some; rewrite (H t Lt); discriminate). lia.
  - set (k := rows_read _ _ _). apply nth_ext with (d := 0) (d' := 0); [unfold filled; rewrite !firstn_length, map_length; lia|].
    intros t Ht. rewrite firstn_length in Ht. assert (Lt : (t < k)%nat) by lia. rewrite !nth_firstn_lt by exact Lt.
    assert (Rt : row_read n navgs o t) by (apply (rows_read_iff _ _ _ _ _ _ G); exact Lt). specialize (H t Rt).
    unfold filled. destruct (nth_error x t) as [v|] eqn:Ev.
    + rewrite (nth_error_nth _ _ 0 Ev). apply nth_error_nth. erewrite map_nth_error by exact H. reflexivity.
    + apply nth_error_None in Ev. assert (t < length s)%nat by (apply nth_error_Some; rewrite H; discriminate). lia.
Qed.
