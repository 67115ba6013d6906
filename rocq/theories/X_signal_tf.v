(** averaged_tf: pairing of columns (C48), transfer function and coherence (C49). *)
From Coq Require Import String.
From Verif Require Import Prelude PreludeFacts RealBase Fl RealStat Dft Phase Spec_welch M_cmv M_signal_corr M_signal_tf P_signal P_corr P_dft P_welch P_parseval P_tf X_signal_psd.
From Coq Require Import Lra Psatz.
From Coquelicot Require Import Complex.
Local Open Scope R_scope.

(** The column of results [averaged_tf] computes for one pair, in the vocabulary of Spec_welch. *)
Definition tf_entry (K : nat) (X Y : nat -> C) : option C :=
  if Req_EM_T (auto K X) 0 then None else Some (Cdiv (cross K X Y) (RtoC (auto K X))).
Definition coh_entry (K : nat) (X Y : nat -> C) : option R :=
  if Req_EM_T (auto K X * auto K Y) 0 then None else Some (Cmod (cross K X Y) ^ 2 / (auto K X * auto K Y)).

Lemma Cmod_cj z : Cmod (Cconj z) = Cmod z.
Proof. unfold Cmod, Cconj. cbn [fst snd]. f_equal. ring. Qed.
Lemma sides_pos N k : 0 < sides N k.
Proof. unfold sides. destruct (_ || _)%bool; lra. Qed.
Lemma Reqb_scale c a : c <> 0 -> Reqb (c * a) 0 = if Req_EM_T a 0 then true else false.
Proof.
  intro C. destruct (Req_EM_T a 0) as [->|N].
  - destruct (Reqb_spec (c * 0) 0); [reflexivity|lra].
  - destruct (Reqb_spec (c * a) 0) as [E|]; [|reflexivity]. apply Rmult_integral in E. tauto.
Qed.
Section W.
Variable win : string -> nat -> list R.
Variable dtr : string -> list R -> list R.
Hypothesis Hw : windows win.
Hypothesis Hd : keeps_length dtr.
Lemma bins_eq sc window d x y n N V K k : (V < N)%nat -> length x = n -> length y = n -> segments_fit n N V K -> (k <= N / 2)%nat -> sc <> 0 ->
  let X := fun s => seg_spectrum (win window N) (detrend_by dtr d) x N V s k in
  let Y := fun s => seg_spectrum (win window N) (detrend_by dtr d) y N V s k in
  tf_bin (psd_bin win dtr sc window d x (Z.of_nat N) (Z.of_nat V) k) (csd_bin win dtr sc window d x y (Z.of_nat N) (Z.of_nat V) k) = tf_entry K X Y /\
  coh_bin (psd_bin win dtr sc window d x (Z.of_nat N) (Z.of_nat V) k) (psd_bin win dtr sc window d y (Z.of_nat N) (Z.of_nat V) k)
          (csd_bin win dtr sc window d x y (Z.of_nat N) (Z.of_nat V) k) = coh_entry K X Y.
Proof.
  intros HV Lx Ly F Hk S X Y. rewrite !(psd_bin_eq win dtr Hw Hd _ _ _ _ n N V K) by auto.
  rewrite (csd_bin_eq win dtr Hw Hd _ _ _ _ _ n N V K) by auto.
  change (avg K (fun s => Cmod (seg_spectrum (win window N) (detrend_by dtr d) x N V s k) ^ 2)) with (auto K X).
  change (avg K (fun s => Cmod (seg_spectrum (win window N) (detrend_by dtr d) y N V s k) ^ 2)) with (auto K Y).
  change (cavg K (fun s => Cmult (Cconj (seg_spectrum (win window N) (detrend_by dtr d) x N V s k)) (seg_spectrum (win window N) (detrend_by dtr d) y N V s k))) with (cross K X Y).
  clearbody X Y.
  pose proof (sides_pos N k) as P. set (c := sides N k * sc). assert (C : c <> 0) by (apply Rmult_integral_contrapositive; lra).
  unfold tf_bin, coh_bin, tf_entry, coh_entry. split.
  - rewrite (Reqb_scale c _ C). destruct (Req_EM_T (auto K X) 0) as [E|E]; [reflexivity|]. f_equal. rewrite RtoC_mult. field.
    split; intro Q; apply RtoC_inj in Q; auto.
  - replace (c * auto K X * (c * auto K Y)) with (c * c * (auto K X * auto K Y)) by ring.
    assert (C2 : c * c <> 0) by (apply Rmult_integral_contrapositive; auto).
    rewrite (Reqb_scale (c * c) _ C2). destruct (Req_EM_T (auto K X * auto K Y) 0) as [E|E]; [reflexivity|]. f_equal.
    rewrite Cmod_mult, Cmod_R, Rpow_mult_distr, <- Rsqr_pow2 with (x := Rabs c), <- Rsqr_abs, Rsqr_pow2. field.
    repeat split; auto; intro Z; apply E; rewrite Z; ring.
Qed.
End W.

Lemma pair_columns_ok (ins outs : list (string * list R)) : matchable ins outs -> ins <> [] -> outs <> [] ->
  exists ps, pair_columns ins outs = Ok ps /\ length ps = Nat.max (length ins) (length outs) /\
    forall i, (i < length ps)%nat -> exists a x b y, partner ins i = Some (a, x) /\ partner outs i = Some (b, y) /\
      nth_error ps i = Some (pair_name a b, (x, y)).
Proof.
  intros M N1 N2. unfold pair_columns. destruct (Nat.eqb_spec (length outs) (length ins)) as [E|E].
  - eexists. split; [reflexivity|]. rewrite map2_length by auto. split; [lia|]. intros i Hi.
    destruct (nth_error ins i) as [[a x]|] eqn:Ea; [|apply nth_error_None in Ea; lia].
    destruct (nth_error outs i) as [[b y]|] eqn:Eb; [|apply nth_error_None in Eb; lia].
    exists a, x, b, y. unfold partner. rewrite E. rewrite nth_error_map2, Ea, Eb.
    destruct (Nat.eqb_spec (length ins) 1); [|auto]. replace i with 0%nat in * by lia. auto.
  - destruct outs as [|o [|o' outs]]; [easy| |].
    + eexists. split; [destruct ins as [|i0 [|i1 ins]]; reflexivity|]. rewrite map_length. split; [destruct ins; [easy|cbn; lia]|].
      intros i Hi. destruct (nth_error ins i) as [[a x]|] eqn:Ea; [|apply nth_error_None in Ea; lia].
      destruct o as [b y]. exists a, x, b, y. unfold partner. cbn [length Nat.eqb nth_error]. rewrite nth_error_map, Ea.
      destruct (Nat.eqb_spec (length ins) 1) as [E1|]; [cbn in E; lia|]. auto.
    + destruct ins as [|i0 [|i1 ins]]; [easy| |destruct M as [M|[M|M]]; cbn in *; lia].
      eexists. split; [reflexivity|]. rewrite map_length. split; [cbn; lia|]. intros i Hi.
      destruct (nth_error (o :: o' :: outs) i) as [[b y]|] eqn:Eb; [|apply nth_error_None in Eb; cbn in *; lia].
      destruct i0 as [a x]. exists a, x, b, y. unfold partner. rewrite nth_error_map, Eb. cbn [length Nat.eqb nth_error]. auto.
Qed.
Lemma pair_columns_bad (ins outs : list (string * list R)) : ~ matchable ins outs -> pair_columns ins outs = Err ValueError.
Proof.
  intro M. unfold pair_columns. destruct (Nat.eqb_spec (length outs) (length ins)) as [E|E]; [exfalso; apply M; left; auto|].
  destruct outs as [|o [|o' outs]]; [ |exfalso; apply M; right; right; reflexivity| ];
  destruct ins as [|i0 [|i1 ins]]; try reflexivity; exfalso; apply M; right; left; reflexivity.
Qed.

(*@ C48 the result has one column per pair: column i of one table with column i of the other, a single column with every column of the other; it is named in_out, and holds at each frequency k/(N dt) the H1 estimate and the coherence of that pair *)
Lemma tf_value : forall win dtr dt n ins outs navgs overlap window d N V K,
  windows win -> keeps_length dtr -> (2 <= n)%nat -> dt <> 0 -> welch_grid n navgs overlap N V -> segments_fit n N V K ->
  power (win window N) <> 0 -> Forall (fun col => length (snd col) = n) (ins ++ outs) ->
  matchable ins outs -> ins <> [] -> outs <> [] ->
  exists out, averaged_tf win dtr dt n (Frame ins) (Frame outs) (Z.of_nat navgs) overlap window d
      = Ok (map (fun k => INR k / (INR N * dt)) (seq 0 (N / 2 + 1)), out) /\
    length out = Nat.max (length ins) (length outs) /\
    forall i, (i < length out)%nat -> exists a x b y tf coh,
      partner ins i = Some (a, x) /\ partner outs i = Some (b, y) /\
      nth_error out i = Some ((a ++ "_" ++ b)%string, (tf, coh)) /\ length tf = (N / 2 + 1)%nat /\ length coh = (N / 2 + 1)%nat /\
      forall k, (k <= N / 2)%nat ->
        let X := fun s => seg_spectrum (win window N) (detrend_by dtr d) x N V s k in
        let Y := fun s => seg_spectrum (win window N) (detrend_by dtr d) y N V s k in
        nth k tf None = (if Req_EM_T (auto K X) 0 then None else Some (Cdiv (cross K X Y) (RtoC (auto K X)))) /\
        nth k coh None = (if Req_EM_T (auto K X * auto K Y) 0 then None else Some (Cmod (cross K X Y) ^ 2 / (auto K X * auto K Y))).
Proof.
  intros win dtr dt n ins outs navgs overlap window d N V K Hw Hd Hn D G F P Fa M N1 N2.
  pose proof G as (G1 & G2 & G3 & G4 & G5 & G6). unfold averaged_tf. rewrite sample_rate_ok by auto. cbn [rbind].
  destruct (pair_columns_ok ins outs M N1 N2) as (ps & E1 & E2 & E3). rewrite E1. cbn [rbind].
  rewrite (segmenting_ok _ _ _ _ _ G). cbn [rbind].
  rewrite (scale_ok win dt window N "density" (dt / power (win window N))) by (auto; left; auto). cbn [rbind]. rewrite freqs_eq by auto.
  assert (Np : ps <> []) by (intros ->; destruct ins; [contradiction|]; destruct outs; discriminate E2).
  replace (some_column ps) with (@Ok unit tt) by (destruct ps; [contradiction|reflexivity]). cbn [rbind].
  eexists. split; [reflexivity|]. rewrite map_length, E2. split; [reflexivity|]. intros i Hi.
  destruct (E3 i ltac:(lia)) as (a & x & b & y & P1 & P2 & P3). exists a, x, b, y. rewrite nth_error_map, P3. cbn [option_map].
  do 2 eexists. split; [exact P1|]. split; [exact P2|]. split; [reflexivity|]. rewrite !map_length, !seq_length, n_bins_eq.
  split; [reflexivity|]. split; [reflexivity|]. intros k Hk. cbv zeta. rewrite !nth_map_seq by lia.
  rewrite Forall_forall in Fa.
  assert (Lx : length x = n) by (apply (Fa (a, x)); apply in_or_app; left; unfold partner in P1; eapply nth_error_In; eauto).
  assert (Ly : length y = n) by (apply (Fa (b, y)); apply in_or_app; right; unfold partner in P2; eapply nth_error_In; eauto).
  apply (bins_eq win dtr Hw Hd (dt / power (win window N)) window d x y n N V K k); auto.
  unfold Rdiv. apply Rmult_integral_contrapositive. split; [auto|now apply Rinv_neq_0_compat].
Qed.
(*@ C48 a Series counts as the table holding only it; another output type is a ValueError, another input type is refused *)
Lemma tf_series : forall win dtr dt n nm x s navgs overlap window d,
  averaged_tf win dtr dt n (Ser nm x) s navgs overlap window d = averaged_tf win dtr dt n (Frame [(nm, x)]) s navgs overlap window d /\
  (s <> Other -> averaged_tf win dtr dt n s (Ser nm x) navgs overlap window d = averaged_tf win dtr dt n s (Frame [(nm, x)]) navgs overlap window d) /\
  ((2 <= n)%nat -> dt <> 0 -> s <> Other -> averaged_tf win dtr dt n s Other navgs overlap window d = Err ValueError) /\
  (forall r, averaged_tf win dtr dt n Other s navgs overlap window d <> Ok r).
Proof.
  intros win dtr dt n nm x s navgs overlap window d. split; [reflexivity|split; [|split]].
  - intros H. destruct s; [reflexivity|reflexivity|easy].
  - intros Hn D H. unfold averaged_tf. rewrite sample_rate_ok by auto. cbn [rbind]. destruct s; [reflexivity|reflexivity|easy].
  - discriminate.
Qed.
(*@ C48 any other combination of column counts is a ValueError *)
Lemma tf_counts : forall win dtr dt n ins outs navgs overlap window d, (2 <= n)%nat -> dt <> 0 ->
  length ins <> length outs -> length ins <> 1%nat -> length outs <> 1%nat ->
  averaged_tf win dtr dt n (Frame ins) (Frame outs) navgs overlap window d = Err ValueError.
Proof.
  intros win dtr dt n ins outs navgs overlap window d Hn D H1 H2 H3. unfold averaged_tf. rewrite sample_rate_ok by auto. cbn [rbind].
  rewrite pair_columns_bad; [reflexivity|]. unfold matchable. tauto.
Qed.
(*@ C48 compute_delays_tf rejects the same combinations, before looking at anything else *)
Lemma delays_tf_counts : forall ls win dtr dt n ins outs navgs cl fl method overlap window xc,
  ins <> [] -> outs <> [] -> length ins <> length outs -> length ins <> 1%nat -> length outs <> 1%nat ->
  compute_delays_tf ls win dtr dt n ins outs navgs cl fl method overlap window xc = Err ValueError.
Proof.
  intros ls win dtr dt n ins outs navgs cl fl method overlap window xc N1 N2 H1 H2 H3. unfold compute_delays_tf.
  destruct ins; [easy|]. destruct outs; [easy|].
  destruct (Nat.ltb_spec 1 (length (p :: ins))); [|cbn in *; lia]. destruct (Nat.ltb_spec 1 (length (p0 :: outs))); [|cbn in *; lia].
  destruct (Nat.eqb_spec (length (p :: ins)) (length (p0 :: outs))); [easy|reflexivity].
Qed.
(*@ C48 the remaining errors: too few rows, no time step, no segments, no columns *)
Lemma tf_errors : forall win dtr dt n ins outs navgs overlap window d,
  ((n < 2)%nat -> averaged_tf win dtr dt n (Frame ins) (Frame outs) navgs overlap window d = Err IndexError) /\
  ((2 <= n)%nat -> dt = 0 -> averaged_tf win dtr dt n (Frame ins) (Frame outs) navgs overlap window d = Err ZeroDivisionError) /\
  ((2 <= n)%nat -> dt <> 0 -> matchable ins outs -> ins <> [] -> outs <> [] -> navgs = 0%Z ->
     averaged_tf win dtr dt n (Frame ins) (Frame outs) navgs overlap window d = Err ZeroDivisionError) /\
  ((2 <= n)%nat -> dt <> 0 -> matchable ins outs -> ins <> [] -> outs <> [] ->
     ((navgs < 0 \/ Z.of_nat n < navgs)%Z \/ (0 < navgs)%Z /\ 1 <= overlap) ->
     averaged_tf win dtr dt n (Frame ins) (Frame outs) navgs overlap window d = Err ValueError) /\
  ((2 <= n)%nat -> dt <> 0 -> ins = [] \/ outs = [] -> navgs <> 0%Z ->
     averaged_tf win dtr dt n (Frame ins) (Frame outs) navgs overlap window d = Err ValueError).
Proof.
  intros win dtr dt n ins outs navgs overlap window d.
  destruct (psd_errors win dtr dt n [(""%string, [])] navgs overlap window d "density") as (Q1 & Q2 & Q3 & Q4 & Q5 & _ & Q6).
  cbn [averaged_psd] in *. unfold psd_frame, averaged_tf in *. repeat split.
  - intro H. unfold sample_rate. destruct (Nat.ltb_spec n 2); [reflexivity|lia].
  - intros H D. unfold sample_rate. destruct (Nat.ltb_spec n 2); [lia|]. destruct (Reqb_spec dt 0); [reflexivity|easy].
  - intros H D M N1 N2 Z0. specialize (Q3 H D Z0). rewrite sample_rate_ok in * by auto. cbn [rbind] in *.
    destruct (pair_columns_ok ins outs M N1 N2) as (ps & E1 & _). rewrite E1. cbn [rbind]. subst navgs. reflexivity.
  - intros H D M N1 N2 Z0. assert (Q : (let! (nperseg, _) := segmenting n navgs overlap in Ok nperseg) = Err ValueError).
    { destruct Z0 as [Z0|[Z0 Z1]]; [specialize (Q4 H D Z0); rename Q4 into Q|specialize (Q5 H D ltac:(lia) Z1); rename Q5 into Q];
      rewrite sample_rate_ok in Q by auto; cbn [rbind] in Q; clear - Q; destruct (segmenting n navgs overlap) as [[? ?]|e];
      [discriminate Q|injection Q as ->; reflexivity|discriminate Q|injection Q as ->; reflexivity]. }
    rewrite sample_rate_ok by auto. cbn [rbind]. destruct (pair_columns_ok ins outs M N1 N2) as (ps & E1 & _). rewrite E1. cbn [rbind].
    clear - Q. destruct (segmenting n navgs overlap) as [[? ?]|e]; [discriminate Q|injection Q as ->; reflexivity].
  - intros H D N1 Z0. specialize (Q6 H D Z0). rewrite sample_rate_ok in * by auto. cbn [rbind] in *.
    assert (P : pair_columns ins outs = Ok [] \/ pair_columns ins outs = Err ValueError).
    { unfold pair_columns. destruct N1 as [-> | ->]; [destruct outs as [|o [|o' outs]]|destruct ins as [|o [|o' ins]]]; cbn; auto. }
    destruct P as [-> | ->]; cbn [rbind]; [|reflexivity].
    destruct (segmenting n navgs overlap) as [[? ?]|e]; cbn [rbind] in *; [reflexivity|injection Q6 as ->; reflexivity].
Qed.
Definition collide_in : list (string * list R) := [("a"%string, [1; 0]); ("a_b"%string, [0; 1])].
Definition collide_out : list (string * list R) := [("b_c"%string, [0; 1]); ("c"%string, [1; 0])].
(*@ C48 distinct input names and distinct output names do not make the result names distinct *)
Lemma tf_names_refuted :
  ~ (forall win dtr dt n ins outs navgs overlap window d f out,
     NoDup (map fst ins) -> NoDup (map fst outs) ->
     averaged_tf win dtr dt n (Frame ins) (Frame outs) navgs overlap window d = Ok (f, out) -> NoDup (map fst out)).
Proof.
  intro H.
  assert (P1 : power (box_win "boxcar" 2) = 2) by (cbn; lra).
  destruct (tf_value box_win no_dtr 1 2 collide_in collide_out 1 (/ 2) "boxcar" None 2 1 1 box_windows no_dtr_keeps ltac:(lia) ltac:(lra) demo_grid demo_fit ltac:(rewrite P1; lra))
    as (out & E & L & Q); [repeat constructor|left; reflexivity|discriminate|discriminate|].
  assert (ND : NoDup (map fst out)).
  { eapply (H _ _ _ _ collide_in collide_out); [| |exact E]; repeat constructor; cbn; intuition discriminate. }
  cbn in L. destruct out as [|o1 [|o2 [|? ?]]]; try discriminate L.
  destruct (Q 0%nat ltac:(cbn; lia)) as (a & x & b & y & tf & coh & A1 & A2 & A3 & _).
  destruct (Q 1%nat ltac:(cbn; lia)) as (a' & x' & b' & y' & tf' & coh' & B1 & B2 & B3 & _).
  cbn in A1, A2, A3, B1, B2, B3. injection A1 as <- <-. injection A2 as <- <-. injection B1 as <- <-. injection B2 as <- <-.
  injection A3 as ->. injection B3 as ->. inversion ND as [|? ? NI _]. apply NI. cbn. left. reflexivity.
Qed.

(** [h], [c] are the transfer-function and coherence entries at bin [k] of result [i] for the pair (x, y). *)
Definition entry_at (win : string -> nat -> list R) (dtr : string -> list R -> list R) (dt : R) (n : nat) (x y : list R)
    (navgs : nat) (overlap : R) (window : string) (d : option string) (k : nat) (h : option C) (c : option R) : Prop :=
  exists f nm tf coh,
    averaged_tf win dtr dt n (Ser "x" x) (Ser "y" y) (Z.of_nat navgs) overlap window d = Ok (f, [(nm, (tf, coh))]) /\
    nth_error tf k = Some h /\ nth_error coh k = Some c.
Lemma entry_eq win dtr dt n x y navgs overlap window d N V K k h c :
  windows win -> keeps_length dtr -> (2 <= n)%nat -> dt <> 0 -> welch_grid n navgs overlap N V -> segments_fit n N V K ->
  power (win window N) <> 0 -> length x = n -> length y = n ->
  entry_at win dtr dt n x y navgs overlap window d k h c ->
  (k <= N / 2)%nat /\
  h = tf_entry K (fun s => seg_spectrum (win window N) (detrend_by dtr d) x N V s k) (fun s => seg_spectrum (win window N) (detrend_by dtr d) y N V s k) /\
  c = coh_entry K (fun s => seg_spectrum (win window N) (detrend_by dtr d) x N V s k) (fun s => seg_spectrum (win window N) (detrend_by dtr d) y N V s k).
Proof.
  intros Hw Hd Hn D G F P Lx Ly (f & nm & tf & coh & E & H1 & H2).
  change (averaged_tf win dtr dt n (Ser "x" x) (Ser "y" y) (Z.of_nat navgs) overlap window d)
    with (averaged_tf win dtr dt n (Frame [("x"%string, x)]) (Frame [("y"%string, y)]) (Z.of_nat navgs) overlap window d) in E.
  destruct (tf_value win dtr dt n [("x"%string, x)] [("y"%string, y)] navgs overlap window d N V K Hw Hd Hn D G F P)
    as (out & E' & L & Q); [repeat constructor; auto|left; reflexivity|discriminate|discriminate|].
  rewrite E in E'. injection E' as -> <-. destruct (Q 0%nat ltac:(cbn; lia)) as (a & x' & b & y' & tf' & coh' & A1 & A2 & A3 & A4 & A5 & A6).
  cbn in A1, A2, A3. injection A1 as <- <-. injection A2 as <- <-. injection A3 as _ <- <-.
  assert (Hk : (k <= N / 2)%nat) by (enough (k < length tf)%nat by lia; apply nth_error_Some; congruence).
  split; [exact Hk|]. specialize (A6 k Hk). cbv zeta in A6. destruct A6 as [A6 A7].
  rewrite (nth_error_nth _ _ None H1) in A6. rewrite (nth_error_nth _ _ None H2) in A7. split; assumption.
Qed.
(*@ C49 coherence lies between 0 and 1 wherever it is defined *)
Lemma coherence_range : forall win dtr dt n x y navgs overlap window d N V k h c,
  windows win -> keeps_length dtr -> (2 <= n)%nat -> dt <> 0 -> welch_grid n navgs overlap N V ->
  power (win window N) <> 0 -> length x = n -> length y = n ->
  entry_at win dtr dt n x y navgs overlap window d k h (Some c) -> 0 <= c <= 1.
Proof.
  intros win dtr dt n x y navgs overlap window d N V k h c Hw Hd Hn D G P Lx Ly E.
  pose proof G as (G1 & G2 & G3 & G4 & G5 & G6). destruct (segments_exist n N V G6 ltac:(nia)) as [K F].
  destruct (entry_eq win dtr dt n x y navgs overlap window d N V K k h (Some c) Hw Hd Hn D G F P Lx Ly E) as (_ & _ & E2).
  unfold coh_entry in E2. destruct (Req_EM_T _ 0) as [|Nz]; [discriminate|]. injection E2 as ->.
  set (X := fun s => seg_spectrum (win window N) (detrend_by dtr d) x N V s k) in *. set (Y := fun s => seg_spectrum (win window N) (detrend_by dtr d) y N V s k) in *.
  pose proof (auto_nonneg K X). pose proof (auto_nonneg K Y). pose proof (cross_bound K X Y). pose proof (pow2_ge_0 (Cmod (cross K X Y))).
  assert (0 < auto K X * auto K Y) by (assert (0 <= auto K X * auto K Y) by (now apply Rmult_le_pos); lra).
  split; [now apply Rle_mult_inv_pos|]. apply Rmult_le_reg_r with (auto K X * auto K Y); [auto|]. unfold Rdiv. rewrite Rmult_assoc, Rinv_l by auto. lra.
Qed.
(*@ C49 with a single segment coherence is 1 wherever it is defined, however unrelated the signals *)
Lemma coherence_single : forall win dtr dt n x y overlap window d N V k h c,
  windows win -> keeps_length dtr -> (2 <= n)%nat -> dt <> 0 -> welch_grid n 1 overlap N V ->
  power (win window N) <> 0 -> length x = n -> length y = n ->
  entry_at win dtr dt n x y 1 overlap window d k h (Some c) -> c = 1.
Proof.
  intros win dtr dt n x y overlap window d N V k h c Hw Hd Hn D G P Lx Ly E.
  pose proof G as (G1 & G2 & G3 & G4 & G5 & G6). assert (F : segments_fit n N V 1) by (unfold segments_fit; nia).
  destruct (entry_eq win dtr dt n x y 1 overlap window d N V 1 k h (Some c) Hw Hd Hn D G F P Lx Ly E) as (_ & _ & E2).
  unfold coh_entry in E2. destruct (Req_EM_T _ 0) as [|Nz]; [discriminate|]. injection E2 as ->.
  unfold auto, cross, cavg in *. rewrite !avg_one in *. rewrite <- surjective_pairing.
  rewrite Cmod_mult, Cmod_cj. field. split; intro Z; apply Nz; rewrite Z; ring.
Qed.
(*@ C49 the transfer function is the H1 estimate: among all complex gains it leaves the least mean squared residual over the segments, and that residual is the fraction 1 - coherence of the output spectrum *)
Lemma tf_least_squares : forall win dtr dt n x y navgs overlap window d N V K k H c,
  windows win -> keeps_length dtr -> (2 <= n)%nat -> dt <> 0 -> welch_grid n navgs overlap N V -> segments_fit n N V K ->
  power (win window N) <> 0 -> length x = n -> length y = n ->
  entry_at win dtr dt n x y navgs overlap window d k (Some H) c ->
  let X := fun s => seg_spectrum (win window N) (detrend_by dtr d) x N V s k in
  let Y := fun s => seg_spectrum (win window N) (detrend_by dtr d) y N V s k in
  let miss := fun g => avg K (fun s => Cmod (Cminus (Y s) (Cmult g (X s))) ^ 2) in
  (forall g, g <> H -> miss H < miss g) /\
  (forall v, c = Some v -> miss H = (1 - v) * auto K Y).
Proof.
  intros win dtr dt n x y navgs overlap window d N V K k H c Hw Hd Hn D G F P Lx Ly E X Y miss.
  destruct (entry_eq win dtr dt n x y navgs overlap window d N V K k (Some H) c Hw Hd Hn D G F P Lx Ly E) as (_ & E1 & E2).
  fold X Y in E1, E2. unfold tf_entry in E1. destruct (Req_EM_T (auto K X) 0) as [|Nz]; [discriminate|]. injection E1 as E1.
  pose proof (auto_nonneg K X) as A. unfold miss. split.
  - intros g Hg. rewrite !residual_identity by auto. rewrite <- E1. replace (Cminus H H) with (RtoC 0) by ring. rewrite Cmod_0.
    assert (0 < Cmod (Cminus g H)) by (apply Cmod_gt_0; intro Z; apply Hg; replace g with (Cplus (Cminus g H) H) by ring; rewrite Z; ring).
    assert (0 < Cmod (Cminus g H) ^ 2) by nra. assert (0 < auto K X * Cmod (Cminus g H) ^ 2) by (apply Rmult_lt_0_compat; lra). lra.
  - intros v ->. rewrite residual_identity by auto. rewrite <- E1. replace (Cminus H H) with (RtoC 0) by ring. rewrite Cmod_0.
    unfold coh_entry in E2. destruct (Req_EM_T _ 0) as [|Nz2]; [discriminate|]. injection E2 as ->. field. split; intro Z; apply Nz2; rewrite Z; ring.
Qed.
(*@ C49 where the output spectra are one constant multiple of the input spectra, the transfer function is that multiple and coherence is 1 *)
Lemma tf_recovers_gain : forall win dtr dt n x y navgs overlap window d N V K k h c g,
  windows win -> keeps_length dtr -> (2 <= n)%nat -> dt <> 0 -> welch_grid n navgs overlap N V -> segments_fit n N V K ->
  power (win window N) <> 0 -> length x = n -> length y = n ->
  entry_at win dtr dt n x y navgs overlap window d k h c ->
  (forall s, (s < K)%nat -> seg_spectrum (win window N) (detrend_by dtr d) y N V s k = Cmult g (seg_spectrum (win window N) (detrend_by dtr d) x N V s k)) ->
  (exists s, (s < K)%nat /\ seg_spectrum (win window N) (detrend_by dtr d) x N V s k <> RtoC 0) ->
  h = Some g /\ (g <> RtoC 0 -> c = Some 1) /\ (g = RtoC 0 -> c = None).
Proof.
  intros win dtr dt n x y navgs overlap window d N V K k h c g Hw Hd Hn D G F P Lx Ly E Hg [s0 [Hs0 Nz]].
  destruct (entry_eq win dtr dt n x y navgs overlap window d N V K k h c Hw Hd Hn D G F P Lx Ly E) as (_ & E1 & E2).
  set (X := fun s => seg_spectrum (win window N) (detrend_by dtr d) x N V s k) in *. set (Y := fun s => seg_spectrum (win window N) (detrend_by dtr d) y N V s k) in *.
  assert (A : auto K X <> 0) by (intro Z; apply Nz; apply (auto_zero K X); auto; lia).
  unfold tf_entry in E1. unfold coh_entry in E2. rewrite (cross_gain K X Y g Hg), (auto_gain K X Y g Hg) in *.
  assert (A2 : RtoC (auto K X) <> RtoC 0) by (intro Z; apply A; now apply RtoC_inj).
  destruct (Req_EM_T (auto K X) 0); [easy|]. split; [rewrite E1; f_equal; field; exact A2|]. split.
  - intro Gz. assert (Mg : Cmod g <> 0) by (intro Z; apply Gz; now apply Cmod_eq_0).
    destruct (Req_EM_T _ 0) as [Z|Z].
    + exfalso. apply Rmult_integral in Z. destruct Z as [Z|Z]; [easy|]. apply Rmult_integral in Z. destruct Z as [Z|Z]; [|easy].
      apply Mg. nra.
    + rewrite E2. f_equal. rewrite Cmod_mult, Cmod_R, Rpow_mult_distr, <- Rsqr_pow2 with (x := Rabs _), <- Rsqr_abs, Rsqr_pow2. field. auto.
  - intros ->. rewrite Cmod_0 in E2. destruct (Req_EM_T _ 0) as [Z|Z]; [exact E2|]. exfalso. apply Z. ring.
Qed.
(*@ C49 in particular an output equal to g times the input gives the transfer function g (and coherence 1) wherever the input has energy; and an entry is missing exactly where the input has none *)
Lemma tf_of_scaled : forall win dtr dt n x navgs overlap window d N V k h c g,
  windows win -> keeps_length dtr -> homogeneous dtr -> (2 <= n)%nat -> dt <> 0 -> welch_grid n navgs overlap N V ->
  power (win window N) <> 0 -> length x = n -> g <> 0 ->
  entry_at win dtr dt n x (map (Rmult g) x) navgs overlap window d k h c ->
  (h = None /\ c = None) \/ (h = Some (RtoC g) /\ c = Some 1).
Proof.
  intros win dtr dt n x navgs overlap window d N V k h c g Hw Hd Hh Hn D G P Lx Gz E.
  pose proof G as (G1 & G2 & G3 & G4 & G5 & G6). destruct (segments_exist n N V G6 ltac:(nia)) as [K F].
  assert (Ly : length (map (Rmult g) x) = n) by (now rewrite map_length).
  destruct (entry_eq win dtr dt n x _ navgs overlap window d N V K k h c Hw Hd Hn D G F P Lx Ly E) as (_ & E1 & E2).
  set (X := fun s => seg_spectrum (win window N) (detrend_by dtr d) x N V s k) in *.
  destruct (Req_EM_T (auto K X) 0) as [Z|Z].
  - left. unfold tf_entry in E1. unfold coh_entry in E2. rewrite Z in *. destruct (Req_EM_T 0 0); [|lra]. split; [exact E1|].
    rewrite E2. destruct (Req_EM_T _ 0) as [|N0]; [reflexivity|]. exfalso. apply N0. ring.
  - right. assert (Ex : exists s, (s < K)%nat /\ X s <> RtoC 0).
    { assert (Dec : forall m, (m <= K)%nat -> (exists s, (s < m)%nat /\ X s <> RtoC 0) \/ (forall s, (s < m)%nat -> X s = RtoC 0)).
      { induction m as [|m IH]; intro Hm; [right; intros; lia|]. destruct IH as [[s [Hs Ns]]|IH]; [lia|left; exists s; split; [lia|exact Ns]|].
        destruct (Ceq_dec (X m) (RtoC 0)) as [Em|Nm]; [|left; exists m; split; [lia|exact Nm]].
        right. intros s Hs. destruct (Nat.eq_dec s m) as [-> |]; [exact Em|apply IH; lia]. }
      destruct (Dec K (Nat.le_refl K)) as [Ex|All]; [exact Ex|]. exfalso. apply Z. unfold auto. rewrite (avg_ext K _ (fun _ => 0)).
      - unfold avg. rewrite Rsum_map_const. unfold Rdiv. ring.
      - intros s Hs. rewrite (All s Hs), Cmod_0. ring. }
    assert (Gc : RtoC g <> RtoC 0) by (intro Q; apply Gz; now apply RtoC_inj).
    destruct (tf_recovers_gain win dtr dt n x _ navgs overlap window d N V K k h c (RtoC g) Hw Hd Hn D G F P Lx Ly E) as (A1 & A2 & _); auto.
    intros s Hs. now apply seg_spectrum_scale.
Qed.
(*@ C49 every frequency bin of every admissible call has such an entry *)
Lemma tf_entry_exists : forall win dtr dt n x y navgs overlap window d N V k,
  windows win -> keeps_length dtr -> (2 <= n)%nat -> dt <> 0 -> welch_grid n navgs overlap N V ->
  power (win window N) <> 0 -> length x = n -> length y = n -> (k <= N / 2)%nat ->
  exists h c, entry_at win dtr dt n x y navgs overlap window d k h c.
Proof.
  intros win dtr dt n x y navgs overlap window d N V k Hw Hd Hn D G P Lx Ly Hk.
  pose proof G as (G1 & G2 & G3 & G4 & G5 & G6). destruct (segments_exist n N V G6 ltac:(nia)) as [K F].
  destruct (tf_value win dtr dt n [("x"%string, x)] [("y"%string, y)] navgs overlap window d N V K Hw Hd Hn D G F P)
    as (out & E' & L & Q); [repeat constructor; auto|left; reflexivity|discriminate|discriminate|].
  destruct (Q 0%nat ltac:(rewrite L; cbn; lia)) as (a & x' & b & y' & tf & coh & A1 & A2 & A3 & A4 & A5 & A6).
  cbn in L. destruct out as [|o [|? ?]]; try discriminate L. injection A3 as ->.
  destruct (nth_error tf k) as [h|] eqn:E1; [|apply nth_error_None in E1; lia].
  destruct (nth_error coh k) as [c|] eqn:E2; [|apply nth_error_None in E2; lia].
  exists h, c, (map (fun k => INR k / (INR N * dt)) (seq 0 (N / 2 + 1))), (a ++ "_" ++ b)%string, tf, coh. auto.
Qed.
Lemma demo_grid2 : welch_grid 4 2 0 2 0.
Proof. unfold welch_grid. cbn. repeat split; try lia; lra. Qed.
Lemma demo_fit2 : segments_fit 4 2 0 2.
Proof. unfold segments_fit. lia. Qed.
(*@ex C49 two segments whose output changes sign: transfer function and coherence are both 0 at frequency zero *)
Lemma coherence_example : entry_at box_win no_dtr 1 4 [1; 0; 1; 0] [1; 0; -1; 0] 2 0 "boxcar" None 0 (Some (RtoC 0)) (Some 0).
Proof.
  assert (P1 : power (box_win "boxcar" 2) <> 0) by (cbn; lra).
  destruct (tf_entry_exists box_win no_dtr 1 4 [1; 0; 1; 0] [1; 0; -1; 0] 2 0 "boxcar" None 2 0 0) as (h & c & E);
    [apply box_windows|apply no_dtr_keeps|lia|lra|apply demo_grid2|exact P1|reflexivity|reflexivity|lia|].
  destruct (entry_eq box_win no_dtr 1 4 [1; 0; 1; 0] [1; 0; -1; 0] 2 0 "boxcar" None 2 0 2 0 h c box_windows no_dtr_keeps ltac:(lia) ltac:(lra) demo_grid2 demo_fit2 P1 eq_refl eq_refl E) as (_ & E1 & E2).
  assert (Sp : forall x s, seg_spectrum (box_win "boxcar" 2) (detrend_by no_dtr None) x 2 0 s 0 = RtoC (nth (s * 2) x 0 + nth (s * 2 + 1) x 0)).
  { intros x s. unfold seg_spectrum, fourier, tapered, chunk, detrend_by, box_win. cbn -[cos sin PI nth plus mult].
    unfold Rdiv. rewrite !Rmult_0_r, !Rmult_0_l, cos_0, sin_0. unfold RtoC. cbn [nth seq map repeat]. rewrite Nat.add_0_r. f_equal; cbn [nth]; rewrite ?Nat.add_0_r; ring. }
  unfold tf_entry, coh_entry, auto, cross, cavg in E1, E2.
  assert (A1 : avg 2 (fun s => Cmod (seg_spectrum (box_win "boxcar" 2) (detrend_by no_dtr None) [1; 0; 1; 0] 2 0 s 0) ^ 2) = 1).
  { unfold avg. cbn [seq map]. rewrite !Sp, !mod2_parts. cbn. lra. }
  assert (A2 : avg 2 (fun s => Cmod (seg_spectrum (box_win "boxcar" 2) (detrend_by no_dtr None) [1; 0; -1; 0] 2 0 s 0) ^ 2) = 1).
  { unfold avg. cbn [seq map]. rewrite !Sp, !mod2_parts. cbn. lra. }
  rewrite A1 in E1. rewrite A1, A2 in E2.
  match type of E1 with context [Cdiv (?a, ?b) _] => assert (B1 : a = 0) by (unfold avg; cbn [seq map]; rewrite !Sp; cbn; lra); assert (B2 : b = 0) by (unfold avg; cbn [seq map]; rewrite !Sp; cbn; lra) end.
  rewrite B1, B2 in E1, E2. destruct (Req_EM_T 1 0); [lra|]. destruct (Req_EM_T (1 * 1) 0); [lra|].
  change (0, 0) with (RtoC 0) in *. rewrite Cmod_0 in E2.
  replace (Cdiv (RtoC 0) (RtoC 1)) with (RtoC 0) in E1 by (unfold Cdiv; ring). replace (0 ^ 2 / (1 * 1)) with 0 in E2 by field.
  now subst.
Qed.
