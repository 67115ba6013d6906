(** interp_tf (C50). *)
From Coq Require Import String.
From Verif Require Import Prelude PreludeFacts RealBase Fl RealStat Dft Phase Spec_welch M_cmv M_signal_corr M_signal_tf P_signal P_dft P_phase P_welch P_list.
From Coq Require Import Lra Psatz Permutation Sorted.
From Coquelicot Require Import Complex.
Local Open Scope R_scope.

Notation rows_t := (list (R * C)).
Lemma Rleb_total a b : Rleb a b = true \/ Rleb b a = true.
Proof. destruct (Rleb_spec a b); [auto|]. destruct (Rleb_spec b a); [auto|lra]. Qed.
Lemma Rleb_trans a b c : Rleb a b = true -> Rleb b c = true -> Rleb a c = true.
Proof. destruct (Rleb_spec a b); [|discriminate]. destruct (Rleb_spec b c); [|discriminate]. intros _ _. destruct (Rleb_spec a c); [auto|lra]. Qed.
Lemma by_freq_perm (rows : rows_t) : Permutation rows (by_freq rows).
Proof. apply sort_by_perm. Qed.
Lemma by_freq_sorted (rows : rows_t) : StronglySorted (fun p q => Rleb (fst p) (fst q) = true) (by_freq rows).
Proof. apply sort_by_sorted; [intros; apply Rleb_total|intros a b c; apply Rleb_trans]. Qed.
Lemma sorted_increasing (s : rows_t) : NoDup (map fst s) -> StronglySorted (fun p q => Rleb (fst p) (fst q) = true) s -> increasing (map fst s).
Proof.
  induction s as [|p s IH]; intros ND SS i j [L B]; [cbn in B; lia|].
  inversion ND as [|? ? NI ND']; subst. inversion SS as [|? ? SS' F]; subst. cbn [map length] in B |- *.
  destruct j as [|j]; [lia|]. destruct i as [|i]; cbn [nth].
  - assert (Hin : In (nth j (map fst s) 0) (map fst s)) by (apply nth_In; lia).
    apply in_map_iff in Hin. destruct Hin as [q [Eq Hq]]. rewrite Forall_forall in F. specialize (F q Hq).
    destruct (Rleb_spec (fst p) (fst q)) as [Le|]; [|discriminate]. rewrite <- Eq.
    destruct (Req_dec (fst p) (fst q)) as [E|]; [|lra]. exfalso. apply NI. rewrite E. now apply in_map.
  - apply IH; auto. lia.
Qed.
Lemma by_freq_increasing (rows : rows_t) : NoDup (map fst rows) -> increasing (map fst (by_freq rows)).
Proof.
  intro ND. apply sorted_increasing; [|apply by_freq_sorted].
  eapply Permutation_NoDup; [|exact ND]. apply Permutation_map, by_freq_perm.
Qed.
Lemma by_freq_order (rows rows' : rows_t) : NoDup (map fst rows) -> Permutation rows rows' -> by_freq rows = by_freq rows'.
Proof.
  intros ND P. apply (sorted_perm_unique (fun p q => Rleb (fst p) (fst q) = true)); [|apply by_freq_sorted|apply by_freq_sorted|].
  - intros a b Ha Hb L1 L2. destruct (Rleb_spec (fst a) (fst b)); [|discriminate]. destruct (Rleb_spec (fst b) (fst a)); [|discriminate].
    apply sort_by_In in Ha, Hb. assert (E : fst a = fst b) by lra.
    apply In_nth_error in Ha, Hb. destruct Ha as [i Hi]. destruct Hb as [j Hj].
    rewrite NoDup_nth_error in ND. assert (i = j).
    { apply ND; [rewrite map_length; apply nth_error_Some; congruence|]. rewrite !nth_error_map, Hi, Hj. cbn. now rewrite E. }
    congruence.
  - rewrite <- by_freq_perm, P. apply by_freq_perm.
Qed.
Lemma nth_fst (s : rows_t) i : nth i (map fst s) 0 = fst (nth i s (0, RtoC 0)).
Proof. apply (map_nth fst s (0, RtoC 0)). Qed.
Lemma nth_mapc {A} (g : C -> A) (s : rows_t) i d : (i < length s)%nat -> nth i (map (fun p => g (snd p)) s) d = g (snd (nth i s (0, RtoC 0))).
Proof. intro H. rewrite nth_indep with (d' := g (snd (0, RtoC 0))) by (now rewrite map_length). apply (map_nth (fun p => g (snd p))). Qed.
Lemma find_row (rows : rows_t) p : In p rows -> exists i, (i < length (by_freq rows))%nat /\ nth i (by_freq rows) (0, RtoC 0) = p.
Proof. intro H. apply In_nth. now apply sort_by_In. Qed.
Lemma interp_at_index (s : rows_t) i f : increasing (map fst s) -> (S i < length s)%nat ->
  fst (nth i s (0, RtoC 0)) <= f <= fst (nth (S i) s (0, RtoC 0)) ->
  let z0 := snd (nth i s (0, RtoC 0)) in let z1 := snd (nth (S i) s (0, RtoC 0)) in
  let t := (f - fst (nth i s (0, RtoC 0))) / (fst (nth (S i) s (0, RtoC 0)) - fst (nth i s (0, RtoC 0))) in
  let u := unwrap (map (fun p => angle (snd p)) s) in
  interp1d (map fst s) (map (fun p => Cmod (snd p)) s) f = Ok (Cmod z0 + t * (Cmod z1 - Cmod z0)) /\
  interp1d (map fst s) u f = Ok (nth i u 0 + t * (nth (S i) u 0 - nth i u 0)) /\
  Cmult (RtoC (Cmod z0)) (cis (nth i u 0)) = z0 /\ Cmult (RtoC (Cmod z1)) (cis (nth (S i) u 0)) = z1 /\
  Rabs (nth (S i) u 0 - nth i u 0) <= PI.
Proof.
  intros I Hi Hf z0 z1 t u. rewrite <- !nth_fst in Hf.
  rewrite !(interp1d_between _ _ i f I) by (auto; now rewrite map_length). rewrite !nth_fst.
  assert (A : forall j, (j < length s)%nat -> Cmult (RtoC (Cmod (snd (nth j s (0, RtoC 0))))) (cis (nth j u 0)) = snd (nth j s (0, RtoC 0))).
  { intros j Hj. unfold u. rewrite (same_turn_cis _ (angle (snd (nth j s (0, RtoC 0))))); [apply polar|].
    rewrite <- (nth_mapc angle s j 0 Hj). apply unwrap_turn. now rewrite map_length. }
  split; [f_equal; rewrite !nth_mapc by lia; reflexivity|]. split; [reflexivity|].
  split; [apply A; lia|]. split; [apply A; lia|]. apply unwrap_jump. now rewrite map_length.
Qed.

(*@ C50 at a frequency of the table interp_tf returns the table's complex value *)
Lemma interp_node : forall rows f z, NoDup (map fst rows) -> (2 <= length rows)%nat -> In (f, z) rows -> interp_tf_at rows f = Ok z.
Proof.
  intros rows f z ND L H. destruct (find_row rows (f, z) H) as [i [Hi E]]. pose proof (by_freq_increasing rows ND) as I.
  unfold interp_tf_at. set (s := by_freq rows) in *. assert (Ls : length s = length rows) by apply sort_by_length.
  replace f with (nth i (map fst s) 0) by (rewrite nth_fst, E; reflexivity).
  rewrite !interp1d_node by (auto; rewrite map_length; lia). cbn [rbind]. f_equal. rewrite nth_mapc, E by auto. cbn [snd].
  rewrite (same_turn_cis _ (angle z)); [apply polar|].
  replace (angle z) with (nth i (map (fun p => angle (snd p)) s) 0) by (rewrite nth_mapc, E by auto; reflexivity).
  apply unwrap_turn. now rewrite map_length.
Qed.
(*@ C50 between neighbouring frequencies the magnitude is interpolated linearly, and so is the phase, along an arc of at most half a turn joining the two values *)
Lemma interp_between : forall rows f0 z0 f1 z1 f, NoDup (map fst rows) -> In (f0, z0) rows -> In (f1, z1) rows -> f0 < f1 ->
  (forall g z, In (g, z) rows -> g <= f0 \/ f1 <= g) -> f0 <= f <= f1 ->
  exists p0 p1, z0 = Cmult (RtoC (Cmod z0)) (cis p0) /\ z1 = Cmult (RtoC (Cmod z1)) (cis p1) /\ Rabs (p1 - p0) <= PI /\
    let t := (f - f0) / (f1 - f0) in
    interp_tf_at rows f = Ok (Cmult (RtoC ((1 - t) * Cmod z0 + t * Cmod z1)) (cis ((1 - t) * p0 + t * p1))).
Proof.
  intros rows f0 z0 f1 z1 f ND H0 H1 Lf Gap Hf.
  destruct (find_row rows _ H0) as [i [Hi Ei]]. destruct (find_row rows _ H1) as [j [Hj Ej]].
  pose proof (by_freq_increasing rows ND) as I. unfold interp_tf_at. set (s := by_freq rows) in *.
  assert (Ij : j = S i).
  { assert (i < j)%nat.
    { destruct (Nat.lt_ge_cases i j) as [|Q]; [auto|]. exfalso. pose proof (increasing_le _ j i I ltac:(rewrite map_length; lia)) as Q2.
      rewrite !nth_fst, Ei, Ej in Q2. cbn in Q2. lra. }
    destruct (Nat.eq_dec j (S i)); [auto|]. exfalso.
    pose proof (I i (S i) ltac:(rewrite map_length; lia)) as Q1. pose proof (I (S i) j ltac:(rewrite map_length; lia)) as Q2.
    rewrite !nth_fst, Ei in Q1. rewrite !nth_fst, Ej in Q2. cbn in Q1, Q2.
    destruct (nth (S i) s (0, RtoC 0)) as [g z] eqn:Eg. cbn in Q1, Q2.
    assert (Hin : In (g, z) rows) by (apply (sort_by_In (fun p q => Rleb (fst p) (fst q))); fold (by_freq rows); fold s; rewrite <- Eg; apply nth_In; lia).
    destruct (Gap g z Hin); lra. }
  subst j. destruct (interp_at_index s i f I Hj) as (M & Ph & Z0 & Z1 & J); [rewrite Ei, Ej; exact Hf|].
  rewrite !Ei, !Ej in M. rewrite !Ei, !Ej in Ph. rewrite !Ei in Z0. rewrite !Ej in Z1. cbn [fst snd] in *. rewrite M, Ph. cbn [rbind].
  do 2 eexists. split; [symmetry; exact Z0|]. split; [symmetry; exact Z1|]. split; [exact J|]. cbv zeta. do 3 f_equal; ring.
Qed.
(*@ C50 so the interpolated magnitude stays between the two neighbouring magnitudes *)
Lemma interp_magnitude : forall rows f0 z0 f1 z1 f z, NoDup (map fst rows) -> In (f0, z0) rows -> In (f1, z1) rows -> f0 < f1 ->
  (forall g z, In (g, z) rows -> g <= f0 \/ f1 <= g) -> f0 <= f <= f1 -> interp_tf_at rows f = Ok z ->
  Rmin (Cmod z0) (Cmod z1) <= Cmod z <= Rmax (Cmod z0) (Cmod z1).
Proof.
  intros rows f0 z0 f1 z1 f z ND H0 H1 Lf Gap Hf E.
  destruct (interp_between rows f0 z0 f1 z1 f ND H0 H1 Lf Gap Hf) as (p0 & p1 & _ & _ & _ & Q). cbv zeta in Q. rewrite E in Q. injection Q as ->.
  set (t := (f - f0) / (f1 - f0)). assert (T : 0 <= t <= 1).
  { unfold t. split; [apply Rle_mult_inv_pos; lra|]. apply Rmult_le_reg_r with (f1 - f0); [lra|]. unfold Rdiv. rewrite Rmult_assoc, Rinv_l by lra. lra. }
  pose proof (Cmod_ge_0 z0). pose proof (Cmod_ge_0 z1). rewrite Cmod_mult, cis_mod, Rmult_1_r, Cmod_R, Rabs_pos_eq by nra.
  pose proof (Rmin_l (Cmod z0) (Cmod z1)). pose proof (Rmin_r (Cmod z0) (Cmod z1)). pose proof (Rmax_l (Cmod z0) (Cmod z1)). pose proof (Rmax_r (Cmod z0) (Cmod z1)). split; nra.
Qed.
(*@ C50 a frequency outside the table's range is a ValueError; inside it there is a value *)
Lemma interp_range : forall rows f, NoDup (map fst rows) -> (2 <= length rows)%nat ->
  ((forall g z, In (g, z) rows -> f < g) \/ (forall g z, In (g, z) rows -> g < f) -> interp_tf_at rows f = Err ValueError) /\
  ((exists g z, In (g, z) rows /\ g <= f) -> (exists g z, In (g, z) rows /\ f <= g) -> exists z, interp_tf_at rows f = Ok z).
Proof.
  intros rows f ND L. pose proof (by_freq_increasing rows ND) as I.
  assert (Ls : length (by_freq rows) = length rows) by apply sort_by_length.
  assert (Hin : forall i, (i < length rows)%nat -> In (nth i (by_freq rows) (0, RtoC 0)) rows).
  { intros i Hi. apply (sort_by_In (fun p q => Rleb (fst p) (fst q))). apply nth_In. fold (by_freq rows). lia. }
  split.
  - intro H. unfold interp_tf_at. rewrite interp1d_outside; [reflexivity|]. rewrite map_length, !nth_fst.
    destruct H as [H|H]; [left|right].
    + specialize (Hin 0%nat ltac:(lia)). destruct (nth 0 (by_freq rows) (0, RtoC 0)) as [g z] eqn:E. cbn. eapply H; eauto.
    + specialize (Hin (length rows - 1)%nat ltac:(lia)). rewrite Ls. destruct (nth (length rows - 1) (by_freq rows) (0, RtoC 0)) as [g z] eqn:E. cbn. eapply H; eauto.
  - intros (g & z & Hg & Lg) (g' & z' & Hg' & Lg'). destruct (find_row rows _ Hg) as [i [Hi Ei]]. destruct (find_row rows _ Hg') as [j [Hj Ej]].
    destruct (find_segment (map fst (by_freq rows)) f I) as (k & Hk & Kf); [rewrite map_length; lia| |].
    + split.
      * pose proof (increasing_le _ 0 i I ltac:(rewrite map_length; lia)) as Q. rewrite (nth_fst _ i), Ei in Q. cbn [fst] in Q. lra.
      * pose proof (increasing_le _ j (length (map fst (by_freq rows)) - 1) I ltac:(rewrite map_length; lia)) as Q. rewrite (nth_fst _ j), Ej in Q. cbn [fst] in Q. lra.
    + rewrite map_length in Hk. rewrite !nth_fst in Kf. destruct (interp_at_index (by_freq rows) k f I Hk Kf) as (M & Ph & _).
      unfold interp_tf_at. rewrite M, Ph. cbn [rbind]. eauto.
Qed.
(*@ C50 the order of the table's rows does not matter *)
Lemma interp_order : forall rows rows' f, NoDup (map fst rows) -> Permutation rows rows' -> interp_tf_at rows f = interp_tf_at rows' f.
Proof.
  intros rows rows' f ND P. unfold interp_tf_at. now rewrite (by_freq_order rows rows' ND P).
Qed.
(*@ C50 unwrapping moves every phase by whole turns, keeps the first, leaves jumps of at most half a turn, and changes nothing when the jumps were already smaller *)
Lemma unwrap_laws : forall l,
  length (unwrap l) = length l /\ nth 0 (unwrap l) 0 = nth 0 l 0 /\
  (forall i, (i < length l)%nat -> exists k, nth i (unwrap l) 0 = nth i l 0 + 2 * PI * IZR k) /\
  (forall i, (S i < length l)%nat -> Rabs (nth (S i) (unwrap l) 0 - nth i (unwrap l) 0) <= PI) /\
  ((forall i, (S i < length l)%nat -> Rabs (nth (S i) l 0 - nth i l 0) < PI) -> unwrap l = l).
Proof.
  intro l. split; [apply unwrap_length|]. split; [apply unwrap_first|]. split; [apply unwrap_turn|]. split; [apply unwrap_jump|].
  intro H. apply nth_ext with (d := 0) (d' := 0); [apply unwrap_length|]. intros i Hi. rewrite unwrap_length in Hi.
  rewrite (unwrap_recovers l (fun i => nth i l 0)); auto; [lra|]. intros. apply same_turn_refl.
Qed.
(*@ C50 a list of frequencies: each is interpolated on its own and the whole call fails as soon as one lies outside *)
Lemma interp_list : forall new rows,
  (forall out, interp_tf new rows = Ok out <-> map fst out = new /\ Forall (fun p => interp_tf_at rows (fst p) = Ok (snd p)) out) /\
  ((exists f e, In f new /\ interp_tf_at rows f = Err e) -> exists e, interp_tf new rows = Err e).
Proof.
  intros new rows. unfold interp_tf. split.
  - induction new as [|f new IH]; intro out; cbn [mapM].
    + split; [intro E; injection E as <-; split; constructor|]. intros [E _]. destruct out; [reflexivity|discriminate].
    + destruct (interp_tf_at rows f) as [z|e] eqn:Ef; cbn [rmap rbind].
      * destruct (mapM _ new) as [o|e'] eqn:Eo; cbn [rbind].
        -- destruct (IH o) as [IH1 _]. destruct (IH1 eq_refl) as [A B]. split.
           ++ intro E. injection E as <-. cbn. rewrite A. split; [reflexivity|]. constructor; auto.
           ++ intros [E F]. destruct out as [|[g y] out]; [discriminate|]. cbn in E. injection E as -> E. inversion F as [|? ? Q1 Q2]; subst. cbn in Q1. rewrite Ef in Q1. injection Q1 as ->.
              f_equal. f_equal. destruct (IH out) as [_ IH2]. specialize (IH2 (conj E Q2)). congruence.
        -- split; [discriminate|]. intros [E F]. destruct out as [|[g y] out]; [discriminate|]. cbn in E. injection E as -> E. inversion F; subst.
           destruct (IH out) as [_ IH2]. exfalso. specialize (IH2 (conj eq_refl H2)). discriminate.
      * split; [discriminate|]. intros [E F]. destruct out as [|[g y] out]; [discriminate|]. cbn in E. injection E as -> E. inversion F; subst. cbn in H1. congruence.
  - intros (f & e & Hin & Ef). induction new as [|g new IH]; [easy|]. cbn [mapM]. destruct (interp_tf_at rows g) as [z|e'] eqn:Eg; cbn [rmap rbind]; [|eauto].
    destruct Hin as [-> |Hin]; [congruence|]. destruct (IH Hin) as [e2 E2]. rewrite E2. cbn. eauto.
Qed.
(*@ C50 a DataFrame is interpolated column by column, keeping names and order *)
Lemma interp_frame_cols : forall new freqs cols out,
  interp_tf_frame new freqs cols = Ok out <->
  map fst out = map fst cols /\
  forall i nm zs r, nth_error cols i = Some (nm, zs) -> nth_error out i = Some (nm, r) -> interp_tf new (combine freqs zs) = Ok r.
Proof.
  intros new freqs cols. unfold interp_tf_frame. induction cols as [|[nm zs] cols IH]; intro out; cbn [mapM].
  - split; [intro E; injection E as <-; split; [reflexivity|]; intros [|i]; discriminate|]. intros [E _]. destruct out; [reflexivity|discriminate].
  - cbn [fst snd]. destruct (interp_tf new (combine freqs zs)) as [r|e] eqn:Er; cbn [rmap rbind].
    + destruct (mapM _ cols) as [o|e] eqn:Eo; cbn [rbind].
      * destruct (IH o) as [IH1 _]. destruct (IH1 eq_refl) as [A B]. split.
        -- intro E. injection E as <-. cbn. rewrite A. split; [reflexivity|]. intros [|i] nm' zs' r'; cbn; [congruence|apply B].
        -- intros [E F]. destruct out as [|[nm' r'] out]; [discriminate|]. cbn in E. injection E as -> E.
           pose proof (F 0%nat nm zs r' eq_refl eq_refl) as F0. rewrite Er in F0. injection F0 as ->. f_equal. f_equal.
           destruct (IH out) as [_ IH2]. enough (Ok o = Ok out) by congruence. apply IH2. split; [exact E|]. intros i. apply (F (S i)).
      * split; [discriminate|]. intros [E F]. destruct out as [|[nm' r'] out]; [discriminate|]. cbn in E. injection E as -> E. exfalso.
        destruct (IH out) as [_ IH2]. enough (Err (A := list (string * list (R * C))) e = Ok out) by discriminate. apply IH2. split; [exact E|]. intros i. apply (F (S i)).
    + split; [discriminate|]. intros [E F]. destruct out as [|[nm' r'] out]; [discriminate|]. cbn in E. injection E as -> E.
      pose proof (F 0%nat nm zs r' eq_refl eq_refl) as F0. rewrite Er in F0. discriminate.
Qed.
(*@ex C50 a table given in falling frequency order, read at a node and half-way (where the phase turns by a quarter) *)
Lemma interp_example :
  interp_tf_at [(2, (0, 3)); (0, RtoC 1)] 2 = Ok (0, 3) /\ exists z, interp_tf_at [(2, (0, 3)); (0, RtoC 1)] 1 = Ok z /\ Cmod z = 2.
Proof.
  assert (ND : NoDup (map fst [(2, (0, 3)); (0, RtoC 1)])) by (repeat constructor; cbn; intuition lra).
  split; [apply interp_node; cbn; auto|].
  destruct (interp_between [(2, (0, 3)); (0, RtoC 1)] 0 (RtoC 1) 2 (0, 3) 1 ND) as (p0 & p1 & _ & _ & _ & E); cbn [In]; auto; try lra.
  { intros g z [Q|[Q|[]]]; injection Q as <- _; lra. }
  cbv zeta in E. rewrite E. eexists. split; [reflexivity|]. rewrite Cmod_mult, cis_mod.
  assert (M0 : Cmod (RtoC 1) = 1) by apply Cmod_1. assert (M1 : Cmod (0, 3) = 3).
  { unfold Cmod. cbn [fst snd]. replace (0 ^ 2 + 3 ^ 2) with (3 ^ 2) by ring. apply sqrt_pow2. lra. }
  rewrite M0, M1, Cmod_R. replace ((1 - (1 - 0) / (2 - 0)) * 1 + (1 - 0) / (2 - 0) * 3) with 2 by field. rewrite Rabs_pos_eq by lra. ring.
Qed.
