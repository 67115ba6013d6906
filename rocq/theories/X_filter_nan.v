(** Missing values, tables and whole numbers in the filter functions. *)
From Coq Require Import String.
From Verif Require Import Prelude PreludeFacts RealBase Fl RealStat Dft Phase M_spatial M_cmv M_signal_corr M_signal_tf M_signal_plant Spec_spatial Spec_welch Spec_plant P_list P_plane P_dft P_welch P_signal P_phase P_fft P_parseval P_plant P_cam X_signal_interp P_filter X_signal_filter X_signal_cam X_signal_plant X_signal_camsite Spec_cam_exact X_cam_exact M_filter_nan.
From Coquelicot Require Import Complex.
From Coq Require Import Lra Psatz Permutation Sorted.
Local Open Scope R_scope.

(** The filter with its gaps filled by [h]. *)
Definition filled (h : R -> C) (rows : list (R * option C)) : list (R * C) :=
  map (fun r => (fst r, match snd r with Some z => z | None => h (fst r) end)) rows.
(** Frequency [g] is read from two rows below the gap at [f0]: there are rows at a < b < f0 with g <= b. *)
Definition clear_of (rows : list (R * option C)) (f0 g : R) : Prop :=
  exists a b, In a (map fst rows) /\ In b (map fst rows) /\ a < b < f0 /\ g <= b.
Definition spans (rows : list (R * option C)) (f : R) : Prop :=
  (exists g, In g (map fst rows) /\ g <= f) /\ (exists g, In g (map fst rows) /\ f <= g).

(** ** Sorting *)
Notation le_fst := (fun p q => Rleb (fst p) (fst q)).
Lemma insert_filled h p l : insert_by le_fst (fst p, match snd p with Some z => z | None => h (fst p) end) (filled h l) = filled h (insert_by le_fst p l).
Proof.
  induction l as [|q l IH]; [reflexivity|]. cbn [filled map insert_by fst]. destruct (Rleb (fst p) (fst q)); [reflexivity|].
  cbn [map]. f_equal. exact IH.
Qed.
Lemma sort_filled h rows : by_freq (filled h rows) = filled h (sort_by le_fst rows).
Proof.
  induction rows as [|p l IH]; [reflexivity|]. unfold by_freq in *. cbn [filled map sort_by fold_right]. fold (filled h l).
  change (fold_right (insert_by le_fst) [] (filled h l)) with (sort_by le_fst (filled h l)). rewrite IH. apply insert_filled.
Qed.
Lemma filled_fst h rows : map fst (filled h rows) = map fst rows.
Proof. unfold filled. rewrite map_map. reflexivity. Qed.

(** ** Unwrapping *)
Lemma unwrap_from_fill l : forall l' prev c i, length l' = length l -> (i < length l)%nat -> (forall j, (j <= i)%nat -> nth j l None = Some (nth j l' 0)) ->
  nth i (unwrap_from_nan prev c l) None = Some (nth i (unwrap_from prev c l') 0).
Proof.
  induction l as [|a l IH]; intros [|a' l'] prev c i L Hi H; try (cbn in *; lia).
  pose proof (H 0%nat ltac:(lia)) as H0. cbn in H0. subst a. destruct i as [|i]; [reflexivity|]. cbn.
  apply IH; [cbn in L; lia|cbn in Hi; lia|]. intros j Hj. apply (H (S j)). lia.
Qed.
Lemma unwrap_fill l l' i : length l' = length l -> (i < length l)%nat -> (forall j, (j <= i)%nat -> nth j l None = Some (nth j l' 0)) ->
  nth i (unwrap_nan l) None = Some (nth i (unwrap l') 0).
Proof.
  destruct l as [|a l]; [cbn; lia|]. destruct l' as [|a' l']; [cbn; lia|]. intros L Hi H.
  pose proof (H 0%nat ltac:(lia)) as H0. cbn in H0. subst a. destruct i as [|i]; [reflexivity|]. cbn.
  apply unwrap_from_fill; [cbn in L; lia|cbn in Hi; lia|]. intros j Hj. apply (H (S j)). lia.
Qed.
Lemma nth_all_none {A B} (l : list A) i : nth i (map (fun _ => @None B) l) None = None.
Proof. revert i. induction l; intros [|i]; cbn; auto. Qed.
Lemma unwrap_from_hole l : forall prev c i j, (j <= i < length l)%nat -> nth j l None = None -> nth i (unwrap_from_nan prev c l) None = None.
Proof.
  induction l as [|[a|] l IH]; intros prev c i j Hi H; [cbn in Hi; lia| |].
  - destruct j as [|j]; [discriminate|]. destruct i as [|i]; [lia|]. cbn. apply (IH _ _ i j); [cbn in Hi; lia|exact H].
  - apply (nth_all_none (None :: l)).
Qed.
Lemma unwrap_hole l i j : (j <= i < length l)%nat -> nth j l None = None -> nth i (unwrap_nan l) None = None.
Proof.
  destruct l as [|[a|] l]; intros Hi H; [cbn in Hi; lia| |apply (nth_all_none (None :: l))].
  destruct j as [|j]; [discriminate|]. destruct i as [|i]; [lia|]. cbn. apply (unwrap_from_hole _ _ _ i j); [cbn in Hi; lia|exact H].
Qed.

(** ** One frequency *)
Definition d0 : R * option C := (0, None).
Lemma nth_opt {A} (g : C -> A) (s : list (R * option C)) i : (i < length s)%nat -> nth i (map (fun p => option_map g (snd p)) s) None = option_map g (snd (nth i s d0)).
Proof. intro H. rewrite nth_indep with (d' := option_map g (snd d0)) by (now rewrite map_length). apply (map_nth (fun p => option_map g (snd p))). Qed.
Lemma nth_filled {A} (g : C -> A) h (s : list (R * option C)) i d z : (i < length s)%nat -> snd (nth i s d0) = Some z -> nth i (map (fun p => g (snd p)) (filled h s)) d = g z.
Proof.
  intros H E. unfold filled. rewrite map_map. cbn [snd]. set (k := fun x : R * option C => g match snd x with Some z => z | None => h (fst x) end).
  rewrite nth_indep with (d' := k d0) by (now rewrite map_length). rewrite (map_nth k). unfold k. now rewrite E.
Qed.
Lemma interp_at_clear rows g h : let s := sort_by le_fst rows in let i := seg_of (map fst s) g in
  ~ (g < nth 0 (map fst s) 0 \/ nth (length s - 1) (map fst s) 0 < g) -> (i < length s)%nat ->
  (forall j, (j <= i)%nat -> snd (nth j s d0) <> None) ->
  exists z, interp_tf_nan_at rows g = Ok (Some z) /\ interp_tf_at (filled h rows) g = Ok z.
Proof.
  intros s i Hr Hi Hs. unfold interp_tf_nan_at, interp_tf_at. fold s. rewrite sort_filled. fold s. rewrite filled_fst.
  assert (G : forall j, (j <= i)%nat -> exists z, snd (nth j s d0) = Some z).
  { intros j Hj. specialize (Hs j Hj). destruct (snd (nth j s d0)) as [z|]; [now exists z|congruence]. }
  assert (Len : length (filled h s) = length s) by (unfold filled; apply map_length).
  assert (U : forall j, (j <= i)%nat -> nth j (unwrap_nan (map (fun p => option_map angle (snd p)) s)) None = Some (nth j (unwrap (map (fun p => angle (snd p)) (filled h s))) 0)).
  { intros j Hj. apply unwrap_fill; [rewrite !map_length; exact Len|rewrite map_length; lia|]. intros k Hk. destruct (G k ltac:(lia)) as [z Ez].
    rewrite nth_opt by lia. rewrite Ez. cbn. f_equal. symmetry. apply (nth_filled angle); [lia|exact Ez]. }
  unfold interp1d_nan, interp1d. rewrite map_length.
  destruct (Rltb_spec g (nth 0 (map fst s) 0)) as [X|_]; [tauto|]. destruct (Rltb_spec (nth (length s - 1) (map fst s) 0) g) as [X|_]; [tauto|]. cbn [orb rbind].
  fold i. destruct (G i ltac:(lia)) as [z1 E1]. destruct (G (i - 1)%nat ltac:(lia)) as [z0 E0].
  rewrite !nth_opt by lia. rewrite E0, E1, !U by lia. cbn [option_map]. eexists. split; [reflexivity|].
  unfold lerp_at. rewrite !(nth_filled Cmod h s _ 0 z1), !(nth_filled Cmod h s _ 0 z0) by (try lia; assumption). reflexivity.
Qed.
Lemma interp_at_hole rows g j : let s := sort_by le_fst rows in let i := seg_of (map fst s) g in
  ~ (g < nth 0 (map fst s) 0 \/ nth (length s - 1) (map fst s) 0 < g) -> (j <= i < length s)%nat ->
  snd (nth j s d0) = None -> interp_tf_nan_at rows g = Ok None.
Proof.
  intros s i Hr Hi Hs. unfold interp_tf_nan_at. fold s. unfold interp1d_nan. rewrite map_length.
  destruct (Rltb_spec g (nth 0 (map fst s) 0)) as [X|_]; [tauto|]. destruct (Rltb_spec (nth (length s - 1) (map fst s) 0) g) as [X|_]; [tauto|]. cbn [orb rbind].
  fold i. rewrite (unwrap_hole _ i j); [|rewrite map_length; lia|rewrite nth_opt by lia; now rewrite Hs].
  generalize (nth (i - 1) (unwrap_nan (map (fun p => option_map angle (snd p)) s)) None). intros [u|]; cbn [rbind];
    match goal with |- Ok (match ?x with Some _ => _ | None => _ end) = _ => destruct x end; reflexivity.
Qed.

Lemma interp_outside_same rows h g e : interp_tf_at (filled h rows) g = Err e <-> interp_tf_nan_at rows g = Err e.
Proof.
  unfold interp_tf_nan_at, interp_tf_at. rewrite sort_filled, filled_fst. unfold interp1d, interp1d_nan.
  destruct (_ || _)%bool; cbn [rbind]; split; intro H; (discriminate H || (injection H as <-; reflexivity)).
Qed.

(** ** The whole call *)
Lemma all_present_some {A} (l : list A) : all_present (map Some l) = Some l.
Proof. induction l as [|a l IH]; [reflexivity|]. cbn. now rewrite IH. Qed.
Lemma all_present_none {A} (l : list (option A)) : In None l -> all_present l = None.
Proof. induction l as [|[a|] l IH]; intro I; [destruct I| |reflexivity]. destruct I as [E|I]; [discriminate|]. cbn. now rewrite IH. Qed.
Lemma agree dt x rows rows' : map fst rows = map fst rows' ->
  (rows <> [] -> forall g, In g (fftfreq (length x) dt) -> interp_tf_nan_at rows g = rmap Some (interp_tf_at rows' g)) ->
  apply_filter_nan dt (map Some x) rows = rmap (map Some) (apply_filter dt x rows').
Proof.
  intros Ef H. unfold apply_filter_nan, apply_filter. rewrite map_length. destruct (Nat.ltb (length x) 2); [reflexivity|]. destruct (Reqb dt 0); [reflexivity|].
  destruct rows as [|r0 rows]; destruct rows' as [|r0' rows']; try discriminate; [reflexivity|].
  rewrite <- Ef. destruct (Rltb _ _); [reflexivity|]. specialize (H ltac:(discriminate)). set (R1 := r0 :: rows) in *. set (R2 := r0' :: rows') in *. set (fv := fftfreq (length x) dt) in *.
  assert (E : mapM (interp_tf_nan_at R1) fv = rmap (map (fun p => Some (snd p))) (interp_tf fv R2)).
  { unfold interp_tf. clearbody fv. induction fv as [|g l IH]; [reflexivity|]. cbn [mapM]. rewrite (H g) by now left. rewrite IH by (intros; apply H; now right).
    destruct (interp_tf_at R2 g) as [z|e]; [|reflexivity]. cbn [rmap rbind]. destruct (mapM (fun f : R => rmap (fun z : C => (f, z)) (interp_tf_at R2 f)) l); reflexivity. }
  rewrite E. destruct (interp_tf fv R2) as [hs|e]; [|reflexivity]. cbn [rmap rbind]. rewrite all_present_some.
  rewrite <- (map_map snd Some), all_present_some. do 5 f_equal.
  unfold map2. set (u := map _ (fft _)). clearbody u. clear. revert hs. induction u as [|a u IH]; intros [|b hs]; try reflexivity. cbn. f_equal. apply IH.
Qed.

(*@ C123 Without missing values it is the call of C58. *)
Lemma filter_plain : forall dt x rows,
  apply_filter_nan dt (map Some x) (map (fun r => (fst r, Some (snd r))) rows) = rmap (map Some) (apply_filter dt x rows).
Proof.
  intros dt x rows. set (R1 := map _ rows).
  assert (Fl : filled (fun _ => RtoC 0) R1 = rows).
  { unfold filled, R1. rewrite map_map. cbn. rewrite <- (map_id rows) at 2. apply map_ext. now intros [f z]. }
  assert (Ef : map fst R1 = map fst rows) by (unfold R1; rewrite map_map; reflexivity).
  apply agree; [exact Ef|]. intros NE g _.
  destruct (interp_tf_at rows g) as [z|e] eqn:E.
  - set (s := sort_by le_fst R1).
    assert (Ls : length s = length R1) by apply sort_by_length. assert (Pl : (0 < length R1)%nat) by (destruct R1; [congruence|cbn; lia]).
    destruct (interp_at_clear R1 g (fun _ => RtoC 0)) as (z' & A & B).
    + intro X. rewrite <- Fl in E. unfold interp_tf_at in E. rewrite sort_filled, filled_fst in E. fold s in E, X.
      rewrite interp1d_outside in E; [discriminate|]. rewrite map_length. exact X.
    + unfold seg_of. rewrite map_length. fold s. lia.
    + fold s. intros j Hj Hn. assert (Lj : (j < length s)%nat) by (unfold seg_of in Hj; rewrite map_length in Hj; fold s in Hj; lia).
      assert (I : In (nth j s d0) R1) by (apply (sort_by_In le_fst); apply nth_In; exact Lj).
      unfold R1 in I. apply in_map_iff in I. destruct I as (r & Er & _). rewrite <- Er in Hn. discriminate.
    + rewrite Fl, E in B. injection B as ->. exact A.
  - cbn. apply (interp_outside_same R1 (fun _ => RtoC 0)). now rewrite Fl.
Qed.

(** ** Which rows a frequency reads *)
Lemma sorted_rows_increasing (rows : list (R * option C)) : NoDup (map fst rows) -> increasing (map fst (sort_by le_fst rows)).
Proof. intro ND. rewrite <- (filled_fst (fun _ => RtoC 0)), <- sort_filled. apply by_freq_increasing. now rewrite filled_fst. Qed.
Lemma seg_reads xs g : increasing xs -> (2 <= length xs)%nat -> nth 0 xs 0 <= g <= nth (length xs - 1) xs 0 ->
  (1 <= seg_of xs g < length xs)%nat /\ g <= nth (seg_of xs g) xs 0 /\
  (forall j, (1 <= j < length xs)%nat -> g <= nth j xs 0 -> (seg_of xs g <= j)%nat).
Proof.
  intros I L [A B]. set (c := length (filter (fun t => Rltb t g) xs)).
  assert (Cc : exists k, (k < length xs)%nat /\ (forall i, (i < k)%nat -> nth i xs 0 < g) /\ (forall i, (k <= i < length xs)%nat -> g <= nth i xs 0)).
  { destruct (find_segment xs g I L (conj A B)) as (i & Hi & Hg). destruct (Req_dec g (nth i xs 0)) as [E|E].
    - exists i. split; [lia|]. split; intros j Hj; [rewrite E; apply I; lia|rewrite E; apply increasing_le; auto; lia].
    - exists (S i). split; [lia|]. split; intros j Hj.
      + pose proof (increasing_le xs j i I ltac:(lia)). lra.
      + pose proof (increasing_le xs (S i) j I ltac:(lia)). lra. }
  destruct Cc as (k & Hk & K1 & K2). assert (Ec : c = k) by (apply count_below; auto; lia).
  assert (Es : seg_of xs g = Nat.max 1 k) by (unfold seg_of; fold c; rewrite Ec; lia). rewrite Es.
  split; [lia|]. split; [apply K2; lia|]. intros j Hj Hg.
  destruct (Nat.lt_ge_cases j k) as [X|X]; [specialize (K1 j X); lra|lia].
Qed.
Lemma row_index (rows : list (R * option C)) r : In r rows -> exists j, (j < length rows)%nat /\ nth j (sort_by le_fst rows) d0 = r.
Proof. intro H. apply (sort_by_In le_fst) in H. apply (In_nth _ _ d0) in H. now rewrite sort_by_length in H. Qed.
Lemma nth_fst_opt (s : list (R * option C)) i : nth i (map fst s) 0 = fst (nth i s d0).
Proof. apply (map_nth fst s d0). Qed.
Lemma in_span rows g : NoDup (map fst rows) -> (2 <= length rows)%nat -> spans rows g -> let s := sort_by le_fst rows in
  nth 0 (map fst s) 0 <= g <= nth (length s - 1) (map fst s) 0.
Proof.
  intros ND L [(a & Ia & La) (b & Ib & Lb)] s. pose proof (sorted_rows_increasing rows ND) as I. fold s in I.
  assert (Ls : length s = length rows) by apply sort_by_length.
  apply in_map_iff in Ia, Ib. destruct Ia as (ra & Ea & Ia). destruct Ib as (rb & Eb & Ib).
  destruct (row_index rows ra Ia) as (i & Hi & Ei). destruct (row_index rows rb Ib) as (j & Hj & Ej). fold s in Ei, Ej.
  assert (A : nth i (map fst s) 0 = a) by (rewrite nth_fst_opt; congruence). assert (B : nth j (map fst s) 0 = b) by (rewrite nth_fst_opt; congruence).
  assert (M : length (map fst s) = length s) by apply map_length.
  pose proof (increasing_le _ 0 i I ltac:(lia)). pose proof (increasing_le _ j (length s - 1) I ltac:(lia)). lra.
Qed.
Lemma clear_index rows g j0 : NoDup (map fst rows) -> (2 <= length rows)%nat -> spans rows g -> (j0 < length rows)%nat -> let s := sort_by le_fst rows in
  clear_of rows (fst (nth j0 s d0)) g <-> (seg_of (map fst s) g < j0)%nat.
Proof.
  intros ND L Sp Hj s. pose proof (sorted_rows_increasing rows ND) as I. fold s in I.
  assert (Ls : length s = length rows) by apply sort_by_length. assert (M : length (map fst s) = length s) by apply map_length.
  pose proof (in_span rows g ND L Sp) as Rg. cbv zeta in Rg. fold s in Rg. rewrite <- M in Rg.
  destruct (seg_reads (map fst s) g I ltac:(lia) Rg) as ([S1 S2] & S3 & S4). rewrite <- nth_fst_opt. split.
  - intros (a & b & Ia & Ib & [Lab Lb] & Lg). apply in_map_iff in Ia, Ib. destruct Ia as (ra & Ea & Ia). destruct Ib as (rb & Eb & Ib).
    destruct (row_index rows ra Ia) as (i & Hi & Ei). destruct (row_index rows rb Ib) as (j & Hjb & Ej). fold s in Ei, Ej.
    assert (A : nth i (map fst s) 0 = a) by (rewrite nth_fst_opt; congruence). assert (B : nth j (map fst s) 0 = b) by (rewrite nth_fst_opt; congruence).
    assert (i < j)%nat. { destruct (Nat.lt_ge_cases i j) as [|X]; [assumption|]. pose proof (increasing_le _ j i I ltac:(lia)). lra. }
    assert (j < j0)%nat. { destruct (Nat.lt_ge_cases j j0) as [|X]; [assumption|]. pose proof (increasing_le _ j0 j I ltac:(lia)). lra. }
    specialize (S4 j ltac:(lia) ltac:(lra)). lia.
  - intro H. set (i := seg_of (map fst s) g) in *. exists (nth (i - 1) (map fst s) 0), (nth i (map fst s) 0).
    assert (Inr : forall k, (k < length s)%nat -> In (nth k (map fst s) 0) (map fst rows)).
    { intros k Hk. rewrite nth_fst_opt. apply in_map. apply (sort_by_In le_fst). apply nth_In. exact Hk. }
    split; [apply Inr; lia|]. split; [apply Inr; lia|]. split; [split; apply I; lia|exact S3].
Qed.

(*@ C123 One missing sample in the record, or one NaN among the filter values at or below the frequencies the record reads, makes the
    whole result NaN, without an exception; a NaN in the filter above them does no harm: the result is the one of any filter
    that has numbers in the place of the gaps. A frequency outside the filter raises ValueError. *)
Lemma nan_rule : forall dt sig rows, (2 <= length sig)%nat -> dt <> 0 -> NoDup (map fst rows) -> (2 <= length rows)%nat ->
  ((forall k, (k < length sig)%nat -> spans rows (bin_frequency (length sig) k dt)) ->
     (In None sig \/ (exists f0 k, In (f0, None) rows /\ (k < length sig)%nat /\ ~ clear_of rows f0 (bin_frequency (length sig) k dt)) ->
        apply_filter_nan dt sig rows = Ok (repeat None (length sig))) /\
     (forall x h, sig = map Some x ->
        (forall f0 k, In (f0, None) rows -> (k < length sig)%nat -> clear_of rows f0 (bin_frequency (length sig) k dt)) ->
        exists out, apply_filter_nan dt sig rows = Ok (map Some out) /\ apply_filter dt x (filled h rows) = Ok out)) /\
  (forall k, (k < length sig)%nat -> ~ spans rows (bin_frequency (length sig) k dt) -> apply_filter_nan dt sig rows = Err ValueError).
Proof.
  intros dt sig rows L D ND Lr.
  assert (Range : forall h f, in_range (filled h rows) f <-> spans rows f).
  { intros h f. unfold in_range, spans. split; intros [(a & A) (b & B)].
    - destruct A as (z & A & A'). destruct B as (w & B & B'). split; [exists a|exists b]; split; try assumption; rewrite <- (filled_fst h);
        [apply (in_map fst _ _ A)|apply (in_map fst _ _ B)].
    - rewrite <- (filled_fst h) in A, B. destruct A as (A & A'). destruct B as (B & B'). apply in_map_iff in A, B.
      destruct A as ([a' z] & Ea & A). destruct B as ([b' w] & Eb & B). cbn in Ea, Eb. subst. split; [now exists a, z|now exists b, w]. }
  assert (NDf : forall h, NoDup (map fst (filled h rows))) by (intro h; now rewrite filled_fst).
  assert (Lf : forall h, (2 <= length (filled h rows))%nat) by (intro h; unfold filled; now rewrite map_length).
  split.
  - intro Sp. set (n := length sig) in *. set (s := sort_by le_fst rows). assert (Ls : length s = length rows) by apply sort_by_length.
    assert (M : length (map fst s) = length s) by apply map_length.
    assert (NotOut : forall k, (k < n)%nat -> let g := bin_frequency n k dt in ~ (g < nth 0 (map fst s) 0 \/ nth (length s - 1) (map fst s) 0 < g)).
    { intros k Hk g. pose proof (in_span rows g ND Lr (Sp k Hk)) as X. cbv zeta in X. fold s in X. lra. }
    assert (Seg : forall k, (k < n)%nat -> (1 <= seg_of (map fst s) (bin_frequency n k dt) < length s)%nat).
    { intros k Hk. unfold seg_of. rewrite M. lia. }
    assert (Mx : Rltb (Rmax_of (map fst rows)) (Rmax_of (fftfreq n dt)) = false).
    { destruct (Rltb_spec (Rmax_of (map fst rows)) (Rmax_of (fftfreq n dt))) as [K|]; [|reflexivity]. exfalso. rewrite fftfreq_bins in K by lia.
      set (fv := map _ (seq 0 n)) in K. assert (I : In (Rmax_of fv) fv) by (apply Rmax_of_in; unfold fv; destruct n; [lia|discriminate]).
      unfold fv in I at 2. apply in_map_iff in I. destruct I as (k & E & I). apply in_seq in I.
      destruct (Sp k ltac:(lia)) as [_ (g & Ig & Lg)]. rewrite E in Lg. pose proof (Rmax_of_ge _ _ Ig). lra. }
    assert (Each : forall k, (k < n)%nat -> exists o, interp_tf_nan_at rows (bin_frequency n k dt) = Ok o).
    { intros k Hk. destruct (interp_tf_nan_at rows (bin_frequency n k dt)) as [o|e] eqn:E; [now exists o|exfalso].
      apply (interp_outside_same rows (fun _ => RtoC 0)) in E. destruct (interp_range (filled (fun _ => RtoC 0) rows) (bin_frequency n k dt) (NDf _) (Lf _)) as [_ X].
      destruct (proj2 (Range (fun _ => RtoC 0) _) (Sp k Hk)) as [A B]. destruct (X A B) as [z Ez]. rewrite Ez in E. discriminate. }
    split.
    + intro Gap. unfold apply_filter_nan. fold n. destruct (Nat.ltb_spec n 2); [lia|]. rewrite Reqb_false by exact D.
      destruct rows as [|r0 rows0]; [cbn in Lr; lia|]. set (rows := r0 :: rows0) in *. rewrite Mx.
      set (val := fun k => match interp_tf_nan_at rows (bin_frequency n k dt) with Ok o => o | Err _ => None end).
      rewrite fftfreq_bins by lia.
      assert (Em : mapM (interp_tf_nan_at rows) (map (fun k => bin_frequency n k dt) (seq 0 n)) = Ok (map val (seq 0 n))).
      { assert (Hl : forall l, (forall k, In k l -> (k < n)%nat) -> mapM (interp_tf_nan_at rows) (map (fun k => bin_frequency n k dt) l) = Ok (map val l)).
        { induction l as [|k l IH]; intro H0; [reflexivity|]. cbn [map mapM]. destruct (Each k (H0 k (or_introl eq_refl))) as [o E]. unfold val at 1. rewrite E. cbn [rbind].
          rewrite IH by (intros; apply H0; now right). reflexivity. }
        apply Hl. intros k Hk. apply in_seq in Hk. lia. }
      rewrite Em. cbn [rbind]. destruct Gap as [I|(f0 & k & I & Hk & NC)].
      * rewrite (all_present_none sig I). reflexivity.
      * assert (V : val k = None).
        { unfold val. destruct (row_index rows _ I) as (j0 & Hj & Ej). fold s in Ej.
          assert (N : ~ (seg_of (map fst s) (bin_frequency n k dt) < j0)%nat).
          { intro X. apply NC. replace f0 with (fst (nth j0 s d0)) by (rewrite Ej; reflexivity). apply (clear_index rows _ j0 ND Lr (Sp k Hk) Hj). exact X. }
          rewrite (interp_at_hole rows _ j0); [reflexivity|exact (NotOut k Hk)|fold s; specialize (Seg k Hk); lia|fold s; now rewrite Ej]. }
        rewrite (all_present_none (map val (seq 0 n))) by (apply in_map_iff; exists k; split; [exact V|apply in_seq; lia]).
        destruct (all_present sig); reflexivity.
    + intros x h Es Cl. assert (Ln : length x = n) by (unfold n; rewrite Es; now rewrite map_length).
      rewrite Es. rewrite (agree dt x rows (filled h rows)).
      * destruct (apply_outcome dt x (filled h rows)) as (_ & _ & Oc & _). destruct (Oc ltac:(lia) D (NDf h) (Lf h)) as [Oc1 _].
        destruct Oc1 as (out & Eo & _); [|exists out; rewrite Eo; split; reflexivity]. intros k Hk. apply Range. rewrite Ln. apply Sp. lia.
      * now rewrite filled_fst.
      * intros _ g Ig. rewrite Ln, fftfreq_bins in Ig by lia. apply in_map_iff in Ig. destruct Ig as (k & <- & Ik). apply in_seq in Ik. assert (Hk : (k < n)%nat) by lia.
        destruct (interp_at_clear rows (bin_frequency n k dt) h) as (z & A & B); [exact (NotOut k Hk)|fold s; apply Seg; exact Hk| |rewrite A, B; reflexivity].
        fold s. intros j Hj Hn. specialize (Seg k Hk). assert (Hjl : (j < length rows)%nat) by lia.
        assert (I : In (fst (nth j s d0), None) rows).
        { apply (sort_by_In le_fst). rewrite <- Hn, <- surjective_pairing. apply nth_In. fold s. lia. }
        specialize (Cl _ k I Hk). apply (clear_index rows _ j ND Lr (Sp k Hk) Hjl) in Cl. fold s in Cl. lia.
  - intros k Hk NS. set (h := fun _ : R => RtoC 0). set (x := repeat 0 (length sig)).
    assert (Lx : length x = length sig) by apply repeat_length.
    destruct (apply_outcome dt x (filled h rows)) as (_ & _ & Oc & _). destruct (Oc ltac:(lia) D (NDf h) (Lf h)) as [_ Oe].
    assert (E : apply_filter dt x (filled h rows) = Err ValueError) by (apply (Oe k); [lia|]; rewrite Lx; intro X; apply NS; now apply (Range h)).
    revert E. unfold apply_filter, apply_filter_nan. rewrite Lx. destruct (Nat.ltb (length sig) 2) eqn:E2; [apply Nat.ltb_lt in E2; lia|]. rewrite Reqb_false by exact D.
    destruct rows as [|r0 rows0]; [reflexivity|]. set (rows := r0 :: rows0) in *.
    change (match filled h rows with [] => @Err (list R) ValueError | _ :: _ =>
      if Rltb (Rmax_of (map fst (filled h rows))) (Rmax_of (fftfreq (length sig) dt)) then Err ValueError else
        rbind (interp_tf (fftfreq (length sig) dt) (filled h rows)) (fun interp_filt =>
          Ok (map fst (ifft (map (fun z => Cdiv (Cmult z (RtoC (INR (length sig)))) (RtoC 2)) (map2 (fun z h => Cmult z (snd h)) (map (fun z => Cdiv (Cmult z (RtoC 2)) (RtoC (INR (length sig)))) (fft (map RtoC x))) interp_filt))))) end = Err ValueError ->
      (if Rltb (Rmax_of (map fst rows)) (Rmax_of (fftfreq (length sig) dt)) then Err ValueError else
        rbind (mapM (interp_tf_nan_at rows) (fftfreq (length sig) dt)) (fun interp_filt =>
          match all_present sig, all_present interp_filt with Some x0, Some h0 =>
            Ok (map Some (map fst (ifft (map (fun z => Cdiv (Cmult z (RtoC (INR (length sig)))) (RtoC 2)) (map2 Cmult (map (fun z => Cdiv (Cmult z (RtoC 2)) (RtoC (INR (length sig)))) (fft (map RtoC x0))) h0)))))
          | _, _ => Ok (repeat None (length sig)) end)) = Err ValueError).
    rewrite filled_fst. change (filled h rows) with ((fst r0, match snd r0 with Some z => z | None => h (fst r0) end) :: filled h rows0) at 1. cbv iota.
    destruct (Rltb _ _); [reflexivity|]. intro E.
    assert (Ei : interp_tf (fftfreq (length sig) dt) (filled h rows) = Err ValueError) by (destruct (interp_tf _ _) as [v|e]; [discriminate|cbn in E; congruence]).
    assert (Em : mapM (interp_tf_nan_at rows) (fftfreq (length sig) dt) = Err ValueError); [|rewrite Em; reflexivity].
    clear E. unfold interp_tf in Ei. revert Ei. generalize (fftfreq (length sig) dt). intro l. induction l as [|g l IH]; [discriminate|]. cbn [mapM]. intro Ei.
    destruct (interp_tf_at (filled h rows) g) as [z|e] eqn:Eg.
    + cbn [rmap rbind] in Ei. destruct (interp_tf_nan_at rows g) as [o|e] eqn:Eo; [|apply (interp_outside_same rows h) in Eo; congruence].
      cbn [rbind]. rewrite IH; [reflexivity|]. destruct (mapM _ l); [discriminate|cbn in Ei; congruence].
    + cbn [rmap rbind] in Ei. injection Ei as ->. apply (interp_outside_same rows h) in Eg. rewrite Eg. reflexivity.
Qed.

(** ** Sites outside the domain *)
Lemma cam_spans (rows : list (R * option C)) n step dt N : 0 < step -> 0 < dt -> (3 <= n)%nat -> (2 <= N)%nat -> 2 * step <= dt ->
  map fst rows = map (fun k => bin_frequency n k step) (seq 0 n) -> forall k, (k < N)%nat -> spans rows (bin_frequency N k dt).
Proof.
  intros Ps Pt Ln LN Le Fst k Hk.
  assert (Has : forall c, (- Z.of_nat n <= 2 * c < Z.of_nat n)%Z -> In (IZR c / (INR n * step)) (map fst rows)).
  { intros c Bc. destruct (cycles_onto n c Bc) as (k' & Hk' & Ek). rewrite Fst. apply in_map_iff. exists k'. split; [unfold bin_frequency; now rewrite Ek|apply in_seq; lia]. }
  set (c := Z.of_nat ((n - 1) / 2)).
  assert (Half : ((n - 1) / 2 * 2 <= n - 1 /\ n - 1 <= (n - 1) / 2 * 2 + 1)%nat) by (pose proof (Nat.div_mod (n - 1) 2 ltac:(lia)); pose proof (Nat.mod_upper_bound (n - 1) 2 ltac:(lia)); lia).
  assert (C4 : (Z.of_nat n <= 4 * c)%Z) by (unfold c; lia).
  pose proof (Has c ltac:(unfold c; lia)) as I1. pose proof (Has (- c)%Z ltac:(unfold c; lia)) as I2.
  pose proof (cycles_bounds N k Hk) as Bk. assert (Ng : 0 < INR N) by (apply lt_0_INR; lia). assert (Nn : 0 < INR n) by (apply lt_0_INR; lia).
  assert (Top : / (2 * dt) <= IZR c / (INR n * step)).
  { apply IZR_le in C4. rewrite mult_IZR, <- INR_IZR_INZ in C4. apply Rle_trans with (/ (4 * step)).
    - apply Rinv_le_contravar; lra.
    - apply Rmult_le_reg_r with (4 * (INR n * step)); [nra|].
      replace (/ (4 * step) * (4 * (INR n * step))) with (INR n) by (field; lra). replace (IZR c / (INR n * step) * (4 * (INR n * step))) with (4 * IZR c) by (field; lra). exact C4. }
  assert (Bf : - / (2 * dt) <= bin_frequency N k dt <= / (2 * dt)).
  { unfold bin_frequency. set (b := bin_cycles N k) in *. destruct Bk as [B1 B2]. apply IZR_le in B1. apply IZR_lt in B2. rewrite opp_IZR, mult_IZR, <- INR_IZR_INZ in B1. rewrite mult_IZR, <- INR_IZR_INZ in B2.
    split; apply Rmult_le_reg_r with (INR N * dt); try nra.
    - replace (- / (2 * dt) * (INR N * dt)) with (- INR N / 2) by (field; lra). replace (IZR b / (INR N * dt) * (INR N * dt)) with (IZR b) by (field; lra). lra.
    - replace (/ (2 * dt) * (INR N * dt)) with (INR N / 2) by (field; lra). replace (IZR b / (INR N * dt) * (INR N * dt)) with (IZR b) by (field; lra). lra. }
  split.
  - exists (IZR (- c) / (INR n * step)). split; [exact I2|]. rewrite opp_IZR. unfold Rdiv in *. rewrite Ropp_mult_distr_l_reverse. lra.
  - exists (IZR c / (INR n * step)). split; [exact I1|]. lra.
Qed.

(*@ C123 Square sites which all lie more than half a step outside the domain, in the direction of the cloud motion, give a cloud
    advection filter without a number in it, and a plant output without a number in it, both without an exception. *)
Lemma outside_domain : forall proj pts v d ref dx dt shape sig (m n : nat), d <> (0, 0) -> v <> 0 -> 0 < dx -> 0 < dt ->
  lower shape = "square"%string -> (2 <= length sig)%nat -> (3 <= n)%nat -> INR n * dx = 2 * INR m -> 2 * dx <= dt * Rabs v ->
  pts <> [] -> (forall p, In p pts -> along d ref p <= - INR m - dx / 2 \/ INR m - dx / 2 < along d ref p) ->
  exists filt, get_camfilter proj (EastNorth pts) v d (EastNorth ref) dx 0 None shape (2 * INR m) = Ok filt /\
    length filt = n /\ (forall f z, In (f, z) filt -> z = None) /\
    apply_filter_nan dt sig filt = Ok (repeat None (length sig)).
Proof.
  intros proj pts v d ref dx dt shape sig m n N Nv Px Pt Sh Ls Ln Ex Le Np Out.
  assert (V : 0 < Rabs v) by (now apply Rabs_pos_lt).
  rewrite camfilter_plane by auto.
  set (cs := map (fun p => Some (inner (sub2 p ref) d / len d)) pts).
  destruct (square_value cs 0 None shape dx (2 * INR m) ltac:(lra) Sh) as (plant & xs & G & Gr & Lp & Vp). rewrite G. cbn [rbind fst snd].
  destruct (plant_grid_symmetric cs 0 None shape dx (2 * INR m) plant xs m n Px eq_refl Ex G) as [Exs Q].
  assert (Lx : length xs = n) by (rewrite Exs; unfold equispaced; now rewrite map_length, seq_length).
  assert (Pz : plant = map Some (map (fun _ => 0) xs)).
  { rewrite map_map. apply nth_error_ext. intro i. destruct (nth_error xs i) as [x|] eqn:Exi.
    - rewrite (map_nth_error (fun _ => Some 0) i xs Exi). destruct (Vp i x Exi) as [[C _]|[_ P]]; [exfalso|exact P].
      destruct C as (c & Ic & Rc). unfold cs in Ic. apply in_map_iff in Ic. destruct Ic as (p & Ec & Ip). injection Ec as <-.
      assert (Hi : (i < n)%nat) by (rewrite <- Lx; apply nth_error_Some; congruence).
      assert (Hx : x = - INR m + INR i * dx) by (rewrite Exs, (equispaced_nth _ _ _ _ Hi) in Exi; congruence).
      unfold reaches, width_or in Rc. specialize (Out p Ip). unfold along in Out.
      assert (INR i + 1 <= INR n) by (rewrite <- S_INR; apply le_INR; lia). pose proof (pos_INR i). destruct Out as [O1|O1]; nra.
    - rewrite (proj2 (nth_error_None plant i)) by (rewrite Lp; now apply nth_error_None). symmetry. apply nth_error_None. rewrite map_length. now apply nth_error_None. }
  destruct xs as [|x0 [|x1 rest]]; [cbn in Lx; lia..|].
  assert (X01 : x1 - x0 = dx).
  { assert (H0 := f_equal (fun l => nth 0 l 0) Exs). assert (H1 := f_equal (fun l => nth 1 l 0) Exs). unfold equispaced in H0, H1. rewrite nth_map_seq in H0 by lia. rewrite nth_map_seq in H1 by lia. cbn in H0, H1. lra. }
  pose proof (proj2 (cam_degenerate plant (x0 :: x1 :: rest) v) x0 x1 rest eq_refl) as [_ K].
  destruct K as [_ K]; [rewrite Pz; discriminate|lra|]. rewrite X01 in K.
  assert (Lpn : length plant = n) by (rewrite Lp; exact Lx). rewrite Lpn in K.
  exists (map (fun k => (bin_frequency n k (dx / Rabs v), None)) (seq 0 n)). split.
  { apply K; [exact Nv|]. right. eexists. split; [exact Pz|]. clear. induction (x0 :: x1 :: rest) as [|a l IH]; [reflexivity|]. cbn [map]. rewrite Rsum_cons, IH. ring. }
  split; [now rewrite map_length, seq_length|]. split; [intros f z I; apply in_map_iff in I; destruct I as (k & E & _); now injection E as _ <-|].
  set (rows := map (fun k => (bin_frequency n k (dx / Rabs v), @None C)) (seq 0 n)).
  assert (Fst : map fst rows = map (fun k => bin_frequency n k (dx / Rabs v)) (seq 0 n)) by (unfold rows; rewrite map_map; reflexivity).
  assert (St : 0 < dx / Rabs v) by (now apply Rdiv_lt_0_compat).
  assert (ND : NoDup (map fst rows)) by (rewrite Fst; apply frequencies_distinct; lra).
  assert (Lr : (2 <= length rows)%nat) by (unfold rows; rewrite map_length, seq_length; lia).
  apply (nan_rule dt sig rows Ls ltac:(lra) ND Lr).
  - apply (cam_spans rows n (dx / Rabs v)); auto. apply Rmult_le_reg_r with (Rabs v); [exact V|]. replace (2 * (dx / Rabs v) * Rabs v) with (2 * dx) by (field; lra). exact Le.
  - right. exists (bin_frequency n 0 (dx / Rabs v)), 0%nat. split; [|split; [lia|]].
    + unfold rows. apply in_map_iff. exists 0%nat. split; [reflexivity|apply in_seq; lia].
    + intros (a & b & _ & _ & [_ B1] & B2).
      assert (Z0 : forall M s, (0 < M)%nat -> bin_frequency M 0 s = 0) by (intros M s0 LM; unfold bin_frequency, bin_cycles; destruct (Nat.ltb_spec (2 * 0) M); [cbn; unfold Rdiv; ring|lia]).
      rewrite Z0 in B1 by lia. rewrite Z0 in B2 by lia. lra.
Qed.

(*@ C123 A table in the place of the record or of the filter never gives a result, although the documentation names it. *)
Lemma tables_refused : forall dt n m sig rows frows,
  apply_filter_obj dt (OneRecord sig) (OneFilter rows) = apply_filter_nan dt sig rows /\
  (forall r f out, apply_filter_obj dt r f = Ok out -> exists sig' rows', r = OneRecord sig' /\ f = OneFilter rows') /\
  ((2 <= length sig)%nat -> dt <> 0 -> apply_filter_obj dt (OneRecord sig) (FilterTable frows) = Err ValueError) /\
  ((2 <= n)%nat -> dt <> 0 -> apply_filter_obj dt (RecordTable n m) (OneFilter rows) = Err ValueError /\
     apply_filter_obj dt (RecordTable n m) (FilterTable frows) = Err ValueError).
Proof.
  intros dt n m sig rows frows. split; [reflexivity|]. split; [|split].
  - intros [s|n' m'] [f|f] out E; cbn in E; [eauto|..]; exfalso;
      repeat match type of E with context [if ?b then _ else _] => destruct b end; discriminate E.
  - intros L D. cbn [apply_filter_obj]. destruct (Nat.ltb_spec (length sig) 2); [lia|]. rewrite Reqb_false by exact D. reflexivity.
  - intros L D. cbn [apply_filter_obj]. destruct (Nat.ltb_spec n 2); [lia|]. rewrite Reqb_false by exact D. destruct (Nat.eqb m 0); now split.
Qed.

(** The real number a Python int or float stands for. *)
Definition number_value (a : number) : R := match a with WholeNo z => IZR z | FloatNo r => r end.

(*@ C123 Whole-number positions with a reference position that is not a whole number (a Python float, even 5.0) are refused;
    any other mixture gives the plant of the same numbers. *)
Lemma plant_numbers : forall centers ref width shape dx xmax,
  (centers <> [] -> (forall c, In c centers -> exists z, c = WholeNo z) -> forall r, ref = FloatNo r ->
     get_1d_plant_num centers ref width shape dx xmax = Err TypeError) /\
  ((exists c r, In c centers /\ c = FloatNo r) \/ centers = [] \/ (exists z, ref = WholeNo z) ->
     get_1d_plant_num centers ref width shape dx xmax = get_1d_plant (map (fun c => Some (number_value c)) centers) (number_value ref) width shape dx xmax).
Proof.
  change number_value with value_of.
  intros centers ref width shape dx xmax. split.
  - intros N W r ->. unfold get_1d_plant_num, shift_centers. assert (F : forallb is_whole centers = true) by (apply forallb_forall; intros c I; destruct (W c I) as [z ->]; reflexivity).
    rewrite F. destruct centers; [congruence|]. reflexivity.
  - intro D. unfold get_1d_plant_num, shift_centers.
    assert (B : (negb (Nat.eqb (length centers) 0) && forallb is_whole centers && negb (is_whole ref))%bool = false).
    { destruct D as [(c & r & I & ->)|[->|[z ->]]]; [|reflexivity|apply andb_false_r].
      assert (F : forallb is_whole centers = false). { destruct (forallb is_whole centers) eqn:E; [|reflexivity]. pose proof (proj1 (forallb_forall is_whole centers) E _ I). discriminate. }
      now rewrite F, andb_false_r. }
    rewrite B. cbn [rbind].
    unfold get_1d_plant. destruct (arange (half_floor (- xmax)) (half_floor xmax) dx) as [xs|e]; [|reflexivity]. cbn [rbind].
    rewrite !map_map. replace (map (fun x => option_map (fun c => c - 0) (Some (value_of x - value_of ref))) centers) with (map (fun x => option_map (fun c => c - value_of ref) (Some (value_of x))) centers); [reflexivity|].
    apply map_ext. intro c. cbn. f_equal. ring.
Qed.

(** A record of two samples a second apart, with rows of the filter at -1, 0, 1 and 2. *)
Definition holed : list (R * option C) := [(0, Some (RtoC 1)); (1, Some (RtoC 1)); (2, None); (-1, Some (RtoC 1))].
Lemma holed_fst : map fst holed = [0; 1; 2; -1].
Proof. reflexivity. Qed.
Lemma bins2 k : (k < 2)%nat -> bin_frequency 2 k 1 = 0 \/ bin_frequency 2 k 1 = - / 2.
Proof. intro H. destruct k as [|[|k]]; [left|right|lia]; unfold bin_frequency, bin_cycles; cbn; lra. Qed.
Lemma holed_spans k : (k < 2)%nat -> spans holed (bin_frequency 2 k 1).
Proof.
  intro H. unfold spans. rewrite holed_fst. split; [exists (-1)|exists 1]; (split; [cbn; auto 8|]); destruct (bins2 k H) as [-> | ->]; lra.
Qed.
Lemma holed_distinct : NoDup (map fst holed).
Proof. rewrite holed_fst. repeat constructor; cbn; intuition lra. Qed.

(*@ex C123 The gap at 2 is not read by a record with frequencies up to a half; the sample gap spoils everything; the mean filter of
    three sites 100 m beside a domain of 8 m is empty; whole-number positions with the reference 0.5 raise. *)
Lemma nan_example :
  (exists out, apply_filter_nan 1 [Some 3; Some 5] holed = Ok (map Some out) /\ apply_filter 1 [3; 5] (filled (fun _ => RtoC 0) holed) = Ok out) /\
  apply_filter_nan 1 [Some 3; None] holed = Ok [None; None] /\
  (exists filt, get_camfilter (fun _ _ lat lon => (lat, lon)) (EastNorth [(100, 0); (100, 7); (120, 3)]) 4 (1, 0) (EastNorth (0, 0)) 1 0 None "square"%string (2 * INR 4) = Ok filt /\
     length filt = 8%nat /\ apply_filter_nan 1 [Some 3; Some 5] filt = Ok [None; None]) /\
  get_1d_plant_num [WholeNo 1; WholeNo 3] (FloatNo (1/2)) None "square"%string 1 8 = Err TypeError /\
  apply_filter_obj 1 (RecordTable 2 1) (OneFilter holed) = Err ValueError.
Proof.
  split; [|split; [|split; [|split]]].
  - destruct (nan_rule 1 [Some 3; Some 5] holed ltac:(cbn; lia) ltac:(lra) holed_distinct ltac:(cbn; lia)) as [K _].
    destruct (K holed_spans) as [_ K2]. apply (K2 [3; 5] (fun _ => RtoC 0) eq_refl).
    intros f0 k I H. assert (f0 = 2) as -> by (cbn in I; destruct I as [E|[E|[E|[E|[]]]]]; try discriminate E; congruence).
    exists 0, 1. rewrite holed_fst. split; [cbn; auto|]. split; [cbn; auto|]. split; [lra|]. change (bin_frequency 2 k 1 <= 1). destruct (bins2 k H) as [-> | ->]; lra.
  - destruct (nan_rule 1 [Some 3; None] holed ltac:(cbn; lia) ltac:(lra) holed_distinct ltac:(cbn; lia)) as [K _].
    destruct (K holed_spans) as [K1 _]. apply K1. left. cbn. auto.
  - destruct (outside_domain (fun _ _ lat lon => (lat, lon)) [(100, 0); (100, 7); (120, 3)] 4 (1, 0) (0, 0) 1 1 "square"%string [Some 3; Some 5] 4 8) as (filt & A & B & _ & D);
      try (cbn; lia); try lra; try reflexivity; try discriminate.
    + intro E. injection E as E. lra.
    + cbn; lra.
    + rewrite Rabs_right; lra.
    + assert (L1 : len (1, 0) = 1) by (unfold len, inner; cbn [fst snd]; replace (1 * 1 + 0 * 0) with 1 by ring; apply sqrt_1).
      intros p [<-|[<-|[<-|[]]]]; right; unfold along, inner, sub2; rewrite L1; cbn [fst snd]; change 4%nat with (2 + 2)%nat; rewrite plus_INR; cbn [INR]; lra.
    + exists filt. split; [exact A|]. split; [exact B|exact D].
  - apply (plant_numbers [WholeNo 1; WholeNo 3] (FloatNo (1/2)) None "square"%string 1 8) with (1/2); [discriminate| |reflexivity].
    intros c [<-|[<-|[]]]; eauto.
  - apply (tables_refused 1 2 1 [] holed []); [lia|lra].
Qed.
