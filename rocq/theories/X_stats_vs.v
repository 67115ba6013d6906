(** Variability score (stats.py). *)
From Coq Require Import Permutation Sorted.
From Verif Require Import Prelude PreludeFacts RealBase Fl RealStat M_spatial M_stats Spec_stats X_stats_err P_stats P_resample.
Local Open Scope R_scope.

Lemma vs_no_avg s tau mavg pct : (mavg = true -> tau <= 1)%Z -> variability_score s tau mavg pct = Ok (vs_plain tau pct (values s)).
Proof.
  intro H. unfold variability_score. destruct mavg; cbn [andb]; [|reflexivity].
  rewrite (proj2 (Z.ltb_ge _ _)) by (now apply H). reflexivity.
Qed.

Lemma vs_of_ne A : A <> [] -> vs_of A = Fin (Rmax_of (map (fun a => a * exceedance_ties a A) A)).
Proof. intro N. unfold vs_of. now rewrite nan_reduce_ne by now apply map_ne. Qed.
Lemma Rmax_of_largest l : l <> [] -> largest l (Rmax_of l).
Proof. intro N. split; [now apply Rmax_of_in|]. intros. now apply Rmax_of_ge. Qed.

(*@ C35 The score: NaN without ramps, otherwise the largest ramp size times the fraction of larger ramps, each other
    tied ramp counting half. *)
Lemma vs_value : forall s tau mavg, (mavg = true -> tau <= 1)%Z ->
  let A := map Rabs (ramps (Z.abs_nat tau) (values s)) in
  (A = [] -> variability_score s tau mavg false = Ok Nan) /\
  (A <> [] -> exists v, variability_score s tau mavg false = Ok (Fin v) /\
     largest (map (fun a => a * exceedance_ties a A) A) v).
Proof.
  intros s tau mavg H A. rewrite vs_no_avg by easy. unfold vs_plain. rewrite vs_core_of. fold A. split.
  - intros ->. reflexivity.
  - intro N. eexists. split; [now rewrite vs_of_ne|]. apply Rmax_of_largest. now apply map_ne.
Qed.

(*@ C35 With pairwise different ramp sizes it is exactly the documented definition. *)
Lemma vs_distinct : forall s tau mavg v, (mavg = true -> tau <= 1)%Z ->
  let A := map Rabs (ramps (Z.abs_nat tau) (values s)) in
  NoDup A -> variability_score s tau mavg false = Ok (Fin v) ->
  largest (map (fun a => a * exceedance a A) A) v.
Proof.
  intros s tau mavg v H A N E. destruct (vs_value s tau mavg H) as [V0 V1]. fold A in V0, V1.
  assert (NE : A <> []) by (intro Z; rewrite (V0 Z) in E; discriminate).
  destruct (V1 NE) as (v' & E' & L). assert (v' = v) by congruence. subst v'.
  assert (X : map (fun a => a * exceedance a A) A = map (fun a => a * exceedance_ties a A) A); [|now rewrite X].
  apply map_ext_in. intros a Ha. f_equal. unfold exceedance, exceedance_ties. do 2 f_equal.
  assert (Q : n_equal a A = 1%nat).
  { unfold n_equal. clear -N Ha. induction A as [|x A IH]; [easy|]. inversion N as [|? ? N1 N2]; subst. cbn.
    destruct Ha as [->|Ha].
    - rewrite Reqb_true by easy. cbn. f_equal. rewrite filter_none; [easy|]. intros x Hx. apply Reqb_false. now intros ->.
    - rewrite Reqb_false by (now intros ->). now apply IH. }
  rewrite Q. cbn. field.
Qed.

(*@ C35 Bounds: between the documented definition and the largest ramp times (1 - 1/number of ramps). *)
Lemma vs_bounds : forall s tau mavg v, (mavg = true -> tau <= 1)%Z ->
  let A := map Rabs (ramps (Z.abs_nat tau) (values s)) in
  variability_score s tau mavg false = Ok (Fin v) ->
  0 <= v /\ (exists a, In a A /\ v <= a * (1 - / INR (length A))) /\
  (forall a, In a A -> a * exceedance a A <= v).
Proof.
  intros s tau mavg v H A E. destruct (vs_value s tau mavg H) as [V0 V1]. fold A in V0, V1.
  assert (NE : A <> []) by (intro Z; rewrite (V0 Z) in E; discriminate).
  destruct (V1 NE) as (v' & E' & L1 & L2). assert (v' = v) by congruence. subst v'.
  assert (NN : forall a, In a A -> 0 <= a) by (intros a Ha; apply in_map_iff in Ha; destruct Ha as (x & <- & _); apply Rabs_pos).
  assert (D : forall a, In a A -> a * exceedance a A <= v).
  { intros a Ha. apply Rle_trans with (a * exceedance_ties a A).
    - apply Rmult_le_compat_l; [auto|]. apply exceedance_bounds in Ha. tauto.
    - apply L2. now apply (in_map (fun a => a * exceedance_ties a A)). }
  split; [|split; [|easy]].
  - destruct A as [|a A'] eqn:EA; [easy|]. apply Rle_trans with (a * exceedance a (a :: A')); [|apply D; now left].
    apply Rmult_le_pos; [apply NN; now left|]. apply (exceedance_bounds (a :: A') a). now left.
  - apply in_map_iff in L1. destruct L1 as (a & <- & Ha). exists a. split; [easy|].
    apply Rmult_le_compat_l; [auto|]. now apply exceedance_bounds.
Qed.

Lemma steady_ramps c k n : ramps 1 (steady c k n) = map (fun _ => k) (seq 0 n).
Proof.
  unfold ramps, steady. rewrite combine_skipn by (rewrite map_length, seq_length; lia).
  rewrite map_length, seq_length, flat_map_map. replace (S n - 1)%nat with n by lia.
  rewrite (flat_map_ext_in _ (fun _ => [k])).
  - induction (seq 0 n); cbn; congruence.
  - intros i Hi. apply in_seq in Hi.
    assert (N : forall j, (j < S n)%nat -> nth j (map (fun i => Some (c + INR i * k)) (seq 0 (S n))) None = Some (c + INR j * k)).
    { intros j Hj. erewrite nth_error_nth; [reflexivity|]. rewrite nth_error_map, (nth_error_nth' _ O) by (rewrite seq_length; lia).
      rewrite seq_nth by lia. reflexivity. }
    rewrite !N by lia. f_equal. rewrite plus_INR. cbn. ring.
Qed.

Lemma const_largest n a b : (0 < n)%nat -> largest (map (fun _ : nat => a) (seq 0 n)) b -> b = a.
Proof. intros _ [I _]. apply in_map_iff in I. destruct I as (_ & <- & _). reflexivity. Qed.

Lemma filter_const_len {A} (f : A -> bool) a n : length (filter f (map (fun _ : nat => a) (seq 0 n))) = if f a then n else 0%nat.
Proof.
  generalize 0%nat at 1. induction n as [|n IH]; intro m; cbn; [now destruct (f a)|].
  destruct (f a) eqn:E; cbn; rewrite IH; reflexivity.
Qed.

(*@ C35 Ties: a steady ramp of n equal steps k scores |k| (n - 1) / (2 n), where the documented definition gives 0. *)
Lemma vs_steady : forall s c k n, (0 < n)%nat -> values s = steady c k n ->
  variability_score s 1 true false = Ok (Fin (Rabs k * ((INR n - 1) / (2 * INR n)))) /\
  forall a, In a (map Rabs (ramps 1 (values s))) -> a * exceedance a (map Rabs (ramps 1 (values s))) = 0.
Proof.
  intros s c k n Hn E.
  assert (EA : map Rabs (ramps 1 (values s)) = map (fun _ => Rabs k) (seq 0 n)) by (rewrite E, steady_ramps, map_map; reflexivity).
  destruct (vs_value s 1 true) as [_ V]; [lia|]. change (Z.abs_nat 1) with 1%nat in V. rewrite EA in V |- *.
  assert (Hn' : 0 < INR n) by now apply lt_0_INR.
  assert (NL : n_larger (Rabs k) (map (fun _ => Rabs k) (seq 0 n)) = 0%nat).
  { unfold n_larger. rewrite filter_const_len. now rewrite Rltb_false by lra. }
  assert (NQ : n_equal (Rabs k) (map (fun _ => Rabs k) (seq 0 n)) = n).
  { unfold n_equal. rewrite filter_const_len. now rewrite Reqb_true. }
  split.
  - destruct V as (v & -> & L); [destruct n; [lia|easy]|]. do 2 f_equal. rewrite map_map in L. apply const_largest in L; [|easy].
    rewrite L. f_equal. unfold exceedance_ties. rewrite NL, NQ, map_length, seq_length. cbn [INR]. field. lra.
  - intros a Ha. apply in_map_iff in Ha. destruct Ha as (_ & <- & _). unfold exceedance. rewrite NL. cbn [INR]. unfold Rdiv. ring.
Qed.

(*@ C35 Refuted: that the score is always the documented product of a ramp and the fraction of larger ramps. *)
Lemma vs_documented_refuted : exists s v,
  variability_score s 1 true false = Ok (Fin v) /\
  ~ exists a, In a (map Rabs (ramps 1 (values s))) /\ v = a * exceedance a (map Rabs (ramps 1 (values s))).
Proof.
  set (s := combine [0%Z; 1%Z; 2%Z] (steady 0 100 2)).
  assert (E : values s = steady 0 100 2) by reflexivity.
  destruct (vs_steady s 0 100 2 ltac:(lia) E) as [V D]. exists s. eexists. split; [exact V|].
  intros (a & Ha & Ev). rewrite (D a Ha) in Ev. rewrite Rabs_right in Ev by lra. cbn [INR] in Ev. lra.
Qed.

(*@ex C35 *)
Lemma vs_example : let s := [(0%Z, Some 0); (1%Z, Some 1); (2%Z, Some 4); (3%Z, Some 2)] in
  NoDup (map Rabs (ramps 1 (values s))) /\ exists v, variability_score s 1 true false = Ok (Fin v).
Proof.
  cbv zeta. change (map Rabs _) with [Rabs (1 - 0); Rabs (4 - 1); Rabs (2 - 4)].
  rewrite (Rabs_right (1 - 0)), (Rabs_right (4 - 1)), (Rabs_left (2 - 4)) by lra. split.
  - repeat constructor; cbn; intuition lra.
  - destruct (vs_value [(0%Z, Some 0); (1%Z, Some 1); (2%Z, Some 4); (3%Z, Some 2)] 1 true) as [_ V]; [lia|].
    destruct V as (v & E & _); [easy|]. eauto.
Qed.

(** ** C36 *)
(*@ C36 Affine changes: adding a constant changes nothing, a factor k (also negative) scales the score by |k|. Holds for
    every tau, with and without block averaging, as a percentage or not. *)
Lemma vs_affine : forall s k c tau mavg pct,
  variability_score (smap (fun x => k * x + c) s) tau mavg pct = rmap (fmul (Fin (Rabs k))) (variability_score s tau mavg pct).
Proof.
  intros s k c tau mavg pct.
  assert (P : forall t l, vs_plain t pct (map (option_map (fun x => k * x + c)) l) = fmul (Fin (Rabs k)) (vs_plain t pct l)).
  { intros t l. unfold vs_plain. rewrite vs_core_affine. destruct pct; [|reflexivity].
    rewrite vs_core_of. unfold vs_of, nan_reduce. destruct (map _ _); [reflexivity|]. cbn [fmul]. f_equal. ring. }
  unfold variability_score. destruct (mavg && (1 <? tau)%Z).
  - rewrite smap_stamps. unfold block_average. destruct (index_step (stamps s)) as [dt|]; [|reflexivity].
    rewrite resample_affine. destruct (resample_mean _ s) as [rs|]; [|reflexivity]. cbn [rmap rbind]. f_equal.
    now rewrite smap_values, P.
  - cbn [rmap]. now rewrite smap_values, P.
Qed.

(*@ C36 In particular a shift and a change of sign leave every result as it is. *)
Lemma vs_shift_negate : forall s c tau mavg pct,
  variability_score (smap (fun x => x + c) s) tau mavg pct = variability_score s tau mavg pct /\
  variability_score (smap Ropp s) tau mavg pct = variability_score s tau mavg pct.
Proof.
  intros s c tau mavg pct.
  assert (I : rmap (fmul (Fin 1)) (variability_score s tau mavg pct) = variability_score s tau mavg pct).
  { assert (M : forall l, fmul (Fin 1) (vs_of l) = vs_of l).
    { intro l. unfold vs_of, nan_reduce. destruct (map _ _); cbn [fmul]; [easy|]. f_equal. ring. }
    assert (M' : forall t l, fmul (Fin 1) (vs_plain t pct l) = vs_plain t pct l).
    { intros t l. unfold vs_plain. rewrite vs_core_of. destruct pct; [|apply M]. unfold vs_of, nan_reduce.
      destruct (map _ _); cbn [fmul]; [easy|]. f_equal. ring. }
    unfold variability_score. destruct (mavg && (1 <? tau)%Z); [|cbn [rmap]; now rewrite M'].
    destruct (block_average _ _ _); [|easy]. cbn [rbind rmap]. now rewrite M'. }
  assert (X : forall f g, (forall x, f x = g x) -> smap f s = smap g s).
  { intros f g Q. unfold smap. apply map_ext. intros [t [v|]]; cbn; [|easy]. now rewrite Q. }
  split.
  - rewrite (X _ (fun x => 1 * x + c)) by (intro; ring). rewrite vs_affine, Rabs_R1. exact I.
  - rewrite (X _ (fun x => (-1) * x + 0)) by (intro; ring). rewrite vs_affine. replace (Rabs (-1)) with 1 by (rewrite Rabs_left; lra). exact I.
Qed.

Lemma combine_rev_skipn (l : list (option R)) tau :
  combine (rev l) (skipn tau (rev l)) = map (fun p => (snd p, fst p)) (rev (combine l (skipn tau l))).
Proof.
  destruct (Nat.le_gt_cases tau (length l)) as [H|H].
  - rewrite !combine_skipn by (rewrite ?rev_length; easy). rewrite rev_length. set (m := (length l - tau)%nat).
    rewrite <- map_rev, map_map. apply nth_error_ext. intro i. rewrite !nth_error_map.
    destruct (Nat.lt_ge_cases i m) as [Hi|Hi].
    + rewrite !(nth_error_nth' _ O) by (rewrite ?rev_length, seq_length; easy). rewrite rev_nth by (rewrite seq_length; easy).
      rewrite seq_length, !seq_nth by lia. cbn [option_map fst snd Nat.add]. rewrite !rev_nth by lia. do 2 f_equal; f_equal; lia.
    + rewrite !(proj2 (nth_error_None _ _)); [easy| |]; rewrite ?rev_length, seq_length; lia.
  - rewrite !skipn_all_nil by (rewrite ?rev_length; lia). now rewrite !combine_nil.
Qed.
Lemma ramps_rev tau l : Permutation (ramps tau (rev l)) (map Ropp (ramps tau l)).
Proof.
  unfold ramps. rewrite combine_rev_skipn, flat_map_map, map_flat_map.
  eapply Permutation_trans; [apply Permutation_flat_map, Permutation_sym, Permutation_rev|].
  rewrite (flat_map_ext_in _ (fun x => map Ropp match x with (Some x, Some y) => [y - x] | _ => [] end)); [reflexivity|].
  intros [[x|] [y|]] _; cbn; try reflexivity. f_equal. ring.
Qed.

(*@ C36 Time reversal leaves the score as it is (no block averaging). *)
Lemma vs_reverse : forall s s' tau pct, values s' = rev (values s) ->
  variability_score s' tau false pct = variability_score s tau false pct.
Proof.
  intros s s' tau pct E. rewrite !vs_no_avg by easy. f_equal. unfold vs_plain. rewrite !vs_core_of, E.
  assert (P : Permutation (map Rabs (ramps (Z.abs_nat tau) (rev (values s)))) (map Rabs (ramps (Z.abs_nat tau) (values s)))).
  { eapply Permutation_trans; [apply Permutation_map, ramps_rev|]. rewrite map_map.
    rewrite (map_ext (fun x => Rabs (- x)) Rabs) by (intro; apply Rabs_Ropp). reflexivity. }
  now rewrite (vs_of_perm _ _ P).
Qed.

(*@ C36 A constant series scores 0; looking ahead instead of back makes no difference. *)
Lemma vs_constant : forall s c tau pct,
  ((exists r, In r (ramps (Z.abs_nat tau) (values s))) -> (forall x, In (Some x) (values s) -> x = c) ->
     variability_score s tau false pct = Ok (Fin 0)) /\
  variability_score s (- tau) false pct = variability_score s tau false pct.
Proof.
  intros s c tau pct. split.
  - intros (r & Hr) Hc. assert (Z : forall d, In d (ramps (Z.abs_nat tau) (values s)) -> d = 0).
    { intros d Hd. unfold ramps in Hd. apply in_flat_map in Hd. destruct Hd as ([[x|] [y|]] & I & J); try easy.
      destruct J as [<-|[]]. pose proof (in_combine_l _ _ _ _ I) as Ix. pose proof (in_combine_r _ _ _ _ I) as Iy.
      rewrite (Hc x Ix), (Hc y); [ring|]. rewrite <- (firstn_skipn (Z.abs_nat tau) (values s)). apply in_app_iff. now right. }
    rewrite vs_no_avg by easy. unfold vs_plain. rewrite vs_core_of. set (A := map Rabs _).
    assert (NA : A <> []) by (unfold A; intro E; apply map_eq_nil in E; now rewrite E in Hr).
    assert (ZA : forall a, In a A -> a = 0).
    { intros a Ha. apply in_map_iff in Ha. destruct Ha as (x & <- & Hx). rewrite (Z x Hx). apply Rabs_R0. }
    assert (V : vs_of A = Fin 0).
    { rewrite vs_of_ne by easy. f_equal. apply Rmax_of_unique.
      - destruct A as [|a A']; [easy|]. left. rewrite (ZA a (or_introl eq_refl)). ring.
      - intros x Hx. apply in_map_iff in Hx. destruct Hx as (y & <- & Hy). rewrite (ZA y Hy). lra. }
    rewrite V. destruct pct; [|easy]. cbn [fmul]. do 2 f_equal. ring.
  - rewrite !vs_no_avg by easy. unfold vs_plain. rewrite !vs_core_of. now replace (Z.abs_nat (- tau)) with (Z.abs_nat tau) by lia.
Qed.

(*@ C36 pct=True multiplies the score by 1/10, for every tau with and without block averaging. *)
Lemma vs_percent : forall s tau mavg,
  variability_score s tau mavg true = rmap (fmul (Fin (1 / 10))) (variability_score s tau mavg false).
Proof.
  intros s tau mavg. unfold variability_score, vs_plain.
  destruct (mavg && (1 <? tau)%Z); [destruct (block_average _ _ _); [|easy]|]; cbn [rbind rmap]; do 3 f_equal; field.
Qed.

Lemma Zdiffs_combine l : Zdiffs l = map (fun p => (snd p - fst p)%Z) (combine l (tl l)).
Proof. induction l as [|x l IH]; [reflexivity|]. destruct l as [|y l]; [reflexivity|]. rewrite Zdiffs_cons2, IH. reflexivity. Qed.
Lemma median_step_iff s dt : median_step s dt <-> index_step (stamps s) = Some dt.
Proof.
  unfold median_step, index_step. rewrite Zdiffs_combine. unfold stamps.
  destruct s as [|[t0 v0] [|[t1 v1] s]]; cbn [map tl combine length].
  - split; [lia|discriminate].
  - split; [lia|discriminate].
  - change (IZR ns) with 1000000000. cbn [fst snd].
    rewrite (map_map (fun p : Z * Z => (snd p - fst p)%Z) (fun d => IZR d / 1000000000)).
    split; [intros [_ ->]; reflexivity|]. intro E. split; [lia|]. congruence.
Qed.

(*@ C36 Block averaging: the tau = 1 score of the series averaged over bins of int(tau * median step) seconds; it fails
    when there are fewer than two samples or that width is zero. *)
Lemma vs_block_average : forall s tau pct, (1 < tau)%Z ->
  ((length s < 2)%nat -> variability_score s tau true pct = Err ValueError) /\
  (forall dt w, median_step s dt -> (0 < w)%Z -> IZR w <= IZR tau * dt < IZR w + 1 ->
     exists rs, binned w s rs /\ variability_score s tau true pct = variability_score rs 1 false pct) /\
  (forall dt, median_step s dt -> 0 <= IZR tau * dt < 1 -> variability_score s tau true pct = Err ZeroDivisionError).
Proof.
  intros s tau pct Ht. unfold variability_score. rewrite (proj2 (Z.ltb_lt _ _)) by easy. cbn [andb].
  split; [|split].
  - intro L. destruct (index_step (stamps s)) as [dt|] eqn:E; [|reflexivity]. apply median_step_iff in E. destruct E as [E _]. lia.
  - intros dt w M Hw B. pose proof (proj1 M) as L2. apply median_step_iff in M. rewrite M. unfold block_average.
    rewrite (X_spatial_zone.py_int_eq _ w) by (easy || lia).
    destruct (resample_binned w s Hw) as (rs & -> & Bn); [now intros ->|]. exists rs. split; [easy|]. reflexivity.
  - intros dt M B. apply median_step_iff in M. rewrite M. unfold block_average.
    rewrite (X_spatial_zone.py_int_eq _ 0) by (try lia; lra). reflexivity.
Qed.

(*@ C36 On a regular grid aligned with the averaging period the bins are blocks of tau consecutive samples. *)
Lemma vs_blocks : forall s t0 d k pct, regular t0 d s -> (0 < d)%Z -> (2 <= k)%nat -> (2 <= length s)%nat ->
  ((t0 - one_day * (t0 / one_day)) mod (Z.of_nat k * d * ns) = 0)%Z ->
  exists rs, block_averages k (values s) (values rs) /\
    variability_score s (Z.of_nat k) true pct = variability_score rs 1 false pct.
Proof.
  intros s t0 d k pct Rg Hd Hk L Al.
  destruct (vs_block_average s (Z.of_nat k) pct ltac:(lia)) as (_ & V & _).
  assert (M : median_step s (IZR d)) by (apply median_step_iff; eapply regular_step; eauto).
  destruct (V _ (Z.of_nat k * d)%Z M) as (rs & B & E); [nia|rewrite mult_IZR; lra|].
  exists rs. split; [|easy]. eapply binned_blocks; eauto; [lia|]. destruct s; [cbn in L; lia|easy].
Qed.

(*@ex C36 *)
Lemma vs_blocks_example : let s := [(0%Z, Some 0); (ns, Some 2); ((2 * ns)%Z, Some 7); ((3 * ns)%Z, Some 9)] in
  regular 0 1 s /\ exists rs, block_averages 2 (values s) (values rs) /\ variability_score s 2 true false = variability_score rs 1 false false.
Proof.
  cbv zeta. assert (Rg : regular 0 1 [(0%Z, Some 0); (ns, Some 2); ((2 * ns)%Z, Some 7); ((3 * ns)%Z, Some 9)]) by reflexivity.
  split; [exact Rg|]. apply (vs_blocks _ 0 1 2 false Rg); try lia; try (cbn; lia); reflexivity.
Qed.
