(** Covariance, downscale and downscale_multihour. *)
From Verif Require Import Prelude PreludeFacts RealBase Fl RealStat M_spatial Spec_spatial Spec_stats M_copula Spec_copula P_plane X_spatial_time
  X_stats_err P_list X_copula_params X_copula_inverse.
Local Open Scope R_scope.

Definition cov_of (k : R) (D : list (list R)) : list (list R) := map (map (fun d => exp (- k * d))) D.
Lemma entry_cov k D a b : entry (cov_of k D) a b = option_map (fun d => exp (- k * d)) (entry D a b).
Proof. unfold entry, cov_of. rewrite nth_error_map. destruct (nth_error D a) as [row|]; cbn; [apply nth_error_map|reflexivity]. Qed.
Lemma copula_samples mvn Phi D x cdf k seed : space_time_copula mvn Phi D x cdf k seed =
  map (fun z => inverse_sample x cdf (Phi z)) (mvn seed (cov_of k D)).
Proof. unfold space_time_copula, copularnd_gaussian. now rewrite map_map. Qed.

Lemma cov_site_time e n times spd dir D k : spacetime_distances e n times spd dir = Ok D -> site_time_cov k e n times spd dir (cov_of k D).
Proof.
  intro E. destruct (spacetime_pseudometric _ _ _ _ _ _ E) as (L & Lr & _). split; [unfold cov_of; now rewrite map_length|]. split.
  - intros row Hr. unfold cov_of in *. rewrite map_length. apply in_map_iff in Hr. destruct Hr as (r & <- & Ir). rewrite map_length. auto.
  - intros i j a b ei ni ej nj ta tb t0 H0 A B C A' B' C'.
    assert (EL : length e = length n).
    { unfold spacetime_distances in E. destruct times; [discriminate|]. destruct (Nat.eqb_spec (length e) (length n)); [easy|discriminate]. }
    destruct (spacetime_entry e n times spd dir i j a b ei ni ej nj ta tb t0 EL H0 A B C A' B' C') as (D' & E' & En).
    assert (D' = D) by congruence. subst D'. rewrite entry_cov, En. cbn [option_map]. do 2 f_equal. ring.
Qed.

(*@ C65 The matrix handed to the sampler holds exp(-k distance) for every pair of site-times. *)
Lemma copula_cov : forall e n times spd dir D x cdf k, spacetime_distances e n times spd dir = Ok D ->
  exists cov, site_time_cov k e n times spd dir cov /\
    forall mvn Phi seed, space_time_copula mvn Phi D x cdf k seed = map (fun z => inverse_sample x cdf (Phi z)) (mvn seed cov).
Proof.
  intros e n times spd dir D x cdf k E. exists (cov_of k D). split; [now apply cov_site_time|]. intros. apply copula_samples.
Qed.

(** Index arithmetic. *)
Lemma split_index a ns nt : (a < ns * nt)%nat -> exists i k, (i < ns)%nat /\ (k < nt)%nat /\ a = (i * nt + k)%nat.
Proof.
  intro H. assert (nt <> 0)%nat by (intros ->; lia). exists (a / nt)%nat, (a mod nt)%nat. split; [apply Nat.div_lt_upper_bound; lia|].
  split; [now apply Nat.mod_upper_bound|]. rewrite Nat.mul_comm. now apply Nat.div_mod.
Qed.

(*@ C65 It is a correlation matrix: symmetric, 1 on the diagonal, entries in (0, 1], smaller for larger distance, and 1 exactly for
    site-times connected by the cloud motion. *)
Lemma cov_correlation : forall k e n times spd dir cov, 0 < k -> length e = length n -> times <> [] -> site_time_cov k e n times spd dir cov ->
  (forall a, (a < length cov)%nat -> entry cov a a = Some 1) /\
  (forall a b, (a < length cov)%nat -> (b < length cov)%nat -> exists c, entry cov a b = Some c /\ entry cov b a = Some c /\ 0 < c <= 1) /\
  (forall i j a b ei ni ej nj ta tb, nth_error e i = Some ei -> nth_error n i = Some ni -> nth_error times a = Some ta ->
     nth_error e j = Some ej -> nth_error n j = Some nj -> nth_error times b = Some tb ->
     (entry cov (i * length times + a) (j * length times + b) = Some 1 <->
      sub2 (ej, nj) (ei, ni) = scale2 (spd * (tb - ta)) (cos dir, sin dir))) /\
  (forall i j a b i' j' a' b' ei ni ej nj ta tb ei' ni' ej' nj' ta' tb' t0 c c', nth_error times 0 = Some t0 ->
     nth_error e i = Some ei -> nth_error n i = Some ni -> nth_error times a = Some ta ->
     nth_error e j = Some ej -> nth_error n j = Some nj -> nth_error times b = Some tb ->
     nth_error e i' = Some ei' -> nth_error n i' = Some ni' -> nth_error times a' = Some ta' ->
     nth_error e j' = Some ej' -> nth_error n j' = Some nj' -> nth_error times b' = Some tb' ->
     entry cov (i * length times + a) (j * length times + b) = Some c -> entry cov (i' * length times + a') (j' * length times + b') = Some c' ->
     (c < c' <-> dist2 (moved_back (ei', ni') spd dir (ta' - t0)) (moved_back (ej', nj') spd dir (tb' - t0))
               < dist2 (moved_back (ei, ni) spd dir (ta - t0)) (moved_back (ej, nj) spd dir (tb - t0)))).
Proof.
  intros k e n times spd dir cov Hk EL Nt (Lc & Lr & H). destruct times as [|t0 ts] eqn:Et; [easy|]. rewrite <- Et in *. clear Nt.
  assert (H0 : nth_error times 0 = Some t0) by (rewrite Et; reflexivity).
  assert (Get : forall a, (a < length cov)%nat -> exists i ka ei ni ta, nth_error e i = Some ei /\ nth_error n i = Some ni /\ nth_error times ka = Some ta /\ a = (i * length times + ka)%nat).
  { intros a Ha. rewrite Lc in Ha. destruct (split_index a _ _ Ha) as (i & ka & Hi & Hka & ->).
    destruct (nth_error e i) as [ei|] eqn:A; [|apply nth_error_None in A; lia]. destruct (nth_error n i) as [ni|] eqn:B; [|apply nth_error_None in B; lia].
    destruct (nth_error times ka) as [ta|] eqn:C; [|apply nth_error_None in C; lia]. exists i, ka, ei, ni, ta. easy. }
  split; [|split; [|split]].
  - intros a Ha. destruct (Get a Ha) as (i & ka & ei & ni & ta & A & B & C & ->). rewrite (H i i ka ka ei ni ei ni ta ta t0 H0 A B C A B C), dist2_self. f_equal.
    rewrite Rmult_0_r, Ropp_0. apply exp_0.
  - intros a b Ha Hb. destruct (Get a Ha) as (i & ka & ei & ni & ta & A & B & C & ->). destruct (Get b Hb) as (j & kb & ej & nj & tb & A' & B' & C' & ->).
    eexists. split; [apply (H i j ka kb ei ni ej nj ta tb t0 H0 A B C A' B' C')|]. split.
    + rewrite (H j i kb ka ej nj ei ni tb ta t0 H0 A' B' C' A B C). now rewrite dist2_sym.
    + split; [apply exp_pos|]. rewrite <- exp_0. pose proof (dist2_nonneg (moved_back (ei, ni) spd dir (ta - t0)) (moved_back (ej, nj) spd dir (tb - t0))) as P.
      destruct P as [P|P]; [left; apply exp_increasing; nra|]. rewrite <- P. right. f_equal. ring.
  - intros i j a b ei ni ej nj ta tb A B C A' B' C'. rewrite (H i j a b ei ni ej nj ta tb t0 H0 A B C A' B' C').
    assert (Q : dist2 (moved_back (ei, ni) spd dir (ta - t0)) (moved_back (ej, nj) spd dir (tb - t0)) = 0 <->
                sub2 (ej, nj) (ei, ni) = scale2 (spd * (tb - ta)) (cos dir, sin dir)).
    { rewrite dist2_zero. unfold moved_back, sub2, scale2. cbn [fst snd]. split; intro Q; injection Q as Q1 Q2; f_equal; lra. }
    rewrite <- Q. split.
    + intro X. injection X as X. rewrite <- exp_0 in X. apply exp_inv in X. nra.
    + intros ->. f_equal. rewrite Rmult_0_r, Ropp_0. apply exp_0.
  - intros i j a b i' j' a' b' ei ni ej nj ta tb ei' ni' ej' nj' ta' tb' t0' c c' T0 A1 A2 A3 A4 A5 A6 B1 B2 B3 B4 B5 B6 X X'.
    assert (t0' = t0) by congruence. subst t0'.
    rewrite (H i j a b ei ni ej nj ta tb t0 H0 A1 A2 A3 A4 A5 A6) in X. rewrite (H i' j' a' b' ei' ni' ej' nj' ta' tb' t0 H0 B1 B2 B3 B4 B5 B6) in X'.
    injection X as <-. injection X' as <-. split; intro Q.
    + apply exp_lt_inv in Q. nra.
    + apply exp_increasing. nra.
Qed.
(*@ex C65 *)
Lemma copula_cov_example : exists D, spacetime_distances [0; 10] [0; 5] [0; 1; 2] 4 (PI / 3) = Ok D.
Proof. exact spacetime_example. Qed.

(** ** downscale *)
Lemma grid_range y : In y csi_grid -> -2 <= y <= 2.
Proof.
  intro I. unfold csi_grid in I. apply in_map_iff in I. destruct I as (i & <- & Hi). apply in_seq in Hi.
  assert (Hb : INR i < 400). { replace 400 with (INR (Z.to_nat 400)) by (rewrite INR_IZR_INZ, Z2Nat.id by lia; reflexivity). apply lt_INR. lia. }
  pose proof (pos_INR i). lra.
Qed.
Lemma grid_ne : csi_grid <> [].
Proof. discriminate. Qed.

Lemma reshape_cells ns nt l : length l = (ns * nt)%nat -> exists m, reshape_sites ns nt l = Ok m /\ shaped nt ns m /\
  forall t s v, (t < nt)%nat -> (s < ns)%nat -> nth_error l (s * nt + t) = Some v -> cell_at m t s v.
Proof.
  intro L. unfold reshape_sites. rewrite L, Nat.eqb_refl. eexists. split; [reflexivity|]. split; [split|].
  - unfold transpose. now rewrite map_length, seq_length.
  - intros row Hr. unfold transpose in Hr. apply in_map_iff in Hr. destruct Hr as (j & <- & _). now rewrite !map_length, seq_length.
  - intros t s v Ht Hs Hv. unfold transpose, cell_at. eexists. split.
    + rewrite nth_error_map, (nth_error_nth' _ 0%nat), seq_nth by (rewrite ?seq_length; easy). reflexivity.
    + rewrite !nth_error_map, (nth_error_nth' _ 0%nat), seq_nth by (rewrite ?seq_length; easy). cbn [option_map Nat.add]. f_equal.
      apply nth_error_nth. clear -Hv Ht. revert Hv. generalize (s * nt)%nat as a. intros a Hv.
      rewrite <- (firstn_skipn a l) in Hv.
      assert (La : (a <= length l)%nat).
      { destruct (Nat.le_gt_cases a (length l)); [easy|]. rewrite skipn_all2, app_nil_r in Hv by lia. rewrite firstn_all2 in Hv by lia. assert (nth_error l (a + t) <> None) by congruence. apply nth_error_Some in H0. lia. }
      rewrite nth_error_app2 in Hv by (rewrite firstn_length; lia). rewrite firstn_length, Nat.min_l in Hv by easy. replace (a + t - a)%nat with t in Hv by lia.
      rewrite <- (firstn_skipn nt (skipn a l)) in Hv. rewrite nth_error_app1 in Hv; [easy|].
      assert (nth_error (firstn nt (skipn a l) ++ skipn nt (skipn a l)) t <> None) by congruence. apply nth_error_Some in H. rewrite firstn_skipn in H.
      rewrite firstn_length. lia.
Qed.

Definition finish (scale noneg : bool) (K : R) (m : list (list R)) : list (list fl) :=
  let m := if noneg then clip_neg m else m in if scale then scale_to K m else map (map Fin) m.

Lemma downscale_core mvn Phi times e n spd dir K q seed : sampler mvn -> proper q -> times <> [] -> length e = length n ->
  exists pdf cdf k cov m, solar_gmm csi_grid K q = Ok (pdf, cdf, k) /\ site_time_cov k e n times spd dir cov /\
    shaped (length times) (length e) m /\
    (forall t s z, (t < length times)%nat -> (s < length e)%nat -> nth_error (mvn seed cov) (s * length times + t) = Some z ->
       cell_at m t s (inverse_sample csi_grid cdf (Phi z))) /\
    (forall v, In v (concat m) -> -2 <= v <= 2) /\
    forall scale noneg, downscale mvn Phi times e n [spd] dir K q seed scale noneg = Ok (finish scale noneg K m).
Proof.
  intros Hm (Q1 & Q2 & Q3) Nt EL. destruct (solar_gmm_ok csi_grid K q grid_ne Q1 Q2 Q3) as (pdf & cdf & k & Eg & Ek & Lc & _ & Bc & _).
  destruct (spacetime_defined e n times spd dir) as [_ Ed]. destruct (Ed (conj Nt EL)) as (D & ED). clear Ed.
  set (cov := cov_of k D). pose proof (cov_site_time e n times spd dir D k ED) as Hc. fold cov in Hc.
  set (smp := map (fun z => inverse_sample csi_grid cdf (Phi z)) (mvn seed cov)).
  assert (Ls : length smp = (length e * length times)%nat) by (unfold smp; rewrite map_length, Hm; apply Hc).
  destruct (reshape_cells (length e) (length times) smp Ls) as (m & Em & Sh & Cm).
  assert (U : in_unit cdf) by (intros c Ic; pose proof (Bc c Ic); lra).
  exists pdf, cdf, k, cov, m. split; [exact Eg|]. split; [exact Hc|]. split; [exact Sh|]. split; [|split].
  - intros t s z Ht Hs Hz. apply Cm; auto. unfold smp. now rewrite nth_error_map, Hz.
  - intros v Iv. apply in_concat in Iv. destruct Iv as (row & Ir & Iv). apply In_nth_error in Ir. destruct Ir as [t Hr]. apply In_nth_error in Iv. destruct Iv as [s Hs].
    destruct Sh as [Lm Lrow]. assert (Lt : (t < length times)%nat) by (rewrite <- Lm; apply nth_error_Some; congruence).
    assert (Lss : (s < length e)%nat) by (rewrite <- (Lrow row) by (eapply nth_error_In; eauto); apply nth_error_Some; congruence).
    destruct (nth_error smp (s * length times + t)) as [w|] eqn:Ew.
    + destruct (Cm t s w Lt Lss Ew) as (row' & Hr' & Hw). assert (row' = row) by congruence. subst row'. assert (w = v) by congruence. subst w.
      unfold smp in Ew. rewrite nth_error_map in Ew. destruct (nth_error (mvn seed cov) _) as [z|]; [|discriminate]. cbn in Ew. injection Ew as <-.
      apply inverse_range; [exact U|now rewrite Lc|apply grid_range].
    + apply nth_error_None in Ew. rewrite Ls in Ew. nia.
  - intros scale noneg. unfold downscale. rewrite Eg. cbn [rbind fst snd]. destruct times as [|t0 ts] eqn:Et; [easy|]. rewrite <- Et in *. unfold spacetime_speeds. rewrite Et at 1.
    rewrite ED. cbn [rbind]. rewrite copula_samples. fold cov smp. rewrite Em. reflexivity.
Qed.

(*@ C67 Routing: the value at row t, column s comes from the variate whose covariance row describes site s at time t. *)
Lemma downscale_routing : forall mvn Phi times e n spd dir K q seed, sampler mvn -> proper q -> times <> [] -> length e = length n ->
  exists pdf cdf k cov out, solar_gmm csi_grid K q = Ok (pdf, cdf, k) /\ site_time_cov k e n times spd dir cov /\
    downscale mvn Phi times e n [spd] dir K q seed false false = Ok out /\
    forall t s, (t < length times)%nat -> (s < length e)%nat ->
      exists z, nth_error (mvn seed cov) (s * length times + t) = Some z /\ cell_at out t s (Fin (inverse_sample csi_grid cdf (Phi z))).
Proof.
  intros mvn Phi times e n spd dir K q seed Hm Hq Nt EL. destruct (downscale_core mvn Phi times e n spd dir K q seed Hm Hq Nt EL) as (pdf & cdf & k & cov & m & Eg & Hc & Sh & Cm & _ & Ed).
  exists pdf, cdf, k, cov, (map (map Fin) m). split; [exact Eg|]. split; [exact Hc|]. split; [apply (Ed false false)|]. intros t s Ht Hs.
  destruct (nth_error (mvn seed cov) (s * length times + t)) as [z|] eqn:Ez.
  - exists z. split; [easy|]. destruct (Cm t s z Ht Hs Ez) as (row & Hr & Hv). exists (map Fin row). rewrite !nth_error_map, Hr, Hv. easy.
  - apply nth_error_None in Ez. rewrite Hm, (proj1 Hc) in Ez. nia.
Qed.
(*@ex C67 *)
Lemma downscale_routing_example : sampler (fun _ cov => map (fun _ => 0) cov) /\ proper default_params.
Proof. split; [intros seed cov; apply map_length|apply default_params_proper]. Qed.

Lemma shaped_map {A B} (f : A -> B) r c m : shaped r c m -> shaped r c (map (map f) m).
Proof. intros [L H]. split; [now rewrite map_length|]. intros row Hr. apply in_map_iff in Hr. destruct Hr as (x & <- & Ix). rewrite map_length. auto. Qed.
Lemma concat_map_map {A B} (f : A -> B) m : concat (map (map f) m) = map f (concat m).
Proof. symmetry. apply concat_map. Qed.

(*@ C66 Shape for every option; range with both options off. *)
Lemma downscale_shape : forall mvn Phi times e n spd dir K q seed scale noneg, sampler mvn -> proper q -> times <> [] -> length e = length n ->
  exists out, downscale mvn Phi times e n [spd] dir K q seed scale noneg = Ok out /\ shaped (length times) (length e) out /\
    (scale = false -> forall v, In v (concat out) -> exists x, v = Fin x /\ -2 <= x <= 2 /\ (noneg = true -> 0 <= x)).
Proof.
  intros mvn Phi times e n spd dir K q seed scale noneg Hm Hq Nt EL. destruct (downscale_core mvn Phi times e n spd dir K q seed Hm Hq Nt EL) as (pdf & cdf & k & cov & m & Eg & Hc & Sh & _ & Rg & Ed).
  eexists. split; [apply Ed|]. unfold finish. split.
  - unfold scale_to, clip_neg. destruct scale, noneg; repeat apply shaped_map; exact Sh.
  - intros -> v Iv. rewrite concat_map_map in Iv. apply in_map_iff in Iv. destruct Iv as (x & <- & Ix). exists x. split; [easy|]. destruct noneg.
    + unfold clip_neg in Ix. rewrite concat_map_map in Ix. apply in_map_iff in Ix. destruct Ix as (y & <- & Iy). apply Rg in Iy. destruct (Rltb_spec y 0); split; intros; lra.
    + split; [now apply Rg|easy].
Qed.

(*@ C66 noneg replaces every negative value by 0 and leaves the rest. *)
Lemma downscale_noneg : forall mvn Phi times e n spd dir K q seed, sampler mvn -> proper q -> times <> [] -> length e = length n ->
  exists m, downscale mvn Phi times e n [spd] dir K q seed false false = Ok (map (map Fin) m) /\
    downscale mvn Phi times e n [spd] dir K q seed false true = Ok (map (map (fun v => Fin (Rmax 0 v))) m).
Proof.
  intros mvn Phi times e n spd dir K q seed Hm Hq Nt EL. destruct (downscale_core mvn Phi times e n spd dir K q seed Hm Hq Nt EL) as (pdf & cdf & k & cov & m & _ & _ & _ & _ & _ & Ed).
  exists m. rewrite !Ed. split; [reflexivity|]. unfold finish, clip_neg. f_equal. rewrite map_map. apply map_ext. intro row. rewrite map_map. apply map_ext. intro v. f_equal.
  destruct (Rltb_spec v 0); [now rewrite Rmax_left by lra|now rewrite Rmax_right by lra].
Qed.

(*@ C66 scale multiplies by mean_csi over the mean, so the overall mean becomes mean_csi exactly; with a zero mean nothing finite is left. *)
Lemma downscale_scale : forall mvn Phi times e n spd dir K q seed noneg, sampler mvn -> proper q -> times <> [] -> length e = length n -> e <> [] ->
  exists m, downscale mvn Phi times e n [spd] dir K q seed false noneg = Ok (map (map Fin) m) /\ concat m <> [] /\
    (avg (concat m) <> 0 -> exists m', m' = map (map (fun v => v * (K / avg (concat m)))) m /\
       downscale mvn Phi times e n [spd] dir K q seed true noneg = Ok (map (map Fin) m') /\ avg (concat m') = K /\
       (noneg = true -> 0 <= K -> forall v, In v (concat m') -> 0 <= v)) /\
    (avg (concat m) = 0 -> exists out, downscale mvn Phi times e n [spd] dir K q seed true noneg = Ok out /\ forall v, In v (concat out) -> is_finite v = false).
Proof.
  intros mvn Phi times e n spd dir K q seed noneg Hm Hq Nt EL Ne. destruct (downscale_core mvn Phi times e n spd dir K q seed Hm Hq Nt EL) as (pdf & cdf & k & cov & m0 & _ & _ & Sh & _ & _ & Ed).
  set (m := if noneg then clip_neg m0 else m0). exists m.
  assert (Shm : shaped (length times) (length e) m) by (unfold m, clip_neg; destruct noneg; [apply shaped_map|]; exact Sh).
  assert (Nc : concat m <> []).
  { destruct Shm as [L Lr]. destruct m as [|row m1]; [destruct times; [easy|discriminate]|]. cbn. specialize (Lr row (or_introl eq_refl)). destruct row; [destruct e; [easy|discriminate]|]. easy. }
  rewrite !Ed. unfold finish. fold m. split; [reflexivity|]. split; [exact Nc|]. unfold scale_to. rewrite nan_reduce_ne by easy.
  change (Rmean (concat m)) with (avg (concat m)). split.
  - intro NZ. rewrite fdiv_fin by easy. eexists. split; [reflexivity|]. split; [|split].
    + f_equal. rewrite map_map. apply map_ext. intro row. rewrite map_map. apply map_ext. reflexivity.
    + rewrite concat_map_map. unfold avg. rewrite map_length. rewrite Rsum_map_scal_r, map_id. fold (avg (concat m)).
      pose proof (INR_length_pos (concat m) Nc). transitivity ((Rsum (concat m) / INR (length (concat m))) * (K / avg (concat m))); [field; split; [easy|lra]|].
      fold (avg (concat m)). field. exact NZ.
    + intros -> HK v Iv. rewrite concat_map_map in Iv. apply in_map_iff in Iv. destruct Iv as (y & <- & Iy).
      assert (P : forall z, In z (concat m) -> 0 <= z).
      { intros z Hz. unfold m, clip_neg in Hz. rewrite concat_map_map in Hz. apply in_map_iff in Hz. destruct Hz as (w & <- & _). destruct (Rltb_spec w 0); lra. }
      apply Rmult_le_pos; [now apply P|]. apply Rmult_le_pos; [easy|]. left. apply Rinv_0_lt_compat.
      assert (0 <= avg (concat m)) by (apply Rmean_nonneg; exact P). lra.
  - intro Z. rewrite Z, fdiv_zero. eexists. split; [reflexivity|]. intros v Iv. rewrite concat_map_map in Iv. apply in_map_iff in Iv. destruct Iv as (y & <- & _).
    unfold sgn_inf. destruct (Rltb 0 K); [|destruct (Rltb K 0)]; cbn; unfold sgn_inf; repeat match goal with |- context [Rltb ?a ?b] => destruct (Rltb a b) end; reflexivity.
Qed.

(*@ C66 Refused: sites of unequal length, no times; parameters whose cloudy deviation is zero. *)
Lemma downscale_errors : forall mvn Phi times e n spd dir K q seed scale noneg, proper q ->
  (times <> [] -> length e <> length n -> downscale mvn Phi times e n [spd] dir K q seed scale noneg = Err ValueError) /\
  downscale mvn Phi [] e n [spd] dir K q seed scale noneg = Err IndexError.
Proof.
  intros mvn Phi times e n spd dir K q seed scale noneg (Q1 & Q2 & Q3). destruct (solar_gmm_ok csi_grid K q grid_ne Q1 Q2 Q3) as (pdf & cdf & k & Eg & _).
  unfold downscale. rewrite Eg. cbn [rbind]. split; [|reflexivity]. intros Nt NL. unfold spacetime_speeds, spacetime_distances. destruct times as [|t0 ts]; [easy|].
  destruct (Nat.eqb_spec (length e) (length n)); [easy|]. reflexivity.
Qed.
(*@ex C66 *)
Lemma downscale_example : exists out, downscale (fun _ cov => map (fun _ => 0) cov) (fun _ => 1) [0; 1] [0; 5; 9] [0; 0; 1] [3] 0 (1/2) default_params 7 true true = Ok out /\
  shaped 2 3 out /\ (forall row, In row out -> forall v, In v row -> v = Fin (1/2)).
Proof.
  destruct downscale_routing_example as [Sm Pr].
  set (mvn := fun (_ : Z) (cov : list (list R)) => map (fun _ => 0) cov) in *.
  destruct (downscale_core mvn (fun _ => 1) [0; 1] [0; 5; 9] [0; 0; 1] 3 0 (1/2) default_params 7 Sm Pr ltac:(easy) eq_refl) as (pdf & cdf & k & cov & m & Eg & Hc & Sh & Cm & _ & Ed).
  assert (U : in_unit cdf).
  { destruct default_params_proper as (A & B & C). destruct (solar_gmm_ok csi_grid (1/2) default_params grid_ne A B C) as (p' & c' & k' & E' & _ & _ & _ & Bc & _).
    assert (c' = cdf) by congruence. subst c'. intros c Ic. specialize (Bc c Ic). lra. }
  assert (All : forall row, In row m -> forall v, In v row -> v = 2).
  { intros row Ir v Iv. apply In_nth_error in Ir. destruct Ir as [t Ht]. apply In_nth_error in Iv. destruct Iv as [s Hs]. destruct Sh as [Lm Lr].
    assert (Lt : (t < 2)%nat) by (change 2%nat with (length [0; 1]); rewrite <- Lm; apply nth_error_Some; congruence).
    assert (Ls : (s < 3)%nat) by (change 3%nat with (length [0; 5; 9]); rewrite <- (Lr row) by (eapply nth_error_In; eauto); apply nth_error_Some; congruence).
    assert (Hz : nth_error (mvn 7%Z cov) (s * 2 + t) = Some 0).
    { unfold mvn. rewrite nth_error_map. destruct (nth_error cov (s * 2 + t)) eqn:E; [reflexivity|]. apply nth_error_None in E. destruct Hc as [Lc _]. cbn in Lc. lia. }
    destruct (Cm t s 0 Lt Ls Hz) as (row' & Hr & Hv). assert (row' = row) by congruence. subst row'. rewrite Hs in Hv. injection Hv as ->.
    apply (inverse_ends csi_grid cdf 1 U). lra. }
  exists (finish true true (1/2) m). split; [apply Ed|]. unfold finish. assert (Cl : clip_neg m = m).
  { unfold clip_neg. rewrite <- (map_id m) at 2. apply map_ext_in. intros row Ir. rewrite <- (map_id row) at 2. apply map_ext_in. intros v Iv. rewrite (All row Ir v Iv). rewrite Rltb_false by lra. reflexivity. }
  rewrite Cl. split; [unfold scale_to; now apply shaped_map|]. unfold scale_to.
  assert (Ec : concat m = [2; 2; 2; 2; 2; 2]).
  { destruct Sh as [Lm Lr]. destruct m as [|r1 [|r2 [|]]]; try discriminate. pose proof (Lr r1 (or_introl eq_refl)) as L1. pose proof (Lr r2 (or_intror (or_introl eq_refl))) as L2.
    destruct r1 as [|a1 [|a2 [|a3 [|]]]]; try discriminate. destruct r2 as [|b1 [|b2 [|b3 [|]]]]; try discriminate. cbn.
    assert (F1 : forall x, In x [a1; a2; a3] -> x = 2) by (apply All; now left). assert (F2 : forall x, In x [b1; b2; b3] -> x = 2) by (apply All; right; now left).
    rewrite (F1 a1), (F1 a2), (F1 a3), (F2 b1), (F2 b2), (F2 b3) by (cbn; auto). reflexivity. }
  rewrite Ec, nan_reduce_ne by easy. replace (Rmean [2; 2; 2; 2; 2; 2]) with 2 by (unfold Rmean; rewrite !Rsum_cons, Rsum_nil; cbn; lra).
  rewrite fdiv_fin by lra. intros row Hr v Iv. apply in_map_iff in Hr. destruct Hr as (r0 & <- & Ir). apply in_map_iff in Iv. destruct Iv as (x & <- & Ix). rewrite (All r0 Ir x Ix). cbn. f_equal. lra.
Qed.

(** ** downscale_multihour *)
Lemma check_ok {A} n (a : hourly A) : fits n a -> check_hours n a = Ok tt.
Proof. destruct a as [x|l]; cbn; [easy|]. intros ->. now rewrite Nat.eqb_refl. Qed.
Lemma check_bad {A} n (a : hourly A) : ~ fits n a -> check_hours n a = Err ValueError.
Proof. destruct a as [x|l]; cbn; [easy|]. intro H. destruct (Nat.eqb_spec (length l) n); [easy|reflexivity]. Qed.

Lemma number_arg (a : hourly R) n i : number_fits n a -> (i < n)%nat -> forall b : bool,
  (match a with Single _ => b = false | Many _ => check_numbers n a = Ok b end) ->
  exists v, number_at_hour a i v /\ (if b then [nth i (as_list a) 0] else as_list a) = [v] /\ (if b then nth i (as_list a) 0 else nth 0 (as_list a) 0) = v.
Proof.
  intros F Hi b Hb. destruct a as [x|l]; cbn in *.
  - subst b. exists x. easy.
  - destruct (Nat.eqb_spec (length l) 1) as [E|E].
    + injection Hb as <-. destruct l as [|x [|]]; try discriminate. exists x. easy.
    + destruct F as [F|F]; [easy|]. rewrite F, Nat.eqb_refl in Hb. injection Hb as <-. exists (nth i l 0).
      assert (Hn : nth_error l i = Some (nth i l 0)) by (apply nth_error_nth'; lia). destruct l as [|x [|y l]]; [cbn in F; lia|easy|]. easy.
Qed.
Lemma number_check (a : hourly R) n l : number_fits n a -> a = Many l -> exists b, check_numbers n a = Ok b.
Proof.
  intros F ->. cbn in *. destruct (Nat.eqb_spec (length l) 1); [eauto|]. destruct F as [F|F]; [easy|]. rewrite F, Nat.eqb_refl. eauto.
Qed.

Lemma multi_calls mvn Phi times e n spd dir csi params seed scale noneg : fits (length csi) times -> fits (length csi) params ->
  number_fits (length csi) spd -> number_fits (length csi) dir -> same_kind spd dir ->
  exists f, downscale_multihour mvn Phi times e n spd dir csi params seed scale noneg =
     rbind (mapM f (seq 0 (length csi))) (fun hours => match hours with [] => Err ValueError | _ => Ok (concat hours) end) /\
    forall i, (i < length csi)%nat -> exists t q v d K, at_hour times i t /\ at_hour params i q /\ number_at_hour spd i v /\ number_at_hour dir i d /\
      nth_error csi i = Some K /\ f i = downscale mvn Phi t e n [v] d K q seed scale noneg.
Proof.
  intros Ft Fq Fs Fd Sk. unfold downscale_multihour. rewrite (check_ok _ _ Ft), (check_ok _ _ Fq). cbn [rbind].
  assert (G : exists ms md, (match dir with Single _ => Ok false | Many _ => check_numbers (length csi) dir end) = Ok md /\
    (match dir with Single _ => Ok false | Many _ => check_numbers (length csi) spd end) = Ok ms /\
    (match spd with Single _ => ms = false | Many _ => check_numbers (length csi) spd = Ok ms end) /\
    (match dir with Single _ => md = false | Many _ => check_numbers (length csi) dir = Ok md end)).
  { destruct spd as [s|ls], dir as [d|ld]; try easy; [exists false, false; easy|].
    destruct (number_check _ _ ls Fs eq_refl) as [b1 E1]. destruct (number_check _ _ ld Fd eq_refl) as [b2 E2]. exists b1, b2. easy. }
  destruct G as (ms & md & -> & -> & G1 & G2). cbn [rbind]. eexists. split; [reflexivity|]. intros i Hi. cbv beta.
  destruct (number_arg spd _ i Fs Hi ms G1) as (v & Hv & -> & _). destruct (number_arg dir _ i Fd Hi md G2) as (d & Hd & _ & ->).
  exists (match times with Many l => nth i l [] | Single t => t end), (match params with Many l => nth i l default_params | Single q => q end), v, d, (nth i csi 0).
  split; [|split; [|split; [|split; [|split]]]]; try easy.
  - destruct times as [t|l]; cbn; [easy|]. apply nth_error_nth'. cbn in Ft. lia.
  - destruct params as [q|l]; cbn; [easy|]. apply nth_error_nth'. cbn in Fq. lia.
  - now apply nth_error_nth'.
Qed.
Lemma number_at_fun a i v v' : number_at_hour a i v -> number_at_hour a i v' -> v = v'.
Proof. destruct a as [x|[|x [|y l]]]; cbn; intros; congruence. Qed.
Lemma at_hour_fun {A} (a : hourly A) i v v' : at_hour a i v -> at_hour a i v' -> v = v'.
Proof. destruct a; cbn; intros; congruence. Qed.

(*@ C68 With speed and direction given alike, the result is the concatenation of the single-hour results, each with its own hour's arguments. *)
Lemma multihour_value : forall mvn Phi times e n spd dir csi params seed scale noneg out, fits (length csi) times -> fits (length csi) params ->
  number_fits (length csi) spd -> number_fits (length csi) dir -> same_kind spd dir ->
  (downscale_multihour mvn Phi times e n spd dir csi params seed scale noneg = Ok out <->
   csi <> [] /\ exists hours, out = concat hours /\ length hours = length csi /\
     forall i K t q v d, nth_error csi i = Some K -> at_hour times i t -> at_hour params i q -> number_at_hour spd i v -> number_at_hour dir i d ->
       exists h, nth_error hours i = Some h /\ downscale mvn Phi t e n [v] d K q seed scale noneg = Ok h).
Proof.
  intros mvn Phi times e n spd dir csi params seed scale noneg out Ft Fq Fs Fd Sk.
  destruct (multi_calls mvn Phi times e n spd dir csi params seed scale noneg Ft Fq Fs Fd Sk) as (f & -> & Hf). split.
  - destruct (mapM f (seq 0 (length csi))) as [hs|er] eqn:E; cbn; [|discriminate]. intro H. pose proof (mapM_length _ _ _ E) as L. rewrite seq_length in L.
    assert (Hh : out = concat hs /\ hs <> []) by (destruct hs; [discriminate|split; [congruence|easy]]). destruct Hh as [-> Ne].
    split; [intros ->; destruct hs; easy|]. exists hs. split; [easy|]. split; [easy|]. intros i K t q v d HK Ht Hq Hv Hd.
    assert (Hi : (i < length csi)%nat) by (apply nth_error_Some; congruence).
    destruct (Hf i Hi) as (t' & q' & v' & d' & K' & A1 & A2 & A3 & A4 & A5 & A6).
    assert (t' = t) by (eapply at_hour_fun; eauto). assert (q' = q) by (eapply at_hour_fun; eauto). assert (v' = v) by (eapply number_at_fun; eauto).
    assert (d' = d) by (eapply number_at_fun; eauto). assert (K' = K) by congruence. subst. rewrite <- A6.
    apply mapM_seq in E. now apply E.
  - intros (Ne & hs & -> & L & H). replace (mapM f (seq 0 (length csi))) with (Ok hs : result (list (list (list fl)))).
    + cbn. destruct hs; [destruct csi; easy|reflexivity].
    + symmetry. apply mapM_seq. split; [easy|]. intros i Hi. destruct (Hf i Hi) as (t & q & v & d & K & A1 & A2 & A3 & A4 & A5 & ->). now apply (H i K t q v d).
Qed.

Lemma concat_length_sum {A} (l : list (list A)) : length (concat l) = list_sum (map (@length A) l).
Proof. induction l as [|x l IH]; [reflexivity|]. cbn. rewrite app_length. now rewrite IH. Qed.

(*@ C68 It succeeds for proper parameters and non-empty times, with one row per time of each hour and one column per site. *)
Lemma multihour_shape : forall mvn Phi (times : list (list R)) e n spd dir csi params seed scale noneg, sampler mvn -> csi <> [] ->
  length times = length csi -> fits (length csi) params -> number_fits (length csi) spd -> number_fits (length csi) dir -> same_kind spd dir ->
  (forall t, In t times -> t <> []) -> (forall i q, at_hour params i q -> proper q) -> length e = length n ->
  exists out, downscale_multihour mvn Phi (Many times) e n spd dir csi params seed scale noneg = Ok out /\
    shaped (list_sum (map (@length R) times)) (length e) out.
Proof.
  intros mvn Phi times e n spd dir csi params seed scale noneg Hm Nc Lt Fq Fs Fd Sk Nt Pq EL.
  destruct (multi_calls mvn Phi (Many times) e n spd dir csi params seed scale noneg Lt Fq Fs Fd Sk) as (f & E & Hf).
  assert (G : exists hs, mapM f (seq 0 (length csi)) = Ok hs /\ map (@length (list fl)) hs = map (@length R) times /\ forall h, In h hs -> forall row, In row h -> length row = length e).
  { assert (G1 : forall i, (i < length csi)%nat -> exists h t, f i = Ok h /\ nth_error times i = Some t /\ shaped (length t) (length e) h).
    { intros i Hi. destruct (Hf i Hi) as (t & q & v & d & K & A1 & A2 & A3 & A4 & A5 & ->). cbn in A1.
      destruct (downscale_shape mvn Phi t e n v d K q seed scale noneg Hm (Pq i q A2) (Nt t (nth_error_In _ _ A1)) EL) as (h & Eh & Sh & _). exists h, t. easy. }
    assert (G2 : forall l, (forall i, In i l -> (i < length csi)%nat) -> exists hs, mapM f l = Ok hs).
    { induction l as [|i l IH]; intro Hl; [now exists []|]. destruct (G1 i (Hl i (or_introl eq_refl))) as (h & t & Ei & _). destruct IH as (hs & Ehs); [intros; apply Hl; now right|].
      exists (h :: hs). cbn. now rewrite Ei, Ehs. }
    destruct (G2 (seq 0 (length csi))) as (hs & Ehs); [intros i Hi; apply in_seq in Hi; lia|]. exists hs. split; [easy|]. apply mapM_seq in Ehs. destruct Ehs as [L H]. split.
    - apply nth_error_ext. intro i. rewrite !nth_error_map. destruct (Nat.lt_ge_cases i (length csi)) as [Hi|Hi].
      + destruct (H i Hi) as (h & -> & Ei). destruct (G1 i Hi) as (h' & t & Ei' & -> & Sh & _). assert (h' = h) by congruence. subst h'. cbn [option_map]. now rewrite Sh.
      + rewrite !(proj2 (nth_error_None _ _)) by (cbn in *; lia). reflexivity.
    - intros h Ih row Ir. apply In_nth_error in Ih. destruct Ih as [i Hi]. assert (Hl : (i < length csi)%nat) by (rewrite <- L; apply nth_error_Some; congruence).
      destruct (H i Hl) as (h0 & Ei0 & Ei). destruct (G1 i Hl) as (h' & t & Ei' & _ & _ & Sh). assert (h0 = h) by congruence. assert (h' = h) by congruence. subst. now apply Sh. }
  destruct G as (hs & Eh & Lh & Rh). rewrite E, Eh. cbn [rbind]. exists (concat hs). split.
  - destruct hs; [|reflexivity]. apply mapM_length in Eh. rewrite seq_length in Eh. destruct csi; easy.
  - split; [rewrite concat_length_sum; now rewrite Lh|]. intros row Hr. apply in_concat in Hr. destruct Hr as (h & Ih & Ir). eapply Rh; eauto.
Qed.

(*@ C68 Hours with equal arguments are identical: the seed is used afresh for each hour. *)
Lemma multihour_repeats : forall mvn Phi t e n spd dir csi q seed scale noneg out, (forall K, In K csi -> K = nth 0 csi 0) ->
  downscale_multihour mvn Phi (Single t) e n (Single spd) (Single dir) csi (Single q) seed scale noneg = Ok out ->
  exists h, downscale mvn Phi t e n [spd] dir (nth 0 csi 0) q seed scale noneg = Ok h /\ out = concat (repeat h (length csi)).
Proof.
  intros mvn Phi t e n spd dir csi q seed scale noneg out Hc H.
  apply (multihour_value mvn Phi (Single t) e n (Single spd) (Single dir) csi (Single q) seed scale noneg out I I I I I) in H. destruct H as (Ne & hs & -> & L & H).
  destruct (nth_error csi 0) as [K0|] eqn:E0; [|destruct csi; easy].
  destruct (H 0%nat K0 t q spd dir E0 eq_refl eq_refl eq_refl eq_refl) as (h & _ & Eh).
  assert (nth 0 csi 0 = K0) by (now apply nth_error_nth). exists h. split; [congruence|]. f_equal. rewrite <- L.
  assert (G : forall x, In x hs -> x = h).
  { intros x Ix. apply In_nth_error in Ix. destruct Ix as [i Hi]. destruct (nth_error csi i) as [K|] eqn:EK; [|apply nth_error_None in EK; assert (i < length hs)%nat by (apply nth_error_Some; congruence); lia].
    destruct (H i K t q spd dir EK eq_refl eq_refl eq_refl eq_refl) as (h' & A1 & A2). rewrite (Hc K) in A2 by (eapply nth_error_In; eauto). congruence. }
  clear -G. induction hs as [|x hs IH]; [reflexivity|]. cbn. rewrite (G x) by now left. f_equal. apply IH. intros; apply G; now right.
Qed.

(*@ C68 What is refused. *)
Lemma multihour_errors : forall mvn Phi times e n spd dir csi params seed scale noneg,
  let call := downscale_multihour mvn Phi times e n spd dir csi params seed scale noneg in let h := length csi in
  (~ fits h times -> call = Err ValueError) /\
  (fits h times -> ~ fits h params -> call = Err ValueError) /\
  (fits h times -> fits h params -> ~ number_fits h dir -> call = Err ValueError) /\
  (fits h times -> fits h params -> number_fits h dir -> same_kind spd dir -> ~ number_fits h spd -> call = Err ValueError) /\
  (fits h times -> fits h params -> number_fits h dir -> (exists l s, dir = Many l /\ spd = Single s) -> call = Err TypeError) /\
  (fits h times -> fits h params -> number_fits h dir -> number_fits h spd -> same_kind spd dir -> csi = [] -> call = Err ValueError).
Proof.
  intros mvn Phi times e n spd dir csi params seed scale noneg call h.
  assert (CN : forall l, ~ number_fits h (Many l) -> check_numbers h (Many l) = Err ValueError).
  { intros l H. cbn in *. destruct (Nat.eqb_spec (length l) 1); [tauto|]. destruct (Nat.eqb_spec (length l) h); [tauto|reflexivity]. }
  split; [|split; [|split; [|split; [|split]]]]; unfold call, downscale_multihour; fold h.
  - intro H. now rewrite check_bad.
  - intros H1 H. rewrite check_ok by easy. cbn [rbind]. now rewrite check_bad.
  - intros H1 H2 H. rewrite !check_ok by easy. cbn [rbind]. destruct dir as [d|l]; [cbn in H; tauto|]. now rewrite CN.
  - intros H1 H2 H3 Sk H. rewrite !check_ok by easy. cbn [rbind]. destruct spd as [s|ls]; [cbn in H; tauto|]. destruct dir as [d|l]; [easy|].
    destruct (number_check _ h l H3 eq_refl) as (b & ->). cbn [rbind]. now rewrite CN.
  - intros H1 H2 H3 (l & s & -> & ->). rewrite !check_ok by easy. cbn [rbind]. destruct (number_check _ h l H3 eq_refl) as (b & ->). reflexivity.
  - intros H1 H2 H3 H4 Sk Ec.
    destruct (multi_calls mvn Phi times e n spd dir csi params seed scale noneg H1 H2 H4 H3 Sk) as (f & E & _). unfold downscale_multihour in E. fold h in E. rewrite E. subst csi. reflexivity.
Qed.

(*@ C68 Refuted: hourly speeds with one direction for all hours are not split by hour. Speed is validated by the type of direction, so
    the whole sequence reaches every hour, where it fails unless its length happens to equal the number of times. *)
Lemma multihour_speeds_refuted : forall mvn Phi t e n speeds dir csi q seed scale noneg, proper q -> csi <> [] -> t <> [] ->
  length speeds = length csi -> length speeds <> 1%nat -> length speeds <> length t ->
  downscale_multihour mvn Phi (Single t) e n (Many speeds) (Single dir) csi (Single q) seed scale noneg = Err ValueError.
Proof.
  intros mvn Phi t e n speeds dir csi q seed scale noneg Pq Nc Nt L N1 NT. unfold downscale_multihour. cbn [check_hours rbind as_list].
  assert (G : forall K, downscale mvn Phi t e n speeds dir K q seed scale noneg = Err ValueError).
  { intro K. destruct Pq as (Q1 & Q2 & Q3). destruct (solar_gmm_ok csi_grid K q grid_ne Q1 Q2 Q3) as (pdf & cdf & k & Eg & _). unfold downscale. rewrite Eg. cbn [rbind].
    unfold spacetime_speeds. destruct t as [|t0 ts]; [easy|]. destruct speeds as [|a [|b l]]; [|cbn in N1; lia|].
    - destruct (Nat.eqb_spec (length (@nil R)) (length (t0 :: ts))); [easy|reflexivity].
    - destruct (Nat.eqb_spec (length (a :: b :: l)) (length (t0 :: ts))); [easy|reflexivity]. }
  destruct csi as [|K csi]; [easy|]. cbn [length seq]. rewrite (mapM_err_first _ _ _ ValueError); [reflexivity|]. apply G.
Qed.
(*@ex C68 *)
Lemma multihour_example : exists out, downscale_multihour (fun _ cov => map (fun _ => 0) cov) (fun _ => 1 / 2) (Many [[0; 1; 2]; [3; 4]]) [0; 5] [0; 1]
  (Many [3; 4]) (Many [0]) [1 / 2; 3 / 4] (Single default_params) 7 true true = Ok out /\ shaped 5 2 out.
Proof.
  destruct downscale_routing_example as [Sm Pr].
  destruct (multihour_shape (fun _ cov => map (fun _ => 0) cov) (fun _ => 1 / 2) [[0; 1; 2]; [3; 4]] [0; 5] [0; 1] (Many [3; 4]) (Many [0]) [1 / 2; 3 / 4] (Single default_params) 7 true true Sm) as (out & E & Sh); try easy.
  - now right.
  - now left.
  - intros t [<-|[<-|[]]]; easy.
  - intros i q ->. exact Pr.
  - exists out. easy.
Qed.
