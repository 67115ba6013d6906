(** Cloud speeds given as a sequence. *)
From Verif Require Import Prelude PreludeFacts RealBase Fl RealStat M_spatial Spec_spatial Spec_stats M_copula Spec_copula P_plane X_spatial_time
  X_stats_err P_list X_copula_params X_copula_inverse X_copula_down Spec_copula_speeds.
Local Open Scope R_scope.

Lemma speeds_unfold x y t0 ts cs cd : length x = length y -> length cs = length (t0 :: ts) ->
  let times := t0 :: ts in
  let xf := drifted x (map2 (fun c t => c * (t - t0) * cos cd) cs times) in
  let yf := drifted y (map2 (fun c t => c * (t - t0) * sin cd) cs times) in
  spacetime_speeds x y times cs cd =
  Ok (map2 (map2 (fun a b => sqrt (a ^ 2 + b ^ 2))) (map (fun a => map (fun b => a - b) xf) xf) (map (fun a => map (fun b => a - b) yf) yf)).
Proof.
  intros EL EC times xf yf. unfold spacetime_speeds. unfold times at 1.
  assert (Md : forall g, map2 (fun c d => c * d * g) cs (map (fun t => t - t0) times) = map2 (fun c t => c * (t - t0) * g) cs times).
  { intro g. apply nth_error_ext. intro i. rewrite !nth_error_map2, nth_error_map. destruct (nth_error cs i), (nth_error times i); reflexivity. }
  assert (G : forall g, length (map2 (fun c t => c * (t - t0) * g) cs times) = length times) by (intro; now rewrite map2_length).
  destruct cs as [|v [|v' cs']]; [discriminate| |].
  - destruct ts; [|discriminate]. unfold xf, yf, times. rewrite spacetime_unfold by easy. reflexivity.
  - set (cs := v :: v' :: cs') in *. rewrite EC, EL, !Nat.eqb_refl. cbn [negb]. rewrite !Md.
    unfold ravelF. rewrite !transpose_transpose; [reflexivity| | | |].
    + now rewrite map_length.
    + apply Forall_forall. intros r Hr. apply in_map_iff in Hr. destruct Hr as (? & <- & _). now rewrite map_length, G.
    + rewrite map_length. easy.
    + apply Forall_forall. intros r Hr. apply in_map_iff in Hr. destruct Hr as (? & <- & _). now rewrite map_length, G.
Qed.

(*@ C13 With a sequence of speeds: one speed serves all times, otherwise there must be one per time; everything else is refused. *)
Lemma speeds_outcome : forall x y times cs cd,
  ((exists D, spacetime_speeds x y times cs cd = Ok D) <-> times <> [] /\ length x = length y /\ (length cs = 1%nat \/ length cs = length times)) /\
  (times = [] -> spacetime_speeds x y times cs cd = Err IndexError) /\
  (times <> [] -> length x <> length y \/ (length cs <> 1%nat /\ length cs <> length times) -> spacetime_speeds x y times cs cd = Err ValueError).
Proof.
  intros x y times cs cd.
  assert (E3 : times <> [] -> length x <> length y \/ (length cs <> 1%nat /\ length cs <> length times) -> spacetime_speeds x y times cs cd = Err ValueError).
  { intros Nt H. destruct times as [|t0 ts]; [easy|]. unfold spacetime_speeds. destruct cs as [|v [|v' cs]].
    - destruct (Nat.eqb_spec (length (@nil R)) (length (t0 :: ts))); [discriminate|reflexivity].
    - destruct H as [H|[H _]]; [|now cbn in H]. unfold spacetime_distances. destruct (Nat.eqb_spec (length x) (length y)); [easy|reflexivity].
    - destruct (Nat.eqb_spec (length (v :: v' :: cs)) (length (t0 :: ts))); [|reflexivity].
      destruct H as [H|[_ H]]; [|easy]. destruct (Nat.eqb_spec (length x) (length y)); [easy|reflexivity]. }
  split; [|split; [intros ->; reflexivity|exact E3]]. split.
  - intros [D E]. destruct times as [|t0 ts]; [discriminate|].
    assert (Nt : t0 :: ts <> []) by easy. split; [easy|].
    destruct (Nat.eq_dec (length x) (length y)) as [EL|NE]; [|rewrite E3 in E by (auto); discriminate]. split; [easy|].
    destruct (Nat.eq_dec (length cs) 1); [now left|]. destruct (Nat.eq_dec (length cs) (length (t0 :: ts))); [now right|].
    rewrite E3 in E by auto. discriminate.
  - intros (Nt & EL & [H|H]).
    + destruct cs as [|v [|]]; try discriminate. destruct (spacetime_defined x y times v cd) as [_ Ed]. destruct (Ed (conj Nt EL)) as [D ED].
      exists D. destruct times; [easy|exact ED].
    + destruct times as [|t0 ts]; [easy|]. rewrite speeds_unfold by easy. now eexists.
Qed.

(*@ C13 Every entry, each time with its own speed. *)
Lemma speeds_entry : forall x y times cs cd D, spacetime_speeds x y times cs cd = Ok D ->
  length D = (length x * length times)%nat /\ (forall row, In row D -> length row = length D) /\
  forall i j k l xi yi xj yj tk tl ck cl t0, nth_error times 0 = Some t0 ->
    nth_error x i = Some xi -> nth_error y i = Some yi -> nth_error times k = Some tk -> speed_at cs k ck ->
    nth_error x j = Some xj -> nth_error y j = Some yj -> nth_error times l = Some tl -> speed_at cs l cl ->
    entry D (i * length times + k) (j * length times + l) =
      Some (dist2 (moved_back (xi, yi) ck cd (tk - t0)) (moved_back (xj, yj) cl cd (tl - t0))).
Proof.
  intros x y times cs cd D E. destruct (proj1 (proj1 (speeds_outcome x y times cs cd)) (ex_intro _ D E)) as (Nt & EL & Hc).
  assert (H1 : length cs = 1%nat \/ (length cs <> 1%nat /\ length cs = length times)) by (destruct (Nat.eq_dec (length cs) 1); [now left|right; destruct Hc; [easy|now split]]).
  destruct H1 as [H1|[N1 H1]].
  - destruct cs as [|v [|]]; try discriminate.
    assert (E' : spacetime_distances x y times v cd = Ok D) by (destruct times; [easy|exact E]).
    destruct (spacetime_pseudometric _ _ _ _ _ _ E') as (L1 & L2 & _). split; [easy|]. split; [easy|].
    intros i j k l xi yi xj yj tk tl ck cl t0 H0 A B C Ck A' B' C' Cl. cbn in Ck, Cl. subst ck cl.
    destruct (spacetime_entry x y times v cd i j k l xi yi xj yj tk tl t0 EL H0 A B C A' B' C') as (D' & ED' & En).
    assert (D' = D) by congruence. now subst D'.
  - destruct times as [|t0 ts]; [easy|]. rewrite speeds_unfold in E by easy. cbv zeta in E. set (times := t0 :: ts) in *.
    set (dx := map2 (fun c t => c * (t - t0) * cos cd) cs times) in *. set (dy := map2 (fun c t => c * (t - t0) * sin cd) cs times) in *.
    assert (Lx : length dx = length times) by (unfold dx; now rewrite map2_length). assert (Ly : length dy = length times) by (unfold dy; now rewrite map2_length).
    match type of E with Ok ?X = Ok D => assert (HD : X = D) by congruence end. clear E. subst D.
    split; [rewrite map2_length; rewrite !map_length, !drifted_length, ?Lx, ?Ly; lia|]. split.
    + intros row Hr. apply In_nth_error in Hr. destruct Hr as [m Hm]. rewrite nth_error_map2, !nth_error_map in Hm.
      destruct (nth_error (drifted x dx) m), (nth_error (drifted y dy) m); cbn [option_map] in Hm; try discriminate.
      match type of Hm with Some ?X = Some row => assert (HX : X = row) by congruence end. subst row.
      rewrite !map2_length; rewrite ?map2_length, !map_length, !drifted_length, ?Lx, ?Ly; lia.
    + intros i j k l xi yi xj yj tk tl ck cl t0' H0 A B C Ck A' B' C' Cl. injection H0 as <-.
      assert (Sp : forall a c, speed_at cs a c -> nth_error cs a = Some c) by (intros a c; unfold speed_at; destruct cs as [|? [|]]; easy).
      apply Sp in Ck, Cl.
      rewrite (matrix_entry _ _ _ _ (xi - ck * (tk - t0) * cos cd) (xj - cl * (tl - t0) * cos cd) (yi - ck * (tk - t0) * sin cd) (yj - cl * (tl - t0) * sin cd)).
      * unfold moved_back, scale2, sub2. cbn [fst snd]. reflexivity.
      * rewrite <- Lx. apply drifted_nth; [easy|]. unfold dx. now rewrite nth_error_map2, Ck, C.
      * rewrite <- Lx. apply drifted_nth; [easy|]. unfold dx. now rewrite nth_error_map2, Cl, C'.
      * rewrite <- Ly. apply drifted_nth; [easy|]. unfold dy. now rewrite nth_error_map2, Ck, C.
      * rewrite <- Ly. apply drifted_nth; [easy|]. unfold dy. now rewrite nth_error_map2, Cl, C'.
Qed.
(*@ex C13 Two sites, three times, three speeds. *)
Lemma speeds_example : exists D, spacetime_speeds [0; 10] [0; 5] [0; 1; 2] [4; 5; 6] (PI / 3) = Ok D.
Proof. apply (proj1 (speeds_outcome _ _ _ _ _)). split; [easy|]. split; [easy|now right]. Qed.

Lemma cov_speeds e n times spds dir D k : spacetime_speeds e n times spds dir = Ok D -> site_time_cov_speeds k e n times spds dir (cov_of k D).
Proof.
  intro E. destruct (speeds_entry _ _ _ _ _ _ E) as (L & Lr & H). split; [unfold cov_of; now rewrite map_length|]. split.
  - intros row Hr. unfold cov_of in *. rewrite map_length. apply in_map_iff in Hr. destruct Hr as (r & <- & Ir). rewrite map_length. auto.
  - intros i j a b ei ni ej nj ta tb ca cb t0 H0 A B C Ca A' B' C' Cb.
    rewrite entry_cov, (H i j a b ei ni ej nj ta tb ca cb t0) by assumption. cbn [option_map]. do 2 f_equal. ring.
Qed.

(*@ C67 Routing with a sequence of speeds: the value at row t, column s comes from the variate whose covariance row
    describes site s at time t, moved with the speed listed for that time. *)
Lemma downscale_speeds : forall mvn Phi times e n spds dir K q seed, sampler mvn -> proper q -> times <> [] -> length e = length n ->
  length spds = 1%nat \/ length spds = length times ->
  exists pdf cdf k cov out, solar_gmm csi_grid K q = Ok (pdf, cdf, k) /\ site_time_cov_speeds k e n times spds dir cov /\
    downscale mvn Phi times e n spds dir K q seed false false = Ok out /\ shaped (length times) (length e) out /\
    forall t s, (t < length times)%nat -> (s < length e)%nat ->
      exists z, nth_error (mvn seed cov) (s * length times + t) = Some z /\ cell_at out t s (Fin (inverse_sample csi_grid cdf (Phi z))).
Proof.
  intros mvn Phi times e n spds dir K q seed Hm (Q1 & Q2 & Q3) Nt EL Ls.
  destruct (solar_gmm_ok csi_grid K q grid_ne Q1 Q2 Q3) as (pdf & cdf & k & Eg & Ek & Lc & _).
  destruct (proj2 (proj1 (speeds_outcome e n times spds dir)) (conj Nt (conj EL Ls))) as [D ED].
  pose proof (cov_speeds e n times spds dir D k ED) as Hc. set (cov := cov_of k D) in *.
  set (smp := map (fun z => inverse_sample csi_grid cdf (Phi z)) (mvn seed cov)).
  assert (Lm : length smp = (length e * length times)%nat) by (unfold smp; rewrite map_length, Hm; apply Hc).
  destruct (reshape_cells (length e) (length times) smp Lm) as (m & Em & Sh & Cm).
  exists pdf, cdf, k, cov, (map (map Fin) m). split; [exact Eg|]. split; [exact Hc|]. split; [|split].
  - unfold downscale. rewrite Eg. cbn [rbind fst snd]. rewrite ED. cbn [rbind]. rewrite copula_samples. fold cov smp. rewrite Em. reflexivity.
  - now apply shaped_map.
  - intros t s Ht Hs. destruct (nth_error (mvn seed cov) (s * length times + t)) as [z|] eqn:Ez.
    + exists z. split; [easy|]. destruct (Cm t s (inverse_sample csi_grid cdf (Phi z)) Ht Hs) as (row & Hr & Hv).
      { unfold smp. now rewrite nth_error_map, Ez. }
      exists (map Fin row). rewrite !nth_error_map, Hr, Hv. split; reflexivity.
    + apply nth_error_None in Ez. rewrite Hm in Ez. destruct Hc as (Hc & _). rewrite Hc in Ez. nia.
Qed.

(*@ C68 Hourly speeds given with one direction for all hours are not split: every hour is computed from the whole sequence, so
    when the number of hours happens to equal the number of times the call succeeds, using the i-th hour's speed for the i-th time
    of every hour. *)
Lemma multihour_speeds_misread : forall mvn Phi t e n speeds dir csi q seed, proper q -> csi <> [] -> t <> [] -> length e = length n ->
  length speeds = length csi -> length speeds = length t -> sampler mvn ->
  exists hours, downscale_multihour mvn Phi (Single t) e n (Many speeds) (Single dir) csi (Single q) seed false false = Ok (concat hours) /\
    length hours = length csi /\
    forall i K, nth_error csi i = Some K -> exists h, nth_error hours i = Some h /\ downscale mvn Phi t e n speeds dir K q seed false false = Ok h.
Proof.
  intros mvn Phi t e n speeds dir csi q seed Pq Nc Nt EL L1 L2 Hm. unfold downscale_multihour. cbn [check_hours rbind as_list nth].
  set (f := fun K => downscale mvn Phi t e n speeds dir K q seed false false).
  assert (G : forall K, exists h, f K = Ok h).
  { intro K. destruct (downscale_speeds mvn Phi t e n speeds dir K q seed Hm Pq Nt EL (or_intror L2)) as (? & ? & ? & ? & out & _ & _ & E & _). exists out. exact E. }
  assert (M : forall l, exists hs, mapM f l = Ok hs).
  { intro l. induction l as [|K l [hs IH]]; [now exists []|]. cbn [mapM]. destruct (G K) as [h ->]. cbn [rbind]. rewrite IH. now eexists. }
  destruct (M csi) as [hs E]. pose proof (mapM_length _ _ _ E) as Lh. exists hs.
  assert (E' : mapM (fun i => f (nth i csi 0)) (seq 0 (length csi)) = Ok hs).
  { apply mapM_seq. split; [easy|]. intros i Hi. apply mapM_ok_iff in E.
    assert (X : forall l l' j, Forall2 (fun x y => f x = Ok y) l l' -> (j < length l)%nat -> exists y, nth_error l' j = Some y /\ f (nth j l 0) = Ok y).
    { clear. intros l l' j F. revert j. induction F as [|x y l l' Hxy F IH]; intros [|j] Hj; cbn in *; try lia; [now exists y|apply IH; lia]. }
    exact (X csi hs i E Hi). }
  split; [|split; [easy|]].
  - change (rbind (mapM (fun i => f (nth i csi 0)) (seq 0 (length csi))) (fun hours => match hours with [] => Err ValueError | _ => Ok (concat hours) end) = Ok (concat hs)).
    rewrite E'. cbn [rbind]. destruct hs; [destruct csi; easy|reflexivity].
  - intros i K HK. apply mapM_seq in E'. destruct (proj2 E' i) as (h & Hh & Eh); [apply nth_error_Some; congruence|].
    exists h. split; [easy|]. now rewrite (nth_error_nth _ _ 0 HK) in Eh.
Qed.
(*@ex C68 Three hours of three times each. *)
Lemma multihour_misread_example : exists out, downscale_multihour (fun _ cov => map (fun _ => 0) cov) (fun _ => 1 / 2) (Single [0; 1; 2]) [0; 5] [0; 1]
  (Many [3; 4; 5]) (Single 0) [1 / 2; 3 / 4; 1] (Single default_params) 7 false false = Ok out.
Proof.
  destruct downscale_routing_example as [Sm Pr].
  destruct (multihour_speeds_misread (fun _ cov => map (fun _ => 0) cov) (fun _ => 1 / 2) [0; 1; 2] [0; 5] [0; 1] [3; 4; 5] 0 [1 / 2; 3 / 4; 1] default_params 7) as (hs & E & _); try easy.
  now exists (concat hs).
Qed.
