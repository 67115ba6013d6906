(** Concrete cases for the cloud field, and when a partly clear field can be generated. *)
From Verif Require Import Prelude PreludeFacts RealBase Fl RealStat Spec_stats M_stats P_stats P_list P_quantile X_stats_err Spec_copula M_cloudfield Spec_cloudfield
  X_copula_down X_field_pos X_cloud_random X_cloud_weights X_cloud_mask X_cloud_edges X_cloud_scale X_cloud_ts.
From Coq Require Import Lra Psatz Permutation.
Local Open Scope R_scope.

(** A dark, a bright, an edge and a clear pixel. *)
Definition four : list (list pixel) := [[Pixel 0 0 0; Pixel 1 0 0]; [Pixel (1/2) 0 1; Pixel 0 1 0]].
Lemma four_mask : mask01 four /\ exists p, In p (concat four) /\ px_clear p = 0.
Proof. split; [intros p [<-|[<-|[<-|[<-|[]]]]]; cbn; auto|]. exists (Pixel 0 0 0). split; [now left|easy]. Qed.
Lemma four_values : not_clear four = [0; 1; 1/2].
Proof. unfold not_clear, four. cbn [concat app filter px_clear]. rewrite (Reqb_false 1 0) by lra. destruct mask_zero as (_ & -> & _). reflexivity. Qed.
Lemma four_edge : kind_of (Pixel (1/2) 0 1) = Edge.
Proof. unfold kind_of. cbn [px_clear px_edge]. rewrite Reqb_false by lra. now rewrite Rltb_true by lra. Qed.
Lemma four_clear v : kind_of (Pixel v 1 0) = Clear.
Proof. unfold kind_of. cbn [px_clear]. unfold Reqb. destruct (Req_EM_T 1 1); [easy|]. contradiction. Qed.
Lemma four_kinds : of_kind Cloud four = [Pixel 0 0 0; Pixel 1 0 0] /\ of_kind Edge four = [Pixel (1/2) 0 1] /\ of_kind Clear four = [Pixel 0 1 0].
Proof. unfold of_kind, four. cbn [concat app filter]. rewrite !kind_two, four_edge, four_clear. cbn [same_kind_as]. easy. Qed.
Lemma four_quantile q k f v : q * 2 = INR k + f -> 0 <= f < 1 -> (k <= 1)%nat -> v = (INR k + f) / 2 -> is_quantile q [0; 1; 1/2] v.
Proof.
  intros E F K ->. split; [easy|]. exists [0; 1/2; 1], k, f. split; [repeat constructor|]. split.
  - intros i j L. cbn [length] in L. destruct i as [|[|[|i]]], j as [|[|[|j]]]; cbn [nth]; try lra; lia.
  - split; [rewrite <- E; cbn; lra|]. split; [exact F|]. destruct k as [|[|k]]; [cbn; lra|cbn; lra|lia].
Qed.
Lemma four_same a b c d a' b' c' d' : a = a' -> b = b' -> c = c' -> d = d' ->
  @Ok (list (list fl)) [[Fin a; Fin b]; [Fin c; Fin d]] = Ok [[Fin a'; Fin b']; [Fin c'; Fin d']].
Proof. now intros -> -> -> ->. Qed.
(*@ex C74 a field of four pixels, one clear and one edge, meets the hypotheses and gets the target mean *)
Lemma lave_example : mask01 four /\ is_quantile (1/2) (not_clear four) (1/2) /\
  (let cloud p := lave_cloud (2/10) (1/2) (px_v p) in
   smallest (map cloud (concat four)) 0 /\ largest (map cloud (concat four)) 1 /\
   0 < n_pixels four * (8/10) - INR (length (of_kind Clear four)) - Rsum (map (fun p => 1 + (cloud p - 0) / (1 - 0) * (14/10 - 1)) (of_kind Edge four)) /\
   (exists p, In p (of_kind Cloud four) /\ cloud p <> 0)) /\
  scale_field_lave four (8/10) (14/10) (2/10) (1/2) = Ok [[Fin (112/100); Fin 0]; [Fin (108/100); Fin 1]] /\
  avg (concat [[112/100; 0]; [108/100; 1]]) = 8/10.
Proof.
  destruct four_mask as [M Ex]. destruct four_kinds as (K1 & K2 & K3).
  assert (Q : is_quantile (1/2) (not_clear four) (1/2)) by (rewrite four_values; apply (four_quantile _ 1 0); cbn; lra || lia).
  assert (C0 : lave_cloud (2/10) (1/2) 0 = 1) by (unfold lave_cloud; rewrite Rmin_left by lra; now rewrite Rmax_right by lra).
  assert (C1 : lave_cloud (2/10) (1/2) 1 = 0) by (unfold lave_cloud; rewrite Rmin_right by lra; now rewrite Rmax_left by lra).
  assert (C2 : lave_cloud (2/10) (1/2) (1/2) = 2/10) by (unfold lave_cloud; rewrite Rmin_right by lra; rewrite Rmax_right by lra; lra).
  assert (S1 : smallest (map (fun p => lave_cloud (2/10) (1/2) (px_v p)) (concat four)) 0).
  { unfold four. cbn [concat app map px_v]. rewrite C0, C1, C2. split; [right; now left|]. intros x [<-|[<-|[<-|[<-|[]]]]]; lra. }
  assert (S2 : largest (map (fun p => lave_cloud (2/10) (1/2) (px_v p)) (concat four)) 1).
  { unfold four. cbn [concat app map px_v]. rewrite C0, C1, C2. split; [now left|]. intros x [<-|[<-|[<-|[<-|[]]]]]; lra. }
  split; [exact M|]. split; [exact Q|]. cbv zeta. split.
  - split; [exact S1|]. split; [exact S2|]. rewrite K1, K2, K3. split.
    + unfold n_pixels, four. cbn [concat app map px_v length]. rewrite C2, Rsum_cons, Rsum_nil. cbn [INR]. lra.
    + exists (Pixel 0 0 0). split; [now left|]. cbn [px_v]. rewrite C0. lra.
  - split; [|unfold avg; cbn [concat app length INR]; rewrite !Rsum_cons, Rsum_nil; lra].
    pose proof (lave_value four (8/10) (14/10) (2/10) (1/2) (1/2) 0 1 M Ex ltac:(lra) Q ltac:(lra) S1 S2 ltac:(lra)) as V. cbv zeta in V. rewrite K1, K2, K3 in V.
    remember (scale_field_lave four (8/10) (14/10) (2/10) (1/2)) as r. unfold n_pixels, four in V. cbn [concat app map px_v length] in V. rewrite C0, C1, C2, !Rsum_cons, !Rsum_nil in V.
    cbn [INR] in V. rewrite Rltb_true in V by lra. rewrite Reqb_false in V by lra.
    rewrite !kind_two, four_edge, four_clear in V. rewrite V. apply four_same; lra.
Qed.
(*@ex C75 the same four pixels under the basic scaling, in the branch that matches the mean *)
Lemma basic_example : mask01 four /\ is_quantile (3/4) (not_clear four) (3/4) /\ is_quantile (1 - 3/4) (not_clear four) (1/4) /\
  scale_field_basic four (3/4) (14/10) (2/10) (3/4) false None = Ok (map (map Fin) [[4/10; 4/10]; [12/10; 1]]) /\
  avg (concat [[4/10; 4/10]; [12/10; 1]]) = 3/4.
Proof.
  destruct four_mask as [M Ex]. destruct four_kinds as (K1 & K2 & K3).
  assert (Q : is_quantile (3/4) (not_clear four) (3/4)) by (rewrite four_values; apply (four_quantile _ 1 (1/2)); cbn; lra || lia).
  assert (Q' : is_quantile (1 - 3/4) (not_clear four) (1/4)) by (rewrite four_values; apply (four_quantile _ 0 (1/2)); cbn; lra || lia).
  split; [exact M|]. split; [exact Q|]. split; [exact Q'|].
  split; [|unfold avg; cbn [concat app length INR]; rewrite !Rsum_cons, Rsum_nil; lra].
  assert (C0 : basic_share false (1/4) (3/4) 0 = 1/2) by (unfold basic_share, fold_back; rewrite Rltb_false by lra; rewrite Rabs_left by lra; lra).
  assert (C1 : basic_share false (1/4) (3/4) 1 = 1/2) by (unfold basic_share, fold_back; rewrite Rltb_true by lra; rewrite Rabs_right by lra; lra).
  assert (C2 : basic_share false (1/4) (3/4) (1/2) = 1/2) by (unfold basic_share, fold_back; rewrite Rltb_false by lra; rewrite Rabs_right by lra; lra).
  pose proof (basic_value four (3/4) (14/10) (2/10) (3/4) false None (3/4) (1/4) M Ex ltac:(lra) Q Q' ltac:(lra)) as V. cbv zeta in V. rewrite K1, K2, K3 in V.
  remember (scale_field_basic four (3/4) (14/10) (2/10) (3/4) false None) as r. unfold n_pixels, four in V. cbn [concat app map px_v length] in V. rewrite C0, C1, C2, !Rsum_cons, !Rsum_nil in V.
  cbn [INR] in V. rewrite !Rltb_true in V by lra. cbn [andb] in V.
  rewrite !kind_two, four_edge, four_clear in V. rewrite V. apply four_same; lra.
Qed.
(** A wavelet decomposition with two bands and a steady mode. *)
Definition bands (_ : tser) : list (list (option R)) * list R := ([[Some 1; Some (-1)]; [Some 1; None]; [Some 5; Some 5]], [2; 4; 8]).
(*@ex C77 a series with a missing sample: means, clear share and wavelet weights *)
Lemma stats_example : let kt := [(0%Z, Some (1/2)); (1%Z, None); (2%Z, Some 1)] in
  present (values kt) <> [] /\ length (fst (bands kt)) = length (snd (bands kt)) /\
  exists st, get_timeseries_stats bands kt (9/10) = Ok st /\ st_mean st = Fin (3/4) /\ st_clear st = Fin (1/3) /\ st_weights st = map Fin [1/2; 1/2] /\ st_scales st = [1; 2]%Z.
Proof.
  cbv zeta. set (kt := [(0%Z, Some (1/2)); (1%Z, None); (2%Z, Some 1)]). assert (Ne : present (values kt) <> []) by easy.
  split; [exact Ne|]. split; [reflexivity|].
  destruct (stats_value bands kt (9/10) Ne) as (st & m & p & x & s & E & Em & Hm & _ & _ & _ & _ & Es & Hs & _). exists st. split; [exact E|].
  destruct (stats_weights bands kt (9/10) eq_refl) as (st' & m' & E' & Hm' & _ & L2 & Sc & W). assert (st' = st) by congruence. subst st'. cbn in Hm'. subst m'.
  split; [rewrite Em, Hm; f_equal; unfold avg; cbn; lra|]. split.
  { rewrite Es, Hs. f_equal. unfold kt. cbn [values map snd present flat_map app filter length]. rewrite Rltb_false by lra. rewrite Rltb_true by lra. cbn [length INR]. lra. }
  split.
  - cbv zeta in W. destruct W as (ws & Ew & _ & Hw).
    + cbn. intros w [<-|[<-|[]]]; easy.
    + exists [Some 1; Some (-1)], 1. cbn. repeat split; auto; lra.
    + rewrite Ew, Hw. cbn [bands fst firstn map]. unfold present, avg. cbn. repeat f_equal; lra.
  - destruct (st_scales st) as [|a [|b [|? ?]]]; try discriminate. rewrite (Sc 0%nat a eq_refl), (Sc 1%nat b eq_refl). reflexivity.
Qed.

Lemma shaped_pixels n m (f : list (list R)) : shaped n m f -> n_pixels f = INR (n * m).
Proof.
  unfold n_pixels. intros [L Hr]. f_equal. revert n L Hr. induction f as [|r f IH]; intros n L Hr; [cbn in L; subst; reflexivity|]. cbn [length concat] in *. rewrite app_length.
  destruct n as [|n]; [discriminate|]. rewrite (IH n), (Hr r); [cbn; lia|now left|congruence|]. intros r' I. apply Hr. now right.
Qed.
(** Success once the mask is computed and leaves a cloudy pixel. *)
Lemma field_of_mask rnd ws sc n m frac ktmean ktmax kt1pct scaling es cover mask : length ws = length sc -> (0 < n)%nat -> (0 < m)%nat ->
  scaling = Original \/ scaling = Basic -> stack_random_field rnd (length sc) ws sc (n, m) false = Ok cover ->
  calc_clear_mask cover frac = Ok mask -> shaped n m mask -> (exists i j, cell_at mask i j 0) ->
  exists out, cloudfield_timeseries rnd ws sc (n, m) frac ktmean ktmax kt1pct scaling es = Ok out.
Proof.
  intros L Hn Hm Hs Ec Ek Sk (i0 & j0 & Z0). unfold cloudfield_timeseries. destruct (stack_value rnd 0 ws sc n m L) as (cf & _ & Ecf & Scf & _).
  rewrite Ecf. cbn [rbind]. rewrite Ec. cbn [rbind]. rewrite Ek. cbn [rbind].
  destruct (edges_value n m mask es 0 Sk Hn Hm) as (e & b & Ee & Se & Sb & _). rewrite Ee. cbn [rbind].
  assert (U : forall e', shaped n m e' -> unclear_values (pixels cf mask e') <> []).
  { intros e' Se'. change (unclear_values (pixels cf mask e')) with (not_clear (pixels cf mask e')). apply not_clear_ne. destruct (cell_bounds n m mask i0 j0 0 Sk Z0) as [B1 B2].
    destruct (shaped_cell n m (pixels cf mask e') i0 j0 (pixels_shaped _ _ _ _ _ Scf Sk Se') B1 B2) as [p C]. exists p. split; [eapply cell_in; eauto|].
    destruct (pixels_inv n m _ _ _ _ _ _ Scf Sk Se' C) as (_ & K & _). exact (cell_fun _ _ _ _ _ K Z0). }
  destruct Hs as [-> | ->].
  - unfold scale_field_lave. rewrite ok_quantile by lra. specialize (U e Se). destruct (unclear_values _); [easy|]. eexists. reflexivity.
  - unfold scale_field_basic. rewrite ok_quantile by lra. specialize (U (map (map as_number) b) ltac:(now apply shaped_map)). destruct (unclear_values _); [easy|]. eexists. reflexivity.
Qed.
Lemma count_full {A} (f : A -> bool) (l : list A) : (length (filter f l) < length l)%nat -> exists x, In x l /\ f x = false.
Proof.
  induction l as [|a l IH]; cbn; [lia|]. destruct (f a) eqn:E; [|exists a; auto]. cbn. intro H. destruct IH as (x & I & F); [lia|]. exists x. auto.
Qed.
(*@ C84 A partly clear field is always generated when no two pixels of the cover are equal and the clear part asked for is at least
    1001 pixels: the self-check cannot fail then. *)
Lemma field_succeeds : forall rnd weights scales n m frac ktmean ktmax kt1pct scaling smoothing cover, length weights = length scales ->
  scaling = Original \/ scaling = Basic -> stack_random_field rnd (length scales) weights scales (n, m) false = Ok cover ->
  NoDup (concat cover) -> 0 < frac < 1 -> 1001 <= INR (n * m) * frac ->
  exists out, cloudfield_timeseries rnd weights scales (n, m) frac ktmean ktmax kt1pct scaling smoothing = Ok out.
Proof.
  intros rnd ws sc n m frac ktmean ktmax kt1pct scaling es cover L Hs Ec Nd Hf Hn.
  assert (Pn : (0 < n /\ 0 < m)%nat). { destruct n; [cbn in Hn; lra|]. destruct m; [rewrite Nat.mul_0_r in Hn; cbn in Hn; lra|]. lia. }
  destruct (stack_value rnd (length sc) ws sc n m L) as (cover' & _ & Ec' & Sc & _). assert (cover' = cover) by congruence. subst cover'.
  pose proof (shaped_pixels n m cover Sc) as Np. rewrite <- Np in Hn.
  destruct (mask_succeeds cover frac ltac:(lra) Nd Hn) as [mask Ek].
  assert (Ne : concat cover <> []) by (intro E; unfold n_pixels in Hn; rewrite E in Hn; cbn in Hn; lra).
  destruct (mask_value cover frac ltac:(lra) Ne) as (t & A & B & C & D). cbv zeta in *. specialize (B Nd).
  assert (Em : mask = map (map (Spec_cloudfield.below t)) cover).
  { destruct (Rle_dec (Rabs (frac - INR (count (fun v => Rleb v t) cover) / n_pixels cover)) (1 / 100000000 + 1 / 1000 * (INR (count (fun v => Rleb v t) cover) / n_pixels cover))) as [Q|Q].
    - specialize (C Q). congruence.
    - exfalso. apply Rnot_le_lt in Q. specialize (D Q). congruence. }
  apply (field_of_mask rnd ws sc n m frac ktmean ktmax kt1pct scaling es cover mask); try easy; try apply Pn.
  - subst mask. now apply shaped_map.
  - assert (Lt : (count (fun v => Rleb v t) cover < length (concat cover))%nat).
    { apply INR_lt. change (INR (length (concat cover))) with (n_pixels cover). assert (1 < n_pixels cover) by nra. nra. }
    destruct (count_full (fun v => Rleb v t) (concat cover) Lt) as (v & Iv & Fv). destruct (cell_inv _ _ Iv) as (i & j & Cv). exists i, j. subst mask.
    apply map_cell. exists v. split; [exact Cv|]. unfold Spec_cloudfield.below. now rewrite Fv.
Qed.
(** Draws of four values. *)
Definition draw_value (i j : nat) : R := match i, j with O, O => 0 | O, _ => 1/4 | _, O => 1/2 | _, _ => 3/4 end.
Definition draws (k a b : nat) : list (list R) := build a b draw_value.
Lemma draws_generator : generator draws.
Proof.
  intros k a b. split; [apply build_shaped|]. intros v Iv. apply cell_inv in Iv. destruct Iv as (i & j & Hc). destruct (cell_bounds _ _ _ _ _ _ (build_shaped a b _) Hc).
  rewrite (cell_fun _ _ _ _ _ Hc (build_cell a b _ i j H H0)). destruct i, j; cbn; lra.
Qed.
(*@ex C84 half clear sky on 2 by 2 pixels *)
Lemma field_example : generator draws /\ exists cover out, stack_random_field draws 1 [1] [1] (2, 2)%nat false = Ok cover /\
  (forall i j, (i < 2)%nat -> (j < 2)%nat -> cell_at cover i j (draw_value i j)) /\ NoDup (concat cover) /\
  cloudfield_timeseries draws [1] [1] (2, 2)%nat (1/2) (8/10) (14/10) (2/10) Original 0 = Ok out.
Proof.
  split; [exact draws_generator|].
  destruct (stack_value draws 1 [1] [1] 2 2 eq_refl) as (cover & layers & Ec & Sc & Ll & La & V).
  assert (VC : forall i j, (i < 2)%nat -> (j < 2)%nat -> cell_at cover i j (draw_value i j)).
  { intros i j Hi Hj. destruct (La 0%nat 1 eq_refl) as (A & B & HA & HB & El). destruct layers as [|F [|? ?]]; try discriminate. cbn [nth_error] in El. assert (EF : F = snd (random_at_scale draws (1 + 0) (A, B) (2, 2)%nat)) by congruence. clear El. cbn [Nat.add] in EF.
    replace (1 - 1) with 0 in HA, HB by lra. rewrite Rpower_O in HA, HB by lra. cbn [INR] in HA, HB.
    assert (A = 2%Z) by (destruct HA as [H1 H2]; assert (IZR A < 3) by lra; assert (IZR 1 < IZR A) by lra; apply lt_IZR in H, H0; lia).
    assert (B = 2%Z) by (destruct HB as [H1 H2]; assert (IZR B < 3) by lra; assert (IZR 1 < IZR B) by lra; apply lt_IZR in H0, H3; lia). subst A B.
    destruct (random_at_scale draws 1 (2, 2)%Z (2, 2)%nat) as [co fi] eqn:ER. cbn [snd] in EF. subst F.
    destruct (random_shape draws 1 2 2 2 2 co fi draws_generator ER) as (_ & Sco & Vco). change (Nat.max (Z.to_nat 2) 2) with 2%nat in Sco.
    destruct (shaped_cell 2 2 co i j Sco Hi Hj) as [v Cv]. destruct (Vco i j v Cv) as (i' & j' & Cd & Hi' & Hj').
    assert (i' = i) by (destruct Hi' as [|[Q _]]; [easy|cbn in Q; lia]). assert (j' = j) by (destruct Hj' as [|[Q _]]; [easy|cbn in Q; lia]). subst i' j'.
    pose proof (cell_fun _ _ _ _ _ Cd (build_cell _ _ draw_value i j Hi Hj)) as Ev. subst v.
    assert (Lr : length co = 2%nat /\ length (hd [] co) = 2%nat). { destruct Sco as [L1 L2]. split; [exact L1|]. destruct co as [|r co]; [discriminate|]. apply L2. now left. }
    destruct Lr as [L1 L2].
    assert (Cf : cell_at fi i j (draw_value i j)).
    { apply (random_corners draws 1 2 2 2 2 co fi i j i j (draw_value i j) draws_generator ER Hi Hj); [| |exact Cv]; rewrite ?L1, ?L2; lia. }
    pose proof (V i j [draw_value i j] Hi Hj ltac:(repeat constructor; exact Cf)) as G. replace (Rsum (map2 Rmult [1] [draw_value i j])) with (draw_value i j) in G by (cbn; lra). exact G. }
  assert (EC : cover = [[0; 1/4]; [1/2; 3/4]]).
  { destruct Sc as [L1 L2]. destruct cover as [|r0 [|r1 [|? ?]]]; try discriminate. pose proof (L2 r0 (or_introl eq_refl)). pose proof (L2 r1 (or_intror (or_introl eq_refl))).
    destruct r0 as [|a [|b [|? ?]]]; try discriminate. destruct r1 as [|c [|d [|? ?]]]; try discriminate.
    destruct (VC 0 0 ltac:(lia) ltac:(lia))%nat as (r & E1 & E2). destruct (VC 0 1 ltac:(lia) ltac:(lia))%nat as (r' & E3 & E4).
    destruct (VC 1 0 ltac:(lia) ltac:(lia))%nat as (s & E5 & E6). destruct (VC 1 1 ltac:(lia) ltac:(lia))%nat as (s' & E7 & E8).
    cbn in *. injection E1 as <-. injection E3 as <-. injection E5 as <-. injection E7 as <-. cbn in *. congruence. }
  assert (Nd : NoDup (concat cover)) by (rewrite EC; cbn; repeat constructor; cbn; intuition lra).
  destruct (mask_value cover (1/2)) as (t & A & B & C & _); [lra|rewrite EC; easy|]. cbv zeta in *. specialize (B Nd). set (c := count (fun v => Rleb v t) cover) in *.
  assert (Np : n_pixels cover = 4) by (rewrite EC; unfold n_pixels; cbn; lra). rewrite Np in *.
  assert (Hc : c = 2%nat). { assert (L1 : INR 1 < INR c) by (cbn; lra). assert (L2 : INR c < INR 3) by (cbn; lra). apply INR_lt in L1, L2. lia. }
  rewrite Hc in C. assert (Ek : calc_clear_mask cover (1/2) = Ok (map (map (Spec_cloudfield.below t)) cover)).
  { apply C. cbn [INR]. replace (1/2 - (1 + 1) / 4) with 0 by lra. rewrite Rabs_R0. lra. }
  destruct (field_of_mask draws [1] [1] 2 2 (1/2) (8/10) (14/10) (2/10) Original 0 cover _ eq_refl ltac:(lia) ltac:(lia) (or_introl eq_refl) Ec Ek) as [out E].
  - now apply shaped_map.
  - assert (Lt : (count (fun v => Rleb v t) cover < length (concat cover))%nat) by (fold c; rewrite Hc, EC; cbn; lia).
    destruct (count_full (fun v => Rleb v t) (concat cover) Lt) as (v & Iv & Fv). destruct (cell_inv _ _ Iv) as (i & j & Cv). exists i, j.
    apply map_cell. exists v. split; [exact Cv|]. unfold Spec_cloudfield.below. now rewrite Fv.
  - exists cover, out. auto.
Qed.
