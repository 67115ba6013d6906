(** Cloud edges. *)
From Verif Require Import Prelude PreludeFacts RealBase Fl RealStat Spec_stats M_stats P_stats P_list X_stats_err Spec_copula M_cloudfield Spec_cloudfield
  X_copula_down X_field_pos X_cloud_random X_cloud_weights.
Local Open Scope R_scope.

Lemma reflect_mirrors n k : (0 < n)%nat -> mirrors n k (reflect n k).
Proof.
  intro Hn. unfold mirrors, reflect. set (N := Z.of_nat n) in *. assert (0 < N)%Z by lia. pose proof (Z.mod_pos_bound k (2 * N) ltac:(lia)) as B. pose proof (Z.div_mod k (2 * N) ltac:(lia)) as E.
  set (m := (k mod (2 * N))%Z) in *. set (q := (k / (2 * N))%Z) in *. destruct (Z.ltb_spec m N).
  - split; [lia|]. exists q. left. rewrite Z2Nat.id by lia. lia.
  - split; [lia|]. exists (q + 1)%Z. right. rewrite Z2Nat.id by lia. lia.
Qed.
Lemma mirrors_unique n k i j : mirrors n k i -> mirrors n k j -> i = j.
Proof.
  intros (Hi & q & Ei) (Hj & q' & Ej). set (N := Z.of_nat n) in *.
  assert (q = q' \/ q = q' + 1 \/ q + 1 = q')%Z by nia. destruct H as [->|[->|<-]]; destruct Ei as [Ei|Ei], Ej as [Ej|Ej]; lia.
Qed.
Lemma reflect_near n i d : (i < n)%nat -> (-1 <= d <= 1)%Z -> reflect n (Z.of_nat i + d) = clamp n (Z.of_nat i + d).
Proof.
  intros Hi Hd. apply (mirrors_unique n (Z.of_nat i + d)); [apply reflect_mirrors; lia|]. unfold mirrors, clamp. split; [lia|].
  destruct (Z.eq_dec (Z.of_nat i + d) (-1)) as [E|E]; [exists 0%Z; right; lia|]. destruct (Z.eq_dec (Z.of_nat i + d) (Z.of_nat n)) as [E'|E']; [exists 1%Z; right; lia|]. exists 0%Z. left. lia.
Qed.
Lemma clamp_lt n k : (0 < n)%nat -> (clamp n k < n)%nat.
Proof. unfold clamp. lia. Qed.

Lemma cor_shape0 lo w m r c : shaped r c m -> (0 < r)%nat -> shaped r c (correlate0 lo w m).
Proof. intros S Hr. unfold correlate0. rewrite (shaped_ncols _ _ _ S Hr), (proj1 S). apply build_shaped. Qed.
Lemma cor_shape1 lo w m r c : shaped r c m -> (0 < r)%nat -> shaped r c (correlate1 lo w m).
Proof. intros S Hr. unfold correlate1. rewrite (shaped_ncols _ _ _ S Hr), (proj1 S). apply build_shaped. Qed.
Lemma cor_get0 lo w m r c i j : shaped r c m -> (i < r)%nat -> (j < c)%nat -> get2 (correlate0 lo w m) i j =
  Rsum (map (fun p => snd p * get2 m (reflect r (Z.of_nat i + lo + Z.of_nat (fst p))) j) (combine (seq 0 (length w)) w)).
Proof. intros S Hi Hj. unfold correlate0. rewrite (shaped_ncols _ _ _ S) by lia. rewrite (proj1 S). apply cell_get2. now apply build_cell with (f := fun i j => Rsum (map (fun p => snd p * get2 m (reflect r (Z.of_nat i + lo + Z.of_nat (fst p))) j) (combine (seq 0 (length w)) w))). Qed.
Lemma cor_get1 lo w m r c i j : shaped r c m -> (i < r)%nat -> (j < c)%nat -> get2 (correlate1 lo w m) i j =
  Rsum (map (fun p => snd p * get2 m i (reflect c (Z.of_nat j + lo + Z.of_nat (fst p)))) (combine (seq 0 (length w)) w)).
Proof. intros S Hi Hj. unfold correlate1. rewrite (shaped_ncols _ _ _ S) by lia. rewrite (proj1 S). apply cell_get2. now apply build_cell with (f := fun i j => Rsum (map (fun p => snd p * get2 m i (reflect c (Z.of_nat j + lo + Z.of_nat (fst p)))) (combine (seq 0 (length w)) w))). Qed.

(** Three-point filters see the neighbours with repeated borders. *)
Lemma cor3_0 a b d m r c i j : shaped r c m -> (i < r)%nat -> (j < c)%nat -> get2 (correlate0 (-1) [a; b; d] m) i j =
  a * get2 m (clamp r (Z.of_nat i + -1)) j + b * get2 m i j + d * get2 m (clamp r (Z.of_nat i + 1)) j.
Proof.
  intros S Hi Hj. rewrite (cor_get0 _ _ _ r c) by easy. cbn [length seq combine map fst snd]. rewrite !Rsum_cons, Rsum_nil.
  replace (Z.of_nat i + -1 + Z.of_nat 0)%Z with (Z.of_nat i + -1)%Z by lia. replace (Z.of_nat i + -1 + Z.of_nat 1)%Z with (Z.of_nat i + 0)%Z by lia. replace (Z.of_nat i + -1 + Z.of_nat 2)%Z with (Z.of_nat i + 1)%Z by lia.
  rewrite !reflect_near by lia. replace (clamp r (Z.of_nat i + 0)) with i by (unfold clamp; lia). ring.
Qed.
Lemma cor3_1 a b d m r c i j : shaped r c m -> (i < r)%nat -> (j < c)%nat -> get2 (correlate1 (-1) [a; b; d] m) i j =
  a * get2 m i (clamp c (Z.of_nat j + -1)) + b * get2 m i j + d * get2 m i (clamp c (Z.of_nat j + 1)).
Proof.
  intros S Hi Hj. rewrite (cor_get1 _ _ _ r c) by easy. cbn [length seq combine map fst snd]. rewrite !Rsum_cons, Rsum_nil.
  replace (Z.of_nat j + -1 + Z.of_nat 0)%Z with (Z.of_nat j + -1)%Z by lia. replace (Z.of_nat j + -1 + Z.of_nat 1)%Z with (Z.of_nat j + 0)%Z by lia. replace (Z.of_nat j + -1 + Z.of_nat 2)%Z with (Z.of_nat j + 1)%Z by lia.
  rewrite !reflect_near by lia. replace (clamp c (Z.of_nat j + 0)) with j by (unfold clamp; lia). ring.
Qed.

Definition edge_map (m : list (list R)) : list (list R) := map2 (map2 (fun a b => Rabs (a ^ 2 + b ^ 2))) (sobel0 m) (sobel1 m).
Lemma map2_shaped {A B C} (f : A -> B -> C) r c m m' : shaped r c m -> shaped r c m' -> shaped r c (map2 (map2 f) m m').
Proof.
  intros [L H] [L' H']. split; [unfold map2; rewrite map_length, combine_length; lia|]. intros row Hr. unfold map2 in Hr. apply in_map_iff in Hr. destruct Hr as ((a & b) & <- & I). cbn [fst snd].
  rewrite map_length, combine_length, (H a), (H' b); [lia|eapply in_combine_r; eauto|eapply in_combine_l; eauto].
Qed.
Lemma map2_cell {A B C} (f : A -> B -> C) m m' i j x y : cell_at m i j x -> cell_at m' i j y -> cell_at (map2 (map2 f) m m') i j (f x y).
Proof. intros (r & A1 & A2) (r' & B1 & B2). eexists. rewrite nth_error_map2, A1, B1. split; [reflexivity|]. now rewrite nth_error_map2, A2, B2. Qed.
Lemma edge_shape r c m : shaped r c m -> (0 < r)%nat -> shaped r c (edge_map m).
Proof. intros S Hr. apply map2_shaped; [apply cor_shape1; [apply cor_shape0|]|apply cor_shape0; [apply cor_shape1|]]; easy. Qed.
Lemma edge_cell r c m i j g : shaped r c m -> (i < r)%nat -> (j < c)%nat -> around m r c i j g -> cell_at (edge_map m) i j (gradient2 g).
Proof.
  intros S Hi Hj H. assert (Hr : (0 < r)%nat) by lia. assert (Hc : (0 < c)%nat) by lia.
  assert (S0 : shaped r c (correlate0 (-1) [-1; 0; 1] m)) by now apply cor_shape0. assert (S1 : shaped r c (correlate1 (-1) [-1; 0; 1] m)) by now apply cor_shape1.
  assert (G : forall di dj, (-1 <= di <= 1)%Z -> (-1 <= dj <= 1)%Z -> get2 m (clamp r (Z.of_nat i + di)) (clamp c (Z.of_nat j + dj)) = g di dj) by (intros; now apply cell_get2, H).
  assert (Ci : clamp r (Z.of_nat i + 0) = i) by (unfold clamp; lia). assert (Cj : clamp c (Z.of_nat j + 0) = j) by (unfold clamp; lia).
  pose proof (clamp_lt r (Z.of_nat i + -1) Hr). pose proof (clamp_lt r (Z.of_nat i + 1) Hr). pose proof (clamp_lt c (Z.of_nat j + -1) Hc). pose proof (clamp_lt c (Z.of_nat j + 1) Hc).
  assert (E0 : get2 (sobel0 m) i j = (g 1%Z (-1)%Z + 2 * g 1%Z 0%Z + g 1%Z 1%Z) - (g (-1)%Z (-1)%Z + 2 * g (-1)%Z 0%Z + g (-1)%Z 1%Z)).
  { unfold sobel0. rewrite (cor3_1 _ _ _ _ r c) by easy. rewrite !(cor3_0 _ _ _ _ r c) by easy. rewrite <- !G by lia. rewrite Cj. ring. }
  assert (E1 : get2 (sobel1 m) i j = (g (-1)%Z 1%Z + 2 * g 0%Z 1%Z + g 1%Z 1%Z) - (g (-1)%Z (-1)%Z + 2 * g 0%Z (-1)%Z + g 1%Z (-1)%Z)).
  { unfold sobel1. rewrite (cor3_0 _ _ _ _ r c) by easy. rewrite !(cor3_1 _ _ _ _ r c) by easy. rewrite <- !G by lia. rewrite Ci. ring. }
  replace (gradient2 g) with (Rabs (get2 (sobel0 m) i j ^ 2 + get2 (sobel1 m) i j ^ 2)).
  - unfold edge_map. apply (map2_cell (fun a b => Rabs (a ^ 2 + b ^ 2))); apply (get2_cell r c); try easy; [apply cor_shape1|apply cor_shape0]; easy.
  - rewrite E0, E1. unfold gradient2. apply Rabs_right. apply Rle_ge. apply Rplus_le_le_0_compat; apply pow2_ge_0.
Qed.
Lemma around_exists r c m i j : shaped r c m -> (i < r)%nat -> (j < c)%nat -> exists g, around m r c i j g.
Proof. intros S Hi Hj. exists (fun di dj => get2 m (clamp r (Z.of_nat i + di)) (clamp c (Z.of_nat j + dj))). intros di dj _ _. apply (get2_cell r c); [easy|apply clamp_lt; lia|apply clamp_lt; lia]. Qed.

(** ** Smoothing *)
Lemma smooth_shape size r c e : shaped r c e -> (0 < r)%nat -> shaped r c (uniform_filter size e).
Proof. intros S Hr. unfold uniform_filter. destruct (size <=? 1)%nat; [easy|]. apply cor_shape1; [apply cor_shape0|]; easy. Qed.
Lemma repeat_sum (f : nat -> R) w n : Rsum (map (fun p => snd p * f (fst p)) (combine (seq 0 n) (repeat w n))) = w * Rsumn n f.
Proof.
  unfold Rsumn. generalize 0%nat. induction n as [|n IH]; intro a; cbn [seq repeat combine map]; [rewrite !Rsum_nil; ring|]. rewrite !Rsum_cons. cbn [fst snd]. rewrite IH. ring.
Qed.
Lemma Rsumn_ext n f g : (forall i, (i < n)%nat -> f i = g i) -> Rsumn n f = Rsumn n g.
Proof. intro H. unfold Rsumn. f_equal. apply map_ext_in. intros i Hi. apply in_seq in Hi. apply H. lia. Qed.
Lemma Rsumn_scal n c f : Rsumn n (fun i => c * f i) = c * Rsumn n f.
Proof. unfold Rsumn. apply Rsum_map_scal. Qed.
Lemma mirrors_small r i : (i < r)%nat -> mirrors r (Z.of_nat i) i.
Proof. intro H. split; [easy|]. exists 0%Z. left. lia. Qed.
Lemma smooth_cell size r c e i j : shaped r c e -> (0 < size)%nat -> (i < r)%nat -> (j < c)%nat -> exists v, cell_at (uniform_filter size e) i j v /\ window_mean e r c size i j v.
Proof.
  intros S Hs Hi Hj. assert (Hr : (0 < r)%nat) by lia. assert (Hc : (0 < c)%nat) by lia.
  exists (get2 (uniform_filter size e) i j). split; [apply (get2_cell r c); try easy; now apply smooth_shape|].
  exists (fun a b => get2 e (reflect r (Z.of_nat i - Z.of_nat (size / 2) + Z.of_nat a)) (reflect c (Z.of_nat j - Z.of_nat (size / 2) + Z.of_nat b))). split.
  - intros a b Ha Hb. eexists _, _. split; [now apply reflect_mirrors|]. split; [now apply reflect_mirrors|]. apply (get2_cell r c); [easy|apply reflect_mirrors; easy|apply reflect_mirrors; easy].
  - unfold uniform_filter. destruct (Nat.leb_spec size 1) as [L|L].
    + assert (size = 1)%nat by lia. subst size. unfold Rsumn. cbn [seq map]. rewrite !Rsum_cons, !Rsum_nil. change (Z.of_nat (1 / 2)) with 0%Z. change (INR 1) with 1.
      replace (Z.of_nat i - 0 + Z.of_nat 0)%Z with (Z.of_nat i) by lia. replace (Z.of_nat j - 0 + Z.of_nat 0)%Z with (Z.of_nat j) by lia.
      rewrite (mirrors_unique r (Z.of_nat i) (reflect r (Z.of_nat i)) i) by (try apply reflect_mirrors; try apply mirrors_small; easy).
      rewrite (mirrors_unique c (Z.of_nat j) (reflect c (Z.of_nat j)) j) by (try apply reflect_mirrors; try apply mirrors_small; easy). field.
    + set (w := 1 / INR size). assert (Hsz : 0 < INR size) by (apply (lt_INR 0); lia).
      set (lo := (- Z.of_nat (size / 2))%Z). assert (S0 : shaped r c (correlate0 lo (repeat w size) e)) by now apply cor_shape0.
      rewrite (cor_get1 _ _ _ r c) by easy. rewrite repeat_length.
      rewrite (repeat_sum (fun b => get2 (correlate0 lo (repeat w size) e) i (reflect c (Z.of_nat j + lo + Z.of_nat b)))).
      rewrite (Rsumn_ext size _ (fun b => w * Rsumn size (fun a => get2 e (reflect r (Z.of_nat i + lo + Z.of_nat a)) (reflect c (Z.of_nat j + lo + Z.of_nat b))))).
      * rewrite Rsumn_scal. unfold w. replace (Z.of_nat i + lo)%Z with (Z.of_nat i - Z.of_nat (size / 2))%Z by (unfold lo; lia). replace (Z.of_nat j + lo)%Z with (Z.of_nat j - Z.of_nat (size / 2))%Z by (unfold lo; lia). field. lra.
      * intros b Hb. cbv beta. rewrite (cor_get0 _ _ _ r c); [|easy|easy|apply reflect_mirrors; easy]. rewrite repeat_length.
        apply (repeat_sum (fun a => get2 e (reflect r (Z.of_nat i + lo + Z.of_nat a)) (reflect c (Z.of_nat j + lo + Z.of_nat b)))).
Qed.

Definition cut (v : R) : R := if Rltb v (1 / 100000) then 0 else v.
Lemma find_edges_form r c m size th : shaped r c m -> (0 < r)%nat -> (0 < c)%nat ->
  let sm := map (map cut) (uniform_filter size (edge_map m)) in
  concat sm <> [] /\ find_edges m size th = Ok (edge_map m, map (map (fun v => fltb (Fin th) (fdiv (Fin v) (Fin (Rmax_of (concat sm)))))) sm).
Proof.
  intros S Hr Hc sm. assert (Sm : shaped r c sm) by (apply shaped_map, smooth_shape; [now apply edge_shape|easy]).
  assert (Ne : concat sm <> []). { destruct (shaped_cell r c sm 0 0 Sm Hr Hc) as [v Hv]. apply cell_in in Hv. intro E. now rewrite E in Hv. }
  split; [exact Ne|]. unfold find_edges. fold (edge_map m). cbv zeta. change (map (map (fun v => if Rltb v (1 / 100000) then 0 else v)) (uniform_filter size (edge_map m))) with sm.
  destruct (concat sm); [easy|reflexivity].
Qed.

(*@ C73 Edge strength is the squared Sobel gradient with repeated borders: never negative, zero wherever the neighbourhood is constant. *)
Lemma edges_value : forall r c m size th, shaped r c m -> (0 < r)%nat -> (0 < c)%nat ->
  exists edges marked, find_edges m size th = Ok (edges, marked) /\ shaped r c edges /\ shaped r c marked /\
    forall i j, (i < r)%nat -> (j < c)%nat -> exists g, around m r c i j g /\ cell_at edges i j (gradient2 g) /\ 0 <= gradient2 g /\
      ((forall di dj, (-1 <= di <= 1)%Z -> (-1 <= dj <= 1)%Z -> g di dj = g 0%Z 0%Z) -> gradient2 g = 0).
Proof.
  intros r c m size th S Hr Hc. destruct (find_edges_form r c m size th S Hr Hc) as [Ne E]. cbv zeta in *. eexists _, _. split; [exact E|]. split; [now apply edge_shape|]. split.
  - apply shaped_map, shaped_map, smooth_shape; [now apply edge_shape|easy].
  - intros i j Hi Hj. destruct (around_exists r c m i j S Hi Hj) as [g Hg]. exists g. split; [easy|]. split; [now apply (edge_cell r c)|]. split.
    + unfold gradient2. apply Rplus_le_le_0_compat; apply pow2_ge_0.
    + intro K. unfold gradient2. set (k := g 0%Z 0%Z) in *. clearbody k. rewrite !K by lia. ring.
Qed.

(*@ C73 Complementing the mask changes neither the edges nor the marked pixels. *)
Lemma edges_complement : forall r c m size th, shaped r c m -> (0 < r)%nat -> (0 < c)%nat ->
  find_edges (map (map (fun v => 1 - v)) m) size th = find_edges m size th.
Proof.
  intros r c m size th S Hr Hc. set (m' := map (map (fun v => 1 - v)) m). assert (S' : shaped r c m') by now apply shaped_map.
  assert (E : edge_map m' = edge_map m).
  { apply nth_error_ext. intro i. destruct (Nat.lt_ge_cases i r) as [Hi|Hi].
    - assert (Sm := edge_shape r c m S Hr). assert (Sm' := edge_shape r c m' S' Hr).
      destruct (nth_error (edge_map m') i) as [ra|] eqn:Ea; [|apply nth_error_None in Ea; rewrite (proj1 Sm') in Ea; lia].
      destruct (nth_error (edge_map m) i) as [rb|] eqn:Eb; [|apply nth_error_None in Eb; rewrite (proj1 Sm) in Eb; lia]. f_equal. apply nth_error_ext. intro j.
      assert (La : length ra = c) by (apply Sm'; eapply nth_error_In; eauto). assert (Lb : length rb = c) by (apply Sm; eapply nth_error_In; eauto).
      destruct (Nat.lt_ge_cases j c) as [Hj|Hj]; [|rewrite !(proj2 (nth_error_None _ _)) by lia; reflexivity].
      destruct (around_exists r c m i j S Hi Hj) as [g Hg]. assert (Hg' : around m' r c i j (fun di dj => 1 - g di dj)).
      { intros di dj H1 H2. apply map_cell. exists (g di dj). split; [now apply Hg|reflexivity]. }
      destruct (edge_cell r c m i j g S Hi Hj Hg) as (rb' & B1 & B2). destruct (edge_cell r c m' i j _ S' Hi Hj Hg') as (ra' & A1 & A2).
      assert (ra' = ra) by congruence. assert (rb' = rb) by congruence. subst. rewrite A2, B2. f_equal. unfold gradient2. ring.
    - pose proof (proj1 (edge_shape r c m S Hr)). pose proof (proj1 (edge_shape r c m' S' Hr)). rewrite !(proj2 (nth_error_None _ _)); [reflexivity| |]; lia. }
  destruct (find_edges_form r c m size th S Hr Hc) as [_ ->]. destruct (find_edges_form r c m' size th S' Hr Hc) as [_ ->]. cbv zeta. now rewrite E.
Qed.

(*@ C73 Smoothed mask, default threshold: a pixel is marked exactly when the mean edge strength over its window reaches 1e-5. *)
Lemma edges_marked : forall r c m size, shaped r c m -> (0 < r)%nat -> (0 < c)%nat -> (0 < size)%nat ->
  exists edges marked, find_edges m size 0 = Ok (edges, marked) /\ shaped r c marked /\
    forall i j, (i < r)%nat -> (j < c)%nat -> exists v, window_mean edges r c size i j v /\ cell_at marked i j (Rleb (1 / 100000) v).
Proof.
  intros r c m size S Hr Hc Hs. destruct (find_edges_form r c m size 0 S Hr Hc) as [Ne E]. cbv zeta in *. set (sm := map (map cut) (uniform_filter size (edge_map m))) in *.
  eexists _, _. split; [exact E|]. assert (Se := edge_shape r c m S Hr). assert (Ssm : shaped r c sm) by (apply shaped_map; now apply smooth_shape). split; [now apply shaped_map|].
  intros i j Hi Hj. destruct (smooth_cell size r c (edge_map m) i j Se Hs Hi Hj) as (v & Cv & Wv). exists v. split; [exact Wv|].
  assert (Cc : cell_at sm i j (cut v)) by (apply map_cell; exists v; easy). apply map_cell. exists (cut v). split; [exact Cc|].
  assert (P : 0 <= cut v) by (unfold cut; destruct (Rltb_spec v (1 / 100000)); lra). pose proof (Rmax_of_ge _ _ (cell_in _ _ _ _ Cc)) as Mx.
  destruct (Rleb_spec (1 / 100000) v) as [Q|Q].
  - assert (cut v = v) by (unfold cut; now rewrite Rltb_false by lra). rewrite fdiv_fin by lra. cbn. rewrite Rltb_true; [reflexivity|]. apply Rdiv_lt_0_compat; lra.
  - assert (cut v = 0) by (unfold cut; now rewrite Rltb_true by lra). rewrite H. destruct (Req_dec (Rmax_of (concat sm)) 0) as [->|N].
    + rewrite fdiv_zero, sgn_inf_0. reflexivity.
    + rewrite fdiv_fin by easy. cbn. rewrite Rltb_false; [reflexivity|]. unfold Rdiv. lra.
Qed.

(*@ C73 Higher thresholds mark the pixels whose window mean exceeds that share of the largest one. *)
Lemma edges_threshold : forall r c m size th, shaped r c m -> (0 < r)%nat -> (0 < c)%nat -> (0 < size)%nat -> 0 <= th ->
  exists edges marked, find_edges m size th = Ok (edges, marked) /\
    ((exists i j v, (i < r)%nat /\ (j < c)%nat /\ window_mean edges r c size i j v /\ 1 / 100000 <= v) ->
     exists top, (exists i j, (i < r)%nat /\ (j < c)%nat /\ window_mean edges r c size i j top) /\
       (forall i j, (i < r)%nat -> (j < c)%nat -> exists v, window_mean edges r c size i j v /\ v <= top /\
          cell_at marked i j (Rleb (1 / 100000) v && Rltb (th * top) v))).
Proof.
  intros r c m size th S Hr Hc Hs Hth. destruct (find_edges_form r c m size th S Hr Hc) as [Ne E]. cbv zeta in *. set (sm := map (map cut) (uniform_filter size (edge_map m))) in *.
  eexists _, _. split; [exact E|]. assert (Se := edge_shape r c m S Hr). assert (Su : shaped r c (uniform_filter size (edge_map m))) by now apply smooth_shape. assert (Ssm : shaped r c sm) by now apply shaped_map.
  assert (W : forall i j v, window_mean (edge_map m) r c size i j v -> (i < r)%nat -> (j < c)%nat -> cell_at (uniform_filter size (edge_map m)) i j v).
  { intros i j v Wv Hi Hj. destruct (smooth_cell size r c (edge_map m) i j Se Hs Hi Hj) as (v' & Cv & Wv'). enough (v = v') by (now subst). clear -Wv Wv'. destruct Wv as (W & HW & ->), Wv' as (W' & HW' & ->). f_equal.
    apply Rsumn_ext. intros b Hb. apply Rsumn_ext. intros a Ha. destruct (HW a b Ha Hb) as (i1 & j1 & A1 & A2 & A3). destruct (HW' a b Ha Hb) as (i2 & j2 & B1 & B2 & B3).
    pose proof (mirrors_unique _ _ _ _ A1 B1). pose proof (mirrors_unique _ _ _ _ A2 B2). subst. eapply cell_fun; eauto. }
  intros (i0 & j0 & v0 & Hi0 & Hj0 & W0 & P0). set (T := Rmax_of (concat sm)) in *.
  assert (C0 : cell_at sm i0 j0 v0) by (apply map_cell; exists v0; split; [now apply W|unfold cut; now rewrite Rltb_false by lra]).
  assert (PT : 1 / 100000 <= T) by (pose proof (Rmax_of_ge _ _ (cell_in _ _ _ _ C0)); fold T in H; lra).
  pose proof (Rmax_of_in _ Ne) as IT. fold T in IT. apply cell_inv in IT. destruct IT as (it & jt & CT). destruct (cell_bounds _ _ _ _ _ _ Ssm CT) as [Hit Hjt].
  exists T. split.
  - exists it, jt. split; [easy|]. split; [easy|]. apply map_cell in CT. destruct CT as (w & Cw & Ew). destruct (smooth_cell size r c (edge_map m) it jt Se Hs Hit Hjt) as (w' & Cw' & Ww).
    assert (w' = w) by (eapply cell_fun; eauto). subst w'. unfold cut in Ew. destruct (Rltb_spec w (1 / 100000)); [lra|]. now rewrite Ew.
  - intros i j Hi Hj. destruct (smooth_cell size r c (edge_map m) i j Se Hs Hi Hj) as (v & Cv & Wv). exists v. split; [exact Wv|].
    assert (Cc : cell_at sm i j (cut v)) by (apply map_cell; exists v; easy). pose proof (Rmax_of_ge _ _ (cell_in _ _ _ _ Cc)) as Mx. fold T in Mx.
    split; [unfold cut in Mx; destruct (Rltb_spec v (1 / 100000)); lra|]. apply map_cell. exists (cut v). split; [exact Cc|]. rewrite fdiv_fin by lra. cbn. unfold cut.
    destruct (Rltb_spec v (1 / 100000)) as [Q|Q].
    + rewrite (Rleb_false _ v) by lra. cbn [andb]. rewrite Rltb_false; [reflexivity|]. unfold Rdiv. lra.
    + rewrite (Rleb_true _ v) by lra. cbn [andb]. destruct (Rltb_spec (th * T) v) as [Z|Z].
      * rewrite Rltb_true; [reflexivity|]. apply (Rmult_lt_reg_r T); [lra|]. replace (v / T * T) with v by (field; lra). easy.
      * rewrite Rltb_false; [reflexivity|]. apply (Rmult_le_reg_r T); [lra|]. replace (v / T * T) with v by (field; lra). lra.
Qed.

(*@ C73 An empty mask is refused. *)
Lemma edges_empty : forall m size th, shaped (length m) 0 m -> find_edges m size th = Err ValueError.
Proof.
  intros m size th S. unfold find_edges. fold (edge_map m). cbv zeta.
  assert (E : forall r e, shaped r 0 e -> concat e = @nil R). { intros r e [_ H]. induction e as [|row e IH]; [reflexivity|]. cbn [concat]. rewrite IH by (intros; apply H; now right). specialize (H row (or_introl eq_refl)). now destruct row. }
  destruct m as [|row m].
  - unfold uniform_filter, edge_map, sobel0, sobel1, correlate0, correlate1, build. cbn [length seq map map2 combine concat]. now destruct (size <=? 1)%nat.
  - rewrite (E (length (row :: m))); [reflexivity|]. apply shaped_map, smooth_shape; [apply edge_shape; [exact S|]|]; cbn; lia.
Qed.

(*@ C73 A constant mask has no edges and nothing marked. *)
Lemma edges_constant : forall r c m size th k, shaped r c m -> (0 < r)%nat -> (0 < c)%nat -> within k k m ->
  find_edges m size th = Ok (map (map (fun _ => 0)) m, map (map (fun _ => false)) m).
Proof.
  intros r c m size th k S Hr Hc W. destruct (find_edges_form r c m size th S Hr Hc) as [Ne E]. cbv zeta in *. rewrite E. clear E.
  assert (Z : forall e, shaped r c e -> (forall i j, (i < r)%nat -> (j < c)%nat -> cell_at e i j 0) -> e = map (map (fun _ => 0)) m).
  { intros e Se Ce. assert (S0 : shaped r c (map (map (fun _ : R => 0)) m)) by now apply shaped_map. apply nth_error_ext. intro i.
    destruct (Nat.lt_ge_cases i r) as [Hi|Hi]; [|rewrite !(proj2 (nth_error_None _ _)); [reflexivity|rewrite (proj1 S0); lia|rewrite (proj1 Se); lia]].
    destruct (nth_error e i) as [ra|] eqn:Ea; [|apply nth_error_None in Ea; rewrite (proj1 Se) in Ea; lia].
    destruct (nth_error (map (map (fun _ : R => 0)) m) i) as [rb|] eqn:Eb; [|apply nth_error_None in Eb; rewrite (proj1 S0) in Eb; lia]. f_equal. apply nth_error_ext. intro j.
    assert (La : length ra = c) by (apply Se; eapply nth_error_In; eauto). assert (Lb : length rb = c) by (apply S0; eapply nth_error_In; eauto).
    destruct (Nat.lt_ge_cases j c) as [Hj|Hj]; [|rewrite !(proj2 (nth_error_None _ _)) by lia; reflexivity].
    destruct (Ce i j Hi Hj) as (ra' & A1 & A2). assert (ra' = ra) by congruence. subst ra'. rewrite A2.
    destruct (shaped_cell r c m i j S Hi Hj) as [x Hx]. assert (C0 : cell_at (map (map (fun _ : R => 0)) m) i j 0) by (apply map_cell; exists x; easy).
    destruct C0 as (rb' & B1 & B2). congruence. }
  assert (Ee : edge_map m = map (map (fun _ => 0)) m).
  { apply Z; [now apply edge_shape|]. intros i j Hi Hj. destruct (around_exists r c m i j S Hi Hj) as [g Hg].
    enough (Q : gradient2 g = 0) by (rewrite <- Q; now apply (edge_cell r c)). assert (K : forall di dj, (-1 <= di <= 1)%Z -> (-1 <= dj <= 1)%Z -> g di dj = k) by (intros di dj H1 H2; specialize (W _ (cell_in _ _ _ _ (Hg di dj H1 H2))); lra).
    unfold gradient2. rewrite !K by lia. ring. }
  assert (S0 : shaped r c (map (map (fun _ : R => 0)) m)) by now apply shaped_map.
  assert (Es : map (map cut) (uniform_filter size (edge_map m)) = map (map (fun _ => 0)) m).
  { rewrite Ee. apply Z; [now apply shaped_map, smooth_shape|]. intros i j Hi Hj. apply map_cell. exists 0. split; [|unfold cut; now rewrite Rltb_true by lra].
    destruct (Nat.eq_dec size 0) as [->|Ns].
    - destruct (shaped_cell r c m i j S Hi Hj) as [x Hx]. apply map_cell. exists x. easy.
    - destruct (smooth_cell size r c _ i j S0 ltac:(lia) Hi Hj) as (v & Cv & W' & HW & ->). enough (Q : Rsumn size (fun b => Rsumn size (fun a => W' a b)) / (INR size * INR size) = 0) by (rewrite Q in Cv; exact Cv).
      rewrite (Rsumn_ext size _ (fun _ => 0 * 0)), Rsumn_scal; [unfold Rdiv; ring|]. intros b Hb. rewrite (Rsumn_ext size _ (fun _ => 0 * 0)), Rsumn_scal; [ring|]. intros a Ha.
      destruct (HW a b Ha Hb) as (i' & j' & _ & _ & Cx). apply map_cell in Cx. destruct Cx as (? & _ & ->). ring. }
  rewrite Ee, Es in *. do 2 f_equal. rewrite map_map. apply map_ext. intro row. rewrite map_map. apply map_ext. intro x.
  assert (T0 : Rmax_of (concat (map (map (fun _ : R => 0)) m)) = 0). { pose proof (Rmax_of_in _ Ne) as I. rewrite concat_map_map in I. apply in_map_iff in I. destruct I as (? & Q & _). rewrite concat_map_map. symmetry. exact Q. }
  rewrite T0, fdiv_zero, sgn_inf_0. reflexivity.
Qed.
(*@ex C73 *)
Lemma edges_example : exists marked, find_edges [[0; 0; 0; 0]; [0; 0; 0; 1]] 1 0 = Ok ([[0; 0; 2; 10]; [0; 0; 10; 18]], marked).
Proof.
  destruct (find_edges_form 2 4 [[0; 0; 0; 0]; [0; 0; 0; 1]] 1 0) as [_ ->]; [split; [easy|]; intros row [<-|[<-|[]]]; easy|lia|lia|]. cbv zeta. eexists. do 2 f_equal.
  unfold edge_map, sobel0, sobel1, correlate0, correlate1, build, map2, get2, reflect. cbn -[Rabs]. unfold Rsum. cbn -[Rabs].
  change (Pos.to_nat 1) with 1%nat. change (Pos.to_nat 2) with 2%nat. change (Pos.to_nat 3) with 3%nat. cbn -[Rabs].
  repeat f_equal; match goal with |- Rabs ?x = ?y => transitivity (Rabs y); [f_equal; ring|apply Rabs_right; lra] end.
Qed.
