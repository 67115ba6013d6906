(** Scale weights and the stacked field. *)
From Verif Require Import Prelude PreludeFacts RealBase Fl RealStat Spec_stats M_stats P_stats P_list X_stats_err Spec_copula M_cloudfield Spec_cloudfield X_copula_down X_field_pos X_cloud_random.
Local Open Scope R_scope.

Lemma fsum_fin l : fsum (map Fin l) = Fin (Rsum l).
Proof. induction l as [|x l IH]; [reflexivity|]. cbn [map]. rewrite Rsum_cons. unfold fsum in *. cbn [fold_right]. now rewrite IH. Qed.
Lemma fsum_nan l : In Nan l -> fsum l = Nan.
Proof. induction l as [|x l IH]; [easy|]. intros [->|H]; [reflexivity|]. unfold fsum in *. cbn [fold_right]. rewrite IH by easy. now destruct x. Qed.
Lemma fdiv_all l t : t <> 0 -> map (fun w => fdiv w (Fin t)) (map Fin l) = map Fin (map (fun x => x / t) l).
Proof. intro N. rewrite !map_map. apply map_ext. intro x. now rewrite fdiv_fin. Qed.
Lemma shares l : Rsum l <> 0 -> Rsum (map (fun x => x / Rsum l) l) = 1.
Proof. intro N. unfold Rdiv. rewrite (Rsum_map_scal_r (/ Rsum l) (fun x => x)), map_id. now apply Rinv_r. Qed.
Lemma Rsum_pos l : l <> [] -> (forall x, In x l -> 0 < x) -> 0 < Rsum l.
Proof.
  destruct l as [|a l]; [easy|]. intros _ H. rewrite Rsum_cons. assert (0 <= Rsum l) by (apply Rsum_nonneg; intros x Hx; left; apply H; now right).
  specialize (H a (or_introl eq_refl)). lra.
Qed.

(*@ C70 For 0 < vs < 180 and positive scales the weights are positive, sum to one and follow a power of the scale. *)
Lemma vs_weights_value : forall scales vs, 0 < vs < 180 -> scales <> [] -> (forall s, In s scales -> 0 < s) ->
  exists ws, calc_vs_weights scales vs = Ok (map Fin ws) /\ length ws = length scales /\ convex ws /\
    forall i j si sj wi wj, nth_error scales i = Some si -> nth_error scales j = Some sj -> nth_error ws i = Some wi -> nth_error ws j = Some wj ->
      0 < wi /\ wi / wj = Rpower (si / sj) (- (6 / 10) / ln (1 - vs / 180)) /\ (wi < wj <-> si < sj).
Proof.
  intros scales vs Hv Ne P. set (p := 1 / (- ln (1 - vs / 180) / (6 / 10))).
  assert (Hl : ln (1 - vs / 180) < 0) by (rewrite <- ln_1; apply ln_increasing; lra).
  assert (Ep : p = - (6 / 10) / ln (1 - vs / 180)) by (unfold p; field; lra).
  assert (Hp : 0 < p). { unfold p. apply Rdiv_lt_0_compat; [lra|]. apply Rdiv_lt_0_compat; lra. }
  set (g := fun s => Rpower s p). assert (E : map (fun s => np_pow s (vs_exponent vs)) scales = map Fin (map g scales)).
  { rewrite map_map. apply map_ext_in. intros s Hs. unfold vs_exponent. rewrite Reqb_false by lra. rewrite Rltb_true by lra. cbn. now rewrite Rltb_true by (now apply P). }
  assert (PS : 0 < Rsum (map g scales)).
  { apply Rsum_pos; [destruct scales; easy|]. intros x Hx. apply in_map_iff in Hx. destruct Hx as (s & <- & _). apply exp_pos. }
  exists (map (fun x => x / Rsum (map g scales)) (map g scales)). split; [|split; [|split]].
  - unfold calc_vs_weights. rewrite Rltb_false by lra. cbv zeta. rewrite E, fsum_fin, fdiv_all by lra. reflexivity.
  - now rewrite !map_length.
  - split; [|apply shares; lra]. intros w Hw. apply in_map_iff in Hw. destruct Hw as (x & <- & Hx). apply in_map_iff in Hx. destruct Hx as (s & <- & _).
    left. apply Rdiv_lt_0_compat; [apply exp_pos|easy].
  - intros i j si sj wi wj Hi Hj Wi Wj. rewrite !nth_error_map, Hi in Wi. rewrite !nth_error_map, Hj in Wj. cbn in Wi, Wj. injection Wi as <-. injection Wj as <-.
    pose proof (P si (nth_error_In _ _ Hi)) as Pi. pose proof (P sj (nth_error_In _ _ Hj)) as Pj. set (T := Rsum (map g scales)) in *. unfold g.
    assert (0 < Rpower si p) by apply exp_pos. assert (0 < Rpower sj p) by apply exp_pos. split; [now apply Rdiv_lt_0_compat|]. split.
    + rewrite <- Ep. transitivity (Rpower si p / Rpower sj p); [field; lra|]. unfold Rpower. unfold Rdiv at 2. rewrite ln_mult, ln_Rinv by (try easy; now apply Rinv_0_lt_compat).
      unfold Rdiv. rewrite <- exp_Ropp, <- exp_plus. f_equal. ring.
    + assert (Q : Rpower si p / T < Rpower sj p / T <-> Rpower si p < Rpower sj p).
      { assert (Hi' : 0 < / T) by (now apply Rinv_0_lt_compat). unfold Rdiv. split; intro; nra. }
      rewrite Q. unfold Rpower. split; intro Z.
      * apply exp_lt_inv in Z. apply ln_lt_inv; try easy. nra.
      * apply exp_increasing. assert (ln si < ln sj) by (now apply ln_increasing). nra.
Qed.

(*@ C70 Outside that range: negative scores are refused, at 180 the weights are equal (also for a scale of 0), above 180 all are NaN, unless
    every scale is 1. *)
Lemma vs_weights_edges : forall scales vs, (forall s, In s scales -> 0 <= s) ->
  (vs < 0 -> calc_vs_weights scales vs = Err ValueError) /\
  (vs = 180 -> calc_vs_weights scales vs = Ok (map (fun _ => Fin (1 / INR (length scales))) scales)) /\
  (180 < vs -> (exists s, In s scales /\ s <> 1) -> calc_vs_weights scales vs = Ok (map (fun _ => Nan) scales)) /\
  (180 < vs -> (forall s, In s scales -> s = 1) -> calc_vs_weights scales vs = Ok (map (fun _ => Fin (1 / INR (length scales))) scales)).
Proof.
  intros scales vs P. unfold calc_vs_weights, vs_exponent.
  assert (ES : forall l : list R, Rsum (map (fun _ => 1) l) = INR (length l)).
  { clear. induction l as [|s l IH]; [reflexivity|]. cbn [map]. rewrite Rsum_cons, IH. cbn [length]. rewrite S_INR. ring. }
  assert (EQ : forall p, (forall s, In s scales -> np_pow s p = Fin 1) ->
    map (fun w => fdiv w (fsum (map (fun s => np_pow s p) scales))) (map (fun s => np_pow s p) scales) = map (fun _ => Fin (1 / INR (length scales))) scales).
  { intros p Hp. destruct scales as [|s0 rest] eqn:Es; [reflexivity|]. rewrite <- Es in *.
    assert (E : map (fun s => np_pow s p) scales = map Fin (map (fun _ => 1) scales)) by (rewrite map_map; now apply map_ext_in).
    rewrite E, fsum_fin, ES, fdiv_all; [rewrite !map_map; reflexivity|]. assert (0 < INR (length scales)) by (apply INR_length_pos; rewrite Es; easy). lra. }
  split; [|split; [|split]].
  - intro H. now rewrite Rltb_true.
  - intros ->. rewrite (Rltb_false 180 0) by lra. rewrite (Reqb_false 180 0) by lra. rewrite (Rltb_false 180 180) by lra. rewrite (Reqb_true 180 180) by lra. cbv zeta.
    rewrite EQ; [easy|]. intros s Hs. specialize (P s Hs). cbn. destruct (Rltb_spec 0 s).
    + now rewrite Rpower_O.
    + rewrite Rltb_false by lra. now rewrite Reqb_true.
  - intros H (s & Hs & Ns). rewrite (Rltb_false vs 0) by lra. rewrite (Reqb_false vs 0) by lra. rewrite (Rltb_false vs 180) by lra. rewrite (Reqb_false vs 180) by lra. cbv zeta.
    assert (Z : fsum (map (fun s => np_pow s Nan) scales) = Nan).
    { clear EQ ES P. induction scales as [|s' l IH]; [easy|]. cbn [map]. unfold fsum in *. cbn [fold_right]. destruct Hs as [->|Hs].
      - cbn [np_pow]. rewrite Reqb_false by easy. reflexivity.
      - rewrite (IH Hs). now destruct (np_pow s' Nan). }
    rewrite Z, map_map. f_equal. apply map_ext. intro. now destruct (np_pow _ _).
  - intros H A. rewrite (Rltb_false vs 0) by lra. rewrite (Reqb_false vs 0) by lra. rewrite (Rltb_false vs 180) by lra. rewrite (Reqb_false vs 180) by lra. cbv zeta.
    rewrite EQ; [easy|]. intros s Hs. cbn. rewrite Reqb_true by auto. easy.
Qed.

(*@ C70 Refuted: a score of exactly 0 puts all weight on scale 1, although weights move to the largest scale as the score falls to 0. *)
Lemma vs_zero_refuted : forall rest, rest <> [] -> (forall s, In s rest -> 1 < s) ->
  calc_vs_weights (1 :: rest) 0 = Ok (Fin 1 :: map (fun _ => Fin 0) rest) /\
  (forall vs, 0 < vs < 180 -> exists w1 ws, calc_vs_weights (1 :: rest) vs = Ok (Fin w1 :: map Fin ws) /\ forall w, In w ws -> w1 < w).
Proof.
  intros rest Ne H. split.
  - unfold calc_vs_weights, vs_exponent. rewrite Rltb_false by lra. rewrite Reqb_true by easy. cbv zeta. cbn [map np_pow]. rewrite Rltb_false by lra.
    assert (E : map (fun s => np_pow s Ninf) rest = map Fin (map (fun _ => 0) rest)).
    { rewrite map_map. apply map_ext_in. intros s Hs. cbn. now rewrite Rltb_true by (now apply H). }
    change (map (fun s => if Rltb 1 s then Fin 0 else if Rltb s 1 then Pinf else Fin 1) rest) with (map (fun s => np_pow s Ninf) rest). rewrite E.
    change (Fin 1 :: map Fin (map (fun _ => 0) rest)) with (map Fin (1 :: map (fun _ => 0) rest)). rewrite fsum_fin.
    assert (ES : Rsum (1 :: map (fun _ => 0) rest) = 1).
    { rewrite Rsum_cons. assert (Z : Rsum (map (fun _ => 0) rest) = 0) by (clear; induction rest as [|s l IH]; [reflexivity|]; cbn [map]; rewrite Rsum_cons, IH; ring). lra. }
    rewrite ES, fdiv_fin by lra. rewrite fdiv_all by lra. rewrite !map_map. do 2 f_equal; [f_equal; lra|]. apply map_ext. intro. f_equal. lra.
  - intros vs Hv. destruct (vs_weights_value (1 :: rest) vs Hv) as (ws & E & L & _ & Q); [easy| |].
    { intros s [<-|Hs]; [lra|]. specialize (H s Hs). lra. }
    destruct ws as [|w1 ws]; [discriminate|]. exists w1, ws. split; [exact E|]. intros w Hw. apply In_nth_error in Hw. destruct Hw as [j Hj].
    destruct (nth_error rest j) as [sj|] eqn:Ej.
    + apply (Q 0%nat (S j) 1 sj w1 w eq_refl Ej eq_refl Hj). apply H. eapply nth_error_In; eauto.
    + apply nth_error_None in Ej. assert (j < length ws)%nat by (apply nth_error_Some; congruence). cbn in L. lia.
Qed.

(** Mean square of the present entries. *)
Definition power (w : list (option R)) : R := avg (map (fun x => x ^ 2) (present w)).
Lemma power_nonneg w : 0 <= power w.
Proof. apply Rmean_nonneg. intros x Hx. apply in_map_iff in Hx. destruct Hx as (y & <- & _). apply pow2_ge_0. Qed.
Lemma present_option_map {A B} (f : A -> B) l : present (map (option_map f) l) = map f (present l).
Proof. induction l as [|[x|] l IH]; [reflexivity| |]; cbn; unfold present in IH; now rewrite IH. Qed.
Lemma nanmean_sq w : present w <> [] -> nanmean (map (option_map (fun v => v ^ 2)) w) = Fin (power w).
Proof.
  intro N. unfold nanmean. rewrite present_option_map. rewrite nan_reduce_ne by (now intro E; apply map_eq_nil in E). reflexivity.
Qed.

(*@ C70 Wavelet weights are the shares of the mean squares: non-negative, summing to one. *)
Lemma wavelet_weights_value : forall waves, (forall w, In w waves -> present w <> []) -> (exists w x, In w waves /\ In (Some x) w /\ x <> 0) ->
  exists ws, calc_wavelet_weights waves = map Fin ws /\ convex ws /\
    ws = map (fun w => avg (map (fun x => x ^ 2) (present w)) / Rsum (map (fun w => avg (map (fun x => x ^ 2) (present w))) waves)) waves.
Proof.
  intros waves Hp (w0 & x0 & I0 & X0 & N0). change (fun w => avg (map (fun x => x ^ 2) (present w))) with power.
  assert (E : map (fun w => nanmean (map (option_map (fun v => v ^ 2)) w)) waves = map Fin (map power waves)).
  { rewrite map_map. apply map_ext_in. intros w Hw. now rewrite nanmean_sq by (now apply Hp). }
  assert (PS : 0 < Rsum (map power waves)).
  { assert (P0 : 0 < power w0).
    { unfold power, avg. apply Rdiv_lt_0_compat; [|apply INR_length_pos; intro X; apply map_eq_nil in X; now apply (Hp w0)].
      assert (Ix : In (x0 ^ 2) (map (fun x => x ^ 2) (present w0))) by (apply in_map_iff; exists x0; split; [easy|now apply present_In]).
      apply in_split in Ix. destruct Ix as (l1 & l2 & El).
      assert (NN : forall y, In y (map (fun x => x ^ 2) (present w0)) -> 0 <= y) by (intros y Hy; apply in_map_iff in Hy; destruct Hy as (z & <- & _); apply pow2_ge_0).
      rewrite El in *. rewrite Rsum_app, Rsum_cons. assert (0 <= Rsum l1) by (apply Rsum_nonneg; intros; apply NN; apply in_or_app; now left).
      assert (0 <= Rsum l2) by (apply Rsum_nonneg; intros; apply NN; apply in_or_app; right; now right). assert (0 < x0 ^ 2) by (assert (0 <> x0) by congruence; nra). lra. }
    apply in_split in I0. destruct I0 as (l1 & l2 & ->). rewrite map_app, Rsum_app. cbn [map]. rewrite Rsum_cons.
    assert (0 <= Rsum (map power l1)) by (apply Rsum_nonneg; intros y Hy; apply in_map_iff in Hy; destruct Hy as (z & <- & _); apply power_nonneg).
    assert (0 <= Rsum (map power l2)) by (apply Rsum_nonneg; intros y Hy; apply in_map_iff in Hy; destruct Hy as (z & <- & _); apply power_nonneg). lra. }
  exists (map (fun x => x / Rsum (map power waves)) (map power waves)). split; [|split; [split|]].
  - unfold calc_wavelet_weights. cbv zeta. rewrite E, fsum_fin, fdiv_all by lra. reflexivity.
  - intros w Hw. apply in_map_iff in Hw. destruct Hw as (x & <- & Hx). apply in_map_iff in Hx. destruct Hx as (y & <- & _). apply Rmult_le_pos; [apply power_nonneg|left; now apply Rinv_0_lt_compat].
  - apply shares. lra.
  - now rewrite map_map.
Qed.

(*@ C70 One empty (all missing) wavelet, or only zeros, makes every weight NaN. *)
Lemma wavelet_weights_nan : forall waves,
  ((exists w, In w waves /\ present w = []) \/ (forall w x, In w waves -> In (Some x) w -> x = 0)) ->
  calc_wavelet_weights waves = map (fun _ => Nan) waves.
Proof.
  intros waves H. unfold calc_wavelet_weights. cbv zeta. rewrite map_map.
  assert (D : (exists w, In w waves /\ present w = []) \/ (forall w, In w waves -> present w <> [])).
  { clear. induction waves as [|w l IH]; [right; easy|]. destruct (present w) eqn:E; [left; exists w; split; [now left|easy]|].
    destruct IH as [(w' & I & E')|IH]; [left; exists w'; split; [now right|easy]|]. right. intros w' [<-|I]; [congruence|now apply IH]. }
  destruct D as [(w & I & E)|D].
  - rewrite fsum_nan by (apply in_map_iff; exists w; split; [unfold nanmean; rewrite present_option_map, E; reflexivity|easy]).
    apply map_ext. intro w'. now destruct (nanmean _).
  - destruct H as [(w & I & E)|H]; [now destruct (D w I)|].
    assert (Z : forall w, In w waves -> nanmean (map (option_map (fun v => v ^ 2)) w) = Fin 0).
    { intros w I. rewrite nanmean_sq by (now apply D). f_equal. unfold power, avg. replace (Rsum _) with 0; [unfold Rdiv; ring|]. symmetry. rewrite <- (Rmult_0_l (Rsum [])).
      assert (A : forall x, In x (present w) -> x = 0) by (intros x Hx; apply (H w); [easy|now apply present_In]). clear -A. rewrite Rmult_0_l. induction (present w) as [|x l IH]; [reflexivity|]. cbn [map].
      rewrite Rsum_cons, IH by (intros; apply A; now right). rewrite (A x) by now left. ring. }
    rewrite (map_ext_in _ (fun _ => Fin 0) waves Z). replace (map (fun _ => Fin 0) waves) with (map Fin (map (fun _ => 0) waves)) by now rewrite map_map.
    rewrite fsum_fin. replace (Rsum (map (fun _ => 0) waves)) with 0 by (clear; induction waves as [|s l IH]; [reflexivity|]; cbn [map]; rewrite Rsum_cons, <- IH; ring).
    apply map_ext_in. intros w I. rewrite Z by easy. rewrite fdiv_zero. apply sgn_inf_0.
Qed.
(*@ex C70 *)
Lemma weights_example : calc_vs_weights [1; 2; 3] 90 <> Err ValueError /\ exists ws, calc_wavelet_weights [[Some 1; None]; [Some 1; Some 1]] = map Fin ws /\ ws = [1 / 2; 1 / 2].
Proof.
  split.
  - destruct (vs_weights_value [1; 2; 3] 90) as (ws & E & _); [lra|easy| |rewrite E; easy]. intros s [<-|[<-|[<-|[]]]]; lra.
  - destruct (wavelet_weights_value [[Some 1; None]; [Some 1; Some 1]]) as (ws & E & _ & Q).
    + intros w [<-|[<-|[]]]; easy.
    + exists [Some 1; None], 1. split; [now left|]. split; [now left|lra].
    + exists ws. split; [easy|]. rewrite Q. cbn. unfold avg, Rsum. cbn. f_equal; [|f_equal]; field.
Qed.

(** ** Stacking *)
Lemma shaped_add w r c f g : shaped r c f -> shaped r c g -> shaped r c (map2 (map2 (fun a b => a + b * w)) f g) /\
  forall i j x y, cell_at f i j x -> cell_at g i j y -> cell_at (map2 (map2 (fun a b => a + b * w)) f g) i j (x + y * w).
Proof.
  intros [Lf Hf] [Lg Hg]. split; [split|].
  - unfold map2. rewrite map_length, combine_length. lia.
  - intros row H. unfold map2 in H. apply in_map_iff in H. destruct H as ((a & b) & <- & I). cbn [fst snd]. rewrite map_length, combine_length, (Hf a), (Hg b); [lia|eapply in_combine_r; eauto|eapply in_combine_l; eauto].
  - intros i j x y (rf & A1 & A2) (rg & B1 & B2). eexists. rewrite nth_error_map2, A1, B1. split; [reflexivity|]. now rewrite nth_error_map2, A2, B2.
Qed.

(** The interpolated field drawn for one scale. *)
Definition scale_field rnd k (size : nat * nat) scale := snd (random_at_scale rnd k (coarse (fst size) scale, coarse (snd size) scale) size).
Lemma seq_shift_combine {A B} (f : nat * A -> B) l : forall a n, map f (combine (seq (S a) n) l) = map (fun p => f (S (fst p), snd p)) (combine (seq a n) l).
Proof. induction l as [|x l IH]; intros a [|n]; try reflexivity. cbn [seq combine map fst snd]. now rewrite IH. Qed.
Lemma stack_sum_cells rnd r c sw : forall k f, shaped r c f ->
  shaped r c (stack_sum rnd k sw (r, c) f) /\
  forall i j x, cell_at f i j x -> cell_at (stack_sum rnd k sw (r, c) f) i j
     (x + Rsum (map (fun p : nat * (R * R) => get2 (scale_field rnd (k + fst p) (r, c) (fst (snd p))) i j * snd (snd p)) (combine (seq 0 (length sw)) sw))).
Proof.
  induction sw as [|[s w] sw IH]; intros k f Sf.
  - split; [easy|]. intros i j x Hx. cbn [length seq combine map]. rewrite Rsum_nil, Rplus_0_r. exact Hx.
  - cbn [stack_sum fst snd]. fold (scale_field rnd k (r, c) s).
    assert (Sg : shaped r c (scale_field rnd k (r, c) s)) by apply fine_shape.
    destruct (shaped_add w r c f _ Sf Sg) as [Sa Ca]. destruct (IH (S k) _ Sa) as [S1 C1]. split; [exact S1|].
    intros i j x Hx. destruct (cell_bounds _ _ _ _ _ _ Sf Hx) as [Hi Hj].
    pose proof (Ca i j x _ Hx (get2_cell r c _ i j Sg Hi Hj)) as Q. apply C1 in Q.
    cbn [length seq combine map]. rewrite Rsum_cons. cbn [fst snd]. rewrite Nat.add_0_r. rewrite seq_shift_combine. cbn [fst snd].
    replace (x + (get2 (scale_field rnd k (r, c) s) i j * w + Rsum (map (fun p : nat * (R * R) => get2 (scale_field rnd (k + S (fst p)) (r, c) (fst (snd p))) i j * snd (snd p)) (combine (seq 0 (length sw)) sw))))
      with (x + get2 (scale_field rnd k (r, c) s) i j * w + Rsum (map (fun p : nat * (R * R) => get2 (scale_field rnd (S k + fst p) (r, c) (fst (snd p))) i j * snd (snd p)) (combine (seq 0 (length sw)) sw))); [exact Q|].
    rewrite Rplus_assoc. do 3 f_equal. apply map_ext. intro p. now replace (k + S (fst p))%nat with (S k + fst p)%nat by lia.
Qed.

Lemma coarse_floor n s : IZR (coarse n s) <= INR n * Rpower 2 (1 - s) < IZR (coarse n s) + 1.
Proof.
  unfold coarse. rewrite <- INR_IZR_INZ. replace (1 - s) with (- s + 1) by ring. apply Rfloor_spec. apply Rmult_le_pos; [apply pos_INR|left; apply exp_pos].
Qed.

(*@ C71 Without normalisation the field is the weighted sum of one interpolated field per scale, scale s drawn at 2^(1-s) of the size. *)
Lemma stack_value : forall rnd k weights scales n m, length weights = length scales ->
  exists field layers, stack_random_field rnd k weights scales (n, m) false = Ok field /\ shaped n m field /\ length layers = length scales /\
    (forall l s, nth_error scales l = Some s -> exists A B, IZR A <= INR n * Rpower 2 (1 - s) < IZR A + 1 /\ IZR B <= INR m * Rpower 2 (1 - s) < IZR B + 1 /\
       nth_error layers l = Some (snd (random_at_scale rnd (k + l) (A, B) (n, m)))) /\
    forall i j vs, (i < n)%nat -> (j < m)%nat -> Forall2 (fun F v => cell_at F i j v) layers vs ->
      cell_at field i j (Rsum (map2 Rmult weights vs)).
Proof.
  intros rnd k weights scales n m L. set (sw := combine scales weights).
  assert (Lsw : length sw = length scales) by (unfold sw; rewrite combine_length; lia).
  destruct (stack_sum_cells rnd n m sw k (build n m (fun _ _ => 0)) (build_shaped n m _)) as [S1 C1].
  set (field := stack_sum rnd k sw (n, m) (build n m (fun _ _ => 0))) in *.
  set (layers := map (fun p : nat * R => scale_field rnd (k + fst p) (n, m) (snd p)) (combine (seq 0 (length scales)) scales)).
  exists field, layers. split; [|split; [exact S1|split; [|split]]].
  - unfold stack_random_field. rewrite L, Nat.eqb_refl. reflexivity.
  - unfold layers. rewrite map_length, combine_length, seq_length. lia.
  - intros l s Hl. exists (coarse n s), (coarse m s). split; [apply coarse_floor|]. split; [apply coarse_floor|]. unfold layers. rewrite nth_error_map.
    assert (Hlt : (l < length scales)%nat) by (apply nth_error_Some; congruence). rewrite nth_error_combine, nth_error_seq, Hl by easy. reflexivity.
  - intros i j vs Hi Hj F. pose proof (C1 i j 0 (build_cell n m (fun _ _ => 0) i j Hi Hj)) as Q. rewrite Rplus_0_l in Q.
    replace (Rsum (map2 Rmult weights vs)) with (Rsum (map (fun p : nat * (R * R) => get2 (scale_field rnd (k + fst p) (n, m) (fst (snd p))) i j * snd (snd p)) (combine (seq 0 (length sw)) sw))); [exact Q|].
    assert (EV : vs = map (fun p : nat * R => get2 (scale_field rnd (k + fst p) (n, m) (snd p)) i j) (combine (seq 0 (length scales)) scales)).
    { unfold layers in F. clear -F. revert vs F. generalize (combine (seq 0 (length scales)) scales). intro l. induction l as [|p l IH]; intros vs F; inversion F; subst; [reflexivity|]. cbn [map]. f_equal; [symmetry; now apply cell_get2|now apply IH]. }
    rewrite EV, Lsw. unfold sw. clear -L. f_equal. revert weights L. generalize 0%nat. induction scales as [|s scales IH]; intros a [|w weights] L; try discriminate; [reflexivity|].
    cbn [length seq combine map map2]. unfold map2 in *. cbn [combine map fst snd]. f_equal; [ring|]. apply IH. now injection L.
Qed.

Lemma stack_cell rnd k weights scales n m field i j v : generator rnd -> length weights = length scales -> stack_random_field rnd k weights scales (n, m) false = Ok field ->
  cell_at field i j v -> exists vs, length vs = length weights /\ (forall x, In x vs -> 0 <= x < 1) /\ v = Rsum (map2 Rmult weights vs).
Proof.
  intros G L E Hv. destruct (stack_value rnd k weights scales n m L) as (f' & layers & E' & Sh & Ll & Hl & Hc). assert (f' = field) by congruence. subst f'.
  destruct (cell_bounds _ _ _ _ _ _ Sh Hv) as [Hi Hj].
  assert (X : exists vs, Forall2 (fun F v => cell_at F i j v) layers vs /\ forall x, In x vs -> 0 <= x < 1).
  { assert (A : forall F, In F layers -> exists x, cell_at F i j x /\ 0 <= x < 1).
    { intros F IF. apply In_nth_error in IF. destruct IF as [l HlF]. assert (Hlt : (l < length scales)%nat) by (rewrite <- Ll; apply nth_error_Some; congruence).
      destruct (nth_error scales l) as [s|] eqn:Es; [|apply nth_error_None in Es; lia]. destruct (Hl l s Es) as (A & B & _ & _ & EF). assert (HF : snd (random_at_scale rnd (k + l) (A, B) (n, m)) = F) by congruence. subst F.
      destruct (random_at_scale rnd (k + l) (A, B) (n, m)) as [co fi] eqn:Er. cbn [snd]. destruct (random_shape _ _ _ _ _ _ _ _ G Er) as [Sf _]. destruct (random_range _ _ _ _ _ _ _ _ G Er) as [_ Rg].
      destruct (shaped_cell n m fi i j Sf Hi Hj) as [x Hx]. exists x. split; [easy|]. apply Rg. eapply cell_in; eauto. }
    clear -A. induction layers as [|F l IH]; [exists []; split; [constructor|easy]|]. destruct IH as (vs & F1 & F2); [intros; apply A; now right|]. destruct (A F (or_introl eq_refl)) as (x & Hx & Rx).
    exists (x :: vs). split; [now constructor|]. intros y [<-|Iy]; [easy|now apply F2]. }
  destruct X as (vs & F & Rg). exists vs. split; [apply Forall2_len in F; lia|]. split; [easy|]. eapply cell_fun; [exact Hv|]. now apply Hc.
Qed.

(*@ C71 With convex weights every value of the unnormalised field lies in [0, 1). *)
Lemma stack_range : forall rnd k weights scales n m field, generator rnd -> length weights = length scales -> convex weights ->
  stack_random_field rnd k weights scales (n, m) false = Ok field -> forall v, In v (concat field) -> 0 <= v < 1.
Proof.
  intros rnd k weights scales n m field G L [W1 W2] E v Iv. apply cell_inv in Iv. destruct Iv as (i & j & Hv).
  destruct (stack_cell _ _ _ _ _ _ _ _ _ _ G L E Hv) as (vs & Lv & Rg & ->).
  assert (A : forall ws xs, length xs = length ws -> (forall w, In w ws -> 0 <= w) -> (forall x, In x xs -> 0 <= x < 1) ->
     0 <= Rsum (map2 Rmult ws xs) <= Rsum ws /\ (0 < Rsum ws -> Rsum (map2 Rmult ws xs) < Rsum ws)).
  { clear. induction ws as [|w ws IH]; intros [|x xs] Lx Pw Px; try discriminate; [rewrite !Rsum_nil; unfold map2; cbn [combine map]; rewrite Rsum_nil; split; lra|].
    unfold map2. cbn [combine map fst snd]. rewrite !Rsum_cons. fold (map2 Rmult ws xs).
    destruct (IH xs) as [I1 I2]; [now injection Lx|intros; apply Pw; now right|intros; apply Px; now right|].
    pose proof (Pw w (or_introl eq_refl)). pose proof (Px x (or_introl eq_refl)). assert (0 <= w * x <= w) by nra. split; [lra|]. intro Hs.
    destruct (Rle_lt_or_eq_dec 0 w H) as [Hw|Hw]; [nra|]. subst w. assert (0 < Rsum ws) by lra. specialize (I2 H2). lra. }
  destruct (A weights vs Lv W1 Rg) as [A1 A2]. rewrite W2 in *. split; [lra|]. apply A2. lra.
Qed.

(*@ C71 Unequal lists are refused. *)
Lemma stack_unequal : forall rnd k weights scales size normalize, length weights <> length scales ->
  stack_random_field rnd k weights scales size normalize = Err ValueError.
Proof. intros rnd k weights scales size normalize H. unfold stack_random_field. destruct (Nat.eqb_spec (length weights) (length scales)); [easy|reflexivity]. Qed.

Lemma Rmax_of_shift c l : l <> [] -> Rmax_of (map (fun v => v - c) l) = Rmax_of l - c.
Proof.
  intro N. apply Rle_antisym.
  - assert (I : In (Rmax_of (map (fun v => v - c) l)) (map (fun v => v - c) l)) by (apply Rmax_of_in; now intro X; apply map_eq_nil in X).
    apply in_map_iff in I. destruct I as (x & <- & Ix). pose proof (Rmax_of_ge l x Ix). lra.
  - apply Rmax_of_ge. apply in_map_iff. exists (Rmax_of l). split; [easy|now apply Rmax_of_in].
Qed.

(*@ C71 Normalisation maps the range of the field onto [0, 1] by one increasing straight line; constant fields and empty ones are refused. *)
Lemma stack_normalized : forall rnd k weights scales size field, stack_random_field rnd k weights scales size false = Ok field ->
  (forall lo hi, In lo (concat field) -> In hi (concat field) -> within lo hi field -> lo < hi ->
     stack_random_field rnd k weights scales size true = Ok (map (map (fun v => (v - lo) / (hi - lo))) field)) /\
  (forall c, In c (concat field) -> within c c field -> stack_random_field rnd k weights scales size true = Err AssertionError) /\
  (concat field = [] -> stack_random_field rnd k weights scales size true = Err ValueError).
Proof.
  intros rnd k weights scales size field E. unfold stack_random_field in *. destruct (negb _); [discriminate|]. injection E as E.
  set (f := stack_sum rnd k (combine scales weights) size (build (fst size) (snd size) (fun _ _ => 0))) in *. clearbody f. subst f.
  assert (Q : concat field <> [] -> forall X : list (list R), match concat field with [] => Err ValueError | _ => Ok X end = Ok X) by (destruct (concat field); easy).
  assert (M : forall lo hi, In lo (concat field) -> In hi (concat field) -> within lo hi field -> Rmin_of (concat field) = lo /\ Rmax_of (concat field) = hi).
  { intros lo hi Il Ih W. assert (Ne : concat field <> []) by (intro X; now rewrite X in Il). split; apply Rle_antisym.
    - now apply Rmin_of_le. - apply (W _ (Rmin_of_in _ Ne)). - apply (W _ (Rmax_of_in _ Ne)). - now apply Rmax_of_ge. }
  split; [|split].
  - intros lo hi Il Ih W Hlt. destruct (M lo hi Il Ih W) as [E1 E2]. assert (Ne : concat field <> []) by (intro X; now rewrite X in Il).
    destruct (concat field) as [|x0 l0] eqn:Ec; [easy|]. rewrite <- Ec in *. rewrite concat_map_map, Rmax_of_shift, E1, E2 by easy. rewrite Reqb_false by lra. rewrite map_map. f_equal. apply map_ext. intro row. now rewrite map_map.
  - intros c Ic W. destruct (M c c Ic Ic W) as [E1 E2]. assert (Ne : concat field <> []) by (intro X; now rewrite X in Ic).
    destruct (concat field) as [|x0 l0] eqn:Ec; [easy|]. rewrite <- Ec in *. rewrite concat_map_map, Rmax_of_shift, E1, E2 by easy. now rewrite Reqb_true by lra.
  - intros ->. reflexivity.
Qed.

(*@ C71 So a non-constant field comes out with minimum 0, maximum 1 and its order unchanged. *)
Lemma stack_normalized_range : forall rnd k weights scales size field x y, stack_random_field rnd k weights scales size false = Ok field ->
  In x (concat field) -> In y (concat field) -> x <> y ->
  exists g out, stack_random_field rnd k weights scales size true = Ok out /\ out = map (map g) field /\ (forall a b, a < b <-> g a < g b) /\
    within 0 1 out /\ In 0 (concat out) /\ In 1 (concat out).
Proof.
  intros rnd k weights scales size field x y E Ix Iy Nxy. assert (Ne : concat field <> []) by (intro X; now rewrite X in Ix).
  set (lo := Rmin_of (concat field)). set (hi := Rmax_of (concat field)).
  assert (Il : In lo (concat field)) by now apply Rmin_of_in. assert (Ih : In hi (concat field)) by now apply Rmax_of_in.
  assert (W : within lo hi field) by (intros v Iv; split; [now apply Rmin_of_le|now apply Rmax_of_ge]).
  assert (Hlt : lo < hi) by (pose proof (W x Ix); pose proof (W y Iy); destruct (Rtotal_order x y) as [?|[?|?]]; [lra|easy|lra]).
  destruct (stack_normalized _ _ _ _ _ _ E) as [N _]. exists (fun v => (v - lo) / (hi - lo)). eexists. split; [exact (N lo hi Il Ih W Hlt)|]. split; [reflexivity|].
  assert (Hp : 0 < / (hi - lo)) by (apply Rinv_0_lt_compat; lra). split; [intros a b; unfold Rdiv; split; intro; nra|]. rewrite concat_map_map. split; [|split].
  - intros v Iv. rewrite concat_map_map in Iv. apply in_map_iff in Iv. destruct Iv as (w & <- & Iw). specialize (W w Iw). split.
    + apply Rmult_le_pos; lra.
    + apply (Rmult_le_reg_r (hi - lo)); [lra|]. replace ((w - lo) / (hi - lo) * (hi - lo)) with (w - lo) by (field; lra). lra.
  - apply in_map_iff. exists lo. split; [unfold Rdiv; ring|easy].
  - apply in_map_iff. exists hi. split; [field; lra|easy].
Qed.
(*@ex C71 *)
Lemma stack_example : exists rnd field, generator rnd /\ stack_random_field rnd 0 [1] [1] (2, 2)%nat false = Ok field /\ In 0 (concat field) /\ In (1 / 2) (concat field).
Proof.
  set (rnd := fun (k a b : nat) => build a b (fun i _ => match i with O => 1 / 2 | _ => 0 end)). assert (G : generator rnd).
  { intros k a b. split; [apply build_shaped|]. intros v Iv. apply cell_inv in Iv. destruct Iv as (i & j & Hc). destruct (cell_bounds _ _ _ _ _ _ (build_shaped a b _) Hc).
    rewrite (cell_fun _ _ _ _ _ Hc (build_cell a b _ i j H H0)). destruct i; lra. }
  destruct (stack_value rnd 0 [1] [1] 2 2 eq_refl) as (field & layers & E & Sh & Ll & Hl & Hc). exists rnd, field. split; [exact G|]. split; [exact E|].
  destruct (Hl 0%nat 1 eq_refl) as (A & B & HA & HB & EF). rewrite Rminus_diag_eq, Rpower_O in HA, HB by lra. cbn [INR] in HA, HB.
  assert (A = 2%Z) by (apply Z.le_antisymm; [apply le_IZR; lra|]; enough (1 < A)%Z by lia; apply lt_IZR; lra).
  assert (B = 2%Z) by (apply Z.le_antisymm; [apply le_IZR; lra|]; enough (1 < B)%Z by lia; apply lt_IZR; lra). subst A B.
  destruct layers as [|F [|]]; try discriminate. assert (EF' : F = snd (random_at_scale rnd (0 + 0) (2, 2)%Z (2, 2)%nat)) by (cbn [nth_error] in EF; congruence). clear EF. rename EF' into EF. destruct (random_at_scale rnd (0 + 0) (2, 2)%Z (2, 2)%nat) as [co fi] eqn:Er. cbn [snd] in EF. subst F.
  assert (Eco : co = [[1 / 2; 1 / 2]; [0; 0]]) by (change co with (fst (co, fi)); rewrite <- Er; reflexivity). subst co.
  assert (C1 : cell_at fi 1 0 0) by (apply (random_corners rnd 0 2 2 2 2 _ fi 1 0 1 0 0 G Er); try (cbn; lia); eexists; split; reflexivity).
  assert (C0 : cell_at fi 0 0 (1 / 2)) by (apply (random_corners rnd 0 2 2 2 2 _ fi 0 0 0 0 (1 / 2) G Er); try (cbn; lia); eexists; split; reflexivity).
  split.
  - assert (Q : cell_at field 1 0 (Rsum (map2 Rmult [1] [0]))) by (apply Hc; [lia|lia|]; constructor; [exact C1|constructor]).
    apply cell_in in Q. unfold map2, Rsum in Q. cbn in Q. now replace (1 * 0 + 0) with 0 in Q by lra.
  - assert (Q : cell_at field 0 0 (Rsum (map2 Rmult [1] [1 / 2]))) by (apply Hc; [lia|lia|]; constructor; [exact C0|constructor]).
    apply cell_in in Q. unfold map2, Rsum in Q. cbn in Q. now replace (1 * (1 / 2) + 0) with (1 / 2) in Q by lra.
Qed.
