(** Series read from a cloud field, statistics of a series, and the whole generator. *)
From Verif Require Import Prelude PreludeFacts RealBase Fl RealStat Spec_stats M_stats P_stats P_list P_quantile X_stats_err Spec_copula M_cloudfield Spec_cloudfield
  X_copula_down X_field_pos X_cloud_random X_cloud_weights X_cloud_mask X_cloud_edges X_cloud_scale.
Local Open Scope R_scope.

Lemma Int_part_spec x : IZR (Int_part x) <= x < IZR (Int_part x) + 1.
Proof. destruct (base_Int_part x). lra. Qed.
Lemma trunc_ok x : truncates x (py_trunc x).
Proof.
  unfold truncates, py_trunc. destruct (Rltb_spec x 0) as [H|H]; [right|left]; (split; [lra|]).
  - pose proof (Int_part_spec (- x)). rewrite opp_IZR. lra.
  - apply Int_part_spec.
Qed.
Lemma trunc_unique x a b : truncates x a -> truncates x b -> a = b.
Proof.
  intros [[H A]|[H A]] [[H' B]|[H' B]]; try lra.
  - assert (a < b + 1)%Z by (apply lt_IZR; rewrite plus_IZR; lra). assert (b < a + 1)%Z by (apply lt_IZR; rewrite plus_IZR; lra). lia.
  - assert (a - 1 < b)%Z by (apply lt_IZR; rewrite minus_IZR; lra). assert (b - 1 < a)%Z by (apply lt_IZR; rewrite minus_IZR; lra). lia.
Qed.
Lemma trunc_eq x z : truncates x z -> py_trunc x = z.
Proof. intro H. apply (trunc_unique x); [apply trunc_ok|exact H]. Qed.
Lemma nth_error_slice {A} (l : list A) a b k v : nth_error (firstn (b - a) (skipn a l)) k = Some v <-> (a + k < b)%nat /\ nth_error l (a + k) = Some v.
Proof.
  split.
  - intro H. assert (Lk : (k < b - a)%nat). { assert (k < length (firstn (b - a) (skipn a l)))%nat by (apply nth_error_Some; congruence). rewrite firstn_length in H0. lia. }
    rewrite nth_error_firstn in H by easy. rewrite nth_error_skipn in H. split; [lia|exact H].
  - intros [L H]. rewrite nth_error_firstn by lia. now rewrite nth_error_skipn.
Qed.

(*@ C76 Sample k is the field at row x + k, one column, as long as k does not exceed the duration and the row exists; x, y and the duration are
    truncated, and columns count from the end when y is negative. *)
Lemma ts_value : forall r c field e n speed duration x y d col, shaped r c field -> (0 < r)%nat -> speed <> 0 ->
  truncates (e / speed) x -> truncates (n / speed) y -> truncates duration d ->
  (0 <= x)%Z -> (0 <= d)%Z -> (col < c)%nat -> (y = Z.of_nat col \/ y = Z.of_nat col - Z.of_nat c)%Z ->
  exists series, get_positional_ts (e, n) field speed duration = Ok series /\
    forall k v, nth_error series k = Some v <-> (Z.of_nat k <= d)%Z /\ cell_at field (Z.to_nat x + k) col v.
Proof.
  intros r c field e n speed duration x y d col S Hr Hs Tx Ty Td Hx Hd Hc Hy. unfold get_positional_ts. rewrite Reqb_false by easy. cbn [fst snd]. rewrite (trunc_eq _ _ Tx), (trunc_eq _ _ Ty), (trunc_eq _ _ Td).
  rewrite (shaped_ncols r c field S Hr). replace ((y <? - Z.of_nat c) || (Z.of_nat c <=? y))%Z with false by lia. replace (Z.to_nat (if (y <? 0)%Z then y + Z.of_nat c else y)) with col by (destruct (Z.ltb_spec y 0); lia).
  eexists. split; [reflexivity|]. intros k v. unfold py_slice, slice_bound. rewrite (proj1 S). replace (x <? 0)%Z with false by lia. replace (x + d + 1 <? 0)%Z with false by lia.
  rewrite nth_error_map. destruct (nth_error (firstn (Nat.min (Z.to_nat (x + d + 1)) r - Nat.min (Z.to_nat x) r) (skipn (Nat.min (Z.to_nat x) r) field)) k) as [row|] eqn:E.
  - apply nth_error_slice in E. destruct E as [L E]. assert (Nat.min (Z.to_nat x) r = Z.to_nat x) by lia. rewrite H in *. cbn [option_map]. assert (Lr : length row = c) by (apply S; eapply nth_error_In; eauto). split.
    + intro V. injection V as <-. split; [lia|]. exists row. split; [exact E|]. apply nth_error_nth'. lia.
    + intros [_ (row' & E' & V)]. assert (row' = row) by congruence. subst. f_equal. now apply nth_error_nth.
  - cbn [option_map]. split; [easy|]. intros [Lk (row & E' & V)]. exfalso. assert (Lt : (Z.to_nat x + k < r)%nat) by (rewrite <- (proj1 S); apply nth_error_Some; congruence).
    assert (Q : nth_error (firstn (Nat.min (Z.to_nat (x + d + 1)) r - Nat.min (Z.to_nat x) r) (skipn (Nat.min (Z.to_nat x) r) field)) k = Some row); [|congruence].
    apply nth_error_slice. replace (Nat.min (Z.to_nat x) r) with (Z.to_nat x) by lia. split; [lia|exact E'].
Qed.
(*@ C76 The series has duration + 1 samples when they fit and silently fewer when they do not. *)
Lemma ts_length : forall r c field e n speed duration x y d, shaped r c field -> (0 < r)%nat -> speed <> 0 ->
  truncates (e / speed) x -> truncates (n / speed) y -> truncates duration d ->
  (0 <= x)%Z -> (0 <= d)%Z -> (- Z.of_nat c <= y < Z.of_nat c)%Z ->
  exists series, get_positional_ts (e, n) field speed duration = Ok series /\
    Z.of_nat (length series) = Z.min (d + 1) (Z.max 0 (Z.of_nat r - x)).
Proof.
  intros r c field e n speed duration x y d S Hr Hs Tx Ty Td Hx Hd Hy. unfold get_positional_ts. rewrite Reqb_false by easy. cbn [fst snd]. rewrite (trunc_eq _ _ Tx), (trunc_eq _ _ Ty), (trunc_eq _ _ Td).
  rewrite (shaped_ncols r c field S Hr). replace ((y <? - Z.of_nat c) || (Z.of_nat c <=? y))%Z with false by lia. eexists. split; [reflexivity|]. rewrite map_length. unfold py_slice, slice_bound. rewrite firstn_length, skipn_length, (proj1 S).
  replace (x <? 0)%Z with false by lia. replace (x + d + 1 <? 0)%Z with false by lia. lia.
Qed.
(*@ C76 Frozen field: a target k steps further along the motion records at time t what the first one records at time t + k. *)
Lemma ts_shift : forall r c field e n speed duration x y d k, shaped r c field -> (0 < r)%nat -> 0 < speed -> 0 <= e ->
  truncates (e / speed) x -> truncates (n / speed) y -> truncates duration d -> (0 <= d)%Z -> (- Z.of_nat c <= y < Z.of_nat c)%Z ->
  exists here there, get_positional_ts (e, n) field speed duration = Ok here /\ get_positional_ts (e + INR k * speed, n) field speed duration = Ok there /\
    forall t, (Z.of_nat (t + k) <= d)%Z -> nth_error there t = nth_error here (t + k).
Proof.
  intros r c field e n speed duration x y d k S Hr Hs He Tx Ty Td Hd Hy.
  assert (Hx : (0 <= x)%Z). { destruct Tx as [[P Q]|[P Q]]; [|exfalso; assert (0 <= e / speed); [apply Rmult_le_pos; [easy|left; now apply Rinv_0_lt_compat]|lra]]. assert (-1 < x)%Z by (apply lt_IZR; assert (0 <= e / speed) by easy; lra). lia. }
  assert (Tk : truncates ((e + INR k * speed) / speed) (x + Z.of_nat k)).
  { replace ((e + INR k * speed) / speed) with (e / speed + INR k) by (field; lra). left. pose proof (pos_INR k). assert (0 <= e / speed) by (apply Rmult_le_pos; [easy|left; now apply Rinv_0_lt_compat]). rewrite plus_IZR, <- INR_IZR_INZ. destruct Tx as [[P Q]|[P Q]]; [lra|lra]. }
  set (col := Z.to_nat (if (y <? 0)%Z then y + Z.of_nat c else y)). assert (Hc : (col < c)%nat) by (unfold col; destruct (Z.ltb_spec y 0); lia). assert (Hcy : (y = Z.of_nat col \/ y = Z.of_nat col - Z.of_nat c)%Z) by (unfold col; destruct (Z.ltb_spec y 0); lia).
  destruct (ts_value r c field e n speed duration x y d col S Hr ltac:(lra) Tx Ty Td Hx Hd Hc Hcy) as (h & Eh & Vh).
  destruct (ts_value r c field (e + INR k * speed) n speed duration _ y d col S Hr ltac:(lra) Tk Ty Td ltac:(lia) Hd Hc Hcy) as (w & Ew & Vw).
  exists h, w. split; [exact Eh|]. split; [exact Ew|]. intros t Ht. replace (Z.to_nat (x + Z.of_nat k) + t)%nat with (Z.to_nat x + (t + k))%nat in * by lia.
  assert (Q : forall v, nth_error w t = Some v <-> nth_error h (t + k) = Some v).
  { intro v. rewrite Vh, Vw. replace (Z.to_nat (x + Z.of_nat k) + t)%nat with (Z.to_nat x + (t + k))%nat by lia. split; intros [_ C]; (split; [lia|exact C]). }
  destruct (nth_error w t) as [v|] eqn:E; [symmetry; now apply Q|]. destruct (nth_error h (t + k)) as [v|] eqn:E'; [|reflexivity]. now apply Q.
Qed.
(*@ C76 A column outside the field raises; speed 0 divides by zero. *)
Lemma ts_errors : forall r c field e n speed duration, shaped r c field -> (0 < r)%nat ->
  get_positional_ts (e, n) field 0 duration = Err ZeroDivisionError /\
  (forall y, speed <> 0 -> truncates (n / speed) y -> (y < - Z.of_nat c \/ Z.of_nat c <= y)%Z -> get_positional_ts (e, n) field speed duration = Err IndexError).
Proof.
  intros r c field e n speed duration S Hr. split.
  - unfold get_positional_ts. now rewrite Reqb_true.
  - intros y Hs Ty Hy. unfold get_positional_ts. rewrite Reqb_false by easy. cbn [fst snd]. rewrite (trunc_eq _ _ Ty), (shaped_ncols r c field S Hr). now replace ((y <? - Z.of_nat c) || (Z.of_nat c <=? y))%Z with true by lia.
Qed.
(*@ C76 A target before the start of the field: positions at most duration + 1 rows before it give nothing at all, earlier ones wrap around to the end. *)
Lemma ts_negative : forall r c field e n speed duration m y d, shaped r c field -> (0 < r)%nat -> speed <> 0 ->
  truncates (e / speed) (- m) -> truncates (n / speed) y -> truncates duration d -> (- Z.of_nat c <= y < Z.of_nat c)%Z ->
  (0 < m <= Z.of_nat r)%Z -> (0 <= d < Z.of_nat r)%Z ->
  ((m <= d + 1)%Z -> get_positional_ts (e, n) field speed duration = Ok []) /\
  ((d + 1 < m)%Z -> get_positional_ts (e, n) field speed duration = get_positional_ts (IZR (Z.of_nat r - m) * speed, n) field speed duration).
Proof.
  intros r c field e n speed duration m y d S Hr Hs Tx Ty Td Hy Hm Hd. unfold get_positional_ts. rewrite Reqb_false by easy. cbn [fst snd]. rewrite (trunc_eq _ _ Tx), (trunc_eq _ _ Ty), (trunc_eq _ _ Td).
  rewrite (shaped_ncols r c field S Hr). replace ((y <? - Z.of_nat c) || (Z.of_nat c <=? y))%Z with false by lia. unfold py_slice, slice_bound. rewrite (proj1 S). replace (- m <? 0)%Z with true by lia. split; intro H.
  - replace (- m + d + 1 <? 0)%Z with false by lia. replace (Nat.min (Z.to_nat (- m + d + 1)) r - Z.to_nat (- m + Z.of_nat r))%nat with 0%nat by lia. reflexivity.
  - assert (T : truncates (IZR (Z.of_nat r - m) * speed / speed) (Z.of_nat r - m)).
    { left. assert (0 <= IZR (Z.of_nat r - m)) by (apply IZR_le; lia). replace (IZR (Z.of_nat r - m) * speed / speed) with (IZR (Z.of_nat r - m)) by (field; easy). lra. }
    rewrite (trunc_eq _ _ T). replace (- m + d + 1 <? 0)%Z with true by lia. replace (Z.of_nat r - m <? 0)%Z with false by lia. replace (Z.of_nat r - m + d + 1 <? 0)%Z with false by lia.
    replace (Nat.min (Z.to_nat (Z.of_nat r - m)) r) with (Z.to_nat (- m + Z.of_nat r)) by lia. replace (Nat.min (Z.to_nat (Z.of_nat r - m + d + 1)) r) with (Z.to_nat (- m + d + 1 + Z.of_nat r)) by lia. reflexivity.
Qed.
(*@ex C76 *)
Lemma ts_example : get_positional_ts (7, 3) [[1; 2]; [3; 4]; [5; 6]; [7; 8]; [9; 10]] 3 2 = Ok [6; 8; 10].
Proof.
  assert (S : shaped 5 2 [[1; 2]; [3; 4]; [5; 6]; [7; 8]; [9; 10]]) by (split; [easy|]; intros row H; repeat (destruct H as [<-|H]; [reflexivity|]); easy).
  unfold get_positional_ts. rewrite Reqb_false by (intro; lra). cbn [fst snd]. rewrite (trunc_eq (7 / 3) 2) by (left; lra). rewrite (trunc_eq (3 / 3) 1) by (left; lra). rewrite (trunc_eq 2 2) by (left; lra). reflexivity.
Qed.

(** ** Statistics of a series *)
(*@ C77 The statistics of a series with at least one present value. *)
Lemma stats_value : forall wavelet kt threshold, present (values kt) <> [] ->
  exists st m p x s, get_timeseries_stats wavelet kt threshold = Ok st /\
    st_mean st = Fin m /\ m = avg (present (values kt)) /\
    st_pct st = Fin p /\ is_quantile (1 / 100) (present (values kt)) p /\
    st_max st = Fin x /\ largest (present (values kt)) x /\
    st_clear st = Fin s /\ s = INR (length (filter (Rltb threshold) (present (values kt)))) / INR (length kt) /\ 0 <= s <= 1 /\
    (forall v, variability_score kt 1 true false = Ok v -> st_vs st = fmul v (Fin 10000)) /\
    m <= x /\ p <= x.
Proof.
  intros wavelet kt th Ne. unfold get_timeseries_stats. cbn [variability_score Z.ltb Z.compare Pos.compare Pos.compare_cont andb]. cbn [rbind]. destruct (wavelet kt) as [waves tm]. set (v := values kt) in *.
  assert (Lv : length v = length kt) by (unfold v, values; apply map_length). assert (Nv : (0 < length v)%nat) by (destruct v; [easy|cbn; lia]).
  assert (Lc : length (filter (fun o => match o with Some x => Rltb th x | None => false end) v) = length (filter (Rltb th) (present v))).
  { clear. induction v as [|[a|] v IH]; [reflexivity| |exact IH]. unfold present in *. cbn [flat_map app filter]. destruct (Rltb th a); cbn [length]; [f_equal|]; exact IH. }
  assert (Lp : (length (present v) <= length v)%nat). { clear. unfold present. induction v as [|[a|] v IH]; cbn [flat_map app length]; lia. }
  pose proof (filter_le_length (Rltb th) (present v)) as Lf. assert (Pv : 0 < INR (length v)) by now apply (lt_INR 0).
  eexists _, _, _, _, _. split; [reflexivity|]. cbn [st_mean st_pct st_max st_clear st_vs].
  split; [unfold nanmean; rewrite nan_reduce_ne by easy; reflexivity|]. split; [reflexivity|].
  split; [rewrite nan_reduce_ne by easy; reflexivity|]. split; [apply quantile_is; [lra|easy]|].
  split; [unfold nanmax; rewrite nan_reduce_ne by easy; reflexivity|]. split; [split; [now apply Rmax_of_in|intros; now apply Rmax_of_ge]|].
  split; [rewrite fdiv_fin by lra; reflexivity|]. rewrite Lc, Lv in *. split; [reflexivity|]. split.
  { split; [apply Rmult_le_pos; [apply pos_INR|left; now apply Rinv_0_lt_compat]|]. apply (Rmult_le_reg_r (INR (length kt))); [easy|]. unfold Rdiv. rewrite Rmult_assoc, Rinv_l by lra. rewrite Rmult_1_l, Rmult_1_r. apply le_INR. lia. }
  split; [intros w W; now injection W as <-|]. split; [|apply quantile_between; [lra|easy]].
  unfold Rmean. set (l := present v) in *. assert (Pl : 0 < INR (length l)) by (now apply INR_length_pos). apply (Rmult_le_reg_r (INR (length l))); [easy|]. unfold Rdiv. rewrite Rmult_assoc, Rinv_l by lra. rewrite Rmult_1_r.
  assert (G : forall l' b, (forall a, In a l' -> a <= b) -> Rsum l' <= b * INR (length l')).
  { clear. induction l' as [|a l' IH]; intros b H; [cbn; rewrite Rmult_0_r; lra|]. rewrite Rsum_cons. cbn [length]. rewrite S_INR. specialize (H a (or_introl eq_refl)) as Ha. assert (Rsum l' <= b * INR (length l')) by (apply IH; intros; apply H; now right). lra. }
  apply G. intros a Ia. now apply Rmax_of_ge.
Qed.
(*@ C77 A series without any present value: NaN mean, percentile and maximum. *)
Lemma stats_missing : forall wavelet kt threshold, present (values kt) = [] ->
  exists st, get_timeseries_stats wavelet kt threshold = Ok st /\ st_mean st = Nan /\ st_pct st = Nan /\ st_max st = Nan /\ st_clear st = match kt with [] => Nan | _ => Fin 0 end.
Proof.
  intros wavelet kt th E. unfold get_timeseries_stats. cbn [variability_score Z.ltb Z.compare Pos.compare Pos.compare_cont andb]. cbn [rbind]. destruct (wavelet kt) as [waves tm]. eexists. split; [reflexivity|]. cbn [st_mean st_pct st_max st_clear].
  unfold nanmean, nanmax. rewrite E. split; [easy|]. split; [easy|]. split; [easy|].
  assert (F : filter (fun o => match o with Some x => Rltb th x | None => false end) (values kt) = []). { apply filter_none. intros [a|] I; [|reflexivity]. apply present_In in I. now rewrite E in I. }
  rewrite F. cbn [length INR]. destruct kt as [|row kt]; [cbn; now rewrite Reqb_true, sgn_inf_0|]. rewrite fdiv_fin; [f_equal; unfold Rdiv; ring|]. apply not_0_INR. cbn. lia.
Qed.
(*@ C77 One scale 1, 2, .. and one weight per wavelet except the steady one; the weights are shares of the mean squares. *)
Lemma stats_weights : forall wavelet kt threshold, length (fst (wavelet kt)) = length (snd (wavelet kt)) ->
  exists st m, get_timeseries_stats wavelet kt threshold = Ok st /\ m = (length (snd (wavelet kt)) - 1)%nat /\
    length (st_weights st) = m /\ length (st_scales st) = m /\ (forall i s, nth_error (st_scales st) i = Some s -> s = (Z.of_nat i + 1)%Z) /\
    (let waves := firstn m (fst (wavelet kt)) in
     (forall w, In w waves -> present w <> []) -> (exists w x, In w waves /\ In (Some x) w /\ x <> 0) ->
     exists ws, st_weights st = map Fin ws /\ convex ws /\
       ws = map (fun w => avg (map (fun x => x ^ 2) (present w)) / Rsum (map (fun w => avg (map (fun x => x ^ 2) (present w))) waves)) waves).
Proof.
  intros wavelet kt th L. unfold get_timeseries_stats. cbn [variability_score Z.ltb Z.compare Pos.compare Pos.compare_cont andb]. cbn [rbind]. destruct (wavelet kt) as [waves tm]. cbn [fst snd] in *.
  assert (RL : forall A (l : list A), removelast l = firstn (length l - 1) l).
  { intros A l. rewrite (removelast_firstn_len l). f_equal. lia. }
  eexists _, _. split; [reflexivity|]. split; [reflexivity|]. cbn [st_weights st_scales]. rewrite !RL, L. unfold calc_wavelet_weights at 1. cbv zeta. rewrite !map_length, firstn_length, seq_length, firstn_length. split; [lia|]. split; [lia|]. split.
  - intros i s H. rewrite nth_error_map in H. destruct (nth_error (seq 0 (Nat.min (length tm - 1) (length tm))) i) as [j|] eqn:E; [|discriminate]. cbn in H. injection H as <-. assert (Li : (i < length (seq 0 (Nat.min (length tm - 1) (length tm))))%nat) by (apply nth_error_Some; congruence). rewrite seq_length in Li. rewrite nth_error_seq in E by lia. injection E as <-. lia.
  - intros Hp Hx. destruct (wavelet_weights_value _ Hp Hx) as (ws & E & C & V). exists ws. split; [exact E|]. split; [exact C|exact V].
Qed.

(** ** The whole generator *)
Lemma random_ext rnd rnd' k A B : (forall a b, rnd k a b = rnd' k a b) -> random_at_scale rnd k A B = random_at_scale rnd' k A B.
Proof. intro H. unfold random_at_scale. now rewrite H. Qed.
Lemma stack_sum_ext rnd rnd' sw size : forall k f, (forall j a b, (k <= j)%nat -> rnd j a b = rnd' j a b) -> stack_sum rnd k sw size f = stack_sum rnd' k sw size f.
Proof.
  induction sw as [|[s w] sw IH]; intros k f H; [reflexivity|]. cbn [stack_sum]. rewrite (random_ext rnd rnd') by (intros; apply H; lia). apply IH. intros; apply H; lia.
Qed.
Lemma stack_ext rnd rnd' k ws sc size b : (forall j x y, (k <= j)%nat -> rnd j x y = rnd' j x y) -> stack_random_field rnd k ws sc size b = stack_random_field rnd' k ws sc size b.
Proof. intro H. unfold stack_random_field. now rewrite (stack_sum_ext rnd rnd') by exact H. Qed.
Lemma pixels_shaped r c f m e : shaped r c f -> shaped r c m -> shaped r c e -> shaped r c (pixels f m e).
Proof. intros. unfold pixels. apply map2_shaped; [easy|]. now apply map2_shaped. Qed.
Lemma pixels_cell f m e i j v k w : cell_at f i j v -> cell_at m i j k -> cell_at e i j w -> cell_at (pixels f m e) i j (Pixel v k w).
Proof. intros F M E. unfold pixels. apply (map2_cell (fun a (g : R -> pixel) => g a) e _ i j w (Pixel v k) E). now apply (map2_cell (fun v c e => Pixel v c e)). Qed.
Lemma pixels_inv r c f m e i j p : shaped r c f -> shaped r c m -> shaped r c e -> cell_at (pixels f m e) i j p -> cell_at f i j (px_v p) /\ cell_at m i j (px_clear p) /\ cell_at e i j (px_edge p).
Proof.
  intros Sf Sm Se C. destruct (cell_bounds _ _ _ _ _ _ (pixels_shaped _ _ _ _ _ Sf Sm Se) C) as [Hi Hj].
  destruct (shaped_cell r c f i j Sf Hi Hj) as [v F]. destruct (shaped_cell r c m i j Sm Hi Hj) as [k M]. destruct (shaped_cell r c e i j Se Hi Hj) as [w E].
  rewrite (cell_fun _ _ _ _ _ C (pixels_cell f m e i j v k w F M E)). cbn. easy.
Qed.
Lemma mask_facts field q mask r c : shaped r c field -> calc_clear_mask field q = Ok mask ->
  (0 < r)%nat /\ (0 < c)%nat /\ 0 <= q <= 1 /\ shaped r c mask /\ (forall v, In v (concat mask) -> v = 0 \/ v = 1) /\ Rabs (q - avg (concat mask)) <= 1 / 100000000 + 1 / 1000 * Rabs (avg (concat mask)).
Proof.
  intros S E. unfold calc_clear_mask in E. destruct (Rltb_spec 1 q) as [|L1]; [discriminate|]. destruct (Rltb_spec q 0) as [|L0]; [discriminate|]. cbn [orb] in E.
  assert (Ne : concat field <> []) by (intro X; rewrite X in E; destruct (Reqb q 0); discriminate). destruct (concat field) as [|x l] eqn:Ec; [easy|]. rewrite <- Ec in *.
  assert (I : In x (concat field)) by (rewrite Ec; now left). apply cell_inv in I. destruct I as (i & j & C). destruct (cell_bounds _ _ _ _ _ _ S C). split; [lia|]. split; [lia|]. split; [lra|]. clear x l Ec C H H0.
  set (mk := if Reqb q 0 then map (map (fun _ => 0)) field else map (map (fun v => if Rltb (quantile q (concat field)) v then 0 else 1)) field) in *. cbv zeta in E. fold mk in E. destruct (isclose q (Rsum (concat mk) / INR (length (concat field)))) eqn:Ei; [|discriminate].
  assert (mask = mk) by congruence. subst mask. clear E. assert (L : length (concat mk) = length (concat field)) by (unfold mk; destruct (Reqb q 0); rewrite concat_map_map; apply map_length).
  split; [unfold mk; destruct (Reqb q 0); now apply shaped_map|]. split.
  - intros v I. unfold mk in I. destruct (Reqb q 0); rewrite concat_map_map in I; apply in_map_iff in I; destruct I as (y & <- & _); [now left|]. destruct (Rltb _ y); [now left|now right].
  - apply isclose_spec in Ei. unfold avg. rewrite L. exact Ei.
Qed.
Lemma edges_facts m size r c e b : shaped r c m -> (0 < r)%nat -> (0 < c)%nat -> find_edges m size 0 = Ok (e, b) -> shaped r c e /\ shaped r c b /\ e = edge_map m.
Proof. intros S Hr Hc E. destruct (edges_value r c m size 0 S Hr Hc) as (e' & b' & E' & Se & Sb & _). destruct (find_edges_form r c m size 0 S Hr Hc) as [_ E2]. cbv zeta in E2. assert (e' = e /\ b' = b) as [-> ->] by (split; congruence). split; [easy|]. split; [easy|congruence]. Qed.

Lemma lave_cells px a b c q out : scale_field_lave px a b c q = Ok out -> exists f, out = map (map f) px /\ forall p, 0 < px_clear p -> f p = Fin 1.
Proof.
  unfold scale_field_lave. destruct (bad_quantile q); [discriminate|]. destruct (unclear_values px); [discriminate|]. cbv zeta. intro E. eexists. split; [symmetry; injection E; intro X; exact X|]. intros p H. cbv beta. unfold is_clear. now rewrite Rltb_true.
Qed.
Lemma basic_cells px a b c q out : scale_field_basic px a b c q false None = Ok out -> exists f, out = map (map f) px /\ forall p, 0 < px_clear p -> f p = Fin 1.
Proof.
  unfold scale_field_basic. destruct (bad_quantile q); [discriminate|]. destruct (unclear_values px); [discriminate|]. cbv zeta. intro E. eexists. split; [symmetry; injection E; intro X; exact X|]. intros p H. cbv beta. unfold is_cloud, is_clear. now rewrite Rltb_true.
Qed.

(*@ C84 A generated field has the requested size, and its clear part covers the requested fraction (up to the self-check tolerance) with value exactly 1.
    Where the clear part lies depends only on the second half of the random draws. *)
Lemma field_clear_part : forall rnd weights scales n m frac ktmean ktmax kt1pct scaling smoothing out,
  cloudfield_timeseries rnd weights scales (n, m) frac ktmean ktmax kt1pct scaling smoothing = Ok out ->
  length weights = length scales /\ (scaling = Original \/ scaling = Basic) /\ 0 <= frac <= 1 /\ shaped n m out /\
  exists mask, shaped n m mask /\ (forall v, In v (concat mask) -> v = 0 \/ v = 1) /\
    Rabs (frac - avg (concat mask)) <= 1 / 100000000 + 1 / 1000 * Rabs (avg (concat mask)) /\
    forall rnd', (forall k a b, (length scales <= k)%nat -> rnd' k a b = rnd k a b) ->
    forall scaling' ktmean' ktmax' kt1pct' out', cloudfield_timeseries rnd' weights scales (n, m) frac ktmean' ktmax' kt1pct' scaling' smoothing = Ok out' ->
      forall i j, cell_at mask i j 1 -> cell_at out' i j (Fin 1).
Proof.
  intros rnd ws sc n m frac ktmean ktmax kt1pct scaling es out E.
  assert (L : length ws = length sc). { destruct (Nat.eq_dec (length ws) (length sc)) as [|N]; [easy|]. unfold cloudfield_timeseries in E. rewrite stack_unequal in E by easy. discriminate. }
  assert (Sc : scaling = Original \/ scaling = Basic). { destruct scaling; [now left|now right|]. exfalso. unfold cloudfield_timeseries in E. destruct (stack_random_field rnd 0 _ _ _ _); [|discriminate]. cbn [rbind] in E. destruct (stack_random_field rnd (length sc) _ _ _ _); [|discriminate]. cbn [rbind] in E. destruct (calc_clear_mask _ _); [|discriminate]. cbn [rbind] in E. destruct (find_edges _ _ _) as [[? ?]|]; discriminate. }
  destruct (stack_value rnd (length sc) ws sc n m L) as (mf & _ & Em & Smf & _).
  assert (Ok' : exists mask, calc_clear_mask mf frac = Ok mask).
  { unfold cloudfield_timeseries in E. destruct (stack_random_field rnd 0 _ _ _ _); [|discriminate]. cbn [rbind] in E. rewrite Em in E. cbn [rbind] in E. destruct (calc_clear_mask mf frac); [eauto|discriminate]. }
  destruct Ok' as (mask & Ek). destruct (mask_facts mf frac mask n m Smf Ek) as (Hn & Hm & Hq & Sk & K01 & Kq).
  assert (Core : forall rnd', (forall k a b, (length sc <= k)%nat -> rnd' k a b = rnd k a b) -> forall scaling' ktmean' ktmax' kt1pct' out', cloudfield_timeseries rnd' ws sc (n, m) frac ktmean' ktmax' kt1pct' scaling' es = Ok out' ->
     shaped n m out' /\ forall i j, cell_at mask i j 1 -> cell_at out' i j (Fin 1)).
  { intros rnd' Hr sc' a b c out' E'. unfold cloudfield_timeseries in E'. destruct (stack_value rnd' 0 ws sc n m L) as (cf & _ & Ecf & Scf & _). rewrite Ecf in E'. cbn [rbind] in E'.
    rewrite (stack_ext rnd' rnd) in E' by exact Hr. rewrite Em in E'. cbn [rbind] in E'. rewrite Ek in E'. cbn [rbind] in E'. destruct (find_edges mask es 0) as [[e bn]|] eqn:Ee; [|discriminate]. cbn [rbind] in E'.
    destruct (edges_facts mask es n m e bn Sk Hn Hm Ee) as (Se & Sb & _).
    assert (F : exists f px, out' = map (map f) px /\ (forall p, 0 < px_clear p -> f p = Fin 1) /\ exists e', shaped n m e' /\ px = pixels cf mask e').
    { destruct sc'; [|..]; [apply lave_cells in E'|apply basic_cells in E'|discriminate]; destruct E' as (f & -> & Hf); exists f; eexists; (split; [reflexivity|]); (split; [exact Hf|]); eexists; (split; [|reflexivity]); [exact Se|now apply shaped_map]. }
    destruct F as (f & px & -> & Hf & e' & Se' & ->). split; [now apply shaped_map, pixels_shaped|]. intros i j C. destruct (cell_bounds _ _ _ _ _ _ Sk C) as [Hi Hj].
    destruct (shaped_cell n m cf i j Scf Hi Hj) as [v F]. destruct (shaped_cell n m e' i j Se' Hi Hj) as [w W]. apply map_cell. exists (Pixel v 1 w). split; [now apply pixels_cell|]. symmetry. apply Hf. cbn. lra. }
  split; [exact L|]. split; [exact Sc|]. split; [exact Hq|]. destruct (Core rnd ltac:(reflexivity) _ _ _ _ _ E) as [So _]. split; [exact So|]. exists mask. split; [exact Sk|]. split; [exact K01|]. split; [exact Kq|]. intros rnd' Hr sc' a b c out' E'. now apply (Core rnd' Hr sc' a b c out').
Qed.

Lemma concat_map2 {A B C} (f : A -> B -> C) c a b : (forall r, In r a -> length r = c) -> (forall r, In r b -> length r = c) -> length a = length b ->
  concat (map2 (map2 f) a b) = map2 f (concat a) (concat b).
Proof.
  revert b. induction a as [|ra a IH]; intros [|rb b] Ha Hb L; try discriminate; [reflexivity|]. unfold map2 in *. cbn [combine map concat fst snd].
  rewrite IH; [|intros; apply Ha; now right|intros; apply Hb; now right|now injection L].
  assert (Lr : length ra = length rb) by (rewrite (Ha ra), (Hb rb); try (now left); reflexivity). clear -Lr. revert rb Lr. induction ra as [|x ra IH]; intros [|y rb] Lr; try discriminate; [reflexivity|]. cbn. f_equal. apply IH. now injection Lr.
Qed.
Lemma concat_shaped_length {A} r c (m : list (list A)) : shaped r c m -> length (concat m) = (r * c)%nat.
Proof.
  intros [<- H]. induction m as [|row m IH]; [reflexivity|]. cbn [concat length Nat.mul]. rewrite app_length, (H row) by now left. f_equal. apply IH. intros; apply H; now right.
Qed.
Lemma concat_pixels r c f m e : shaped r c f -> shaped r c m -> shaped r c e ->
  concat (pixels f m e) = map (fun q => Pixel (fst (snd q)) (snd (snd q)) (fst q)) (combine (concat e) (combine (concat f) (concat m))).
Proof.
  intros Sf Sm Se. unfold pixels. rewrite (concat_map2 _ c); [|apply Se| |rewrite (proj1 Se); symmetry; apply (map2_shaped (fun v c e => Pixel v c e) r c f m Sf Sm)].
  - rewrite (concat_map2 _ c); [|apply Sf|apply Sm|now rewrite (proj1 Sf), (proj1 Sm)]. unfold map2. generalize (combine (concat f) (concat m)). clear. intro l. generalize (concat e). induction l as [|q l IH]; intros [|w e']; try reflexivity. cbn. now rewrite IH.
  - apply (map2_shaped (fun v c e => Pixel v c e) r c f m Sf Sm).
Qed.
Lemma pixels_values r c f m e : shaped r c f -> shaped r c m -> shaped r c e -> map px_v (concat (pixels f m e)) = concat f.
Proof.
  intros Sf Sm Se. rewrite (concat_pixels r c) by easy. rewrite map_map. cbn [px_v]. assert (L1 := concat_shaped_length _ _ _ Sf). assert (L2 := concat_shaped_length _ _ _ Sm). assert (L3 := concat_shaped_length _ _ _ Se).
  revert L1 L2 L3. generalize (r * c)%nat. generalize (concat f), (concat m), (concat e). clear. induction l as [|x l IH]; intros [|y l0] [|z l1] N H1 H2 H3; cbn in *; try congruence; try lia. f_equal. apply (IH l0 l1 (length l)); lia.
Qed.
Lemma pixels_outside r c f m e : shaped r c f -> shaped r c m -> shaped r c e -> not_clear (pixels f m e) = outside f m.
Proof.
  intros Sf Sm Se. unfold not_clear, outside. rewrite (concat_pixels r c) by easy. assert (L1 := concat_shaped_length _ _ _ Sf). assert (L2 := concat_shaped_length _ _ _ Sm). assert (L3 := concat_shaped_length _ _ _ Se).
  revert L1 L2 L3. generalize (r * c)%nat. generalize (concat f), (concat m), (concat e). clear. induction l as [|x l IH]; intros [|y l0] [|z l1] N H1 H2 H3; cbn [length] in *; try congruence; try lia; [reflexivity|]. cbn [combine map filter px_clear fst snd].
  destruct (Reqb y 0); cbn [map px_v fst snd]; [f_equal|]; apply (IH l0 l1 (length l)); lia.
Qed.
Lemma pixels_mask01 r c f m e : shaped r c f -> shaped r c m -> shaped r c e -> (forall v, In v (concat m) -> v = 0 \/ v = 1) -> mask01 (pixels f m e).
Proof. intros Sf Sm Se H p I. apply cell_inv in I. destruct I as (i & j & C). destruct (pixels_inv r c f m e i j p Sf Sm Se C) as (_ & K & _). apply H. eapply cell_in; eauto. Qed.
Lemma outside_exists r c f m e : shaped r c f -> shaped r c m -> shaped r c e -> outside f m <> [] -> exists p, In p (concat (pixels f m e)) /\ px_clear p = 0.
Proof.
  intros Sf Sm Se N. rewrite <- (pixels_outside r c f m e) in N by easy. unfold not_clear in N. destruct (filter (fun p => Reqb (px_clear p) 0) (concat (pixels f m e))) as [|p l] eqn:E; [easy|]. exists p.
  assert (I : In p (filter (fun p => Reqb (px_clear p) 0) (concat (pixels f m e)))) by (rewrite E; now left). apply filter_In in I. destruct I as [I K]. split; [easy|]. now destruct (Reqb_spec (px_clear p) 0).
Qed.

(*@ C84 Original scaling: outside the clear part, pixels next to a change of the clear mask are brightened into 1 .. ktmax, all others carry the inverted,
    clipped cloud brightness times one common non-negative factor. *)
Lemma field_original : forall rnd weights scales n m frac ktmean ktmax kt1pct smoothing out,
  cloudfield_timeseries rnd weights scales (n, m) frac ktmean ktmax kt1pct Original smoothing = Ok out ->
  exists clouds cover mask, stack_random_field rnd 0 weights scales (n, m) false = Ok clouds /\
    stack_random_field rnd (length scales) weights scales (n, m) false = Ok cover /\ calc_clear_mask cover frac = Ok mask /\
    forall top lo hi, is_quantile (99 / 100) (outside clouds mask) top -> top <> 0 ->
      smallest (map (lave_cloud kt1pct top) (concat clouds)) lo -> largest (map (lave_cloud kt1pct top) (concat clouds)) hi -> lo < hi ->
      exists s, 0 <= s /\ forall i j g v, around mask n m i j g -> cell_at mask i j 0 -> cell_at clouds i j v ->
        (0 < gradient2 g -> cell_at out i j (Fin (1 + (lave_cloud kt1pct top v - lo) / (hi - lo) * (ktmax - 1)))) /\
        (gradient2 g = 0 -> cell_at out i j (Fin (s * lave_cloud kt1pct top v)) \/ cell_at out i j Nan /\ lave_cloud kt1pct top v = 0).
Proof.
  intros rnd ws sc n m frac ktmean ktmax kt1pct es out E. destruct (field_clear_part _ _ _ _ _ _ _ _ _ _ _ _ E) as (L & _).
  unfold cloudfield_timeseries in E. destruct (stack_value rnd 0 ws sc n m L) as (cf & _ & Ecf & Scf & _). destruct (stack_value rnd (length sc) ws sc n m L) as (mf & _ & Em & Smf & _).
  rewrite Ecf in E. cbn [rbind] in E. rewrite Em in E. cbn [rbind] in E. destruct (calc_clear_mask mf frac) as [mask|] eqn:Ek; [|discriminate]. cbn [rbind] in E.
  destruct (mask_facts mf frac mask n m Smf Ek) as (Hn & Hm & Hq & Sk & K01 & Kq). destruct (find_edges mask es 0) as [[e bn]|] eqn:Ee; [|discriminate]. cbn [rbind] in E.
  destruct (edges_facts mask es n m e bn Sk Hn Hm Ee) as (Se & Sb & Eem). exists cf, mf, mask. split; [exact Ecf|]. split; [exact Em|]. split; [exact Ek|]. intros top lo hi Q T Lo Hi LH.
  set (px := pixels cf mask e) in *. assert (Ne : outside cf mask <> []) by (apply Q).
  assert (Mp : map (fun p => lave_cloud kt1pct top (px_v p)) (concat px) = map (lave_cloud kt1pct top) (concat cf)) by (rewrite <- (pixels_values n m cf mask e) by easy; now rewrite map_map).
  rewrite <- Mp in Lo, Hi. rewrite <- (pixels_outside n m cf mask e Scf Sk Se) in Q. pose proof (lave_value px ktmean ktmax kt1pct (99 / 100) top lo hi (pixels_mask01 n m _ _ _ Scf Sk Se K01) (outside_exists n m _ _ _ Scf Sk Se Ne) ltac:(lra) Q T Lo Hi LH) as V.
  cbv zeta in V. rewrite V in E. clear V.
  match type of E with context [Rltb 0 ?n] => set (need := n) in * end. match type of E with context [Reqb ?h 0] => set (have := h) in * end.
  assert (Hv : 0 <= have) by (apply Rsum_nonneg; intros x Hx; apply in_map_iff in Hx; destruct Hx as (p' & <- & _); apply lave_cloud_range).
  set (s := if Rltb 0 need then if Reqb have 0 then 0 else need / have else 1). exists s. split.
  { unfold s. destruct (Rltb_spec 0 need); [|lra]. destruct (Reqb_spec have 0); [lra|]. left. apply Rdiv_lt_0_compat; lra. }
  assert (Eo : out = map (map (fun p => match kind_of p with Clear => Fin 1 | Edge => Fin (1 + (lave_cloud kt1pct top (px_v p) - lo) / (hi - lo) * (ktmax - 1)) | Cloud => if Rltb 0 need then if Reqb have 0 then Nan else Fin (need / have * lave_cloud kt1pct top (px_v p)) else Fin (lave_cloud kt1pct top (px_v p)) end)) px) by congruence.
  clear E. subst out. intros i j g v Ga C0 Cv. destruct (cell_bounds _ _ _ _ _ _ Sk C0) as [Hi' Hj']. pose proof (edge_cell n m mask i j g Sk Hi' Hj' Ga) as Cg. rewrite <- Eem in Cg. pose proof (pixels_cell _ _ _ _ _ _ _ _ Cv C0 Cg) as Cp. fold px in Cp.
  destruct mask_zero as (Z1 & _). split; intro G.
  - apply map_cell. eexists. split; [exact Cp|]. unfold kind_of. cbn [px_clear px_edge px_v]. now rewrite Z1, Rltb_true.
  - assert (Kp : kind_of (Pixel v 0 (gradient2 g)) = Cloud) by (unfold kind_of; cbn [px_clear px_edge]; rewrite Z1, Rltb_false by lra; reflexivity).
    unfold s. destruct (Rltb_spec 0 need) as [P|P]; [destruct (Reqb_spec have 0) as [Z|Z]|]; [right; split|left|left].
    + apply map_cell. eexists. split; [exact Cp|]. now rewrite Kp.
    + apply (Rsum_zero_all (map (fun p => lave_cloud kt1pct top (px_v p)) (of_kind Cloud px))); [|exact Z|].
      * intros x Hx; apply in_map_iff in Hx; destruct Hx as (p' & <- & _); apply lave_cloud_range.
      * apply in_map_iff. exists (Pixel v 0 (gradient2 g)). split; [reflexivity|]. apply in_kind. split; [eapply cell_in; eauto|exact Kp].
    + apply map_cell. eexists. split; [exact Cp|]. now rewrite Kp.
    + apply map_cell. eexists. split; [exact Cp|]. rewrite Kp. cbn [px_v]. f_equal. ring.
Qed.
(*@ C84 Basic scaling: outside the clear part, pixels near a change of the mask (smoothed over the window) are brightened, all others lie on one increasing line
    through kt1pct. *)
Lemma field_basic : forall rnd weights scales n m frac ktmean ktmax kt1pct smoothing out, (0 < smoothing)%nat ->
  cloudfield_timeseries rnd weights scales (n, m) frac ktmean ktmax kt1pct Basic smoothing = Ok out ->
  exists clouds cover mask edges marked, stack_random_field rnd 0 weights scales (n, m) false = Ok clouds /\
    stack_random_field rnd (length scales) weights scales (n, m) false = Ok cover /\ calc_clear_mask cover frac = Ok mask /\
    find_edges mask smoothing 0 = Ok (edges, marked) /\
    forall top bot, is_quantile (999 / 1000) (outside clouds mask) top -> is_quantile (1 / 1000) (outside clouds mask) bot -> bot < top ->
      exists s, (0 < s \/ s = 1 - kt1pct) /\ forall i j w v, window_mean edges n m smoothing i j w -> cell_at mask i j 0 -> cell_at clouds i j v ->
        (1 / 100000 <= w -> cell_at out i j (Fin (basic_share false bot top v * (ktmax - 1) + 1))) /\
        (w < 1 / 100000 -> cell_at out i j (Fin (basic_share false bot top v * s + kt1pct))).
Proof.
  intros rnd ws sc n m frac ktmean ktmax kt1pct es out Hes E. destruct (field_clear_part _ _ _ _ _ _ _ _ _ _ _ _ E) as (L & _).
  unfold cloudfield_timeseries in E. destruct (stack_value rnd 0 ws sc n m L) as (cf & _ & Ecf & Scf & _). destruct (stack_value rnd (length sc) ws sc n m L) as (mf & _ & Em & Smf & _).
  rewrite Ecf in E. cbn [rbind] in E. rewrite Em in E. cbn [rbind] in E. destruct (calc_clear_mask mf frac) as [mask|] eqn:Ek; [|discriminate]. cbn [rbind] in E.
  destruct (mask_facts mf frac mask n m Smf Ek) as (Hn & Hm & Hq & Sk & K01 & Kq). destruct (find_edges mask es 0) as [[e bn]|] eqn:Ee; [|discriminate]. cbn [rbind] in E.
  destruct (edges_facts mask es n m e bn Sk Hn Hm Ee) as (Se & Sb & Eem). exists cf, mf, mask, e, bn. split; [exact Ecf|]. split; [exact Em|]. split; [exact Ek|]. split; [exact Ee|]. intros top bot Qt Qb LH.
  set (mk := map (map as_number) bn) in *. assert (Sm : shaped n m mk) by now apply shaped_map. set (px := pixels cf mask mk) in *. assert (Ne : outside cf mask <> []) by (apply Qt).
  rewrite <- (pixels_outside n m cf mask mk Scf Sk Sm) in Qt, Qb. replace (1 / 1000) with (1 - 999 / 1000) in Qb by lra.
  pose proof (basic_value px ktmean ktmax kt1pct (999 / 1000) false None top bot (pixels_mask01 n m _ _ _ Scf Sk Sm K01) (outside_exists n m _ _ _ Scf Sk Sm Ne) ltac:(lra) Qt Qb ltac:(lra)) as V.
  cbv zeta in V. rewrite V in E. clear V.
  match type of E with context [Rltb 0 ?n && Rltb _ ?h && Rltb ?b _] => set (need := n) in *; set (have := h) in *; set (base := b) in * end.
  set (s := if Rltb 0 need && Rltb need have && Rltb base have then need / have else 1 - kt1pct). exists s. split.
  { unfold s. destruct (Rltb_spec 0 need); [|now right]. destruct (Rltb_spec need have); [|now right]. destruct (Rltb_spec base have); [|now right]. cbn [andb]. left. apply Rdiv_lt_0_compat; lra. }
  assert (Eo : out = map (map Fin) (map (map (fun p => match kind_of p with Clear => 1 | Edge => basic_share false bot top (px_v p) * (ktmax - 1) + 1 | Cloud => if Rltb 0 need && Rltb need have && Rltb base have then basic_share false bot top (px_v p) * need / have + kt1pct else basic_share false bot top (px_v p) * (1 - kt1pct) + kt1pct end)) px)) by congruence.
  clear E. subst out. intros i j w v Wm C0 Cv. destruct (cell_bounds _ _ _ _ _ _ Sk C0) as [Hi' Hj'].
  destruct (edges_marked n m mask es Sk Hn Hm Hes) as (e' & bn' & Ee' & _ & Mk). assert (e' = e /\ bn' = bn) as [-> ->] by (split; congruence). destruct (Mk i j Hi' Hj') as (w' & Wm' & Cb).
  assert (w' = w). { destruct Wm as (W & HW & ->), Wm' as (W' & HW' & ->). f_equal. apply Rsumn_ext. intros b Hb. apply Rsumn_ext. intros a Ha. destruct (HW a b Ha Hb) as (i1 & j1 & A1 & A2 & A3). destruct (HW' a b Ha Hb) as (i2 & j2 & B1 & B2 & B3).
    pose proof (mirrors_unique _ _ _ _ A1 B1). pose proof (mirrors_unique _ _ _ _ A2 B2). subst. eapply cell_fun; eauto. }
  subst w'. assert (Cn : cell_at mk i j (as_number (Rleb (1 / 100000) w))) by (apply map_cell; eexists; split; [exact Cb|reflexivity]). pose proof (pixels_cell _ _ _ _ _ _ _ _ Cv C0 Cn) as Cp. fold px in Cp.
  destruct mask_zero as (Z1 & _ & Z3 & _ & _ & Z6). split; intro G.
  - apply map_cell. eexists. split; [apply map_cell; eexists; split; [exact Cp|reflexivity]|]. rewrite Rleb_true by lra. unfold kind_of. cbn [px_clear px_edge px_v as_number]. now rewrite Z1, Z6.
  - apply map_cell. eexists. split; [apply map_cell; eexists; split; [exact Cp|reflexivity]|]. rewrite Rleb_false by lra. unfold kind_of. cbn [px_clear px_edge px_v as_number]. rewrite Z1, Z3. f_equal. unfold s.
    destruct (Rltb_spec 0 need); [|reflexivity]. destruct (Rltb_spec need have); [|reflexivity]. destruct (Rltb_spec base have); [|reflexivity]. cbn [andb]. field. lra.
Qed.
(*@ C84 A request without clear sky always succeeds. *)
Lemma field_overcast : forall rnd weights scales n m ktmean ktmax kt1pct scaling smoothing, length weights = length scales -> (0 < n)%nat -> (0 < m)%nat ->
  scaling = Original \/ scaling = Basic ->
  exists out, cloudfield_timeseries rnd weights scales (n, m) 0 ktmean ktmax kt1pct scaling smoothing = Ok out.
Proof.
  intros rnd ws sc n m ktmean ktmax kt1pct scaling es L Hn Hm Hs. unfold cloudfield_timeseries. destruct (stack_value rnd 0 ws sc n m L) as (cf & _ & Ecf & Scf & _). destruct (stack_value rnd (length sc) ws sc n m L) as (mf & _ & Em & Smf & _).
  rewrite Ecf. cbn [rbind]. rewrite Em. cbn [rbind]. assert (Ne : concat mf <> []). { destruct (shaped_cell n m mf 0 0 Smf Hn Hm) as [v C]. apply cell_in in C. intro X. now rewrite X in C. }
  destruct (mask_edge mf 0) as (_ & M0 & _). rewrite (M0 Ne). cbn [rbind]. set (mask := map (map (fun _ => 0)) mf). assert (Sk : shaped n m mask) by now apply shaped_map.
  destruct (edges_value n m mask es 0 Sk Hn Hm) as (e & b & Ee & Se & Sb & _). rewrite Ee. cbn [rbind].
  assert (U : forall e', shaped n m e' -> unclear_values (pixels cf mask e') <> []).
  { intros e' Se'. change (unclear_values (pixels cf mask e')) with (not_clear (pixels cf mask e')). apply not_clear_ne. destruct (shaped_cell n m (pixels cf mask e') 0 0 (pixels_shaped _ _ _ _ _ Scf Sk Se') Hn Hm) as [p C]. exists p. split; [eapply cell_in; eauto|].
    destruct (pixels_inv n m _ _ _ _ _ _ Scf Sk Se' C) as (_ & K & _). apply map_cell in K. now destruct K as (? & _ & ->). }
  destruct Hs as [-> | ->].
  - unfold scale_field_lave. rewrite ok_quantile by lra. specialize (U e Se). destruct (unclear_values _); [easy|]. eexists. reflexivity.
  - unfold scale_field_basic. rewrite ok_quantile by lra. specialize (U (map (map as_number) b) ltac:(now apply shaped_map)). destruct (unclear_values _); [easy|]. eexists. reflexivity.
Qed.
(*@ C84 A fully clear sky cannot be requested: fraction 1 always fails. *)
Lemma field_all_clear_refuted : forall rnd weights scales n m ktmean ktmax kt1pct scaling smoothing, length weights = length scales -> (0 < n)%nat -> (0 < m)%nat ->
  cloudfield_timeseries rnd weights scales (n, m) 1 ktmean ktmax kt1pct scaling smoothing = Err (match scaling with OtherScaling => ValueError | _ => IndexError end).
Proof.
  intros rnd ws sc n m ktmean ktmax kt1pct scaling es L Hn Hm. unfold cloudfield_timeseries. destruct (stack_value rnd 0 ws sc n m L) as (cf & _ & Ecf & Scf & _). destruct (stack_value rnd (length sc) ws sc n m L) as (mf & _ & Em & Smf & _).
  rewrite Ecf. cbn [rbind]. rewrite Em. cbn [rbind]. assert (Ne : concat mf <> []). { destruct (shaped_cell n m mf 0 0 Smf Hn Hm) as [v C]. apply cell_in in C. intro X. now rewrite X in C. }
  destruct (mask_edge mf 1) as (_ & _ & M1 & _). rewrite (M1 Ne). cbn [rbind]. set (mask := map (map (fun _ => 1)) mf). assert (Sk : shaped n m mask) by now apply shaped_map.
  destruct (edges_value n m mask es 0 Sk Hn Hm) as (e & b & Ee & Se & Sb & _). rewrite Ee. cbn [rbind].
  assert (U : forall e', shaped n m e' -> forall p, In p (concat (pixels cf mask e')) -> px_clear p <> 0).
  { intros e' Se' p I. apply cell_inv in I. destruct I as (i & j & C). destruct (pixels_inv n m _ _ _ _ _ _ Scf Sk Se' C) as (_ & K & _). apply map_cell in K. destruct K as (? & _ & ->). intro; lra. }
  destruct scaling; [apply lave_all_clear; [lra|]; apply U, Se|apply basic_all_clear; [lra|]; apply U|reflexivity]. now apply shaped_map.
Qed.
(*@ C84 Unequal numbers of weights and scales, and fractions outside [0, 1], are refused. *)
Lemma field_errors : forall rnd weights scales size frac ktmean ktmax kt1pct scaling smoothing,
  (length weights <> length scales -> cloudfield_timeseries rnd weights scales size frac ktmean ktmax kt1pct scaling smoothing = Err ValueError) /\
  (length weights = length scales -> frac < 0 \/ 1 < frac -> cloudfield_timeseries rnd weights scales size frac ktmean ktmax kt1pct scaling smoothing = Err ValueError).
Proof.
  intros rnd ws sc [n m] frac a b c scaling es. split.
  - intro N. unfold cloudfield_timeseries. now rewrite stack_unequal.
  - intros L H. unfold cloudfield_timeseries. destruct (stack_value rnd 0 ws sc n m L) as (cf & _ & Ecf & Scf & _). destruct (stack_value rnd (length sc) ws sc n m L) as (mf & _ & Em & Smf & _). rewrite Ecf. cbn [rbind]. rewrite Em. cbn [rbind].
    destruct (mask_edge mf frac) as (M & _). now rewrite (M H).
Qed.
