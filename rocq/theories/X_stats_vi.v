(** Variability index and daily aggregate ramp rate (stats.py). *)
From Coq Require Import Permutation Sorted.
From Verif Require Import Prelude PreludeFacts RealBase Fl RealStat M_spatial M_stats Spec_stats X_stats_err P_stats P_resample X_stats_vs.
Local Open Scope R_scope.

Lemma path_length_path dt l : path_length dt l = path dt (ramps 1 l).
Proof. unfold path_length, path. rewrite (sdiff_pos 1). f_equal. apply map_ext. intro. f_equal. ring. Qed.

Lemma term_ge dt r : 0 <= dt -> dt <= sqrt (dt ^ 2 + r ^ 2).
Proof. intro H. apply Rle_trans with (sqrt (dt ^ 2)); [rewrite sqrt_pow2 by easy; lra|]. apply sqrt_le_1_alt. pose proof (pow2_ge_0 r). lra. Qed.
Lemma path_ge dt rs : 0 <= dt -> INR (length rs) * dt <= path dt rs.
Proof.
  intro H. unfold path. rewrite <- (Rsum_map_const dt rs). apply Rsum_map_le. intros. now apply term_ge.
Qed.
Lemma path_nonneg dt rs : 0 <= path dt rs.
Proof. apply Rsum_nonneg. intros x Hx. apply in_map_iff in Hx. destruct Hx as (r & <- & _). apply sqrt_pos. Qed.
Lemma path_pos dt rs : 0 < dt -> rs <> [] -> 0 < path dt rs.
Proof. intros H N. pose proof (path_ge dt rs ltac:(lra)). pose proof (INR_length_pos rs N). nra. Qed.

(*@ C37 Non-pandas input raises TypeError; fewer than two ghi samples give NaN. *)
Lemma vi_edge : forall g cs tau norm,
  variability_index NotPandas cs tau norm = Err TypeError /\
  ((length g < 2)%nat -> (tau <= 1)%Z -> variability_index (Pandas g) cs tau norm = Ok Nan).
Proof.
  intros g cs tau norm. split; [reflexivity|]. intros L H. unfold variability_index. rewrite (proj2 (Z.ltb_ge _ _)) by easy.
  f_equal. unfold vi_core. destruct (index_step (stamps g)) as [dt|] eqn:E; [|easy]. apply median_step_iff in E. destruct E. lia.
Qed.

(*@ C37 The index is the ratio of path lengths with the ghi step (in minutes), times the square root of the step if normalised. *)
Lemma vi_value : forall g cs tau norm st, (tau <= 1)%Z -> median_step g st -> 0 <= st ->
  let dt := st / 60 in
  let num := path dt (ramps 1 (values g)) in let den := path dt (ramps 1 (values cs)) in
  (den <> 0 -> variability_index (Pandas g) cs tau norm = Ok (Fin (if norm then num / den * sqrt dt else num / den))) /\
  (den = 0 -> forall r, variability_index (Pandas g) cs tau norm <> Ok (Fin r)).
Proof.
  intros g cs tau norm st H M Hs dt num den. unfold variability_index. rewrite (proj2 (Z.ltb_ge _ _)) by easy.
  unfold vi_core. apply median_step_iff in M. rewrite M. rewrite !path_length_path. fold dt num den. split.
  - intro N. rewrite fdiv_fin by easy. rewrite fsqrt_fin by (unfold dt; lra). destruct norm; reflexivity.
  - intros Z r. rewrite Z, fdiv_zero. rewrite fsqrt_fin by (unfold dt; lra). intro E.
    assert (Q : forall r x, fmul (sgn_inf num) (Fin x) <> Fin r).
    { intros r' x. unfold sgn_inf. destruct (Rltb 0 num); [|destruct (Rltb num 0)]; cbn; try easy; apply sgn_inf_not_fin. }
    destruct norm.
    + assert (E' : fmul (sgn_inf num) (Fin (sqrt dt)) = Fin r) by congruence. now apply Q in E'.
    + assert (E' : sgn_inf num = Fin r) by congruence. now apply sgn_inf_not_fin in E'.
Qed.

(*@ C37 Against itself the index is 1, or sqrt(dt) with norm; in general it is positive. *)
Lemma vi_self : forall g cs tau norm st, (tau <= 1)%Z -> median_step g st -> 0 < st -> ramps 1 (values g) <> [] ->
  variability_index (Pandas g) g tau norm = Ok (Fin (if norm then sqrt (st / 60) else 1)) /\
  (ramps 1 (values cs) <> [] -> exists v, variability_index (Pandas g) cs tau norm = Ok (Fin v) /\ 0 < v).
Proof.
  intros g cs tau norm st H M Hs N. assert (Hd : 0 < st / 60) by lra.
  pose proof (path_pos (st / 60) _ Hd N) as P. split.
  - destruct (vi_value g g tau norm st H M ltac:(lra)) as [V _]. rewrite V by lra. do 2 f_equal. destruct norm; field; lra.
  - intro N'. pose proof (path_pos (st / 60) _ Hd N') as P'. destruct (vi_value g cs tau norm st H M ltac:(lra)) as [V _].
    eexists. split; [apply V; lra|]. assert (Q : 0 < path (st / 60) (ramps 1 (values g)) / path (st / 60) (ramps 1 (values cs))) by now apply Rdiv_lt_0_compat.
    destruct norm; [|easy]. apply Rmult_lt_0_compat; [easy|]. now apply sqrt_lt_R0.
Qed.

Lemma path_constant dt rs : 0 <= dt -> (forall r, In r rs -> r = 0) -> path dt rs = INR (length rs) * dt.
Proof.
  intros H Z. unfold path. rewrite <- (Rsum_map_const dt rs). apply Rsum_map_ext. intros r Hr. rewrite (Z r Hr).
  replace (dt ^ 2 + 0 ^ 2) with (dt ^ 2) by ring. now apply sqrt_pow2.
Qed.

(*@ C37 At least 1 when the clear-sky series is constant over as many steps. *)
Lemma vi_constant_sky : forall g cs tau st, (tau <= 1)%Z -> median_step g st -> 0 < st ->
  ramps 1 (values g) <> [] -> length (ramps 1 (values cs)) = length (ramps 1 (values g)) ->
  (forall r, In r (ramps 1 (values cs)) -> r = 0) ->
  exists v, variability_index (Pandas g) cs tau false = Ok (Fin v) /\ 1 <= v.
Proof.
  intros g cs tau st H M Hs N L Z. assert (Hd : 0 < st / 60) by lra.
  destruct (vi_value g cs tau false st H M ltac:(lra)) as [V _]. eexists.
  pose proof (path_constant (st / 60) _ ltac:(lra) Z) as E. pose proof (path_ge (st / 60) (ramps 1 (values g)) ltac:(lra)) as G.
  pose proof (INR_length_pos _ N) as P. rewrite L in E. split.
  - apply V. rewrite E. nra.
  - rewrite E. apply Rmult_le_reg_r with (INR (length (ramps 1 (values g))) * (st / 60)); [nra|]. field_simplify; nra.
Qed.

(*@ C37 Larger ghi ramps give a larger index, larger clear-sky ramps a smaller one. *)
Lemma vi_monotone : forall g g' cs cs' tau norm st v v', (tau <= 1)%Z -> median_step g st -> median_step g' st -> 0 < st ->
  Forall2 (fun r r' => Rabs r <= Rabs r') (ramps 1 (values g)) (ramps 1 (values g')) ->
  Forall2 (fun r r' => Rabs r' <= Rabs r) (ramps 1 (values cs)) (ramps 1 (values cs')) ->
  variability_index (Pandas g) cs tau norm = Ok (Fin v) -> variability_index (Pandas g') cs' tau norm = Ok (Fin v') ->
  v <= v'.
Proof.
  intros g g' cs cs' tau norm st v v' H M M' Hs F Fc E E'. assert (Hd : 0 < st / 60) by lra.
  destruct (vi_value g cs tau norm st H M ltac:(lra)) as [V0 V1]. destruct (vi_value g' cs' tau norm st H M' ltac:(lra)) as [W0 W1].
  assert (Mono : forall a b, Forall2 (fun r r' => Rabs r <= Rabs r') a b -> path (st / 60) a <= path (st / 60) b).
  { unfold path. induction 1 as [|r r' a b Q F' IH]; cbn [map]; [lra|]. rewrite !Rsum_cons.
    assert (sqrt ((st / 60) ^ 2 + r ^ 2) <= sqrt ((st / 60) ^ 2 + r' ^ 2)); [|lra].
    apply sqrt_le_1_alt. rewrite <- (pow2_abs r), <- (pow2_abs r'). pose proof (Rabs_pos r). nra. }
  apply Mono in F. assert (Fc' : Forall2 (fun r r' => Rabs r <= Rabs r') (ramps 1 (values cs')) (ramps 1 (values cs))).
  { clear -Fc. induction Fc; constructor; auto. }
  apply Mono in Fc'.
  set (A := path (st / 60) (ramps 1 (values g))) in *. set (B := path (st / 60) (ramps 1 (values cs))) in *.
  set (A' := path (st / 60) (ramps 1 (values g'))) in *. set (B' := path (st / 60) (ramps 1 (values cs'))) in *.
  pose proof (path_nonneg (st / 60) (ramps 1 (values g))) as PA. fold A in PA.
  pose proof (path_nonneg (st / 60) (ramps 1 (values cs))) as PB. fold B in PB.
  pose proof (path_nonneg (st / 60) (ramps 1 (values cs'))) as PB'. fold B' in PB'.
  destruct (Req_dec B 0) as [Z|NB]; [exfalso; now apply (V1 Z v)|]. destruct (Req_dec B' 0) as [Z|NB']; [exfalso; now apply (W1 Z v')|].
  rewrite (V0 NB) in E. rewrite (W0 NB') in E'.
  assert (Q : A / B <= A' / B').
  { apply Rle_trans with (A / B').
    - unfold Rdiv. apply Rmult_le_compat_l; [easy|]. apply Rinv_le_contravar; lra.
    - unfold Rdiv. apply Rmult_le_compat_r; [|easy]. left. apply Rinv_0_lt_compat. lra. }
  pose proof (sqrt_pos (st / 60)). destruct norm; inversion E; inversion E'; nra.
Qed.

Lemma ramps_shift tau c l : ramps tau (map (option_map (fun x => x + c)) l) = ramps tau l.
Proof.
  transitivity (ramps tau (map (option_map (fun x => 1 * x + c)) l)).
  - f_equal. apply map_ext. intros [x|]; cbn; [|easy]. f_equal. ring.
  - rewrite ramps_affine. rewrite (map_ext (Rmult 1) (fun x => x)) by (intro; ring). apply map_id.
Qed.
Lemma smap_ext f g s : (forall x, f x = g x) -> smap f s = smap g s.
Proof. intro Q. unfold smap. apply map_ext. intros [t [v|]]; cbn; [|easy]. now rewrite Q. Qed.

(*@ C37 Constants added to either input change nothing, for every averaging period. *)
Lemma vi_shift : forall g cs a b tau norm,
  variability_index (Pandas (smap (fun x => x + a) g)) (smap (fun x => x + b) cs) tau norm = variability_index (Pandas g) cs tau norm.
Proof.
  intros g cs a b tau norm.
  assert (C : forall x y, vi_core (smap (fun x => x + a) x) (smap (fun x => x + b) y) norm = vi_core x y norm).
  { intros x y. unfold vi_core. rewrite smap_stamps. destruct (index_step (stamps x)); [|easy].
    now rewrite !path_length_path, !smap_values, !ramps_shift. }
  assert (B : forall c w s, resample_mean w (smap (fun x => x + c) s) = rmap (smap (fun x => x + c)) (resample_mean w s)).
  { intros c w s. rewrite (smap_ext _ (fun x => 1 * x + c)) by (intro; ring). rewrite resample_affine.
    destruct (resample_mean w s); cbn [rmap]; [|easy]. f_equal. apply smap_ext. intro. ring. }
  unfold variability_index. destruct (1 <? tau)%Z; [|now rewrite C]. rewrite smap_stamps. unfold block_average.
  destruct (index_step (stamps g)) as [dt|]; [|easy]. rewrite !B. destruct (resample_mean _ g); [|easy]. cbn [rmap rbind].
  destruct (resample_mean _ cs); [|easy]. cbn [rmap rbind]. now rewrite C.
Qed.

(*@ C37 Block averaging: both series are averaged over bins of int(tau * median ghi step) seconds. *)
Lemma vi_block_average : forall g cs tau norm, (1 < tau)%Z ->
  ((length g < 2)%nat -> variability_index (Pandas g) cs tau norm = Err ValueError) /\
  (forall dt w, median_step g dt -> (0 < w)%Z -> IZR w <= IZR tau * dt < IZR w + 1 -> cs <> [] ->
     exists rg rc, binned w g rg /\ binned w cs rc /\
       variability_index (Pandas g) cs tau norm = variability_index (Pandas rg) rc 1 norm) /\
  (forall dt, median_step g dt -> 0 <= IZR tau * dt < 1 -> variability_index (Pandas g) cs tau norm = Err ZeroDivisionError).
Proof.
  intros g cs tau norm Ht. unfold variability_index. rewrite (proj2 (Z.ltb_lt _ _)) by easy.
  split; [|split].
  - intro L. destruct (index_step (stamps g)) as [dt|] eqn:E; [|reflexivity]. apply median_step_iff in E. destruct E as [E _]. lia.
  - intros dt w M Hw B Nc. pose proof (proj1 M) as L2. apply median_step_iff in M. rewrite M. unfold block_average.
    rewrite (X_spatial_zone.py_int_eq _ w) by (easy || lia).
    destruct (resample_binned w g Hw) as (rg & -> & Bg); [now intros ->|].
    destruct (resample_binned w cs Hw Nc) as (rc & -> & Bc). exists rg, rc. split; [easy|]. split; [easy|]. reflexivity.
  - intros dt M B. apply median_step_iff in M. rewrite M. unfold block_average.
    rewrite (X_spatial_zone.py_int_eq _ 0) by (try lia; lra). reflexivity.
Qed.

(*@ex C37 *)
Lemma vi_example : let g := [(0%Z, Some 0); ((60 * ns)%Z, Some 3); ((120 * ns)%Z, Some 1)] in
  median_step g 60 /\ ramps 1 (values g) <> [].
Proof.
  cbv zeta. split; [|easy]. apply median_step_iff. apply (regular_step 0 60); [reflexivity|cbn; lia].
Qed.

(** ** DARR *)
Lemma darr_no_avg s tau mavg pct : (mavg = true -> tau <= 1)%Z ->
  darr (Pandas s) tau mavg pct = Ok (darr_plain tau pct (values s)).
Proof.
  intro H. unfold darr. destruct mavg; cbn [andb]; [|reflexivity].
  rewrite (proj2 (Z.ltb_ge _ _)) by (now apply H). reflexivity.
Qed.
Lemma darr_core_ramps tau l : darr_core tau l = Rsum (map Rabs (ramps (Z.abs_nat tau) l)).
Proof. unfold darr_core. now rewrite sdiff_abs. Qed.

(*@ C38 The value: the sum of ramp sizes; never negative; TypeError for non-pandas input. *)
Lemma darr_value : forall s tau mavg pct,
  darr NotPandas tau mavg pct = Err TypeError /\
  ((mavg = true -> tau <= 1)%Z ->
     darr (Pandas s) tau mavg false = Ok (Rsum (map Rabs (ramps (Z.abs_nat tau) (values s))))) /\
  (forall v, darr (Pandas s) tau mavg pct = Ok v -> 0 <= v).
Proof.
  intros s tau mavg pct. split; [reflexivity|]. split.
  - intro H. rewrite darr_no_avg by easy. unfold darr_plain. now rewrite darr_core_ramps.
  - assert (P : forall t l, 0 <= darr_plain t pct l).
    { intros t l. unfold darr_plain, darr_core. destruct pct; apply Rsum_nonneg; intros x Hx; apply in_map_iff in Hx; destruct Hx as (y & <- & _); apply Rabs_pos. }
    intro v. unfold darr. destruct (mavg && (1 <? tau)%Z).
    + destruct (block_average _ _ _); [|discriminate]. cbn [rbind]. intro E. injection E as <-. apply P.
    + intro E. injection E as <-. apply P.
Qed.

Lemma darr_core_affine tau k c l : darr_core tau (map (option_map (fun x => k * x + c)) l) = Rabs k * darr_core tau l.
Proof.
  rewrite !darr_core_ramps, ramps_affine, map_map. rewrite <- Rsum_map_scal. apply Rsum_map_ext. intros. apply Rabs_mult.
Qed.

(*@ C38 Affine changes: constants drop out, a factor k scales by |k|; for every option. *)
Lemma darr_affine : forall s k c tau mavg pct,
  darr (Pandas (smap (fun x => k * x + c) s)) tau mavg pct = rmap (Rmult (Rabs k)) (darr (Pandas s) tau mavg pct).
Proof.
  intros s k c tau mavg pct.
  assert (P : forall t l, darr_plain t pct (map (option_map (fun x => k * x + c)) l) = Rabs k * darr_plain t pct l).
  { intros t l. unfold darr_plain. destruct pct; [|apply darr_core_affine]. rewrite map_map.
    assert (E1 : map (fun x => option_map (fun x => x * 100 / 1000) (option_map (fun x => k * x + c) x)) l =
                 map (option_map (fun x => (k / 10) * x + c / 10)) l).
    { apply map_ext. intros [x|]; cbn; [|easy]. f_equal. field. }
    assert (E2 : map (option_map (fun x => x * 100 / 1000)) l = map (option_map (fun x => (1 / 10) * x + 0)) l).
    { apply map_ext. intros [x|]; cbn; [|easy]. f_equal. field. }
    rewrite E1, E2, !darr_core_affine. unfold Rdiv. rewrite !Rabs_mult, Rabs_R1. ring. }
  unfold darr. destruct (mavg && (1 <? tau)%Z).
  - rewrite smap_stamps. unfold block_average. destruct (index_step (stamps s)) as [dt|]; [|reflexivity].
    rewrite resample_affine. destruct (resample_mean _ s) as [rs|]; [|reflexivity]. cbn [rmap rbind]. f_equal.
    now rewrite smap_values, P.
  - cbn [rmap]. now rewrite smap_values, P.
Qed.

(*@ C38 pct=True is a tenth of the value. *)
Lemma darr_percent : forall s tau mavg,
  darr (Pandas s) tau mavg true = rmap (fun v => v / 10) (darr (Pandas s) tau mavg false).
Proof.
  intros s tau mavg.
  assert (P : forall t l, darr_plain t true l = darr_plain t false l / 10).
  { intros t l. unfold darr_plain. assert (E2 : map (option_map (fun x => x * 100 / 1000)) l = map (option_map (fun x => (1 / 10) * x + 0)) l).
    { apply map_ext. intros [x|]; cbn; [|easy]. f_equal. field. }
    rewrite E2, darr_core_affine, Rabs_right by lra. field. }
  unfold darr. destruct (mavg && (1 <? tau)%Z); [destruct (block_average _ _ _); [|easy]|]; cbn [rbind rmap]; now rewrite P.
Qed.

Lemma ramps1_cons x y l : ramps 1 (x :: y :: l) = ramps 1 [x; y] ++ ramps 1 (y :: l).
Proof. destruct x, y; reflexivity. Qed.
Lemma ramps1_app a m b : ramps 1 (a ++ m :: b) = ramps 1 (a ++ [m]) ++ ramps 1 (m :: b).
Proof.
  induction a as [|x a IH]; [reflexivity|]. destruct a as [|y a].
  - cbn [app]. apply ramps1_cons.
  - cbn [app] in *. rewrite ramps1_cons, IH, (ramps1_cons x y (a ++ [m])). now rewrite app_assoc.
Qed.

(*@ C38 Additive when two stretches share a sample. *)
Lemma darr_additive : forall s s1 s2 a m b mavg, values s = a ++ m :: b -> values s1 = a ++ [m] -> values s2 = m :: b ->
  exists v1 v2, darr (Pandas s1) 1 mavg false = Ok v1 /\ darr (Pandas s2) 1 mavg false = Ok v2 /\
    darr (Pandas s) 1 mavg false = Ok (v1 + v2).
Proof.
  intros s s1 s2 a m b mavg E E1 E2. rewrite !darr_no_avg by (intro; lia). unfold darr_plain. rewrite !darr_core_ramps.
  change (Z.abs_nat 1) with 1%nat. do 2 eexists. split; [reflexivity|]. split; [reflexivity|].
  rewrite E, E1, E2, ramps1_app, map_app, Rsum_app. reflexivity.
Qed.

(** Total variation of a list of reals. *)
Definition tv (l : list R) : R := Rsum (map Rabs (ramps 1 (map Some l))).
Lemma tv_cons x y l : tv (x :: y :: l) = Rabs (y - x) + tv (y :: l).
Proof. unfold tv. cbn [map]. rewrite ramps1_cons, map_app, Rsum_app. cbn [ramps combine skipn flat_map app map]. rewrite Rsum_cons, Rsum_nil. ring. Qed.
Lemma tv_one x : tv [x] = 0.
Proof. reflexivity. Qed.
Lemma tv_nonneg l : 0 <= tv l.
Proof. apply Rsum_nonneg. intros x Hx. apply in_map_iff in Hx. destruct Hx as (y & <- & _). apply Rabs_pos. Qed.

Lemma last_cons2 {A} (x y : A) l d : last (x :: y :: l) d = last (y :: l) d.
Proof. reflexivity. Qed.

Lemma tv_ends x l : Rabs (last (x :: l) 0 - x) <= tv (x :: l).
Proof.
  revert x. induction l as [|y l IH]; intro x; [cbn [last]; rewrite Rminus_diag_eq, Rabs_R0 by easy; apply tv_nonneg|].
  rewrite tv_cons, last_cons2. specialize (IH y). pose proof (Rabs_triang (last (y :: l) 0 - y) (y - x)).
  replace (last (y :: l) 0 - y + (y - x)) with (last (y :: l) 0 - x) in H by ring. lra.
Qed.

Lemma rising_cons x y l : rising (x :: y :: l) <-> x <= y /\ rising (y :: l).
Proof.
  unfold rising. split.
  - intro H. split; [now apply (H 0%nat)|]. intros i a b A B. now apply (H (S i)).
  - intros [H1 H2] [|i] a b A B; [cbn in A, B; congruence|now apply (H2 i)].
Qed.
Lemma falling_cons x y l : falling (x :: y :: l) <-> y <= x /\ falling (y :: l).
Proof.
  unfold falling. split.
  - intro H. split; [now apply (H 0%nat)|]. intros i a b A B. now apply (H (S i)).
  - intros [H1 H2] [|i] a b A B; [cbn in A, B; congruence|now apply (H2 i)].
Qed.
Lemma rising_one x : rising [x]. Proof. intros [|i] a b _ B; cbn in B; [|destruct i]; discriminate. Qed.
Lemma falling_one x : falling [x]. Proof. intros [|i] a b _ B; cbn in B; [|destruct i]; discriminate. Qed.

Lemma rising_tv x l : rising (x :: l) <-> tv (x :: l) = last (x :: l) 0 - x.
Proof.
  revert x. induction l as [|y l IH]; intro x.
  - cbn [last]. rewrite tv_one. split; [intros; ring|intro; apply rising_one].
  - rewrite rising_cons, tv_cons, last_cons2, IH. pose proof (tv_ends y l) as T. pose proof (Rle_abs (last (y :: l) 0 - y)).
    split.
    + intros [H1 H2]. rewrite Rabs_right by lra. lra.
    + intro E. pose proof (Rle_abs (y - x)). assert (tv (y :: l) = last (y :: l) 0 - y) by lra.
      split; [|easy]. assert (E2 : Rabs (y - x) = y - x) by lra. pose proof (Rabs_pos (y - x)). lra.
Qed.
Lemma falling_tv x l : falling (x :: l) <-> tv (x :: l) = x - last (x :: l) 0.
Proof.
  revert x. induction l as [|y l IH]; intro x.
  - cbn [last]. rewrite tv_one. split; [intros; ring|intro; apply falling_one].
  - rewrite falling_cons, tv_cons, last_cons2, IH. pose proof (tv_ends y l) as T. pose proof (Rle_abs (- (last (y :: l) 0 - y))) as T2. rewrite Rabs_Ropp in T2.
    split.
    + intros [H1 H2]. rewrite Rabs_left1 by lra. lra.
    + intro E. pose proof (Rle_abs (- (y - x))) as T3. rewrite Rabs_Ropp in T3. assert (tv (y :: l) = y - last (y :: l) 0) by lra.
      split; [|easy]. assert (E2 : Rabs (y - x) = - (y - x)) by lra. pose proof (Rabs_pos (y - x)). lra.
Qed.

(*@ C38 Without gaps: at least the net change, with equality exactly for monotone series; zero exactly for constant series. *)
Lemma darr_ends : forall s x l mavg, values s = map Some (x :: l) ->
  exists v, darr (Pandas s) 1 mavg false = Ok v /\ Rabs (last (x :: l) 0 - x) <= v /\
    (v = Rabs (last (x :: l) 0 - x) <-> rising (x :: l) \/ falling (x :: l)) /\
    (v = 0 <-> forall y, In y l -> y = x).
Proof.
  intros s x l mavg E. exists (tv (x :: l)). rewrite darr_no_avg by (intro; lia). unfold darr_plain. rewrite darr_core_ramps, E.
  split; [reflexivity|]. split; [apply tv_ends|]. split.
  - rewrite rising_tv, falling_tv. pose proof (tv_nonneg (x :: l)). unfold Rabs. destruct (Rcase_abs (last (x :: l) 0 - x)); split; intros; try lra.
  - clear s E. revert x. induction l as [|y l IH]; intro x.
    + split; [easy|]. intros _. apply tv_one.
    + rewrite tv_cons. pose proof (tv_nonneg (y :: l)). pose proof (Rabs_pos (y - x)). split.
      * intro Z. assert (Rabs (y - x) = 0) by lra. assert (Y : y = x).
        { destruct (Req_dec (y - x) 0) as [|N]; [lra|]. apply Rabs_no_R0 in N. lra. }
        subst y. assert (Z' : tv (x :: l) = 0) by lra. intros z [<-|Hz]; [easy|]. now apply (proj1 (IH x)).
      * intro A. assert (Y : y = x) by (apply A; now left). subst y. rewrite Rminus_diag_eq, Rabs_R0 by easy.
        rewrite (proj2 (IH x)); [lra|]. intros z Hz. apply A. now right.
Qed.

Lemma ramps_full tau l : ramps tau (map Some l) = map (fun i => nth (i + tau) l 0 - nth i l 0) (seq 0 (length l - tau)).
Proof.
  unfold ramps. destruct (Nat.le_gt_cases tau (length l)) as [H|H].
  - rewrite combine_skipn by now rewrite map_length. rewrite map_length, flat_map_map.
    rewrite (flat_map_ext_in _ (fun i => [nth (i + tau) l 0 - nth i l 0])).
    + induction (seq 0 (length l - tau)); cbn; congruence.
    + intros i Hi. apply in_seq in Hi. assert (N : forall j, (j < length l)%nat -> nth j (map Some l) None = Some (nth j l 0)).
      { intros j Hj. erewrite nth_error_nth; [reflexivity|]. now rewrite nth_error_map, (nth_error_nth' _ 0). }
      now rewrite !N by lia.
  - rewrite skipn_all_nil by (rewrite map_length; lia). rewrite combine_nil. replace (length l - tau)%nat with 0%nat by lia. reflexivity.
Qed.

Lemma sumn_mono n m f : (n <= m)%nat -> (forall i, 0 <= f i) -> Rsumn n f <= Rsumn m f.
Proof. intros H P. induction H as [|m H IH]; [lra|]. rewrite Rsumn_S. specialize (P m). lra. Qed.
Lemma sumn_shift n j f : (forall i, 0 <= f i) -> Rsumn n (fun i => f (i + j)%nat) <= Rsumn (n + j) f.
Proof.
  intro P. induction n as [|n IH]; [rewrite Rsumn_0; unfold Rsumn; apply Rsum_nonneg; intros x Hx; apply in_map_iff in Hx; destruct Hx as (i & <- & _); auto|].
  rewrite Rsumn_S. cbn [Nat.add]. rewrite Rsumn_S. lra.
Qed.

Lemma tau_step l tau : Rsum (map Rabs (ramps tau (map Some l))) <= INR tau * tv l.
Proof.
  destruct (Nat.le_gt_cases tau (length l)) as [H|H].
  2:{ rewrite ramps_full. replace (length l - tau)%nat with 0%nat by lia. cbn [seq map]. rewrite Rsum_nil.
      apply Rmult_le_pos; [apply pos_INR|apply tv_nonneg]. }
  rewrite ramps_full, map_map. unfold tv. rewrite ramps_full, map_map.
  set (f := fun i => Rabs (nth (i + 1) l 0 - nth i l 0)). set (n := length l) in *.
  change (Rsumn (n - tau) (fun i => Rabs (nth (i + tau) l 0 - nth i l 0)) <= INR tau * Rsumn (n - 1) f).
  assert (P : forall i, 0 <= f i) by (intro; apply Rabs_pos).
  assert (T : forall i, Rabs (nth (i + tau) l 0 - nth i l 0) <= Rsumn tau (fun j => f (i + j)%nat)).
  { clear H. intro i. generalize tau as t. induction t as [|t IH].
    - rewrite Rsumn_0, Nat.add_0_r, Rminus_diag_eq, Rabs_R0 by easy. lra.
    - rewrite Rsumn_S. pose proof (Rabs_triang (nth (i + t) l 0 - nth i l 0) (nth (i + S t) l 0 - nth (i + t) l 0)) as Q.
      replace (nth (i + t) l 0 - nth i l 0 + (nth (i + S t) l 0 - nth (i + t) l 0)) with (nth (i + S t) l 0 - nth i l 0) in Q by ring.
      unfold f at 2. replace (i + t + 1)%nat with (i + S t)%nat by lia. lra. }
  apply Rle_trans with (Rsumn (n - tau) (fun i => Rsumn tau (fun j => f (i + j)%nat))).
  { apply Rsum_map_le. intros. apply T. }
  rewrite Rsumn_swap. apply Rle_trans with (Rsumn tau (fun _ => Rsumn (n - 1) f)).
  - apply Rsum_map_le. intros j Hj. apply in_seq in Hj. apply Rle_trans with (Rsumn (n - tau + j) f); [now apply sumn_shift|].
    apply sumn_mono; [lia|easy].
  - unfold Rsumn at 1. rewrite Rsum_map_const, seq_length. lra.
Qed.

(*@ C38 Ramps over k samples add up to at most k times the one-sample value (no averaging, no gaps). *)
Lemma darr_tau : forall s l k mavg, values s = map Some l ->
  exists v1 vk, darr (Pandas s) 1 mavg false = Ok v1 /\ darr (Pandas s) (Z.of_nat k) false false = Ok vk /\ vk <= INR k * v1.
Proof.
  intros s l k mavg E. rewrite !darr_no_avg by (easy || (intro; lia)). unfold darr_plain. rewrite !darr_core_ramps, E, Zabs2Nat.id.
  do 2 eexists. split; [reflexivity|]. split; [reflexivity|]. apply tau_step.
Qed.

(*@ C38 Block averaging: the value of the block averages with one-sample ramps. *)
Lemma darr_block_average : forall s tau pct, (1 < tau)%Z ->
  ((length s < 2)%nat -> darr (Pandas s) tau true pct = Err ValueError) /\
  (forall dt w, median_step s dt -> (0 < w)%Z -> IZR w <= IZR tau * dt < IZR w + 1 ->
     exists rs, binned w s rs /\ darr (Pandas s) tau true pct = darr (Pandas rs) 1 false pct) /\
  (forall dt, median_step s dt -> 0 <= IZR tau * dt < 1 -> darr (Pandas s) tau true pct = Err ZeroDivisionError).
Proof.
  intros s tau pct Ht. unfold darr. rewrite (proj2 (Z.ltb_lt _ _)) by easy. cbn [andb].
  split; [|split].
  - intro L. destruct (index_step (stamps s)) as [dt|] eqn:E; [|reflexivity]. apply median_step_iff in E. destruct E as [E _]. lia.
  - intros dt w M Hw B. pose proof (proj1 M) as L2. apply median_step_iff in M. rewrite M. unfold block_average.
    rewrite (X_spatial_zone.py_int_eq _ w) by (easy || lia).
    destruct (resample_binned w s Hw) as (rg & -> & Bg); [now intros ->|]. exists rg. split; [easy|]. reflexivity.
  - intros dt M B. apply median_step_iff in M. rewrite M. unfold block_average.
    rewrite (X_spatial_zone.py_int_eq _ 0) by (try lia; lra). reflexivity.
Qed.

(*@ C38 Regular sampling: the value of the averages of consecutive blocks of k samples. *)
Lemma darr_blocks : forall s t0 d k pct, regular t0 d s -> (0 < d)%Z -> (2 <= k)%nat -> (2 <= length s)%nat ->
  ((t0 - one_day * (t0 / one_day)) mod (Z.of_nat k * d * ns) = 0)%Z ->
  exists rs, block_averages k (values s) (values rs) /\
    darr (Pandas s) (Z.of_nat k) true pct = darr (Pandas rs) 1 false pct.
Proof.
  intros s t0 d k pct Rg Hd Hk L Al.
  destruct (darr_block_average s (Z.of_nat k) pct ltac:(lia)) as (_ & V & _).
  assert (M : median_step s (IZR d)) by (apply median_step_iff; eapply regular_step; eauto).
  destruct (V _ (Z.of_nat k * d)%Z M) as (rs & B & E); [nia|rewrite mult_IZR; lra|].
  exists rs. split; [|easy]. eapply binned_blocks; eauto; [lia|]. destruct s; [cbn in L; lia|easy].
Qed.

(*@ex C38 *)
Lemma darr_example : let s := [(0%Z, Some 0); (1%Z, Some 3); (2%Z, Some 1)] in
  darr (Pandas s) 1 true false = Ok 5 /\ darr (Pandas s) 2 false false = Ok 1 /\ darr (Pandas s) 1 true true = Ok (1/2).
Proof.
  cbv zeta. rewrite darr_percent. rewrite !darr_no_avg by (easy || (intro; lia)). unfold darr_plain. rewrite !darr_core_ramps.
  change (Z.abs_nat 1) with 1%nat. change (Z.abs_nat 2) with 2%nat.
  cbn [values map snd ramps combine skipn flat_map app rmap]. rewrite !Rsum_cons, !Rsum_nil.
  rewrite (Rabs_right (3 - 0)), (Rabs_left (1 - 3)), (Rabs_right (1 - 0)) by lra.
  repeat split; f_equal; lra.
Qed.
