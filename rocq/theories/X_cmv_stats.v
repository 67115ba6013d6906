(** cmv.py: the regression figures and per-pair figures in method_data (C104). *)
From Coq Require Import String Permutation.
From Verif Require Import Prelude PreludeFacts RealBase Fl RealStat M_spatial M_cmv Spec_spatial Spec_cmv Spec_cmv_stats P_cmv P_plane X_cmv_options X_cmv_pairs X_cmv_qc X_cmv_cascade X_cmv_motion X_cmv_fit X_cmv_rows.
From Coq Require Import Lra Psatz.
Local Open Scope R_scope.

(** ** Sums of centred products *)
Definition sxy (pts : list (R * R)) : R := Rsum (map (fun p => (fst p - Rmean (map fst pts)) * (snd p - Rmean (map snd pts))) pts).
Lemma scatter_map (f : R * R -> R) pts : scatter (map f pts) = Rsum (map (fun p => (f p - Rmean (map f pts)) ^ 2) pts).
Proof. unfold scatter. now rewrite map_map. Qed.
Lemma centred_sum (f : R * R -> R) pts : Rsum (map (fun p => f p - Rmean (map f pts)) pts) = 0.
Proof.
  destruct pts as [|p0 r] eqn:E; [reflexivity|]. rewrite <- E. rewrite Rsum_map_minus, Rsum_map_const. unfold Rmean. rewrite map_length. field. apply not_0_INR. rewrite E. discriminate.
Qed.
Lemma misfit_value pts a b : misfit pts a b =
  scatter (map snd pts) + b ^ 2 * scatter (map fst pts) - 2 * b * sxy pts + INR (length pts) * (a - Rmean (map snd pts) + b * Rmean (map fst pts)) ^ 2.
Proof.
  unfold misfit. set (mx := Rmean (map fst pts)). set (my := Rmean (map snd pts)). set (c := a - my + b * mx).
  rewrite (Rsum_map_ext _ (fun p => ((snd p - my) ^ 2 + b ^ 2 * (fst p - mx) ^ 2) - (2 * b * ((fst p - mx) * (snd p - my))) + ((2 * b * c) * (fst p - mx) - (2 * c) * (snd p - my) + c ^ 2))).
  2:{ intros p _. unfold c. ring. }
  rewrite !Rsum_map_plus, !Rsum_map_minus, !Rsum_map_plus, !Rsum_map_scal, !Rsum_map_const. pose proof (centred_sum fst pts) as A1. pose proof (centred_sum snd pts) as A2. fold mx in A1. fold my in A2.
  rewrite A1, A2, !scatter_map. fold mx my. unfold sxy. fold mx my. ring.
Qed.
Lemma scatter_nonneg l : 0 <= scatter l.
Proof. apply Rsum_nonneg. intros x I. apply in_map_iff in I as (y & <- & _). apply pow2_ge_0. Qed.
Lemma scatter_same l : scatter l = 0 <-> all_same l.
Proof.
  split.
  - intros Z0 x y Ix Iy. assert (Q : forall v, In v l -> v = Rmean l).
    { intros v I. assert ((v - Rmean l) ^ 2 = 0); [|nra]. apply (Rsum_zero_all (map (fun x => (x - Rmean l) ^ 2) l)); [|exact Z0|now apply (in_map (fun x => (x - Rmean l) ^ 2))].
      intros u Iu. apply in_map_iff in Iu as (w & <- & _). apply pow2_ge_0. }
    rewrite (Q x Ix), (Q y Iy). reflexivity.
  - intro A. destruct l as [|x l1] eqn:E; [reflexivity|]. rewrite <- E in *.
    assert (Mx : Rmean l = x). { unfold Rmean. rewrite <- (map_id l) at 1. rewrite (Rsum_map_ext _ (fun _ => x)); [|intros v I; apply A; [exact I|rewrite E; now left]]. rewrite Rsum_map_const. field. apply not_0_INR. rewrite E. discriminate. }
    unfold scatter. rewrite (Rsum_map_ext _ (fun _ => 0)); [rewrite Rsum_map_const; ring|]. intros v I. rewrite Mx, (A v x I) by (rewrite E; now left). ring.
Qed.
Lemma scatter_pos l : ~ all_same l -> 0 < scatter l.
Proof. intro N. pose proof (scatter_nonneg l). destruct (Req_dec (scatter l) 0) as [Z0|]; [|lra]. exfalso. apply N. now apply scatter_same. Qed.
Lemma Rvar_scatter l : Rvar l = scatter l / INR (length l).
Proof. unfold Rvar, scatter, Rmean. now rewrite map_length. Qed.
Lemma same_extremes l : l <> [] -> (Rmax_of l = Rmin_of l <-> all_same l).
Proof.
  intro Ne. split.
  - intros E x y Ix Iy. pose proof (Rmax_of_ge l x Ix). pose proof (Rmax_of_ge l y Iy). pose proof (Rmin_of_le l x Ix). pose proof (Rmin_of_le l y Iy). lra.
  - intro A. apply A; [now apply Rmax_of_in|now apply Rmin_of_in].
Qed.
Lemma all_same_dec l : all_same l \/ ~ all_same l.
Proof. destruct (Req_dec (scatter l) 0) as [Z0|Z0]; [left|right]; rewrite <- scatter_same; assumption. Qed.
(** The best line, its misfit. *)
Lemma best_line_exists pts : ~ all_same (map fst pts) ->
  let b := sxy pts / scatter (map fst pts) in let a := Rmean (map snd pts) - b * Rmean (map fst pts) in
  best_line pts a b /\ misfit pts a b = scatter (map snd pts) - sxy pts ^ 2 / scatter (map fst pts).
Proof.
  intros N b a. pose proof (scatter_pos _ N) as P. assert (M : misfit pts a b = scatter (map snd pts) - sxy pts ^ 2 / scatter (map fst pts)).
  { rewrite misfit_value. unfold a, b. field. lra. }
  split; [|exact M]. intros a' b'. rewrite M, misfit_value. pose proof (pos_INR (length pts)) as Pn.
  set (X := scatter (map fst pts)) in *. set (c := a' - Rmean (map snd pts) + b' * Rmean (map fst pts)). pose proof (pow2_ge_0 c) as Pc.
  assert (0 <= X * (b' - sxy pts / X) ^ 2) by (apply Rmult_le_pos; [lra|apply pow2_ge_0]).
  replace (X * (b' - sxy pts / X) ^ 2) with (b' ^ 2 * X - 2 * b' * sxy pts + sxy pts ^ 2 / X) in H by (field; lra).
  assert (0 <= INR (length pts) * c ^ 2) by now apply Rmult_le_pos. lra.
Qed.
Lemma misfit_nonneg pts a b : 0 <= misfit pts a b.
Proof. apply Rsum_nonneg. intros x I. apply in_map_iff in I as (y & <- & _). apply pow2_ge_0. Qed.
Lemma misfit_zero pts a b : misfit pts a b = 0 <-> on_line pts a b.
Proof.
  split.
  - intros Z0 p I. assert ((snd p - (a + b * fst p)) ^ 2 = 0); [|nra].
    apply (Rsum_zero_all (map (fun p => (snd p - (a + b * fst p)) ^ 2) pts)); [|exact Z0|now apply (in_map (fun p => (snd p - (a + b * fst p)) ^ 2))].
    intros u Iu. apply in_map_iff in Iu as (w & <- & _). apply pow2_ge_0.
  - intro A. unfold misfit. rewrite (Rsum_map_ext _ (fun _ => 0)); [rewrite Rsum_map_const; ring|]. intros p I. rewrite (A p I). ring.
Qed.
Lemma sxy_bound pts : sxy pts ^ 2 <= scatter (map fst pts) * scatter (map snd pts).
Proof. rewrite !scatter_map. apply Rsum_cauchy_schwarz. Qed.
Lemma map2_pairs (f : R -> R -> R) pts : map2 f (map fst pts) (map snd pts) = map (fun p => f (fst p) (snd p)) pts.
Proof. unfold map2. induction pts as [|p pts IH]; [reflexivity|]. cbn [map combine fst snd]. now rewrite IH. Qed.

Lemma all_finite_Fin l : all_finite (map Fin l) = Some l.
Proof. induction l as [|x l IH]; [reflexivity|]. cbn [map all_finite]. now rewrite IH. Qed.

(*@ C104 linregress as used here: with no point or with more than one point and only one delay it raises ValueError; otherwise, with at least two points, it returns
    the usual regression figures (the correlation coefficient up to its sign). *)
Lemma linregress_value : forall pts : list (R * R),
  (linregress (map Fin (map fst pts)) (map Fin (map snd pts)) = Err ValueError <-> pts = [] \/ ((2 <= length pts)%nat /\ all_same (map fst pts))) /\
  ((2 <= length pts)%nat -> ~ all_same (map fst pts) ->
     exists r se, linregress (map Fin (map fst pts)) (map Fin (map snd pts)) = Ok (Fin r, Fin se) /\ -1 <= r <= 1 /\ 0 <= se /\
       regression_figures pts (Rabs r) se /\ (0 < r <-> 0 < sxy pts)).
Proof.
  intro pts. unfold linregress. rewrite !all_finite_Fin. unfold linregress_fin. rewrite map_length. split.
  - destruct pts as [|p0 r0] eqn:E0; [split; auto|]. rewrite <- E0 in *. assert (Ne : map fst pts <> []) by (rewrite E0; discriminate). destruct (Nat.eqb_spec (length pts) 0) as [L0|L0]; [rewrite E0 in L0; discriminate|].
    destruct (Nat.ltb_spec 1 (length pts)) as [L1|L1]; cbn [andb].
    + destruct (Reqb_spec (Rmax_of (map fst pts)) (Rmin_of (map fst pts))) as [Em|Em].
      * split; auto. intros _. right. split; [lia|]. now apply same_extremes.
      * split; [discriminate|]. intros [X|[_ X]]; [rewrite X in L0; now elim L0|]. elim Em. now apply same_extremes.
    + split; [discriminate|]. intros [X|[X _]]; [rewrite X in L0; now elim L0|lia].
  - intros L2 N. assert (Ne : map fst pts <> []) by (destruct pts; [cbn in L2; lia|discriminate]).
    destruct (Nat.eqb_spec (length pts) 0) as [L0|_]; [lia|]. destruct (Nat.ltb_spec 1 (length pts)) as [_|L1]; [|lia]. cbn [andb].
    destruct (Reqb_spec (Rmax_of (map fst pts)) (Rmin_of (map fst pts))) as [Em|_]; [exfalso; apply N; now apply same_extremes|].
    destruct (Nat.eqb_spec (length pts) 1) as [L1|_]; [lia|].
    cbv zeta. rewrite !map2_pairs. assert (MW : Rmean (map (fun p => (fst p - Rmean (map fst pts)) * (snd p - Rmean (map snd pts))) pts) = sxy pts / INR (length pts)) by (unfold Rmean at 1; rewrite map_length; reflexivity).
    rewrite !MW, !Rvar_scatter, !map_length.
    set (n := INR (length pts)). assert (Pn : 2 <= n) by (apply (le_INR 2); exact L2).
    pose proof (scatter_pos _ N) as PX. pose proof (scatter_nonneg (map snd pts)) as PY. pose proof (sxy_bound pts) as CB.
    destruct (best_line_exists pts N) as [BL BM]. set (X := scatter (map fst pts)) in *. set (Y := scatter (map snd pts)) in *. set (W := sxy pts) in *. set (b := W / X) in *. set (a := Rmean (map snd pts) - b * Rmean (map fst pts)) in *.
    destruct (Reqb_spec (X / n) 0) as [Z0|_]; [exfalso; assert (0 < X / n) by (apply Rdiv_lt_0_compat; lra); lra|]. cbn [orb].
    destruct (Reqb_spec (Y / n) 0) as [Z0|Z0].
    + assert (Y0 : Y = 0) by (apply (Rmult_eq_reg_r (/ n)); [unfold Rdiv in Z0; lra|apply Rinv_neq_0_compat; lra]).
      assert (W0 : W = 0) by (rewrite Y0 in CB; nra).
      exists 0, 0. split.
      * destruct (Nat.eqb (length pts) 2); [reflexivity|]. rewrite Y0. unfold Rdiv. rewrite !Rmult_0_l, Rmult_0_r, !Rmult_0_l, sqrt_0. reflexivity.
      * split; [lra|]. split; [lra|]. split; [|rewrite W0; split; lra]. rewrite Rabs_R0. split; [easy|]. intros _. exists a, b. split; [exact BL|]. split; [lra|]. split; [lra|]. split; [reflexivity|].
        split; [intro Ns; exfalso; apply Ns; now apply scatter_same|]. split; [reflexivity|]. intros _. rewrite BM, Y0, W0. unfold Rdiv. ring.
    + assert (PY' : 0 < Y) by (destruct PY as [|E]; [assumption|]; exfalso; apply Z0; rewrite <- E; unfold Rdiv; ring).
      assert (Sq : sqrt (X / n * (Y / n)) = sqrt (X * Y) / n).
      { replace (X / n * (Y / n)) with (X * Y / n ^ 2) by (field; lra). rewrite sqrt_div_alt by nra. f_equal. apply sqrt_pow2. lra. }
      rewrite !Sq. assert (PS : 0 < sqrt (X * Y)) by (apply sqrt_lt_R0, Rmult_lt_0_compat; assumption). replace (W / n / (sqrt (X * Y) / n)) with (W / sqrt (X * Y)) by (field; lra).
      set (q := sqrt (X * Y)) in *. assert (Q2 : q ^ 2 = X * Y) by (unfold q; apply pow2_sqrt; nra). set (r := W / q).
      assert (R2 : r ^ 2 = W ^ 2 / (X * Y)) by (unfold r; rewrite <- Q2; field; lra).
      assert (R1 : r ^ 2 <= 1). { rewrite R2. apply (Rmult_le_reg_r (X * Y)); [nra|]. unfold Rdiv. rewrite Rmult_assoc, Rinv_l by nra. lra. }
      assert (RB : -1 <= r <= 1) by nra. destruct (Rltb_spec 1 r); [lra|]. destruct (Rltb_spec r (-1)); [lra|].
      assert (MF : misfit pts a b = (1 - r ^ 2) * Y) by (rewrite BM, R2; field; lra).
      set (se := if Nat.eqb (length pts) 2 then 0 else sqrt ((1 - r ^ 2) * (Y / n) / (X / n) / (n - 2))). exists r, se.
      split; [unfold se; destruct (Nat.eqb (length pts) 2); reflexivity|]. split; [exact RB|]. split; [unfold se; destruct (Nat.eqb _ 2); [lra|apply sqrt_pos]|]. split.
      * split; [easy|]. intros _. exists a, b. split; [exact BL|]. split; [apply Rabs_pos|]. split; [unfold se; destruct (Nat.eqb _ 2); [lra|apply sqrt_pos]|].
        split; [intro As; apply scatter_same in As; unfold Y in PY'; lra|]. split; [intros _; rewrite pow2_abs, MF; fold Y; field; lra|].
        unfold se. destruct (Nat.eqb_spec (length pts) 2) as [E2|E2]; [split; [reflexivity|contradiction]|]. split; [contradiction|]. intros _.
        assert (P3 : 3 <= n) by (replace 3 with (INR 3) by (cbn; ring); apply le_INR; lia).
        rewrite pow2_sqrt; [rewrite MF; fold X n; field; lra|]. replace ((1 - r ^ 2) * (Y / n) / (X / n) / (n - 2)) with ((1 - r ^ 2) * Y * / (X * (n - 2))) by (field; lra).
        apply Rmult_le_pos; [nra|]. left. apply Rinv_0_lt_compat. nra.
      * unfold r. split; intro H'; [|now apply Rdiv_lt_0_compat]. replace W with (W / q * q) by (field; lra). nra.
Qed.

Lemma best_misfit pts a b a' b' : best_line pts a b -> best_line pts a' b' -> misfit pts a b = misfit pts a' b'.
Proof. intros H H'. apply Rle_antisym; auto. Qed.
Lemma sq_eq x y : 0 <= x -> 0 <= y -> x ^ 2 = y ^ 2 -> x = y.
Proof. intros. nra. Qed.
Lemma figures_neg pts r' se' : regression_figures (map (fun p => (fst p, - snd p)) pts) r' se' -> regression_figures pts r' se'.
Proof.
  intros [A B].
  set (neg := map (fun p => (fst p, - snd p)) pts) in *.
  assert (Ef : map fst neg = map fst pts) by (unfold neg; rewrite map_map; reflexivity).
  assert (Es : map snd neg = map Ropp (map snd pts)) by (unfold neg; rewrite !map_map; reflexivity).
  assert (Em : forall a b, misfit neg a b = misfit pts (- a) (- b)) by (intros a b; unfold misfit, neg; rewrite map_map; apply Rsum_map_ext; intros p _; cbn; ring).
  assert (Sc : scatter (map snd neg) = scatter (map snd pts)).
  { rewrite Es. unfold scatter. rewrite map_map. assert (Mn : Rmean (map Ropp (map snd pts)) = - Rmean (map snd pts)).
    { rewrite (map_ext Ropp (fun x => -1 * x)) by (intro; ring). rewrite Rmean_scal. ring. } rewrite Mn. apply Rsum_map_ext. intros x _. ring. }
  assert (Ln : length neg = length pts) by apply map_length. assert (As : all_same (map snd neg) <-> all_same (map snd pts)) by (rewrite <- !scatter_same, Sc; reflexivity).
  rewrite Ef, Ln in *. split; [exact A|]. intro D. destruct (B D) as (a & b & L & P1 & P2 & Q1 & Q2 & Q3 & Q4). exists (- a), (- b). rewrite <- Em.
  split. { intros a' b'. rewrite <- Em. replace (misfit pts a' b') with (misfit neg (- a') (- b')) by (rewrite Em; f_equal; ring). apply L. }
  split; [exact P1|]. split; [exact P2|]. split; [intro X; apply Q1; now apply As|]. split; [intro X; rewrite <- Sc; apply Q2; now rewrite As|]. split; assumption.
Qed.
(*@ C104 the two figures are determined by the points, and swapping all distances to their negatives (reading the direction the other way round) changes neither *)
Lemma figures_determined : forall pts r se r' se', regression_figures pts r se ->
  regression_figures pts r' se' \/ regression_figures (map (fun p => (fst p, - snd p)) pts) r' se' -> r' = r /\ se' = se.
Proof.
  assert (U : forall pts r se r' se', regression_figures pts r se -> regression_figures pts r' se' -> r' = r /\ se' = se).
  { intros pts r se r' se' [A B] [A' B']. destruct (all_same_dec (map fst pts)) as [D|D].
    - destruct (A D), (A' D). subst. auto.
    - destruct (B D) as (a & b & L & P1 & P2 & Q1 & Q2 & Q3 & Q4). destruct (B' D) as (a' & b' & L' & P1' & P2' & Q1' & Q2' & Q3' & Q4').
      pose proof (best_misfit _ _ _ _ _ L L') as M. split.
      + destruct (all_same_dec (map snd pts)) as [S0|S0]; [rewrite Q1, Q1' by exact S0; reflexivity|]. apply sq_eq; auto. rewrite Q2, Q2', M by exact S0. reflexivity.
      + destruct (Nat.eq_dec (length pts) 2) as [E|E]; [rewrite Q3, Q3' by exact E; reflexivity|]. apply sq_eq; auto. rewrite Q4, Q4', M by exact E. reflexivity. }
  intros pts r se r' se' H [H'|H']; [now apply (U pts)|]. apply (U pts); [exact H|]. now apply figures_neg.
Qed.
(*@ C104 what they tell, if not all delays are equal: r is at most 1, and is 1 exactly when all points lie on one sloping line; the standard error is 0 exactly when there
    are only two points or all points lie on one line *)
Lemma figures_meaning : forall pts r se, regression_figures pts r se -> ~ all_same (map fst pts) ->
  0 <= r <= 1 /\ 0 <= se /\
  (r = 1 <-> exists a b, on_line pts a b /\ b <> 0) /\
  (se = 0 <-> length pts = 2%nat \/ exists a b, on_line pts a b).
Proof.
  intros pts r se [_ B] D. destruct (B D) as (a & b & L & P1 & P2 & Q1 & Q2 & Q3 & Q4). clear B. pose proof (misfit_nonneg pts a b) as Mn.
  pose proof (scatter_pos _ D) as PX.
  assert (Lz : forall a' b', on_line pts a' b' -> misfit pts a b = 0) by (intros a' b' H; apply misfit_zero in H; specialize (L a' b'); lra).
  assert (Two : exists p q, In p pts /\ In q pts /\ fst p <> fst q).
  { destruct (Classical_Prop.classic (exists p q, In p pts /\ In q pts /\ fst p <> fst q)) as [|N]; [assumption|]. exfalso. apply D. intros x y Ix Iy.
    apply in_map_iff in Ix as (p & <- & Ip). apply in_map_iff in Iy as (q & <- & Iq). destruct (Req_dec (fst p) (fst q)); [assumption|]. exfalso. apply N. exists p, q. auto. }
  assert (R1 : r <= 1 /\ (r = 1 <-> exists a b, on_line pts a b /\ b <> 0)).
  { destruct (all_same_dec (map snd pts)) as [S0|S0].
    - rewrite (Q1 S0). split; [lra|]. split; [lra|]. intros (a' & b' & O & Nb). exfalso. destruct Two as (p & q & Ip & Iq & Np). pose proof (S0 (snd p) (snd q) (in_map snd _ _ Ip) (in_map snd _ _ Iq)) as E.
      rewrite (O p Ip), (O q Iq) in E. apply Np. apply (Rmult_eq_reg_l b'); [lra|exact Nb].
    - pose proof (scatter_pos _ S0) as PY. specialize (Q2 S0). assert (0 <= misfit pts a b / scatter (map snd pts)) by (apply Rmult_le_pos; [exact Mn|left; now apply Rinv_0_lt_compat]). split; [nra|]. split.
      + intros ->. assert (M0 : misfit pts a b = 0). { apply (Rmult_eq_reg_r (/ scatter (map snd pts))); [unfold Rdiv in Q2; lra|apply Rinv_neq_0_compat; lra]. }
        apply misfit_zero in M0. exists a, b. split; [exact M0|]. intros ->. apply S0. intros x y Ix Iy. apply in_map_iff in Ix as (p & <- & Ip). apply in_map_iff in Iy as (q & <- & Iq). rewrite (M0 p Ip), (M0 q Iq). ring.
      + intros (a' & b' & O & _). rewrite (Lz a' b' O) in Q2. apply sq_eq; [exact P1|lra|]. rewrite Q2. unfold Rdiv. ring. }
  destruct R1 as [R1 R2]. split; [lra|]. split; [exact P2|]. split; [exact R2|]. split.
  - intros ->. destruct (Nat.eq_dec (length pts) 2) as [E|E]; [now left|]. right. specialize (Q4 E).
    assert (L3 : (3 <= length pts)%nat). { destruct Two as (p & q & Ip & Iq & Np). destruct pts as [|u [|v [|w l]]]; [destruct Ip| |now elim E|cbn; lia]. destruct Ip as [<-|[]]. destruct Iq as [<-|[]]. now elim Np. }
    assert (P3 : 0 < INR (length pts) - 2) by (apply (le_INR 3) in L3; cbn in L3; lra).
    assert (M0 : misfit pts a b = 0).
    { assert (K : misfit pts a b = 0 ^ 2 * scatter (map fst pts) * (INR (length pts) - 2)) by (rewrite Q4; field; lra). rewrite K. ring. }
    exists a, b. now apply misfit_zero.
  - intros [E|(a' & b' & O)]; [now apply Q3|]. destruct (Nat.eq_dec (length pts) 2) as [E|E]; [now apply Q3|]. specialize (Q4 E). rewrite (Lz a' b' O) in Q4. apply sq_eq; [exact P2|lra|]. rewrite Q4. unfold Rdiv. ring.
Qed.

Lemma delay_points_turn ps a : delay_points ps (a + PI) = map (fun p => (fst p, - snd p)) (delay_points ps a).
Proof. unfold delay_points. rewrite map_map. apply map_ext. intro p. rewrite neg_cos, neg_sin. unfold inner. cbn [fst snd]. f_equal. ring. Qed.
Lemma delay_points_mod ps a : delay_points ps (mod_2pi a) = delay_points ps a.
Proof. unfold delay_points. destruct (mod_2pi_props a) as (_ & C & S). now rewrite C, S. Qed.
Lemma normalise_turn v0 th v t : normalise_cmv v0 (Fin th) = (v, t) -> t = Fin (mod_2pi th) \/ t = Fin (mod_2pi (th + PI)).
Proof. unfold normalise_cmv. destruct (fltb v0 (Fin 0)); cbn [fadd mod_2pi_fl]; intro E; inversion E; auto. Qed.
(*@ C104 in every successful jamaly fit whose passing pairs have finite delays, r_corr and stderr_corr are the regression figures of the passing pairs' distances along
    the reported direction against their delays *)
Lemma cmv_regression : forall (K : Type) (HK : Label K) dx dt ms lsq ts (pos : list (K * (R * R))) ref m o bk v t w o' f,
  one_answer_per_pair dx -> one_answer_per_pair dt -> lower m = "jamaly"%string ->
  compute_cmv dx dt ms lsq ts pos ref m o bk = Ok ((v, t, w), o') -> w_fit w = Some f ->
  finite_delays (w_pair_flag w) (w_pair_lag f) ->
  let ps := used_pairs pos (w_allpairs w) (w_pair_flag w) (w_pair_lag f) in
  exists jm a r se, w_method_data f = Some jm /\ t = Fin a /\ j_ngood jm = length ps /\ j_rcorr jm = Fin r /\ j_stderr jm = Fin se /\
    regression_figures (delay_points ps a) r se.
Proof.
  intros K HK dx dt ms lsq ts pos ref m o bk v t w o' f Hx Ht Hm E Hf Fin0.
  destruct (cmv_facts dx dt ms lsq Hx Ht ts pos ref m o bk v t w o' E) as (d & vecs & rows & f0 & ov & flags & o0 & Km & V & Q & G & F & L1 & L2 & L3 & L4 & L5 & L6 & W & S & R).
  rewrite Hm in *. cbn [String.eqb Ascii.eqb Bool.eqb] in G, F. injection G as -> ->.
  apply finish_cases in F. destruct F as [(N & _ & _ & Ew)|(T & v0 & t0 & fg & md & Ef & En & Ew)]; [rewrite Ew in Hf; discriminate|].
  assert (Hf' : f = mkFit (d_delay d) (d_coh d) (d_zero d) (d_peak d) (project_angle vecs t) t v md) by (rewrite Ew in Hf; cbn [w_fit] in Hf; congruence).
  rewrite W in *. subst f. cbn [w_pair_lag w_method_data] in *.
  set (ps := used_pairs pos (w_allpairs w) f0 (d_delay d)). destruct (used_lists pos (w_allpairs w) f0 vecs (d_delay d)) as [G1 G2]; auto.
  assert (P2 : (2 <= length ps)%nat) by (apply (used_count pos _ _ vecs); auto).
  fold ps in G1, G2. rewrite G1, G2 in Ef. clear G1 G2.
  unfold fit_jamaly in Ef. cbv zeta in Ef. set (lag := map (fun p => Fin (snd p)) ps) in *. set (seps := map fst ps) in *. set (th := ms (vel_variance lag seps)) in *.
  match type of Ef with (_, _, _, Some ?J) = _ => set (jm := J) in *; assert (E4 : md = Some jm) by congruence end. assert (E2 : t0 = Fin th) by congruence. subst t0.
  set (pts := delay_points ps th). assert (Ln : length pts = length ps) by (unfold pts, delay_points; apply map_length).
  assert (LR : linregress lag (project_vectors seps (pol2rect 1 th)) = linregress (map Fin (map fst pts)) (map Fin (map snd pts))).
  { unfold pol2rect. rewrite !Rmult_1_l, project_fin by apply unit_neq0. rewrite unit_len. unfold lag, seps, pts, delay_points. rewrite !map_map. f_equal. apply map_ext. intro p. cbn [snd]. f_equal. field. }
  assert (FG : exists r se, j_rcorr jm = Fin r /\ j_stderr jm = Fin se /\ regression_figures pts r se).
  { unfold jm. cbn [j_rcorr j_stderr]. rewrite LR. destruct (linregress_value pts) as [Er Vl]. destruct (all_same_dec (map fst pts)) as [As|As].
    - rewrite (proj2 Er) by (right; split; [lia|exact As]). exists 0, 0. cbn [fst snd fabs]. rewrite Rabs_R0. repeat split; easy.
    - destruct (Vl ltac:(lia) As) as (r & se & -> & _ & _ & Fg & _). exists (Rabs r), se. cbn [fst snd fabs]. auto. }
  destruct FG as (r & se & F1 & F2 & F3).
  assert (Ng : j_ngood jm = length ps) by (unfold jm, seps; cbn [j_ngood]; apply map_length).
  destruct (normalise_turn _ _ _ _ En) as [-> | ->]; exists jm.
  - exists (mod_2pi th), r, se. rewrite delay_points_mod. auto 10.
  - exists (mod_2pi (th + PI)), r, se. rewrite delay_points_mod, delay_points_turn. split; [exact E4|]. split; [reflexivity|]. split; [exact Ng|]. split; [exact F1|]. split; [exact F2|].
    apply figures_neg. rewrite map_map. rewrite (map_ext _ (fun p => p)); [now rewrite map_id|]. intros [x y]. cbn. now rewrite Ropp_involutive.
Qed.
(*@ C104 the per-pair figures beside them: for every pair, used or not, the variation ratios of its two signals and one minus mean over peak correlation *)
Lemma cmv_qc_figures : forall (K : Type) (HK : Label K) dx dt ms lsq ts (pos : list (K * (R * R))) ref m o bk v t w o' f,
  one_answer_per_pair dx -> one_answer_per_pair dt -> lower m = "jamaly"%string ->
  compute_cmv dx dt ms lsq ts pos ref m o bk = Ok ((v, t, w), o') -> w_fit w = Some f ->
  exists jm A B d, w_method_data f = Some jm /\
    Forall2 (fun p a => dget ts (fst p) = Some a) (w_allpairs w) A /\ Forall2 (fun p b => dget ts (snd p) = Some b) (w_allpairs w) B /\
    (if String.eqb (lower bk) "xcorr" then dx A B else dt A B) = Ok d /\ length (j_qc jm) = length (w_allpairs w) /\
    forall i a b pk mn, nth_error A i = Some a -> nth_error B i = Some b -> nth_error (d_peak d) i = Some pk -> nth_error (d_mean d) i = Some mn ->
      nth_error (j_qc jm) i = Some (variation a, variation b, fsub (Fin 1) (fdiv mn pk)).
Proof.
  intros K HK dx dt ms lsq ts pos ref m o bk v t w o' f Hx Ht Hm E Hf.
  apply compute_cmv_inv in E. destruct E as (A & B & d & Pb & Pa & flags0 & overall & flags & E). cbv zeta in E.
  destruct E as (Km & Bk & NE & EA & EB & ED & EPb & EPa & EV & EQ & EG & EF).
  pose proof (finish_pairs _ _ _ _ _ _ _ _ _ _ _ _ EF) as [EP EFl].
  set (pairs := get_pairs _ _ _) in *. set (vecs := map2 _ Pb Pa) in *. set (rows := map row_of _) in *.
  pose proof (mapM_length _ _ _ EA) as LA. pose proof (mapM_length _ _ _ EB) as LB.
  pose proof (mapM_length _ _ _ EPa) as LPa. pose proof (mapM_length _ _ _ EPb) as LPb.
  assert (LD : length (d_delay d) = length A /\ length (d_peak d) = length A /\ length (d_mean d) = length A).
  { destruct (String.eqb (lower bk) "xcorr"); [apply (Hx A B d)|apply (Ht A B d)]; auto; congruence. }
  destruct LD as (L1 & L2 & L3). rewrite EP.
  assert (LR : length rows = length pairs).
  { unfold rows. rewrite map_length, !combine_length. unfold vecs. rewrite map2_length by congruence. lia. }
  apply finish_cases in EF. rewrite Hm in EF. cbn [String.eqb Ascii.eqb Bool.eqb] in EF.
  destruct EF as [(_ & _ & _ & Ew)|(_ & v0 & t0 & fg & md & Ef & _ & Ew)]; [rewrite Ew in Hf; discriminate|].
  rewrite Ew in Hf. cbn [w_fit] in Hf. injection Hf as <-. cbn [w_method_data].
  unfold fit_jamaly in Ef. cbv zeta in Ef. match type of Ef with (_, _, _, Some ?J) = _ => exists J, A, B, d; split; [congruence|] end. cbn [j_qc].
  split; [now apply lookups|]. split; [now apply lookups|]. split; [exact ED|]. unfold qc_figures. rewrite map_length. split; [exact LR|].
  intros i a b pk mn Ha Hb Hk Hn.
  assert (Lt : (i < length pairs)%nat) by (rewrite <- LA; apply nth_error_Some; congruence).
  assert (exists p, nth_error pairs i = Some p) as [p Hp] by (destruct (nth_error pairs i) eqn:X; [eauto|apply nth_error_None in X; lia]).
  assert (exists s, nth_error vecs i = Some s) as [s Hs]. { destruct (nth_error vecs i) eqn:X; [eauto|apply nth_error_None in X; unfold vecs in X; rewrite map2_length in X by congruence; lia]. }
  assert (exists dl, nth_error (d_delay d) i = Some dl) as [dl Hd] by (destruct (nth_error (d_delay d) i) eqn:X; [eauto|apply nth_error_None in X; lia]).
  rewrite nth_error_map. unfold rows. rewrite nth_error_map.
  rewrite (nth_error_combine2 _ _ i (p, (a, b), s) (dl, pk, mn)) by (repeat apply nth_error_combine2; assumption).
  cbn [option_map row_of p_a p_b]. unfold var_s, r_qc, variation, nanmean, nanmax. cbn [p_mean p_peak]. destruct (present a), (present b); reflexivity.
Qed.
(*@ C104 if jamaly recovers a constant motion (as in C21) from pairs with at least two different delays, then r_corr is 1 and stderr_corr is 0 *)
Lemma figures_of_constant_motion : forall (K : Type) (HK : Label K) dx dt ms lsq ts (pos : list (K * (R * R))) ref m o bk v t w o' f (vel : R * R),
  one_answer_per_pair dx -> one_answer_per_pair dt -> lower m = "jamaly"%string ->
  compute_cmv dx dt ms lsq ts pos ref m o bk = Ok ((v, t, w), o') -> w_fit w = Some f ->
  vel <> (0, 0) ->
  frozen_field pos vel (w_allpairs w) (w_pair_flag w) (w_pair_lag f) ->
  spanning (good_separations pos (w_allpairs w) (w_pair_flag w)) ->
  minimises ms (speed_variance (good_separations pos (w_allpairs w) (w_pair_flag w)) vel) ->
  exists jm, w_method_data f = Some jm /\
    (~ all_same (map snd (used_pairs pos (w_allpairs w) (w_pair_flag w) (w_pair_lag f))) -> j_rcorr jm = Fin 1 /\ j_stderr jm = Fin 0) /\
    (all_same (map snd (used_pairs pos (w_allpairs w) (w_pair_flag w) (w_pair_lag f))) -> j_rcorr jm = Fin 0 /\ j_stderr jm = Fin 0).
Proof.
  intros K HK dx dt ms lsq ts pos ref m o bk v t w o' f vel Hx Ht Hm E Hf Nv Fr Sp Min.
  assert (FD : finite_delays (w_pair_flag w) (w_pair_lag f)).
  { intros i Hg. destruct (cmv_facts dx dt ms lsq Hx Ht ts pos ref m o bk v t w o' E) as (d & vecs & rows & f0 & ov & flags & o0 & _ & _ & _ & _ & _ & _ & _ & _ & L4 & _ & _ & W & _).
    destruct (nth_error (w_allpairs w) i) as [p|] eqn:Ep; [destruct (Fr i p Ep Hg) as (s & _ & X); eauto|]. apply nth_error_None in Ep. assert (i < length (w_pair_flag w))%nat by (apply nth_error_Some; congruence). rewrite W in *. lia. }
  destruct (jamaly_recovers K HK dx dt ms lsq ts pos ref m o bk v t w o' f vel Hx Ht Hm E Hf Nv Fr Sp Min) as (a & _ & Ta & _ & Pa & _).
  destruct (cmv_regression K HK dx dt ms lsq ts pos ref m o bk v t w o' f Hx Ht Hm E Hf FD) as (jm & a' & r & se & M & Ta' & _ & Jr & Js & Fg).
  assert (a' = a) by congruence. subst a'. set (ps := used_pairs _ _ _ _) in *. exists jm. split; [exact M|]. rewrite Jr, Js.
  assert (Df : map fst (delay_points ps a) = map snd ps) by (unfold delay_points; rewrite map_map; reflexivity).
  pose proof (len_pos vel Nv) as Lp.
  assert (OL : on_line (delay_points ps a) 0 (len vel)).
  { intros q I. unfold delay_points in I. apply in_map_iff in I as (p & <- & Ip). cbn [fst snd].
    destruct (used_in _ _ _ _ _ Ip) as (i & pr & Hp & Hg & Hs & Hl). destruct (Fr i pr Hp Hg) as (s & Hs' & Hl'). rewrite Hs in Hs'. injection Hs' as <-. rewrite Hl in Hl'. injection Hl' as ->.
    rewrite <- len_sq. replace (inner (fst p) vel) with (len vel * inner (fst p) (cos a, sin a)) by (rewrite <- Pa at 2; unfold polar, inner; cbn [fst snd]; ring). field. lra. }
  split; intro As.
  - destruct (figures_meaning _ _ _ Fg) as (_ & _ & R1 & R2); [now rewrite Df|]. split; f_equal; [apply R1|apply R2; right]; exists 0, (len vel); [split; [exact OL|lra]|exact OL].
  - destruct Fg as [Z0 _]. rewrite Df in Z0. destruct (Z0 As) as [-> ->]. auto.
Qed.
(*@ C104 the figures do not certify the motion: both are perfect for pairs whose apparent speeds differ by a common clock offset, and for any two pairs with different delays and distances *)
Lemma perfect_figures_refuted :
  ~ (forall pts, regression_figures pts 1 0 -> exists s, forall p, In p pts -> snd p = s * fst p) /\
  (forall p q, fst p <> fst q -> snd p <> snd q -> regression_figures [p; q] 1 0).
Proof.
  assert (OnF : forall pts a b, (2 <= length pts)%nat -> ~ all_same (map fst pts) -> on_line pts a b -> b <> 0 -> regression_figures pts 1 0).
  { intros pts a b L N O Nb. destruct (linregress_value pts) as [_ V]. destruct (V L N) as (r & se & _ & _ & _ & Fg & _). destruct (figures_meaning _ _ _ Fg N) as (_ & _ & R1 & R2).
    rewrite (proj2 R1) in Fg by eauto. rewrite (proj2 R2) in Fg by eauto. exact Fg. }
  split.
  - intro H. destruct (H [(1, 10); (2, 11); (3, 12)]) as [s Hs].
    + apply (OnF _ 9 1); [cbn; lia| | |lra].
      * intro A. assert (1 = 2) by (apply A; cbn; auto). lra.
      * intros p [<-|[<-|[<-|[]]]]; cbn; lra.
    + pose proof (Hs (1, 10) ltac:(now left)) as A. pose proof (Hs (2, 11) ltac:(right; now left)) as B. cbn in A, B. lra.
  - intros p q Nf Ns. set (b := (snd q - snd p) / (fst q - fst p)). apply (OnF _ (snd p - b * fst p) b); [cbn; lia| | |].
    + intro A. apply Nf. apply A; cbn; auto.
    + intros u [<-|[<-|[]]]; unfold b; field; lra.
    + unfold b. intro Z0. apply Ns. apply (Rmult_eq_compat_r (fst q - fst p)) in Z0. unfold Rdiv in Z0. rewrite Rmult_assoc, Rinv_l in Z0 by lra. lra.
Qed.
(*@ C104 nor does exact constant motion imply r_corr = 1: with equal delays at all passing pairs the figures are 0 *)
Lemma constant_motion_refuted : exists ms lsq v t w o f jm,
  compute_cmv demo_backend demo_backend ms lsq demo_ts demo_pos RefNone "jamaly" None "xcorr" = Ok ((v, t, w), o) /\ w_fit w = Some f /\
  frozen_field demo_pos (10, 0) (w_allpairs w) (w_pair_flag w) (w_pair_lag f) /\ v = Fin 10 /\
  w_method_data f = Some jm /\ j_rcorr jm = Fin 0 /\ j_stderr jm = Fin 0.
Proof.
  destruct jamaly_example as (ms & lsq & v & t & w & o & f & Ok1 & E & Hf & Fr & Sp & Mn).
  assert (Nv : ((10, 0) : R * R) <> (0, 0)) by (intro X; apply (f_equal fst) in X; cbn in X; lra).
  assert (Lm : lower "jamaly" = "jamaly"%string) by reflexivity.
  destruct (jamaly_recovers _ _ _ _ _ _ _ _ _ _ _ _ _ _ _ _ _ _ Ok1 Ok1 Lm E Hf Nv Fr Sp Mn) as (a & Hv & _).
  destruct (figures_of_constant_motion _ _ _ _ _ _ _ _ _ _ _ _ _ _ _ _ _ _ Ok1 Ok1 Lm E Hf Nv Fr Sp Mn) as (jm & M & _ & Q).
  assert (L10 : len (10, 0) = 10) by (unfold len, inner; cbn [fst snd]; replace (10 * 10 + 0 * 0) with (10 ^ 2) by ring; apply sqrt_pow2; lra).
  exists ms, lsq, v, t, w, o, f, jm. split; [exact E|]. split; [exact Hf|]. split; [exact Fr|]. split; [rewrite Hv, L10; reflexivity|]. split; [exact M|]. apply Q.
  assert (S10 : forall p, In p (used_pairs demo_pos (w_allpairs w) (w_pair_flag w) (w_pair_lag f)) -> snd p = 10).
  { destruct (demo_run "jamaly" ms lsq (or_introl eq_refl)) as (v' & t' & w' & o' & f' & E' & Hf' & Ep & Efl & El). rewrite E in E'. injection E' as -> -> -> ->. rewrite Hf in Hf'. injection Hf' as ->.
    rewrite Ep, Efl, El, demo_used by auto. intros p [<-|[<-|[]]]; reflexivity. }
  intros x y Ix Iy. apply in_map_iff in Ix as (p & <- & Ip). apply in_map_iff in Iy as (q & <- & Iq). rewrite !S10 by assumption. reflexivity.
Qed.

(** ** A second run: the same three sites, a field moving at (6, 2), delays 20 and 10 *)
Definition slant_delay : delay_out :=
  mkDelay [Fin 0; Fin 20; Fin 10; Fin 0; Fin 0; Fin 0] (repeat (Fin 0.92) 6) (repeat (Fin 0.1) 6) None None.
Definition slant_backend (A B : list (list (option R))) : result delay_out :=
  if Nat.eqb (length A) 6 then Ok slant_delay else Err ValueError.
Lemma slant_backend_ok : one_answer_per_pair slant_backend.
Proof.
  intros A B d _ E. unfold slant_backend in E. destruct (Nat.eqb_spec (length A) 6) as [->|]; [|discriminate].
  injection E as <-. now split.
Qed.
Lemma slant_row_good o ids x y : x ^ 2 + y ^ 2 = 20000 -> fst ids <> snd ids -> validate_method_options "jamaly" (Some []) = Ok o ->
  decide_last (decisions "jamaly" o (mkRow (K := nat) ids demo_sig demo_sig (Fin (magnitude (x, y))) (Fin 20) (Fin 0.92) (Fin 0.1))) GOOD = GOOD.
Proof.
  intros E N V. pose proof (demo_spacing x y E) as B. unfold decisions. cbn [p_ids p_a p_b p_delay p_peak p_mean p_spacing].
  rewrite demo_nanstd, demo_nanmax, demo_var_s. unfold r_qc, pair_speed. cbn [p_ids p_a p_b p_delay p_peak p_mean p_spacing].
  rewrite !fdiv_fin by lra. rewrite lab_eqb_neq by exact N.
  injection V as <-; cbn [String.eqb Ascii.eqb Bool.eqb dget lab_eqb label_string app decide_last feqb is_nan fltb fabs fsub fadd fopp orb].
  rewrite (Rltb_false 0.4 0.001), (Reqb_false 20 0), (Rltb_false 1 0.4), (Rltb_false 0.4 0.05), (Rltb_false 0.92 0.8), (Rltb_false (1 + - (0.1 / 0.92)) 0.8) by lra.
  rewrite Rabs_pos_eq by lra. rewrite (Rltb_true 0), (Rltb_true _ 70) by lra. reflexivity.
Qed.
Lemma slant_run ms lsq : exists v t w o f, compute_cmv slant_backend slant_backend ms lsq demo_ts demo_pos RefNone "jamaly" None "xcorr" = Ok ((v, t, w), o) /\
    w_fit w = Some f /\ w_allpairs w = [(0, 0); (0, 1); (0, 2); (1, 1); (1, 2); (2, 2)]%nat /\
    w_pair_flag w = demo_flags "jamaly" /\ w_pair_lag f = d_delay slant_delay.
Proof.
  set (pairs := [(0, 0); (0, 1); (0, 2); (1, 1); (1, 2); (2, 2)]%nat).
  destruct (validate_total "jamaly" []) as [(_ & _ & o & V)|(N & _)].
  2: { exfalso. apply N. split; [now left|]. intros k [v Hk]. discriminate. }
  set (vecs := map2 (fun b a : R * R => (fst b - fst a, snd b - snd a)) [(0, 0); (100, 100); (100, -100); (100, 100); (100, -100); (100, -100)]
                 [(0, 0); (0, 0); (0, 0); (100, 100); (100, 100); (100, -100)]).
  set (rows := map row_of (combine (combine (combine pairs (combine (repeat demo_sig 6) (repeat demo_sig 6))) vecs)
                                    (combine (combine (d_delay slant_delay) (d_peak slant_delay)) (d_mean slant_delay)))).
  assert (Q : pairwise_qc "jamaly" o rows = Ok (demo_flags "jamaly")).
  { rewrite (qc_eq _ _ _ _ V). f_equal. unfold rows, pairs, vecs, slant_delay, demo_flags.
    cbn [map2 map combine repeat row_of fst snd d_delay d_peak d_mean].
    rewrite !demo_row_zero by (auto; assumption). rewrite slant_row_good; [|cbn; lra|cbn; lia|assumption].
    rewrite demo_row_good; [|cbn; lra|cbn; lia|auto|assumption]. reflexivity. }
  destruct (finish_cmv ms lsq true (qc_figures rows) GOOD (demo_flags "jamaly") pairs vecs slant_delay) as [[v t] w] eqn:EF.
  pose proof EF as FC. apply finish_cases in FC.
  assert (TG : two_good (demo_flags "jamaly")) by (exists 1%nat, 2%nat; repeat split; easy).
  destruct FC as [(N & _)|(_ & v0 & t0 & fg & md & _ & _ & Ew)]; [contradiction|].
  exists v, t, w, o. eexists. split; [|split; [rewrite Ew; reflexivity|split; [rewrite Ew; reflexivity|split; [rewrite Ew; reflexivity|reflexivity]]]].
  unfold compute_cmv. change (lower "jamaly") with "jamaly"%string. cbv zeta.
  change (String.eqb "jamaly" "jamaly" || String.eqb "jamaly" "gagne")%bool with true.
  cbn [negb]. change (lower "xcorr") with "xcorr"%string. change (String.eqb "xcorr" "xcorr" || String.eqb "xcorr" "tf")%bool with true. cbn [negb].
  change (get_pairs (map fst demo_pos) (Some (ref_ids (map fst demo_pos) RefNone)) true) with pairs.
  change (match pairs with [] => _ | _ :: ps => ?k end) with k.
  change (mapM (fun p => lookup demo_ts (fst p)) pairs) with (Ok (repeat demo_sig 6)).
  change (mapM (fun p => lookup demo_ts (snd p)) pairs) with (Ok (repeat demo_sig 6)).
  cbn [rbind]. change (String.eqb "xcorr" "xcorr") with true. cbv iota. change (slant_backend (repeat demo_sig 6) (repeat demo_sig 6)) with (Ok slant_delay). cbn [rbind].
  change (mapM (fun p => lookup demo_pos (snd p)) pairs) with (Ok [(0, 0); (100, 100); (100, -100); (100, 100); (100, -100); (100, -100)]).
  change (mapM (fun p => lookup demo_pos (fst p)) pairs) with (Ok [(0, 0); (0, 0); (0, 0); (100, 100); (100, 100); (100, -100)]).
  cbn [rbind]. change (validate_method_options "jamaly" None = Ok o) in V. rewrite V. cbn [rbind].
  fold vecs. fold rows. rewrite Q. cbn [rbind]. change (String.eqb "jamaly" "gagne") with false. cbv iota. change (String.eqb "jamaly" "jamaly") with true. rewrite EF. reflexivity.
Qed.
Lemma slant_frozen : frozen_field demo_pos (6, 2) [(0, 0); (0, 1); (0, 2); (1, 1); (1, 2); (2, 2)]%nat (demo_flags "jamaly") (d_delay slant_delay).
Proof.
  intros i p Hp Hg.
  assert (D : (i = 1%nat /\ p = (0, 1)%nat) \/ (i = 2%nat /\ p = (0, 2)%nat)).
  { destruct i as [|[|[|[|[|[|i]]]]]]; cbn in Hp, Hg; try discriminate; try (injection Hp as <-; auto); destruct i; discriminate. }
  destruct D as [(-> & ->)|(-> & ->)]; eexists; (split; [reflexivity|]); cbn [nth_error slant_delay d_delay]; do 2 f_equal; unfold inner; cbn; field.
Qed.

(*@ex C104 the field moving at (6, 2) over the three sites: r_corr is 1 and stderr_corr is 0 *)
Lemma figures_example : exists ms lsq v t w o f jm,
  one_answer_per_pair slant_backend /\
  compute_cmv slant_backend slant_backend ms lsq demo_ts demo_pos RefNone "jamaly" None "xcorr" = Ok ((v, t, w), o) /\ w_fit w = Some f /\
  frozen_field demo_pos (6, 2) (w_allpairs w) (w_pair_flag w) (w_pair_lag f) /\
  spanning (good_separations demo_pos (w_allpairs w) (w_pair_flag w)) /\
  minimises ms (speed_variance (good_separations demo_pos (w_allpairs w) (w_pair_flag w)) (6, 2)) /\
  finite_delays (w_pair_flag w) (w_pair_lag f) /\
  ~ all_same (map snd (used_pairs demo_pos (w_allpairs w) (w_pair_flag w) (w_pair_lag f))) /\
  w_method_data f = Some jm /\ j_rcorr jm = Fin 1 /\ j_stderr jm = Fin 0.
Proof.
  assert (Nv : ((6, 2) : R * R) <> (0, 0)) by (intro X; apply (f_equal fst) in X; cbn in X; lra).
  pose proof (len_pos _ Nv) as Lp. destruct (cos_sin_atan2 6 2 Nv) as [Ca Sa].
  set (an := arctan2 2 6) in *. exists (fun _ => an), (fun _ => (Fin 0, Fin 0)).
  destruct (slant_run (fun _ => an) (fun _ => (Fin 0, Fin 0))) as (v & t & w & o & f & E & Hf & Ep & Efl & El).
  assert (Fr : frozen_field demo_pos (6, 2) (w_allpairs w) (w_pair_flag w) (w_pair_lag f)) by (rewrite Ep, Efl, El; apply slant_frozen).
  assert (Sp : spanning (good_separations demo_pos (w_allpairs w) (w_pair_flag w))) by (rewrite Ep, Efl, demo_seps by auto; apply demo_spanning).
  assert (Mn : minimises (fun _ => an) (speed_variance (good_separations demo_pos (w_allpairs w) (w_pair_flag w)) (6, 2))).
  { rewrite Ep, Efl, demo_seps by auto. intros g _ x. apply Rle_trans with 0; [|apply Rvar_nonneg]. right. unfold speed_variance. apply (Rvar_const _ _ (40 / len (6, 2))); [discriminate|].
    rewrite Ca, Sa. intros s [<-|[<-|[]]]; unfold inner; cbn [fst snd]; field; lra. }
  assert (Lm : lower "jamaly" = "jamaly"%string) by reflexivity.
  assert (NS : ~ all_same (map snd (used_pairs demo_pos (w_allpairs w) (w_pair_flag w) (w_pair_lag f)))).
  { rewrite Ep, Efl, El. change (~ all_same [20; 10]). intro A. assert (20 = 10) by (apply A; cbn; auto). lra. }
  destruct (figures_of_constant_motion _ _ _ _ _ _ _ _ _ _ _ _ _ _ _ _ _ _ slant_backend_ok slant_backend_ok Lm E Hf Nv Fr Sp Mn) as (jm & M & Q & _).
  exists v, t, w, o, f, jm. split; [exact slant_backend_ok|]. split; [exact E|]. split; [exact Hf|]. split; [exact Fr|]. split; [exact Sp|]. split; [exact Mn|].
  split; [|split; [exact NS|]; split; [exact M|exact (Q NS)]].
  rewrite Efl, El. intros i Hg. destruct i as [|[|[|[|[|[|i]]]]]]; cbn in Hg; try discriminate; try (eexists; reflexivity); destruct i; discriminate.
Qed.
