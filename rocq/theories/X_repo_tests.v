(** The model against the project's own unit tests: expected values of /repo/tests replayed on the model. *)
From Coq Require Import String List Reals Lra Lia ZArith.
From Verif Require Import Prelude RealBase Fl RealStat M_spatial M_stats M_copula M_cloudfield M_field_remap P_resample Spec_stats X_spatial_zone.
Import ListNotations.
Local Open Scope R_scope.

(** Deciding comparisons between concrete numbers. *)
Ltac rdec1 :=
  match goal with
  | |- context [Rltb ?a ?b] => first [rewrite (Rltb_true a b) by lra | rewrite (Rltb_false a b) by lra]
  | |- context [Rleb ?a ?b] => first [rewrite (Rleb_true a b) by lra | rewrite (Rleb_false a b) by lra]
  | |- context [Reqb ?a ?b] => first [rewrite (Reqb_true a b) by lra | rewrite (Reqb_false a b) by lra]
  end.
Ltac lit := repeat match goal with |- context [INR ?n] =>
  let v := eval cbv in (Z.of_nat n) in rewrite (INR_IZR_INZ n); change (Z.of_nat n) with v end.
Ltac reval := cbv -[Rplus Rminus Rmult Rdiv Rinv Ropp Rabs sqrt IZR INR pow Rltb Rleb Reqb Rmax Rmin cos sin PI exp atan Int_part not Rlt Rle].
Ltac rdec := repeat (lit; rdec1; reval); lit.
Ltac rabs := repeat match goal with |- context [Rabs ?x] => first [rewrite (Rabs_right x) by lra | rewrite (Rabs_left x) by lra] end.
Ltac rmax := repeat match goal with
  | |- context [Rmax ?a ?b] => first [rewrite (Rmax_left a b) by lra | rewrite (Rmax_right a b) by lra] end.
Ltac same := repeat match goal with
  | |- _ /\ _ => split
  | |- Ok _ = Ok _ => apply f_equal
  | |- Fin _ = Fin _ => apply f_equal
  | |- Some _ = Some _ => apply f_equal
  | |- Col _ = Col _ => apply f_equal
  | |- Table _ = Table _ => apply f_equal
  | |- _ :: _ = _ :: _ => apply f_equal2
  | |- (_, _) = (_, _) => apply injective_projections; cbv [fst snd]
  | |- ?x = ?x => reflexivity
  end.

(*@ex C32 tests/test_stats.py:24-77: baseline 0..9, estimation 2..11, and the other way round. *)
Lemma repo_errors_example : let x := [0; 1; 2; 3; 4; 5; 6; 7; 8; 9] in let y := [2; 3; 4; 5; 6; 7; 8; 9; 10; 11] in
  mse x y = Ok (Fin 4) /\ mae x y = Ok (Fin 2) /\ mbe x y = Ok (Fin 2) /\ mbe y x = Ok (Fin (-2)) /\
  rmse x y = Ok (Fin 2) /\ rmse y x = Ok (Fin 2) /\ rmse x x = Ok (Fin 0) /\
  rmap Rsum (squared_error x y) = Ok 40 /\ rmap Rsum (absolute_error x y) = Ok 20 /\
  rmap Rsum (bias_error x y) = Ok 20 /\ rmap Rsum (bias_error y x) = Ok (-20).
Proof.
  reval. rdec. rabs.
  assert (S4 : forall x, x = 4 -> sqrt x = 2) by (intros x ->; replace 4 with (2 * 2) by lra; apply sqrt_square; lra).
  assert (S0 : forall x, x = 0 -> sqrt x = 0) by (intros x ->; apply sqrt_0).
  same; try (apply S4; lra); try (apply S0; lra); lra.
Qed.

Definition day0 : Z := (18008 * day_ns)%Z.
Definition ghi_test : tser :=
  [(day0, Some 1); ((day0 + ns)%Z, Some 2); ((day0 + 2 * ns)%Z, Some 4); ((day0 + 3 * ns)%Z, Some 7); ((day0 + 4 * ns)%Z, Some 11);
   ((day0 + 5 * ns)%Z, Some 16)].
Lemma insert_le a b l : a <= b -> insert_by Rleb a (b :: l) = a :: b :: l.
Proof. intro H. cbn. now rewrite Rleb_true. Qed.
Lemma insert_gt a b l : b < a -> insert_by Rleb a (b :: l) = b :: insert_by Rleb a l.
Proof. intro H. cbn. now rewrite Rleb_false. Qed.
Lemma insert_nil (a : R) : insert_by Rleb a [] = [a].
Proof. reflexivity. Qed.
Ltac sorted := unfold rsort, sort_by; cbn [fold_right];
  repeat (first [rewrite insert_nil | rewrite insert_le by lra | rewrite insert_gt by lra]); reflexivity.
(** A rank among numbers that are already in order. *)
Lemma rank_sorted l a : rsort l = l -> rank_pct l a =
  Rmean (map (fun i => INR i + 1) (filter (fun i => Reqb (nth i l 0) a) (seq 0 (length l)))) / INR (length l).
Proof. intro E. unfold rank_pct. now rewrite E. Qed.
Ltac ranks := repeat match goal with |- context [rank_pct ?l ?a] =>
  let E := fresh in assert (E : rsort l = l) by sorted; rewrite (rank_sorted l a E); clear E end;
  unfold Rmean; cbn [length seq filter nth]; repeat rdec1; cbn [map length Rsum fold_right]; lit.
Lemma vs_core_ramps tau l x : map Rabs (present (sdiff tau l)) = x ->
  vs_core tau l = nan_reduce Rmax_of (map (fun a => a * (1 - rank_pct x a)) x).
Proof. intros <-. reflexivity. Qed.

(*@ex C35 tests/test_stats.py:117-121,263-290: the variability scores of 1, 2, 4, 7, 11, 16 at one-second steps. *)
Lemma repo_score_example :
  variability_score ghi_test 1 false false = Ok (Fin (12 / 10)) /\
  variability_score (map (fun r => (fst r, option_map (Rmult 100) (snd r))) ghi_test) 1 false true = Ok (Fin 12) /\
  variability_score ghi_test 2 false false = Ok (Fin (25 / 10)).
Proof.
  unfold variability_score, vs_plain. cbn [andb].
  rewrite (vs_core_ramps 1 (values ghi_test) [1; 2; 3; 4; 5]) by (reval; rabs; same; lra).
  rewrite (vs_core_ramps 2 (values ghi_test) [3; 5; 7; 9]) by (reval; rabs; same; lra).
  rewrite (vs_core_ramps 1 _ [100; 200; 300; 400; 500]) by (reval; rabs; same; lra).
  cbn [map]. ranks. cbn [nan_reduce Rmax_of Rmaxl fold_left fmul]. rmax. same; lra.
Qed.
Lemma py_int_pos (k : Z) x : (0 <= k)%Z -> x = IZR k -> py_int x = k.
Proof.
  intros H ->. now apply py_int_IZR.
Qed.
Lemma block_average_at tau d s t0 : regular t0 d s -> (2 <= length s)%nat -> (0 <= tau * d)%Z ->
  block_average tau (index_step (stamps s)) s = resample_mean (tau * d) s.
Proof.
  intros Rg L P. unfold block_average. rewrite (regular_step t0 d) by easy. f_equal. apply py_int_pos; [easy|].
  now rewrite mult_IZR.
Qed.
(*@ex C36 tests/test_stats.py:279-281: the same record averaged over pairs of samples. *)
Lemma repo_score_average_example : variability_score ghi_test 2 true false = Ok (Fin 2).
Proof.
  unfold variability_score. change (true && (1 <? 2)%Z) with true. cbv iota.
  rewrite (block_average_at 2 1 ghi_test day0) by (reflexivity || (cbn; lia)).
  assert (E : rmap values (resample_mean (2 * 1) ghi_test) = Ok [Some (3 / 2); Some (11 / 2); Some (27 / 2)]).
  { reval. lit. same; lra. }
  destruct (resample_mean (2 * 1) ghi_test) as [rs|]; [|discriminate]. cbn [rmap] in E. injection E as E.
  change (Ok (vs_core 1 (values rs)) = Ok (Fin 2)). rewrite E.
  rewrite (vs_core_ramps 1 _ [4; 8]) by (reval; rabs; same; lra).
  cbn [map]. ranks. cbn [nan_reduce Rmax_of Rmaxl fold_left fmul]. rmax. same; lra.
Qed.

(** One value a minute, all 5 but the one at position [k]. *)
Definition bump (k : nat) : tser := map (fun i => ((day0 + Z.of_nat i * (60 * ns))%Z, Some (if Nat.eqb i k then 6 else 5))) (seq 0 8).
(*@ex C37 tests/test_stats.py:129-160: variability index of a record with one raised value, cut to eight rows. *)
Lemma repo_index_example :
  variability_index (Pandas (bump 9)) (bump 9) 1 false = Ok (Fin 1) /\
  variability_index (Pandas (bump 5)) (bump 9) 1 false = Ok (Fin ((5 + 2 * sqrt 2) / 7)) /\
  variability_index NotPandas (bump 9) 1 true = Err TypeError /\
  variability_index (Pandas (bump 5)) (bump 9) 2 false = Ok (Fin ((2 * 1 + 2 * sqrt (2 ^ 2 + (1 / 2) ^ 2)) / (2 * 3))).
Proof.
  assert (Rg : forall k, regular day0 60 (bump k)) by (intro; reflexivity).
  assert (RsC : resample_mean (2 * 60) (bump 9) = Ok (map (fun i => ((day0 + Z.of_nat i * (120 * ns))%Z, Some 5)) (seq 0 4))).
  { reval. lit. same; lra. }
  assert (RsG : resample_mean (2 * 60) (bump 5) = Ok (map (fun i => ((day0 + Z.of_nat i * (120 * ns))%Z, Some (if Nat.eqb i 2 then 11 / 2 else 5))) (seq 0 4))).
  { reval. lit. same; lra. }
  assert (S1 : sqrt ((5 - 5) ^ 2 + (60 / 60) ^ 2) = 1) by (replace ((5 - 5) ^ 2 + (60 / 60) ^ 2) with (1 * 1) by field; apply sqrt_square; lra).
  assert (S2 : sqrt ((5 - 5) ^ 2 + (120 / 60) ^ 2) = 2) by (replace ((5 - 5) ^ 2 + (120 / 60) ^ 2) with (2 * 2) by field; apply sqrt_square; lra).
  assert (V : forall g c d t, regular t d g -> (2 <= length g)%nat -> vi_core g c false =
    fdiv (Fin (path_length (IZR d / 60) (values g))) (Fin (path_length (IZR d / 60) (values c)))).
  { intros g c d t H L. unfold vi_core. now rewrite (regular_step t d). }
  unfold variability_index. change (1 <? 1)%Z with false. change (1 <? 2)%Z with true. cbv iota.
  rewrite (block_average_at 2 60 (bump 5) day0) by (reflexivity || (cbn; lia)). rewrite RsG.
  assert (E : forall s, block_average 2 (index_step (stamps (bump 5))) s = resample_mean (2 * 60) s).
  { intro s. unfold block_average. rewrite (regular_step day0 60) by (reflexivity || (cbn; lia)). f_equal. apply py_int_pos; [lia|now rewrite mult_IZR]. }
  rewrite E, RsC. cbv beta iota delta [rbind].
  rewrite !(V _ _ 60%Z day0) by (reflexivity || (cbn; lia)).
  rewrite (V _ _ 120%Z day0) by (reflexivity || (cbn; lia)).
  reval. rewrite ?S1, ?S2.
  replace ((6 - 5) ^ 2 + (60 / 60) ^ 2) with 2 by field. replace ((5 - 6) ^ 2 + (60 / 60) ^ 2) with 2 by field.
  replace ((11 / 2 - 5) ^ 2 + (120 / 60) ^ 2) with (2 ^ 2 + (1 / 2) ^ 2) by field.
  replace ((5 - 11 / 2) ^ 2 + (120 / 60) ^ 2) with (2 ^ 2 + (1 / 2) ^ 2) by field.
  rdec. same; lra.
Qed.
(*@ex C38 tests/test_stats.py:180-222: aggregate ramp rate of a record with one raised value, cut to eight rows. *)
Lemma repo_darr_example :
  darr (Pandas (bump 9)) 1 true false = Ok 0 /\ darr (Pandas (bump 2)) 1 false false = Ok 2 /\
  darr (Pandas (bump 2)) 1 true false = Ok 2 /\ darr NotPandas 1 false false = Err TypeError /\
  darr (Pandas (bump 2)) 1 true true = Ok (2 * 100 / 1000) /\ darr (Pandas (bump 2)) 2 false false = Ok 2 /\
  darr (Pandas (bump 2)) 2 true false = Ok 1.
Proof.
  assert (RsG : resample_mean (2 * 60) (bump 2) = Ok (map (fun i => ((day0 + Z.of_nat i * (120 * ns))%Z, Some (if Nat.eqb i 1 then 11 / 2 else 5))) (seq 0 4))).
  { reval. lit. same; lra. }
  assert (L : darr (Pandas (bump 2)) 2 true false = Ok 1).
  { unfold darr. change (true && (1 <? 2)%Z) with true. cbv iota.
    rewrite (block_average_at 2 60 (bump 2) day0) by (reflexivity || (cbn; lia)). rewrite RsG. cbv beta iota delta [rbind].
    reval. rabs. same; lra. }
  rewrite L. reval. rabs. same; lra.
Qed.

Definition two_a_day : list qrow :=
  flat_map (fun d => [((d, 0)%Z, Some 5); ((d, 23 * 3600 * ns)%Z, Some 5)]) [0; 1; 2; 3; 4]%Z.
(*@ex C39 tests/test_stats.py:84-113: no quantile on the second evening, 5 from the third midnight on. *)
Lemma repo_quantile_example : forall nm, nm = SeriesName (Some "ColName"%string) \/ nm = FrameCols [Some "ColName"%string] ->
  (exists out, calc_quantile two_a_day nm 2 (9 / 10) = Ok ("ColName_quant"%string, out) /\
     find_row out (1, 23 * 3600 * ns)%Z = Some None /\ find_row out (2, 0)%Z = Some (Some 5)) /\
  calc_quantile two_a_day (FrameCols [Some "ColName"%string; Some "Another"%string]) 2 (9 / 10) = Err ValueError.
Proof.
  intros nm Hn. split; [|destruct Hn as [-> | ->]; reflexivity].
  assert (Q3 : quantile (9 / 10) [5; 5; 5] = 5) by (apply quantile_const; [lra|easy|intros x H; cbn in H; intuition lra]).
  assert (B0 : Rltb (9 / 10) 0 = false) by (apply Rltb_false; lra).
  assert (B1 : Rltb 1 (9 / 10) = false) by (apply Rltb_false; lra).
  destruct Hn as [-> | ->]; cbv -[Rltb quantile IZR Rdiv Rmult Rinv];
    repeat (rewrite B0, B1; cbv -[Rltb quantile IZR Rdiv Rmult Rinv]); rewrite Q3;
    eexists; (split; [reflexivity|]); split; reflexivity.
Qed.

(*@ex C40 tests/test_irradiance.py:10-38: the six by six table of measured and modelled values, bound 2 and bound 1.5. *)
Lemma repo_csi_example :
  let g := [Fin (-1); Fin 0; Fin 1; Fin 500; Fin 1000; Nan] in
  let table mx := map (fun cs => clearsky_index (Col g) [cs; cs; cs; cs; cs; cs] mx) g in
  table (Fin 2) =
    [Col [Fin 1; Fin 0; Fin 0; Fin 0; Fin 0; Nan]; Col [Fin 0; Fin 0; Fin 0; Fin 0; Fin 0; Nan];
     Col [Fin 0; Fin 0; Fin 1; Fin 2; Fin 2; Nan]; Col [Fin 0; Fin 0; Fin (2 / 1000); Fin 1; Fin 2; Nan];
     Col [Fin 0; Fin 0; Fin (1 / 1000); Fin (1 / 2); Fin 1; Nan]; Col [Nan; Nan; Nan; Nan; Nan; Nan]] /\
  table (Fin (3 / 2)) =
    [Col [Fin 1; Fin 0; Fin 0; Fin 0; Fin 0; Nan]; Col [Fin 0; Fin 0; Fin 0; Fin 0; Fin 0; Nan];
     Col [Fin 0; Fin 0; Fin 1; Fin (3 / 2); Fin (3 / 2); Nan]; Col [Fin 0; Fin 0; Fin (2 / 1000); Fin 1; Fin (3 / 2); Nan];
     Col [Fin 0; Fin 0; Fin (1 / 1000); Fin (1 / 2); Fin 1; Nan]; Col [Nan; Nan; Nan; Nan; Nan; Nan]].
Proof.
  cbv zeta. cbv [map clearsky_index map2 combine fst snd].
  split; same; unfold pvlib_csi, fdiv, sgn_inf; repeat rdec1; cbn [is_finite negb orb];
    unfold fmaximum, fminimum, fleb; cbn [is_nan orb]; repeat (rdec1; cbv iota; cbn [is_nan orb]); try reflexivity; same; lra.
Qed.

(*@ex C01 tests/test_spatial.py:59-69 *)
Lemma repo_zone_example : map calc_zone [-179; -180; 179; 180; 6; 9; 12] = [1; 1; 60; 60; 32; 32; 33]%Z.
Proof.
  cbn [map]. unfold calc_zone.
  rewrite (py_int_eq ((-179 - -180) / 6 + 1) 1), (py_int_eq ((-180 - -180) / 6 + 1) 1), (py_int_eq ((179 - -180) / 6 + 1) 60),
    (py_int_eq ((180 - -180) / 6 + 1) 61), (py_int_eq ((6 - -180) / 6 + 1) 32), (py_int_eq ((9 - -180) / 6 + 1) 32),
    (py_int_eq ((12 - -180) / 6 + 1) 33) by (lia || lra).
  reflexivity.
Qed.

Lemma two_roots : sqrt 2 * sqrt 2 = 2.
Proof. apply sqrt_sqrt. lra. Qed.
(*@ex C07 tests/test_spatial.py:318-344 *)
Lemma repo_polar_example :
  rect2pol 1 0 = (1, 0) /\ rect2pol 0 1 = (1, PI / 2) /\ rect2pol 1 1 = (sqrt 2, PI / 4) /\ rect2pol 1 (-1) = (sqrt 2, - (PI / 4)) /\
  pol2rect 1 0 = (1, 0) /\ pol2rect 1 (PI / 2) = (0, 1) /\ pol2rect (sqrt 2) (PI / 4) = (1, 1) /\ pol2rect (sqrt 2) (- (PI / 4)) = (1, -1).
Proof.
  pose proof two_roots as T. assert (N : sqrt 2 <> 0) by (intro E; rewrite E in T; lra).
  unfold rect2pol, pol2rect, magnitude, arctan2. cbn [fst snd]. repeat rdec1. cbv iota.
  rewrite cos_0, sin_0, cos_PI2, sin_PI2, cos_neg, sin_neg, cos_PI4, sin_PI4.
  replace (0 / 1) with 0 by field. replace (1 / 1) with 1 by field. replace (-1 / 1) with (- (1)) by field.
  rewrite atan_opp, atan_0, atan_1.
  replace (1 ^ 2 + 0 ^ 2) with 1 by ring. replace (0 ^ 2 + 1 ^ 2) with 1 by ring.
  replace (1 ^ 2 + 1 ^ 2) with 2 by ring. replace (1 ^ 2 + (-1) ^ 2) with 2 by ring. rewrite sqrt_1.
  same; try ring; field; exact N.
Qed.
(*@ex C08 tests/test_spatial.py:347-385 *)
Lemma repo_rotate_example :
  rotate_vector (1, 0) (PI / 2) = (0, 1) /\ rotate_vector (1, 0) (- (PI / 2)) = (0, -1) /\
  rotate_vector (1, 1) (PI / 2) = (-1, 1) /\ rotate_vector (1, 1) (- (PI / 2)) = (1, -1) /\
  rotate_vector (1, 1) (PI / 4) = (0, sqrt 2) /\
  rotate_block [1; 0; 1] [0; 1; 1] (PI / 2) = ([0; -1; -1], [1; 0; 1]).
Proof.
  pose proof two_roots as T. assert (N : sqrt 2 <> 0) by (intro E; rewrite E in T; lra).
  unfold rotate_block, rotate_vector. cbn [fst snd]. rewrite cos_neg, sin_neg, cos_PI2, sin_PI2, cos_PI4, sin_PI4.
  cbv [map2 combine map fst snd]. same; try ring.
  field_simplify; [|exact N]. replace 2 with (sqrt 2 * sqrt 2) at 1 by exact T. field. exact N.
Qed.
(*@ex C09 tests/test_spatial.py:42-56,388-393 *)
Lemma repo_project_example : let c45 := / sqrt 2 in
  let dxdy := [(0, 0); (-1, 0); (1, 0); (0, 1); (0, -1); (1, 1); (3, -4)] in
  project_vectors dxdy (1, 0) = map Fin [0; -1; 1; 0; 0; 1; 3] /\
  project_vectors dxdy (0, 1) = map Fin [0; 0; 0; 1; -1; 1; -4] /\
  project_vectors dxdy (1, 1) = map Fin [0; - c45; c45; c45; - c45; 2 * c45; 3 * c45 - 4 * c45].
Proof.
  pose proof two_roots as T. assert (N : sqrt 2 <> 0) by (intro E; rewrite E in T; lra).
  cbv zeta. unfold project_vectors, unit_vec, magnitude. cbn [fst snd].
  replace (1 ^ 2 + 0 ^ 2) with 1 by ring. replace (0 ^ 2 + 1 ^ 2) with 1 by ring. replace (1 ^ 2 + 1 ^ 2) with 2 by ring. rewrite sqrt_1.
  rewrite !fdiv_fin by (exact N || lra). cbn [map fmul fadd fst snd]. same; field; exact N.
Qed.
(*@ex C10 tests/test_spatial.py:396-411 *)
Lemma repo_vectors_example : compute_vectors [9; 8; 10; 9; 9; 10; 12] [0; 0; 0; 1; -1; 1; -4] [9; 0] =
  Ok [(0, 0); (-1, 0); (1, 0); (0, 1); (0, -1); (1, 1); (3, -4)].
Proof.
  cbn. same; lra.
Qed.
(*@ex C11 tests/test_spatial.py:430-483: eight of the nine pairs of vectors and their intersections. *)
Lemma repo_intersection_example : let r2 := sqrt 2 in let r3 := sqrt 3 in
  compute_intersection
    [(1, 0); (1 / r2, 1 / r2); (-1 / r2, -1 / r2); (4, 0); (1, 0); (3, 0); (r2, 0); (r3, 1)]
    [(0, 1); (1 / r2, -1 / r2); (-1 / r2, 1 / r2); (0, 1); (0, 4); (0, 4); (1 / r2, 1 / r2); (r3, -1)] =
  Ok (map (fun p => (Fin (fst p), Fin (snd p)))
    [(1, 1); (r2, 0); (- r2, 0); (4, 1); (1, 4); (3, 4); (r2, 0); (4 / r3, 0)]).
Proof.
  pose proof two_roots as T. assert (N : sqrt 2 <> 0) by (intro E; rewrite E in T; lra).
  assert (T3 : sqrt 3 * sqrt 3 = 3) by (apply sqrt_sqrt; lra). assert (N3 : sqrt 3 <> 0) by (intro E; rewrite E in T3; lra).
  cbv zeta. set (r := sqrt 2) in *. set (q := sqrt 3) in *.
  assert (I : 1 / r * (1 / r) = 1 / 2) by (field_simplify; [|exact N]; replace (r ^ 2) with 2 by (rewrite <- T; ring); reflexivity).
  assert (H : r / 2 = 1 / r) by (replace 2 with (r * r) at 1; field; exact N).
  cbv [compute_intersection length Nat.eqb map2 combine map fst snd intersection1].
  set (h := 1 / r) in *. replace (-1 / r) with (- h) by (unfold h; field; exact N).
  assert (HR : r = 2 * h) by lra.
  assert (F : forall n d v, d <> 0 -> n = v * d -> fdiv (Fin n) (Fin d) = Fin v).
  { intros n d v D ->. rewrite fdiv_fin by exact D. apply f_equal. field. exact D. }
  clearbody h. rewrite HR in *. clear HR N H T.
  assert (Q4 : 4 / q = 4 * q / 3) by (rewrite <- T3; field; exact N3). rewrite Q4.
  same; apply F; try lra; try nra.
Qed.
(*@ex C12 tests/test_spatial.py:486-522 *)
Lemma repo_spacetime_example :
  spacetime_distances [0; 100] [0; 0] [0] 10 (PI / 2) = Ok [[0; 100]; [100; 0]] /\
  spacetime_distances [0] [0] [0; 10] 1 (PI / 2) = Ok [[0; 10]; [10; 0]] /\
  spacetime_distances [0; 100] [0; 0] [0; 10] 1 (PI / 2) =
    Ok [[0; 10; 100; sqrt 10100]; [10; 0; sqrt 10100; 100]; [100; sqrt 10100; 0; 10]; [sqrt 10100; 100; 10; 0]] /\
  spacetime_distances [0; 100] [0; 0] [0; 10] 1 0 =
    Ok [[0; 10; 100; 90]; [10; 0; 110; 100]; [100; 110; 0; 10]; [90; 100; 10; 0]].
Proof.
  assert (Q : forall x y, 0 <= y -> x = y * y -> sqrt x = y) by (intros x y H ->; now apply sqrt_square).
  unfold spacetime_distances. rewrite cos_PI2, sin_PI2, cos_0, sin_0. reval.
  same; try (apply Q; lra); apply f_equal; lra.
Qed.
(*@ex C61 tests/synthirrad/test_copula.py:14-16 *)
Lemma repo_sigmoid_example : sigmoid (1 / 2) 1 (1 / 2) = 1 / 2 /\ sigmoid 1 10 1 = 1 / 2.
Proof.
  unfold sigmoid. replace (- (1) * (1 / 2 - 1 / 2)) with 0 by field. replace (- (10) * (1 - 1)) with 0 by ring. rewrite exp_0. lra.
Qed.
(*@ex C62 tests/synthirrad/test_copula.py:37-44 *)
Lemma repo_decay_example :
  exponential_decay (Scalar (1 / 2)) 10 = Scalar (25 / 10) /\ exponential_decay (Scalar (1 / 2)) 1 = Scalar (1 / 4) /\
  exponential_decay (Scalar (1 / 2)) 0 = Scalar (1 / 100000) /\ exponential_decay (Scalar (1 / 100)) 10 = Scalar (99 / 1000) /\
  exponential_decay (Scalar (99 / 100)) 10 = Scalar (99 / 1000) /\
  exponential_decay (Scalar (1 / 10000)) 10 = Scalar (9999 / 10000000).
Proof.
  unfold exponential_decay, decay_one, decay_floor. repeat rdec1. cbv iota. repeat split; apply f_equal; lra.
Qed.
(*@ex C64 tests/synthirrad/test_copula.py:154-176 *)
Lemma repo_inverse_example : let x := [-2; -1; 0; 1; 2] in
  map (inverse_sample x [0; 1 / 4; 1 / 2; 3 / 4; 1]) [1 / 8; 1 / 2; 7 / 8] = [- (3 / 2); 0; 3 / 2] /\
  map (inverse_sample x [0; 1 / 10; 1 / 2; 9 / 10; 1]) [1 / 20; 1 / 2; 19 / 20] = [- (3 / 2); 0; 3 / 2] /\
  inverse_sample [-2; -1; 0; 2] [0; 1 / 2; 1 / 2; 1] (1 / 2) = -1.
Proof.
  cbv zeta.
  assert (U1 : np_unique [0; 1 / 4; 1 / 2; 3 / 4; 1] = combine [0; 1 / 4; 1 / 2; 3 / 4; 1] [0; 1; 2; 3; 4]%nat).
  { unfold np_unique. cbn [dedup existsb]. repeat rdec1. cbn [orb].
    replace (rsort _) with [0; 1 / 4; 1 / 2; 3 / 4; 1] by (symmetry; sorted). cbn [map first_index]. repeat rdec1. reflexivity. }
  assert (U2 : np_unique [0; 1 / 10; 1 / 2; 9 / 10; 1] = combine [0; 1 / 10; 1 / 2; 9 / 10; 1] [0; 1; 2; 3; 4]%nat).
  { unfold np_unique. cbn [dedup existsb]. repeat rdec1. cbn [orb].
    replace (rsort _) with [0; 1 / 10; 1 / 2; 9 / 10; 1] by (symmetry; sorted). cbn [map first_index]. repeat rdec1. reflexivity. }
  assert (U3 : np_unique [0; 1 / 2; 1 / 2; 1] = combine [0; 1 / 2; 1] [0; 1; 3]%nat).
  { unfold np_unique. cbn [dedup existsb]. repeat rdec1. cbn [orb].
    replace (rsort _) with [0; 1 / 2; 1] by (symmetry; sorted). cbn [map first_index]. repeat rdec1. reflexivity. }
  unfold inverse_sample. rewrite U1, U2, U3. cbn [map combine]. unfold np_interp. cbn [map fst snd nth app filter length].
  repeat (rdec1; cbn [length Nat.eqb nth]). same; lra.
Qed.
(*@ex C25 tests/test_field.py:221-246 *)
Lemma repo_cascade_example : let turn := [("A", "B"); ("B", "C"); ("C", "A"); ("D", "D")]%string in
  cascade_remap turn [("A", "A"); ("B", "B"); ("C", "C"); ("D", "D")]%string = Ok turn /\
  cascade_remap turn turn = Ok [("A", "C"); ("B", "A"); ("C", "B"); ("D", "D")]%string.
Proof.
  split; vm_compute; reflexivity.
Qed.
(*@ex C70 tests/synthirrad/test_cloudfield.py:226-262 *)
Lemma repo_weights_example :
  calc_vs_weights [1; 2; 3] (-1 / 2) = Err ValueError /\
  calc_vs_weights [1; 2; 3] 0 = Ok [Fin 1; Fin 0; Fin 0] /\
  calc_wavelet_weights [[Some 0; Some 0; Some 0]; [Some 0; Some 0; Some 0]; [Some 0; Some 0; Some 0]] = [Nan; Nan; Nan] /\
  calc_wavelet_weights [[Some 1; Some (-2); Some 3]; [Some (-4); Some 5; Some (-6)]; [Some 7; Some (-8); Some 9]] =
    [Fin (14 / 285); Fin (77 / 285); Fin (194 / 285)].
Proof.
  unfold calc_vs_weights, vs_exponent. repeat rdec1. cbv iota. cbn [map np_pow]. repeat rdec1. reval. rdec.
  same; lra.
Qed.
(*@ex C72 tests/synthirrad/test_cloudfield.py:100-118 *)
Lemma repo_mask_example : forall field,
  calc_clear_mask field (11 / 10) = Err ValueError /\ calc_clear_mask field (- (1 / 10)) = Err ValueError /\
  calc_clear_mask [[1 / 2; 1 / 3]; [1 / 4; 1 / 5]] 0 = Ok [[0; 0]; [0; 0]].
Proof.
  intro field. unfold calc_clear_mask. repeat rdec1. cbn [orb]. split; [reflexivity|]. split; [reflexivity|].
  cbn [concat app map]. unfold isclose. cbn [concat app map Rsum fold_right length]. lit. rabs. rdec1. reflexivity.
Qed.
(*@ex C73 tests/synthirrad/test_cloudfield.py:135-157: the all-zero mask, and a mask split in two (cut to eight rows of one
    column; four rows of the smoothed mask are set, as in the test). *)
Lemma repo_edges_example :
  find_edges [[0]; [0]; [0]] 3 0 = Ok ([[0]; [0]; [0]], [[false]; [false]; [false]]) /\
  find_edges [[1]; [1]; [1]; [1]; [0]; [0]; [0]; [0]] 3 0 =
    Ok ([[0]; [0]; [0]; [16]; [16]; [0]; [0]; [0]], [[false]; [false]; [true]; [true]; [true]; [true]; [false]; [false]]).
Proof.
  assert (E0 : map2 (map2 (fun a b => Rabs (a ^ 2 + b ^ 2))) (sobel0 [[0]; [0]; [0]]) (sobel1 [[0]; [0]; [0]]) = [[0]; [0]; [0]]).
  { reval. rabs. same; lra. }
  assert (E1 : map2 (map2 (fun a b => Rabs (a ^ 2 + b ^ 2))) (sobel0 [[1]; [1]; [1]; [1]; [0]; [0]; [0]; [0]])
    (sobel1 [[1]; [1]; [1]; [1]; [0]; [0]; [0]; [0]]) = [[0]; [0]; [0]; [16]; [16]; [0]; [0]; [0]]).
  { reval. rabs. same; lra. }
  assert (U0 : uniform_filter 3 [[0]; [0]; [0]] = [[0]; [0]; [0]]) by (reval; lit; same; lra).
  assert (U1 : uniform_filter 3 [[0]; [0]; [0]; [16]; [16]; [0]; [0]; [0]] =
    [[0]; [0]; [16 / 3]; [32 / 3]; [32 / 3]; [16 / 3]; [0]; [0]]) by (reval; lit; same; lra).
  unfold find_edges. rewrite E0, E1, U0, U1. cbn [map]. repeat rdec1. cbv iota. cbn [concat app Rmax_of Rmaxl fold_left]. rmax.
  unfold fdiv, sgn_inf. repeat rdec1. cbn [fltb]. repeat rdec1. split; reflexivity.
Qed.
