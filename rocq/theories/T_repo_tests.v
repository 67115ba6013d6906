(** Property theorems. The model against the project's own unit tests: expected values of /repo/tests replayed on the model.
    Proofs are in the X_ file of the same name. *)
From Coq Require Import String List Reals Lra Lia ZArith.
From Verif Require Import Prelude RealBase Fl RealStat M_spatial M_stats M_copula M_cloudfield M_field_remap P_resample Spec_stats X_spatial_zone.
Local Open Scope R_scope.
From Verif Require Import X_repo_tests.

(** C32. tests/test_stats.py:24-77: baseline 0..9, estimation 2..11, and the other way round. *)
Example C32_repo_errors_example :
  let x := [0; 1; 2; 3; 4; 5; 6; 7; 8; 9] in let y := [2; 3; 4; 5; 6; 7; 8; 9; 10; 11] in
  mse x y = Ok (Fin 4) /\ mae x y = Ok (Fin 2) /\ mbe x y = Ok (Fin 2) /\ mbe y x = Ok (Fin (-2)) /\
  rmse x y = Ok (Fin 2) /\ rmse y x = Ok (Fin 2) /\ rmse x x = Ok (Fin 0) /\
  rmap Rsum (squared_error x y) = Ok 40 /\ rmap Rsum (absolute_error x y) = Ok 20 /\
  rmap Rsum (bias_error x y) = Ok 20 /\ rmap Rsum (bias_error y x) = Ok (-20).
Proof. exact (@repo_errors_example). Qed.

(** C35. tests/test_stats.py:117-121,263-290: the variability scores of 1, 2, 4, 7, 11, 16 at one-second steps. *)
Example C35_repo_score_example :
  variability_score ghi_test 1 false false = Ok (Fin (12 / 10)) /\
  variability_score (map (fun r => (fst r, option_map (Rmult 100) (snd r))) ghi_test) 1 false true = Ok (Fin 12) /\
  variability_score ghi_test 2 false false = Ok (Fin (25 / 10)).
Proof. exact (@repo_score_example). Qed.

(** C36. tests/test_stats.py:279-281: the same record averaged over pairs of samples. *)
Example C36_repo_score_average_example :
  variability_score ghi_test 2 true false = Ok (Fin 2).
Proof. exact (@repo_score_average_example). Qed.

(** C37. tests/test_stats.py:129-160: variability index of a record with one raised value, cut to eight rows. *)
Example C37_repo_index_example :
  variability_index (Pandas (bump 9)) (bump 9) 1 false = Ok (Fin 1) /\
  variability_index (Pandas (bump 5)) (bump 9) 1 false = Ok (Fin ((5 + 2 * sqrt 2) / 7)) /\
  variability_index NotPandas (bump 9) 1 true = Err TypeError /\
  variability_index (Pandas (bump 5)) (bump 9) 2 false = Ok (Fin ((2 * 1 + 2 * sqrt (2 ^ 2 + (1 / 2) ^ 2)) / (2 * 3))).
Proof. exact (@repo_index_example). Qed.

(** C38. tests/test_stats.py:180-222: aggregate ramp rate of a record with one raised value, cut to eight rows. *)
Example C38_repo_darr_example :
  darr (Pandas (bump 9)) 1 true false = Ok 0 /\ darr (Pandas (bump 2)) 1 false false = Ok 2 /\
  darr (Pandas (bump 2)) 1 true false = Ok 2 /\ darr NotPandas 1 false false = Err TypeError /\
  darr (Pandas (bump 2)) 1 true true = Ok (2 * 100 / 1000) /\ darr (Pandas (bump 2)) 2 false false = Ok 2 /\
  darr (Pandas (bump 2)) 2 true false = Ok 1.
Proof. exact (@repo_darr_example). Qed.

(** C39. tests/test_stats.py:84-113: no quantile on the second evening, 5 from the third midnight on. *)
Example C39_repo_quantile_example :
  forall nm, nm = SeriesName (Some "ColName"%string) \/ nm = FrameCols [Some "ColName"%string] ->
  (exists out, calc_quantile two_a_day nm 2 (9 / 10) = Ok ("ColName_quant"%string, out) /\
     find_row out (1, 23 * 3600 * ns)%Z = Some None /\ find_row out (2, 0)%Z = Some (Some 5)) /\
  calc_quantile two_a_day (FrameCols [Some "ColName"%string; Some "Another"%string]) 2 (9 / 10) = Err ValueError.
Proof. exact (@repo_quantile_example). Qed.

(** C40. tests/test_irradiance.py:10-38: the six by six table of measured and modelled values, bound 2 and bound 1.5. *)
Example C40_repo_csi_example :
  let g := [Fin (-1); Fin 0; Fin 1; Fin 500; Fin 1000; Nan] in
  let table mx := map (fun cs => clearsky_index (Col g) [cs; cs; cs; cs; cs; cs] mx) g in
  table (Fin 2) =
    [Col [Fin 1; Fin 0; Fin 0; Fin 0; Fin 0; Nan]; Col [Fin 0; Fin 0; Fin 0; Fin 0; Fin 0; Nan];
     Col [Fin 0; Fin 0; Fin 1; Fin 2; Fin 2; Nan]; Col [Fin 0; Fin 0; Fin (2 / 1000); Fin 1; Fin 2; Nan];
     Col [Fin 0; Fin 0; Fin (1 / 1000); Fin (1 / 2); Fin 1; Nan]; Col [Nan; Nan; Nan; Nan; Nan; Nan]] /\
  table (Fin (3 / 2)) =
    [Col [Fin 1; Fin 0; Fin 0; Fin 0; Fin 0; Nan]; Col [Fin 0; Fin 0; Fin 0; Fin 0; Fin 0; Nan];
     Col [Fin 0; Fin 0; Fin 1; Fin (3 / 2); Fin (3 / 2); Nan]; Col [Fin 0; Fin 0; Fin (2 / 1000); Fin 1; Fin (3 / 2); Nan];
     Col [Fin 0; Fin 0; Fin (1 / 1000); Fin (1 / 2); Fin 1; Nan]; Col [Nan; Nan; Nan; Nan; Nan; Nan]].
Proof. exact (@repo_csi_example). Qed.

(** C01. tests/test_spatial.py:59-69 *)
Example C01_repo_zone_example :
  map calc_zone [-179; -180; 179; 180; 6; 9; 12] = [1; 1; 60; 60; 32; 32; 33]%Z.
Proof. exact (@repo_zone_example). Qed.

(** C07. tests/test_spatial.py:318-344 *)
Example C07_repo_polar_example :
  rect2pol 1 0 = (1, 0) /\ rect2pol 0 1 = (1, PI / 2) /\ rect2pol 1 1 = (sqrt 2, PI / 4) /\ rect2pol 1 (-1) = (sqrt 2, - (PI / 4)) /\
  pol2rect 1 0 = (1, 0) /\ pol2rect 1 (PI / 2) = (0, 1) /\ pol2rect (sqrt 2) (PI / 4) = (1, 1) /\ pol2rect (sqrt 2) (- (PI / 4)) = (1, -1).
Proof. exact (@repo_polar_example). Qed.

(** C08. tests/test_spatial.py:347-385 *)
Example C08_repo_rotate_example :
  rotate_vector (1, 0) (PI / 2) = (0, 1) /\ rotate_vector (1, 0) (- (PI / 2)) = (0, -1) /\
  rotate_vector (1, 1) (PI / 2) = (-1, 1) /\ rotate_vector (1, 1) (- (PI / 2)) = (1, -1) /\
  rotate_vector (1, 1) (PI / 4) = (0, sqrt 2) /\
  rotate_block [1; 0; 1] [0; 1; 1] (PI / 2) = ([0; -1; -1], [1; 0; 1]).
Proof. exact (@repo_rotate_example). Qed.

(** C09. tests/test_spatial.py:42-56,388-393 *)
Example C09_repo_project_example :
  let c45 := / sqrt 2 in
  let dxdy := [(0, 0); (-1, 0); (1, 0); (0, 1); (0, -1); (1, 1); (3, -4)] in
  project_vectors dxdy (1, 0) = map Fin [0; -1; 1; 0; 0; 1; 3] /\
  project_vectors dxdy (0, 1) = map Fin [0; 0; 0; 1; -1; 1; -4] /\
  project_vectors dxdy (1, 1) = map Fin [0; - c45; c45; c45; - c45; 2 * c45; 3 * c45 - 4 * c45].
Proof. exact (@repo_project_example). Qed.

(** C10. tests/test_spatial.py:396-411 *)
Example C10_repo_vectors_example :
  compute_vectors [9; 8; 10; 9; 9; 10; 12] [0; 0; 0; 1; -1; 1; -4] [9; 0] =
  Ok [(0, 0); (-1, 0); (1, 0); (0, 1); (0, -1); (1, 1); (3, -4)].
Proof. exact (@repo_vectors_example). Qed.

(** C11. tests/test_spatial.py:430-483: eight of the nine pairs of vectors and their intersections. *)
Example C11_repo_intersection_example :
  let r2 := sqrt 2 in let r3 := sqrt 3 in
  compute_intersection
    [(1, 0); (1 / r2, 1 / r2); (-1 / r2, -1 / r2); (4, 0); (1, 0); (3, 0); (r2, 0); (r3, 1)]
    [(0, 1); (1 / r2, -1 / r2); (-1 / r2, 1 / r2); (0, 1); (0, 4); (0, 4); (1 / r2, 1 / r2); (r3, -1)] =
  Ok (map (fun p => (Fin (fst p), Fin (snd p)))
    [(1, 1); (r2, 0); (- r2, 0); (4, 1); (1, 4); (3, 4); (r2, 0); (4 / r3, 0)]).
Proof. exact (@repo_intersection_example). Qed.

(** C12. tests/test_spatial.py:486-522 *)
Example C12_repo_spacetime_example :
  spacetime_distances [0; 100] [0; 0] [0] 10 (PI / 2) = Ok [[0; 100]; [100; 0]] /\
  spacetime_distances [0] [0] [0; 10] 1 (PI / 2) = Ok [[0; 10]; [10; 0]] /\
  spacetime_distances [0; 100] [0; 0] [0; 10] 1 (PI / 2) =
    Ok [[0; 10; 100; sqrt 10100]; [10; 0; sqrt 10100; 100]; [100; sqrt 10100; 0; 10]; [sqrt 10100; 100; 10; 0]] /\
  spacetime_distances [0; 100] [0; 0] [0; 10] 1 0 =
    Ok [[0; 10; 100; 90]; [10; 0; 110; 100]; [100; 110; 0; 10]; [90; 100; 10; 0]].
Proof. exact (@repo_spacetime_example). Qed.

(** C61. tests/synthirrad/test_copula.py:14-16 *)
Example C61_repo_sigmoid_example :
  sigmoid (1 / 2) 1 (1 / 2) = 1 / 2 /\ sigmoid 1 10 1 = 1 / 2.
Proof. exact (@repo_sigmoid_example). Qed.

(** C62. tests/synthirrad/test_copula.py:37-44 *)
Example C62_repo_decay_example :
  exponential_decay (Scalar (1 / 2)) 10 = Scalar (25 / 10) /\ exponential_decay (Scalar (1 / 2)) 1 = Scalar (1 / 4) /\
  exponential_decay (Scalar (1 / 2)) 0 = Scalar (1 / 100000) /\ exponential_decay (Scalar (1 / 100)) 10 = Scalar (99 / 1000) /\
  exponential_decay (Scalar (99 / 100)) 10 = Scalar (99 / 1000) /\
  exponential_decay (Scalar (1 / 10000)) 10 = Scalar (9999 / 10000000).
Proof. exact (@repo_decay_example). Qed.

(** C64. tests/synthirrad/test_copula.py:154-176 *)
Example C64_repo_inverse_example :
  let x := [-2; -1; 0; 1; 2] in
  map (inverse_sample x [0; 1 / 4; 1 / 2; 3 / 4; 1]) [1 / 8; 1 / 2; 7 / 8] = [- (3 / 2); 0; 3 / 2] /\
  map (inverse_sample x [0; 1 / 10; 1 / 2; 9 / 10; 1]) [1 / 20; 1 / 2; 19 / 20] = [- (3 / 2); 0; 3 / 2] /\
  inverse_sample [-2; -1; 0; 2] [0; 1 / 2; 1 / 2; 1] (1 / 2) = -1.
Proof. exact (@repo_inverse_example). Qed.

(** C25. tests/test_field.py:221-246 *)
Example C25_repo_cascade_example :
  let turn := [("A", "B"); ("B", "C"); ("C", "A"); ("D", "D")]%string in
  cascade_remap turn [("A", "A"); ("B", "B"); ("C", "C"); ("D", "D")]%string = Ok turn /\
  cascade_remap turn turn = Ok [("A", "C"); ("B", "A"); ("C", "B"); ("D", "D")]%string.
Proof. exact (@repo_cascade_example). Qed.

(** C70. tests/synthirrad/test_cloudfield.py:226-262 *)
Example C70_repo_weights_example :
  calc_vs_weights [1; 2; 3] (-1 / 2) = Err ValueError /\
  calc_vs_weights [1; 2; 3] 0 = Ok [Fin 1; Fin 0; Fin 0] /\
  calc_wavelet_weights [[Some 0; Some 0; Some 0]; [Some 0; Some 0; Some 0]; [Some 0; Some 0; Some 0]] = [Nan; Nan; Nan] /\
  calc_wavelet_weights [[Some 1; Some (-2); Some 3]; [Some (-4); Some 5; Some (-6)]; [Some 7; Some (-8); Some 9]] =
    [Fin (14 / 285); Fin (77 / 285); Fin (194 / 285)].
Proof. exact (@repo_weights_example). Qed.

(** C72. tests/synthirrad/test_cloudfield.py:100-118 *)
Example C72_repo_mask_example :
  forall field,
  calc_clear_mask field (11 / 10) = Err ValueError /\ calc_clear_mask field (- (1 / 10)) = Err ValueError /\
  calc_clear_mask [[1 / 2; 1 / 3]; [1 / 4; 1 / 5]] 0 = Ok [[0; 0]; [0; 0]].
Proof. exact (@repo_mask_example). Qed.

(** C73. tests/synthirrad/test_cloudfield.py:135-157: the all-zero mask, and a mask split in two (cut to eight rows of one
    column; four rows of the smoothed mask are set, as in the test). *)
Example C73_repo_edges_example :
  find_edges [[0]; [0]; [0]] 3 0 = Ok ([[0]; [0]; [0]], [[false]; [false]; [false]]) /\
  find_edges [[1]; [1]; [1]; [1]; [0]; [0]; [0]; [0]] 3 0 =
    Ok ([[0]; [0]; [0]; [16]; [16]; [0]; [0]; [0]], [[false]; [false]; [true]; [true]; [true]; [true]; [false]; [false]]).
Proof. exact (@repo_edges_example). Qed.

