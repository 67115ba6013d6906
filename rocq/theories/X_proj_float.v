(** spatial.py projections in floating point. *)
From Flocq Require Import Core Relative.
From Verif Require Import Prelude PreludeFacts RealBase M_spatial M_spatial_float X_spatial_zone X_trunc_float Spec_spatial P_plane Spec_dist_float M_dist_float X_dist_float M_proj_float.
Local Open Scope R_scope.

Local Existing Instance prec53.
Local Existing Instance b64_valid.

Lemma abs_sum_len a b : Rabs a + Rabs b <= 2 * len (a, b).
Proof.
  assert (K : forall x y, Rabs x <= len (x, y)).
  { intros x y. rewrite len_eq, <- (sqrt_Rsqr_abs x). apply sqrt_le_1_alt. unfold Rsqr. pose proof (sq_pos y). lra. }
  pose proof (K a b). pose proof (K b a) as B. rewrite len_eq in B. rewrite len_eq in *.
  rewrite (Rplus_comm (b * b)) in B. lra.
Qed.

Lemma mixed_bounds x B : Rabs x <= B -> Rabs (b64 x - x) <= u * B + bpow radix2 (-1074).
Proof. intro L. pose proof (b64_mixed x). pose proof u_pos. nra. Qed.

(** One product with a component of the unit vector. *)
Lemma product_close v w h : Rabs h <= 1 -> Rabs (w - h) <= 4 * u -> Rabs (b64 (v * w) - v * h) <= 6 * u * Rabs v + bpow radix2 (-1074).
Proof.
  intros H W. pose proof u_pos as U. pose proof u_small as U'. pose proof (Rabs_pos v) as V.
  assert (Aw : Rabs w <= 1 + 4 * u).
  { replace w with (h + (w - h)) by ring. eapply Rle_trans; [apply Rabs_triang|]. lra. }
  assert (M : Rabs (b64 (v * w) - v * w) <= u * (Rabs v * (1 + 4 * u)) + bpow radix2 (-1074)).
  { apply mixed_bounds. rewrite Rabs_mult. apply Rmult_le_compat_l; lra. }
  replace (b64 (v * w) - v * h) with ((b64 (v * w) - v * w) + v * (w - h)) by ring.
  eapply Rle_trans; [apply Rabs_triang|]. rewrite (Rabs_mult v (w - h)).
  assert (Rabs v * Rabs (w - h) <= Rabs v * (4 * u)) by (apply Rmult_le_compat_l; lra).
  assert (u * Rabs v * (1 + 4 * u) <= u * Rabs v * 2) by (apply Rmult_le_compat_l; [apply Rmult_le_pos; lra|lra]). lra.
Qed.

Lemma unit_component_le a b : (a, b) <> (0, 0) -> Rabs (a / len (a, b)) <= 1 /\ Rabs (b / len (a, b)) <= 1.
Proof.
  intro N. pose proof (len_pos _ N) as L.
  assert (K : forall x, Rabs x <= len (a, b) -> Rabs (x / len (a, b)) <= 1).
  { intros x X. unfold Rdiv. rewrite Rabs_mult, (Rabs_pos_eq (/ len (a, b))) by (left; now apply Rinv_0_lt_compat).
    apply Rmult_le_reg_r with (len (a, b)); [exact L|]. rewrite Rmult_assoc, Rinv_l, Rmult_1_r by lra. lra. }
  split; apply K; rewrite len_eq; [rewrite <- (sqrt_Rsqr_abs a)|rewrite <- (sqrt_Rsqr_abs b)]; apply sqrt_le_1_alt; unfold Rsqr;
    pose proof (sq_pos a); pose proof (sq_pos b); lra.
Qed.

(*@ C137 A projection computed in floating point is the exact one to within sixteen rounding units of the length of the
    projected vector (and 2^-1000), for every vector and every direction in the ordinary range. *)
Lemma project_close : forall v dir, ordinary (fst dir) -> ordinary (snd dir) -> dir <> (0, 0) ->
  Rabs (project1_b64 dir v - inner v dir / len dir) <= 16 * u * len v + bpow radix2 (-1000).
Proof.
  intros [x y] [a b] A B N. cbn [fst snd] in A, B. pose proof (unit_close (a, b) A B N) as [Ux Uy]. cbn [fst snd] in Ux, Uy.
  pose proof (unit_component_le a b N) as [Hx Hy]. pose proof (len_pos _ N) as L.
  assert (E51 : / 2 ^ 51 = 4 * u).
  { unfold unit_roundoff. replace (2 ^ 51) with 2251799813685248 by ring. lra. }
  rewrite E51 in Ux, Uy. unfold project1_b64. cbv zeta. cbn [fst snd].
  set (w := unit_b64 (a, b)) in *. set (hx := a / len (a, b)) in *. set (hy := b / len (a, b)) in *.
  assert (I : inner (x, y) (a, b) / len (a, b) = x * hx + y * hy) by (unfold inner, hx, hy; cbn [fst snd]; field; lra).
  rewrite I. pose proof (product_close x (fst w) hx Hx Ux) as P. pose proof (product_close y (snd w) hy Hy Uy) as Q.
  set (p := b64 (x * fst w)) in *. set (q := b64 (y * snd w)) in *. set (h := bpow radix2 (-1074)) in *.
  assert (Hh : 0 <= h) by apply bpow_ge_0. assert (H1000 : 8 * h <= bpow radix2 (-1000)).
  { unfold h. replace 8 with (bpow radix2 3) by reflexivity. rewrite <- bpow_plus. apply le_bpow. lia. }
  pose proof u_pos as U. pose proof u_small as U'. pose proof (Rabs_pos x) as Vx. pose proof (Rabs_pos y) as Vy.
  set (e := x * hx + y * hy) in *.
  assert (S1 : Rabs (p + q - e) <= 6 * u * (Rabs x + Rabs y) + 2 * h).
  { unfold e. replace (p + q - (x * hx + y * hy)) with ((p - x * hx) + (q - y * hy)) by ring. eapply Rle_trans; [apply Rabs_triang|]. lra. }
  assert (Ee : Rabs e <= Rabs x + Rabs y).
  { unfold e. eapply Rle_trans; [apply Rabs_triang|]. rewrite !Rabs_mult. nra. }
  assert (S2 : Rabs (p + q) <= 2 * (Rabs x + Rabs y) + 2 * h).
  { replace (p + q) with (e + (p + q - e)) by ring. eapply Rle_trans; [apply Rabs_triang|]. nra. }
  pose proof (mixed_bounds (p + q) _ S2) as M. fold h in M.
  replace (b64 (p + q) - e) with ((b64 (p + q) - (p + q)) + (p + q - e)) by ring. eapply Rle_trans; [apply Rabs_triang|].
  pose proof (abs_sum_len x y) as AL. assert (Z : 8 * u * (Rabs x + Rabs y) <= 16 * u * len (x, y)) by nra. nra.
Qed.

(*@ C137 The length of the direction is ignored, as documented, up to the same errors. *)
Lemma project_scale : forall v dir k, ordinary (fst dir) -> ordinary (snd dir) -> dir <> (0, 0) -> 0 < k ->
  ordinary (k * fst dir) -> ordinary (k * snd dir) ->
  Rabs (project1_b64 (k * fst dir, k * snd dir) v - project1_b64 dir v) <= 32 * u * len v + 2 * bpow radix2 (-1000).
Proof.
  intros v [a b] k A B N K A' B'. cbn [fst snd] in *. pose proof (len_pos _ N) as L.
  assert (N' : (k * a, k * b) <> (0, 0)).
  { intro E. injection E as E1 E2. apply N. f_equal; nra. }
  pose proof (project_close v (a, b) A B N) as P. pose proof (project_close v (k * a, k * b) A' B' N') as Q.
  assert (Lk : len (k * a, k * b) = k * len (a, b)).
  { rewrite !len_eq. replace (k * a * (k * a) + k * b * (k * b)) with (k ^ 2 * (a * a + b * b)) by ring. apply sqrt_scale; [lra|].
    pose proof (sq_pos a). pose proof (sq_pos b). lra. }
  assert (E : inner v (k * a, k * b) / len (k * a, k * b) = inner v (a, b) / len (a, b)).
  { rewrite Lk. unfold inner. cbn [fst snd]. field. lra. }
  rewrite E in Q. apply Rabs_le_inv in P, Q. apply Rabs_le. lra.
Qed.

Lemma unit_neg a b : unit_b64 (- a, - b) = (- fst (unit_b64 (a, b)), - snd (unit_b64 (a, b))).
Proof.
  unfold unit_b64. cbn [fst snd]. assert (M : magnitude_b64 (- a, - b) = magnitude_b64 (a, b)).
  { unfold magnitude_b64. cbn [fst snd]. now rewrite !Rmult_opp_opp. }
  rewrite M. unfold Rdiv. rewrite !Ropp_mult_distr_l_reverse, !b64_neg. reflexivity.
Qed.

(*@ C137 Reversing the vector or the direction reverses the sign of the computed projection and changes nothing else, bit
    for bit. *)
Lemma project_reversed : forall x y a b,
  project1_b64 (a, b) (- x, - y) = - project1_b64 (a, b) (x, y) /\ project1_b64 (- a, - b) (x, y) = - project1_b64 (a, b) (x, y).
Proof.
  intros x y a b. unfold project1_b64. cbv zeta. rewrite unit_neg. cbn [fst snd].
  rewrite !Ropp_mult_distr_l_reverse, !Ropp_mult_distr_r_reverse, !b64_neg.
  split; rewrite <- Ropp_plus_distr, b64_neg; reflexivity.
Qed.

(*@ C137 The two ends of a pair exchanged: the computed separation vector changes sign exactly, so its projection on any
    direction does too; and a site is at distance zero from itself. *)
Lemma separation_reversed : forall p q dir vp vq,
  compute_vectors_b64 [p] q = [vp] -> compute_vectors_b64 [q] p = [vq] ->
  vq = (- fst vp, - snd vp) /\ project_vectors_b64 [vq] dir = map Ropp (project_vectors_b64 [vp] dir) /\
  (p = q -> vp = (0, 0)).
Proof.
  intros [px py] [qx qy] [a b] vp vq P Q. unfold compute_vectors_b64 in P, Q. cbn [map fst snd] in P, Q. injection P as <-. injection Q as <-.
  assert (E : (b64 (qx - px), b64 (qy - py)) = (- b64 (px - qx), - b64 (py - qy))).
  { rewrite <- !b64_neg. f_equal; f_equal; ring. }
  split; [exact E|]. split.
  - cbn [project_vectors_b64 map]. rewrite E. f_equal. apply project_reversed.
  - intros [= -> ->]. rewrite !Rminus_diag_eq by reflexivity. now rewrite b64_zero.
Qed.

(*@ C137 The computed vector from the reference to a point is the exact one to one rounding unit in each component, in the
    order of the points. *)
Lemma vectors_close : forall points q i p, nth_error points i = Some p ->
  exists v, nth_error (compute_vectors_b64 points q) i = Some v /\
    Rabs (fst v - (fst p - fst q)) <= u * Rabs (fst p - fst q) + bpow radix2 (-1074) /\
    Rabs (snd v - (snd p - snd q)) <= u * Rabs (snd p - snd q) + bpow radix2 (-1074).
Proof.
  intros points q i p H. unfold compute_vectors_b64. rewrite nth_error_map, H. cbn [option_map].
  eexists. split; [reflexivity|]. cbn [fst snd]. split; apply b64_mixed.
Qed.

(*@ C137 The components pol2rect computes are the exact ones to a little over two rounding units of the radius, if the cosine
    and the sine are right to one rounding unit. *)
Lemma pol2rect_close : forall r theta c s, Rabs (c - cos theta) <= u -> Rabs (s - sin theta) <= u ->
  Rabs (fst (pol2rect_b64 r c s) - r * cos theta) <= (2 * u + u ^ 2) * Rabs r + bpow radix2 (-1074) /\
  Rabs (snd (pol2rect_b64 r c s) - r * sin theta) <= (2 * u + u ^ 2) * Rabs r + bpow radix2 (-1074).
Proof.
  intros r theta c s C S. pose proof u_pos as U. pose proof (Rabs_pos r) as P.
  assert (K : forall g h, Rabs h <= 1 -> Rabs (g - h) <= u -> Rabs (b64 (r * g) - r * h) <= (2 * u + u ^ 2) * Rabs r + bpow radix2 (-1074)).
  { intros g h H G. assert (Ag : Rabs g <= 1 + u).
    { replace g with (h + (g - h)) by ring. eapply Rle_trans; [apply Rabs_triang|]. lra. }
    assert (M : Rabs (b64 (r * g) - r * g) <= u * (Rabs r * (1 + u)) + bpow radix2 (-1074)).
    { apply mixed_bounds. rewrite Rabs_mult. apply Rmult_le_compat_l; lra. }
    replace (b64 (r * g) - r * h) with ((b64 (r * g) - r * g) + r * (g - h)) by ring.
    eapply Rle_trans; [apply Rabs_triang|]. rewrite (Rabs_mult r (g - h)).
    assert (Rabs r * Rabs (g - h) <= Rabs r * u) by (apply Rmult_le_compat_l; lra). nra. }
  split; apply K; try assumption; apply Rabs_le; [pose proof (COS_bound theta)|pose proof (SIN_bound theta)]; lra.
Qed.

(*@ C137 Projecting a whole list is projecting each vector, in order. *)
Lemma project_list : forall vs dir i v, nth_error vs i = Some v -> length (project_vectors_b64 vs dir) = length vs /\
  nth_error (project_vectors_b64 vs dir) i = nth_error (project_vectors_b64 [v] dir) 0.
Proof. intros vs dir i v H. unfold project_vectors_b64. rewrite map_length, nth_error_map, H. auto. Qed.

(*@ex C137 The direction (3, 4) is ordinary and not zero, and so is twice it; the vector (10, 0) has length 10 and its exact
    projection is 6. *)
Lemma proj_float_example : ordinary 3 /\ ordinary 4 /\ (3, 4) <> (0, 0) /\ ordinary (2 * 3) /\ ordinary (2 * 4) /\
  len (10, 0) = 10 /\ inner (10, 0) (3, 4) / len (3, 4) = 6 /\ compute_vectors_b64 [(7, 5)] (4, 1) = [(3, 4)].
Proof.
  split; [apply (ordinary_int 3); lia|]. split; [apply (ordinary_int 4); lia|]. split; [intros [= E _]; lra|].
  split; [replace (2 * 3) with 6 by ring; apply (ordinary_int 6); lia|]. split; [replace (2 * 4) with 8 by ring; apply (ordinary_int 8); lia|].
  split; [|split].
  - rewrite len_eq. replace (10 * 10 + 0 * 0) with (10 * 10) by ring. apply sqrt_square. lra.
  - assert (L : len (3, 4) = 5) by (rewrite len_eq; replace (3 * 3 + 4 * 4) with (5 * 5) by ring; apply sqrt_square; lra).
    rewrite L. unfold inner. cbn [fst snd]. field.
  - unfold compute_vectors_b64. cbn [map fst snd]. replace (7 - 4) with 3 by ring. replace (5 - 1) with 4 by ring.
    now rewrite (b64_int 3), (b64_int 4) by lia.
Qed.
