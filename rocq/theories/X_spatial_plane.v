(** spatial.py rect2pol, pol2rect, rotate_vector, dot, unit, magnitude, project_vectors,
    compute_vectors, compute_intersection. *)
From Coq Require Import String.
From Verif Require Import Prelude PreludeFacts RealBase Fl M_spatial Spec_spatial P_plane.
Local Open Scope R_scope.

(*@ C07 Cartesian to polar and back is the identity everywhere, including the origin. *)
Lemma polar_of_cartesian : forall x y : R,
  let (r, t) := rect2pol x y in pol2rect r t = (x, y) /\ 0 <= r /\ - PI < t <= PI /\ r = sqrt (x * x + y * y).
Proof.
  intros x y. unfold rect2pol, pol2rect. rewrite magnitude_len. split; [|split; [apply len_nonneg|split; [apply atan2_range|reflexivity]]].
  destruct (Req_dec (len (x, y)) 0) as [E|N].
  - rewrite E. apply len_zero in E. injection E as -> ->. f_equal; ring.
  - assert (Nz : (x, y) <> (0, 0)) by (intro F; apply N; now apply len_zero).
    destruct (cos_sin_atan2 x y Nz) as [-> ->]. f_equal; field; exact N.
Qed.

(*@ C07 Polar to Cartesian and back is the identity for positive radius and angle in (-pi, pi]. *)
Lemma cartesian_of_polar : forall r t : R, 0 < r -> - PI < t <= PI ->
  let (x, y) := pol2rect r t in rect2pol x y = (r, t).
Proof.
  intros r t Hr Ht. unfold pol2rect, rect2pol. rewrite magnitude_len, len_polar by lra. f_equal.
  assert (N : (r * cos t, r * sin t) <> (0, 0)).
  { intro E. pose proof (len_polar r t ltac:(lra)) as L. rewrite E in L.
    assert (len (0, 0) = 0) by (now apply len_zero). lra. }
  destruct (cos_sin_atan2 _ _ N) as [C S]. rewrite len_polar in C, S by lra.
  apply angle_unique; [apply atan2_range|easy| |]; [rewrite C|rewrite S]; field; lra.
Qed.

(*@ C07 Outside that range the representation is not unique: a negative radius is turned around. *)
Lemma negative_radius : forall r t : R, r < 0 -> - PI < t <= PI ->
  let (x, y) := pol2rect r t in
  let (r', t') := rect2pol x y in r' = - r /\ t' = (if Rleb t 0 then t + PI else t - PI).
Proof.
  intros r t Hr Ht. unfold pol2rect.
  replace (r * cos t) with (- r * cos (t + PI)) by (rewrite neg_cos; ring).
  replace (r * sin t) with (- r * sin (t + PI)) by (rewrite neg_sin; ring).
  pose proof PI_RGT_0. destruct (Rleb_spec t 0) as [Le|Gt].
  - pose proof (cartesian_of_polar (- r) (t + PI) ltac:(lra) ltac:(lra)) as E. unfold pol2rect in E. rewrite E. easy.
  - pose proof (cartesian_of_polar (- r) (t - PI) ltac:(lra) ltac:(lra)) as E. unfold pol2rect in E.
    replace (t + PI) with (t - PI + 2 * PI) by ring.
    rewrite (cos_plus (t - PI)), (sin_plus (t - PI)), cos_2PI, sin_2PI, !Rmult_1_r, !Rmult_0_r, Rminus_0_r, Rplus_0_r. rewrite E. easy.
Qed.

(*@ex C07 *)
Lemma polar_example : rect2pol (-1) 0 = (1, PI) /\ pol2rect 1 PI = (-1, 0).
Proof.
  assert (P : pol2rect 1 PI = (-1, 0)) by (unfold pol2rect; rewrite cos_PI, sin_PI; f_equal; ring).
  split; [|exact P]. pose proof PI_RGT_0. pose proof (cartesian_of_polar 1 PI ltac:(lra) ltac:(lra)) as E. now rewrite P in E.
Qed.

(*@ C08 Rotation preserves inner and cross products: lengths, angles, orientation. *)
Lemma rotation_rigid : forall (a b : R * R) (t : R),
  inner (rotate_vector a t) (rotate_vector b t) = inner a b /\
  cross (rotate_vector a t) (rotate_vector b t) = cross a b /\
  len (rotate_vector a t) = len a.
Proof.
  intros a b t. pose proof (sin2_cos2 t) as E. unfold Rsqr in E.
  assert (I : forall a b, inner (rotate_vector a t) (rotate_vector b t) = inner a b).
  { intros u v. unfold inner, rotate_vector. cbn [fst snd].
    match goal with |- ?l = ?r => replace l with (r * (sin t * sin t + cos t * cos t)) by ring end. rewrite E. ring. }
  split; [apply I|]. split; [|unfold len; now rewrite I].
  unfold cross, rotate_vector. cbn [fst snd].
  match goal with |- ?l = ?r => replace l with (r * (sin t * sin t + cos t * cos t)) by ring end. rewrite E. ring.
Qed.

(*@ C08 Rotations compose additively and -t undoes t; zero is the identity. *)
Lemma rotation_group : forall (v : R * R) (s t : R),
  rotate_vector (rotate_vector v s) t = rotate_vector v (s + t) /\
  rotate_vector (rotate_vector v t) (- t) = v /\ rotate_vector v 0 = v.
Proof.
  assert (G : forall v s t, rotate_vector (rotate_vector v s) t = rotate_vector v (s + t)).
  { intros v s t. unfold rotate_vector. cbn [fst snd]. rewrite cos_plus, sin_plus. f_equal; ring. }
  assert (Z : forall v, rotate_vector v 0 = v).
  { intros [x y]. unfold rotate_vector. cbn [fst snd]. rewrite cos_0, sin_0. f_equal; ring. }
  intros. split; [apply G|]. split; [|apply Z]. rewrite G. rewrite Rplus_opp_r. apply Z.
Qed.

(*@ C08 Rotation adds the angle to the polar form (counter-clockwise). *)
Lemma rotation_adds_angle : forall r a t : R, rotate_vector (pol2rect r a) t = pol2rect r (a + t).
Proof. intros. unfold rotate_vector, pol2rect. cbn [fst snd]. rewrite cos_plus, sin_plus. f_equal; ring. Qed.

(*@ C08 A block of points is rotated point by point. *)
Lemma rotation_blockwise : forall (xs ys : list R) (t : R) (i : nat) (x y : R), length xs = length ys ->
  nth_error xs i = Some x -> nth_error ys i = Some y ->
  nth_error (fst (rotate_block xs ys t)) i = Some (fst (rotate_vector (x, y) t)) /\
  nth_error (snd (rotate_block xs ys t)) i = Some (snd (rotate_vector (x, y) t)) /\
  length (fst (rotate_block xs ys t)) = length xs /\ length (snd (rotate_block xs ys t)) = length xs.
Proof.
  intros xs ys t i x y EL Hx Hy. unfold rotate_block. cbn [fst snd]. rewrite !nth_error_map2, Hx, Hy, !map2_length by easy. easy.
Qed.

(*@ex C08 *)
Lemma rotation_quarter : rotate_vector (1, 0) (PI / 2) = (0, 1).
Proof. unfold rotate_vector. cbn [fst snd]. rewrite cos_PI2, sin_PI2. f_equal; ring. Qed.

(*@ C09 Signed length along a direction, one entry per vector, in order. *)
Lemma project_signed_length : forall (vs : list (R * R)) (d : R * R), d <> (0, 0) ->
  project_vectors vs d = map (fun v => Fin (inner v d / len d)) vs.
Proof. exact project_fin. Qed.

(*@ C09 Projecting on a zero direction gives NaN for every vector. *)
Lemma project_zero_direction : forall vs : list (R * R), project_vectors vs (0, 0) = map (fun _ => Nan) vs.
Proof. exact project_zero_dir. Qed.

(*@ C09 Only the direction matters: rescaling it changes nothing, reversing it negates. *)
Lemma project_direction_only : forall (vs : list (R * R)) (d : R * R) (k : R), d <> (0, 0) -> 0 < k ->
  project_vectors vs (scale2 k d) = project_vectors vs d /\
  project_vectors vs (scale2 (- k) d) = map fopp (project_vectors vs d).
Proof.
  intros vs d k N Hk. pose proof (len_pos d N) as P.
  assert (L : forall c, len (scale2 c d) = Rabs c * len d).
  { intro c. unfold len at 1. replace (inner (scale2 c d) (scale2 c d)) with ((Rabs c * len d) ^ 2).
    - rewrite sqrt_pow2; [easy|]. apply Rmult_le_pos; [apply Rabs_pos|lra].
    - rewrite Rpow_mult_distr, len_sq, <- Rsqr_pow2, <- Rsqr_abs. unfold inner, scale2, Rsqr. cbn [fst snd]. ring. }
  assert (NS : forall c, c <> 0 -> scale2 c d <> (0, 0)).
  { intros c Hc E. apply len_zero in E. rewrite L in E. apply Rmult_integral in E. destruct E as [E|E]; [|lra].
    now apply Rabs_no_R0 in Hc. }
  rewrite !project_fin by (auto; apply NS; lra). split.
  - apply map_ext. intro v. rewrite L, Rabs_pos_eq by lra. f_equal. unfold inner, scale2. cbn [fst snd]. field. lra.
  - rewrite map_map. apply map_ext. intro v. rewrite L, Rabs_Ropp, Rabs_pos_eq by lra. cbn [fopp]. f_equal.
    unfold inner, scale2. cbn [fst snd]. field. lra.
Qed.

(*@ C09 Linear in the vector. *)
Lemma project_linear : forall (u v d : R * R) (a b pu pv : R), d <> (0, 0) ->
  project_vectors [u] d = [Fin pu] -> project_vectors [v] d = [Fin pv] ->
  project_vectors [add2 (scale2 a u) (scale2 b v)] d = [Fin (a * pu + b * pv)].
Proof.
  intros u v d a b pu pv N. pose proof (len_pos d N). rewrite !project_fin by easy. cbn [map].
  intros [= <-] [= <-]. do 2 f_equal. unfold inner, add2, scale2. cbn [fst snd]. field. lra.
Qed.

(*@ C09 Never longer than the vector, with equality exactly for parallel vectors; together with
    the perpendicular projection it reconstructs the length. *)
Lemma project_pythagoras : forall (v d : R * R) (p q : R), d <> (0, 0) ->
  project_vectors [v] d = [Fin p] -> project_vectors [v] (- snd d, fst d) = [Fin q] ->
  Rabs p <= len v /\ (Rabs p = len v <-> parallel v d) /\ p ^ 2 + q ^ 2 = len v ^ 2.
Proof.
  intros v d p q N. pose proof (len_pos d N) as P.
  assert (N' : (- snd d, fst d) <> (0, 0)) by (intros [= A B]; apply N; destruct d; cbn [fst snd] in *; f_equal; lra).
  rewrite !project_fin by easy. cbn [map]. intros [= <-] [= <-].
  assert (L' : len (- snd d, fst d) = len d) by (unfold len, inner; cbn [fst snd]; f_equal; ring).
  rewrite L'. pose proof (len_nonneg v) as Pv. pose proof (len_sq d) as Qd.
  assert (E : (inner v d / len d) ^ 2 + (inner v (- snd d, fst d) / len d) ^ 2 = len v ^ 2).
  { apply Rmult_eq_reg_r with (len d ^ 2); [|apply pow_nonzero; lra].
    transitivity (inner v d ^ 2 + inner v (- snd d, fst d) ^ 2); [field; lra|].
    rewrite (len_sq v), (len_sq d), <- lagrange2. f_equal. unfold inner, cross. cbn [fst snd]. ring. }
  split; [|split; [|exact E]].
  - rewrite <- (Rabs_pos_eq (len v)) by easy. apply Rsqr_le_abs_0. rewrite !Rsqr_pow2.
    pose proof (pow2_ge_0 (inner v (- snd d, fst d) / len d)). lra.
  - assert (C : inner v (- snd d, fst d) = cross v d * -1) by (unfold inner, cross; cbn [fst snd]; ring).
    unfold parallel. split.
    + intro A. assert (Q0 : (inner v (- snd d, fst d) / len d) ^ 2 = 0).
      { rewrite <- A in E. rewrite <- (Rsqr_pow2 (Rabs _)), <- Rsqr_abs, Rsqr_pow2 in E. lra. }
      assert (inner v (- snd d, fst d) / len d = 0) by (rewrite <- Rsqr_pow2 in Q0; now apply Rsqr_0_uniq).
      assert (inner v (- snd d, fst d) = 0) by (apply Rmult_eq_reg_r with (/ len d); [unfold Rdiv in *; lra|apply Rinv_neq_0_compat; lra]). lra.
    + intro A. rewrite C, A in E. rewrite <- (Rabs_pos_eq (len v)) by easy.
      apply Rsqr_eq_abs_0. rewrite !Rsqr_pow2. replace (0 * -1 / len d) with 0 in E by (field; lra). lra.
Qed.

(*@ C09 A plain list must not be empty; otherwise it is projected entry by entry. *)
Lemma project_list : forall (vs : list (R * R)) (d : R * R),
  (vs = [] -> project_vectors_list vs d = Err IndexError) /\
  (vs <> [] -> d <> (0, 0) -> project_vectors_list vs d = Ok (map (fun v => Fin (inner v d / len d)) vs)).
Proof.
  intros vs d. split; [now intros ->|]. intros N Z. destruct vs; [easy|]. unfold project_vectors_list. f_equal. now apply project_fin.
Qed.

(*@ C09 Pandas input: the index of the vectors is kept, entry by entry. *)
Lemma project_keeps_index : forall (K : Type) (idx : list K) (vs : list (R * R)) (d : R * R),
  length idx = length vs ->
  map fst (project_vectors_frame idx vs d) = idx /\ map snd (project_vectors_frame idx vs d) = project_vectors vs d.
Proof.
  intros K idx vs d EL. unfold project_vectors_frame.
  assert (L : length (project_vectors vs d) = length vs) by (unfold project_vectors; destruct (unit_vec d); apply map_length).
  revert L. rewrite <- EL. generalize (project_vectors vs d). clear EL. induction idx as [|k idx IH]; intros [|x l]; cbn; try easy.
  intros [= E]. destruct (IH l E) as [A B]. now rewrite A, B.
Qed.

(*@ C09 unit(d) has length one and the direction of d. *)
Lemma unit_vector_length : forall d : R * R, d <> (0, 0) ->
  exists u, unit_vec d = (Fin (fst u), Fin (snd u)) /\ len u = 1 /\ scale2 (len d) u = d.
Proof.
  intros d N. pose proof (len_pos d N) as P. exists (fst d / len d, snd d / len d).
  unfold unit_vec. rewrite magnitude_len, !fdiv_fin by lra. split; [easy|]. split.
  - unfold len at 1. unfold inner. cbn [fst snd].
    replace (fst d / len d * (fst d / len d) + snd d / len d * (snd d / len d)) with (inner d d / len d ^ 2) by (unfold inner; field; lra).
    rewrite len_sq. replace (inner d d / inner d d) with 1; [apply sqrt_1|]. rewrite <- len_sq. field. lra.
  - destruct d as [x y]. unfold scale2. cbn [fst snd]. f_equal; field; lra.
Qed.

(*@ C09 dot and magnitude are the inner product and Euclidean length. *)
Lemma dot_magnitude : forall a b : R * R, dot a b = inner a b /\ magnitude a = len a /\ Rabs (dot a b) <= magnitude a * magnitude b.
Proof. intros. rewrite !magnitude_len. split; [reflexivity|]. split; [reflexivity|]. apply cauchy2. Qed.

(*@ex C09 *)
Lemma project_example : project_vectors [(3, 4); (0, 5)] (2, 0) = [Fin 3; Fin 0].
Proof.
  rewrite project_fin by (intros [= E]; lra). cbn [map]. unfold inner. cbn [fst snd].
  replace (len (2, 0)) with 2; [|unfold len, inner; cbn [fst snd]; replace (2 * 2 + 0 * 0) with (2 ^ 2) by ring; rewrite sqrt_pow2; lra].
  repeat f_equal; field.
Qed.

(*@ C10 One vector per site, in order: site minus reference; extra entries of the reference are
    ignored. *)
Lemma vectors_from_reference : forall (x y : list R) (rx ry : R) (extra : list R), length x = length y ->
  exists vs, compute_vectors x y (rx :: ry :: extra) = Ok vs /\ length vs = length x /\
    compute_vectors x y [rx; ry] = Ok vs /\
    forall i xi yi, nth_error x i = Some xi -> nth_error y i = Some yi -> nth_error vs i = Some (sub2 (xi, yi) (rx, ry)).
Proof.
  intros x y rx ry extra EL. eexists. split; [reflexivity|]. split; [rewrite map_length, combine_length; lia|].
  split; [reflexivity|]. intros i xi yi Hx Hy.
  assert (Hc : nth_error (combine x y) i = Some (xi, yi)).
  { clear EL. revert y i Hx Hy. induction x as [|a l IH]; intros [|b l'] [|i]; cbn; try easy.
    - now intros [= ->] [= ->].
    - apply IH. }
  rewrite (map_nth_error _ _ _ Hc). reflexivity.
Qed.

(*@ C10 Differences of rows do not depend on the reference, and adding it back recovers the site. *)
Lemma vectors_reference_free : forall (x y : list R) (r s : R * R) vr vs i j ai aj bi bj,
  compute_vectors x y [fst r; snd r] = Ok vr -> compute_vectors x y [fst s; snd s] = Ok vs ->
  nth_error vr i = Some ai -> nth_error vr j = Some aj -> nth_error vs i = Some bi -> nth_error vs j = Some bj ->
  sub2 ai aj = sub2 bi bj /\ add2 ai r = add2 bi s.
Proof.
  intros x y r s vr vs i j ai aj bi bj. cbn. intros [= <-] [= <-].
  rewrite !nth_error_map. destruct (nth_error (combine x y) i) as [[pi qi]|]; [|easy].
  destruct (nth_error (combine x y) j) as [[pj qj]|]; [|easy]. cbn. intros [= <-] [= <-] [= <-] [= <-].
  unfold sub2, add2. cbn [fst snd]. split; f_equal; ring.
Qed.

(*@ C10 A reference with a single entry is subtracted from both coordinates; an empty one fails as soon as there is a site. *)
Lemma vectors_short_reference : forall (x y : list R) (r : R), compute_vectors x y [r] = compute_vectors x y [r; r] /\
  (compute_vectors x y [] = Ok [] <-> x = [] \/ y = []) /\ (compute_vectors x y [] = Err ValueError <-> x <> [] /\ y <> []).
Proof.
  intros x y r. split; [reflexivity|]. destruct x as [|a x]; [cbn; intuition congruence|]. destruct y as [|b y]; cbn; intuition congruence.
Qed.

Lemma labels_of {A B} (l : list A) (l' : list B) : length l = length l' -> map fst (combine l l') = l /\ map snd (combine l l') = l'.
Proof.
  revert l'. induction l as [|a l IH]; intros [|b l'] E; try discriminate; [split; reflexivity|]. cbn [combine map fst snd].
  destruct (IH l' ltac:(cbn in E; congruence)) as [-> ->]. split; reflexivity.
Qed.
(*@ C10 With pandas input there is one labelled vector per site: this succeeds exactly when there is a site, a reference
    and a y for every x, everything else being a ValueError. *)
Lemma vectors_frame : forall {K} (idx : list K) (x y r : list R), length idx = length x ->
  ((exists rows, compute_vectors_frame idx x y r = Ok rows) <-> x <> [] /\ (length x <= length y)%nat /\ r <> []) /\
  (forall rows, compute_vectors_frame idx x y r = Ok rows ->
     map fst rows = idx /\ exists vs, compute_vectors x y r = Ok vs /\ map snd rows = vs) /\
  (forall e, compute_vectors_frame idx x y r = Err e -> e = ValueError).
Proof.
  intros K idx x y r L.
  assert (LV : forall vs, compute_vectors x y r = Ok vs -> length vs = Nat.min (length x) (length y)).
  { intros vs E. unfold compute_vectors in E. destruct r as [|a [|b r]].
    - rewrite <- combine_length. destruct (combine x y); [injection E as <-; reflexivity|discriminate].
    - injection E as <-. now rewrite map_length, combine_length.
    - injection E as <-. now rewrite map_length, combine_length. }
  unfold compute_vectors_frame. destruct (compute_vectors x y r) as [vs|e] eqn:E; cbn [rbind].
  - specialize (LV vs eq_refl). destruct vs as [|v vs].
    + split; [|split; [discriminate|now intros e [= <-]]]. split; [intros (rows & X); discriminate|]. intros (N & Le & _). exfalso. cbn [length] in LV.
      destruct x; [contradiction|]. cbn [length] in *. lia.
    + destruct (Nat.eqb_spec (length (v :: vs)) (length idx)) as [Q|Q].
      * split; [|split; [|discriminate]].
        -- split; [|eauto]. intros _. rewrite LV, L in Q. repeat split; [|lia|]; intros ->; cbn in *; [lia|].
           destruct (combine x y) eqn:C; [|discriminate]. injection E as E. discriminate.
        -- intros rows [= <-]. destruct (labels_of idx (v :: vs) (eq_sym Q)) as [E1 E2]. split; [exact E1|]. exists (v :: vs). split; [reflexivity|exact E2].
      * split; [|split; [discriminate|now intros e [= <-]]]. split; [intros (rows & X); discriminate|]. intros (N & Le & _). lia.
  - split; [|split; [discriminate|]].
    + split; [intros (rows & X); discriminate|]. intros (N & Le & Nr). unfold compute_vectors in E. destruct r as [|a [|b r]]; [contradiction|discriminate|discriminate].
    + intros e' [= <-]. unfold compute_vectors in E. destruct r as [|a [|b r]]; try discriminate. destruct (combine x y); congruence.
Qed.
(*@ex C10 A table of two sites. *)
Lemma vectors_frame_example : compute_vectors_frame ["a"; "b"]%string [1; 2] [3; 5] [1; 1] = Ok [("a"%string, (1 - 1, 3 - 1)); ("b"%string, (2 - 1, 5 - 1))].
Proof.
  reflexivity.
Qed.
(*@ex C10 *)
Lemma vectors_example : compute_vectors [1; 2] [3; 5] [1; 1; 77] = Ok [(1 - 1, 3 - 1); (2 - 1, 5 - 1)].
Proof. reflexivity. Qed.

(*@ C11 Non-parallel rows: the answer is the unique point on both tip perpendiculars. *)
Lemma intersection_unique_point : forall (A B : list (R * R)) (i : nat) (a b : R * R),
  length A = length B -> nth_error A i = Some a -> nth_error B i = Some b -> ~ parallel a b ->
  exists C c, compute_intersection A B = Ok C /\ length C = length A /\
    nth_error C i = Some (Fin (fst c), Fin (snd c)) /\
    on_tip_perpendicular a c /\ on_tip_perpendicular b c /\
    forall c', on_tip_perpendicular a c' -> on_tip_perpendicular b c' -> c' = c.
Proof.
  intros A B i [ax ay] [bx by_] EL HA HB NP. unfold compute_intersection. rewrite EL, Nat.eqb_refl.
  unfold parallel, cross in NP. cbn [fst snd] in NP.
  assert (D : bx * ay - ax * by_ <> 0) by lra.
  exists (map2 intersection1 A B),
    (((bx ^ 2 + by_ ^ 2) * ay - by_ * (ax ^ 2 + ay ^ 2)) / (bx * ay - ax * by_),
     ((ax ^ 2 + ay ^ 2) * bx - ax * (bx ^ 2 + by_ ^ 2)) / (bx * ay - ax * by_)).
  split; [easy|]. split; [rewrite map2_length; easy|]. split.
  - rewrite nth_error_map2, HA, HB. unfold intersection1. cbn [fst snd]. now rewrite !fdiv_fin.
  - unfold on_tip_perpendicular, inner, sub2. cbn [fst snd]. split; [field; exact D|]. split; [field; exact D|].
    intros [cx cy]. cbn [fst snd]. intros H1 H2. f_equal.
    + apply Rmult_eq_reg_r with (bx * ay - ax * by_); [|exact D]. unfold Rdiv. rewrite Rmult_assoc, Rinv_l, Rmult_1_r by exact D.
      apply Rminus_diag_uniq. transitivity (ay * ((cx - bx) * bx + (cy - by_) * by_) - by_ * ((cx - ax) * ax + (cy - ay) * ay)); [ring|rewrite H1, H2; ring].
    + apply Rmult_eq_reg_r with (bx * ay - ax * by_); [|exact D]. unfold Rdiv. rewrite Rmult_assoc, Rinv_l, Rmult_1_r by exact D.
      apply Rminus_diag_uniq. transitivity (bx * ((cx - ax) * ax + (cy - ay) * ay) - ax * ((cx - bx) * bx + (cy - by_) * by_)); [ring|rewrite H1, H2; ring].
Qed.

Lemma intersection1_sym a b : ~ parallel a b -> intersection1 a b = intersection1 b a.
Proof.
  destruct a as [ax ay], b as [bx by_]. intro H. unfold parallel, cross in H. cbn [fst snd] in H.
  assert (bx * ay - ax * by_ <> 0) by lra. unfold intersection1. rewrite !fdiv_fin by lra. f_equal; f_equal; field; lra.
Qed.
(*@ C11 Swapping the two vectors gives the same points. *)
Lemma intersection_symmetric : forall A B : list (R * R),
  (forall a b, In a A -> In b B -> ~ parallel a b) ->
  compute_intersection A B = compute_intersection B A.
Proof.
  intros A B H. unfold compute_intersection. rewrite Nat.eqb_sym. destruct (Nat.eqb_spec (length B) (length A)) as [EL|EL].
  - f_equal. revert B H EL. induction A as [|a A IH]; intros [|b B] H EL; try easy.
    change (map2 intersection1 (a :: A) (b :: B)) with (intersection1 a b :: map2 intersection1 A B).
    change (map2 intersection1 (b :: B) (a :: A)) with (intersection1 b a :: map2 intersection1 B A).
    f_equal; [apply intersection1_sym, H; now left|]. apply IH; [|now injection EL]. intros x y Hx Hy. apply H; now right.
  - destruct A as [|a [|a' A]].
    + destruct B as [|b [|b' B]]; reflexivity.
    + transitivity (Ok (map (fun b => intersection1 b a) B)); [|destruct B as [|b [|b' B]]; [reflexivity|cbn in EL; lia|reflexivity]].
      f_equal. apply map_ext_in. intros b I. apply intersection1_sym, H; [now left|exact I].
    + destruct B as [|b [|b' B]]; [reflexivity| |reflexivity]. f_equal. apply map_ext_in. intros x I. apply intersection1_sym, H; [exact I|now left].
Qed.
(*@ C11 Equal row counts: already two rows that are not parallel, pair by pair, are enough. *)
Lemma intersection_symmetric_rows : forall A B : list (R * R), length A = length B ->
  (forall i a b, nth_error A i = Some a -> nth_error B i = Some b -> ~ parallel a b) ->
  compute_intersection A B = compute_intersection B A.
Proof.
  intros A B EL H. unfold compute_intersection. rewrite EL, Nat.eqb_refl. f_equal. revert B H EL. induction A as [|a A IH]; intros [|b B] H EL; try easy.
  change (map2 intersection1 (a :: A) (b :: B)) with (intersection1 a b :: map2 intersection1 A B).
  change (map2 intersection1 (b :: B) (a :: A)) with (intersection1 b a :: map2 intersection1 B A).
  f_equal; [apply (intersection1_sym a b), (H O); reflexivity|]. apply IH; [|now injection EL]. intros i x y Hx Hy. apply (H (S i)); easy.
Qed.

(*@ C11 Parallel rows (a zero vector included) never yield a finite coordinate. *)
Lemma intersection_parallel_not_finite : forall (A B : list (R * R)) (i : nat) (a b : R * R) C p, length A = length B ->
  nth_error A i = Some a -> nth_error B i = Some b -> parallel a b ->
  compute_intersection A B = Ok C -> nth_error C i = Some p ->
  is_finite (fst p) = false /\ is_finite (snd p) = false.
Proof.
  intros A B i [ax ay] [bx by_] C p EL HA HB PA E Hi. unfold compute_intersection in E.
  rewrite EL, Nat.eqb_refl in E. injection E as <-.
  rewrite nth_error_map2, HA, HB in Hi. injection Hi as <-. unfold parallel, cross in PA. cbn [fst snd] in PA.
  unfold intersection1. replace (bx * ay - ax * by_) with 0 by lra. cbv zeta beta iota. cbn [fst snd].
  rewrite Reqb_true by reflexivity. unfold sgn_inf. split; repeat match goal with |- context [if ?b then _ else _] => destruct b end; reflexivity.
Qed.

(*@ C11 A single row is paired with every row of the other array, on either side. *)
Lemma intersection_single_row : forall (a : R * R) (B : list (R * R)),
  compute_intersection [a] B = compute_intersection (repeat a (length B)) B /\ compute_intersection B [a] = compute_intersection B (repeat a (length B)).
Proof.
  intros a B. unfold compute_intersection. rewrite repeat_length, Nat.eqb_refl.
  assert (E1 : map2 intersection1 (repeat a (length B)) B = map (intersection1 a) B).
  { induction B as [|b B IH]; [reflexivity|]. cbn [length repeat map].
    change (map2 intersection1 (a :: repeat a (length B)) (b :: B)) with (intersection1 a b :: map2 intersection1 (repeat a (length B)) B). now rewrite IH. }
  assert (E2 : map2 intersection1 B (repeat a (length B)) = map (fun b => intersection1 b a) B).
  { clear E1. induction B as [|b B IH]; [reflexivity|]. cbn [length repeat map].
    change (map2 intersection1 (b :: B) (a :: repeat a (length B))) with (intersection1 b a :: map2 intersection1 B (repeat a (length B))). now rewrite IH. }
  rewrite E1, E2. destruct B as [|b [|b' B]]; [split; reflexivity|split; reflexivity|]. split; reflexivity.
Qed.
(*@ C11 Otherwise row counts must agree. *)
Lemma intersection_row_mismatch : forall A B : list (R * R),
  compute_intersection A B = Err ValueError <-> length A <> length B /\ length A <> 1%nat /\ length B <> 1%nat.
Proof.
  intros. unfold compute_intersection. destruct (Nat.eqb_spec (length A) (length B)) as [E|E]; [split; [discriminate|intros [? _]; easy]|].
  destruct A as [|a [|a' A]], B as [|b [|b' B]]; cbn in *; split; try easy; intros; repeat split; lia.
Qed.

(*@ex C11 *)
Lemma intersection_example : ~ parallel (2, 0) (0, 3) /\ parallel (1, 2) (2, 4) /\
  compute_intersection [(2, 0)] [(0, 3)] = Ok [(Fin 2, Fin 3)].
Proof.
  unfold parallel, cross. cbn [fst snd]. split; [lra|]. split; [lra|]. unfold compute_intersection. cbn [length Nat.eqb map2 combine map].
  unfold intersection1. cbn [fst snd]. rewrite !fdiv_fin by lra. repeat f_equal; field.
Qed.
