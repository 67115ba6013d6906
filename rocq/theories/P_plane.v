(** Lemmas on arctan2, polar form and plane vectors. *)
From Verif Require Import Prelude PreludeFacts RealBase Fl M_spatial Spec_spatial.
Local Open Scope R_scope.

Lemma magnitude_len v : magnitude v = len v.
Proof. unfold magnitude, len, inner. f_equal. ring. Qed.

Lemma inner_self_nonneg v : 0 <= inner v v.
Proof. unfold inner. nra. Qed.

Lemma len_nonneg v : 0 <= len v.
Proof. apply sqrt_pos. Qed.

Lemma len_sq v : len v ^ 2 = inner v v.
Proof. unfold len. apply pow2_sqrt. apply inner_self_nonneg. Qed.

Lemma inner_zero v : inner v v = 0 -> v = (0, 0).
Proof. destruct v as [x y]. unfold inner. cbn [fst snd]. intro E. f_equal; nra. Qed.

Lemma len_zero v : len v = 0 <-> v = (0, 0).
Proof.
  split.
  - intro E. apply inner_zero. rewrite <- len_sq, E. ring.
  - intros ->. unfold len, inner. cbn [fst snd]. replace (0 * 0 + 0 * 0) with 0 by ring. apply sqrt_0.
Qed.

Lemma len_pos v : v <> (0, 0) -> 0 < len v.
Proof. intro N. destruct (len_nonneg v) as [|E]; [easy|]. symmetry in E. now apply len_zero in E. Qed.

Lemma sqrt_sq_abs a x : 0 <= a -> a ^ 2 = x -> sqrt x = a.
Proof. intros Ha <-. now apply sqrt_pow2. Qed.

Lemma cos_sin_atan2 x y : (x, y) <> (0, 0) ->
  cos (arctan2 y x) = x / len (x, y) /\ sin (arctan2 y x) = y / len (x, y).
Proof.
  intro N. pose proof (len_pos _ N) as P. pose proof (len_sq (x, y)) as Q. unfold inner in Q. cbn [fst snd] in Q.
  set (r := len (x, y)) in *.
  assert (S : x <> 0 -> sqrt (1 + (y / x)²) = r / Rabs x).
  { intro Nx. apply sqrt_sq_abs.
    - apply Rle_mult_inv_pos; [lra|]. now apply Rabs_pos_lt.
    - replace ((r / Rabs x) ^ 2) with (r ^ 2 / Rabs x ^ 2) by (field; now apply Rabs_no_R0).
      rewrite <- (Rsqr_pow2 (Rabs x)), <- Rsqr_abs. rewrite Q. unfold Rsqr. field. easy. }
  unfold arctan2. destruct (Rltb_spec 0 x) as [Px|Px].
  - rewrite cos_atan, sin_atan, S by lra. rewrite Rabs_pos_eq by lra. split; field; lra.
  - destruct (Rltb_spec x 0) as [Nx|Nx].
    + assert (E : cos (atan (y / x)) = - x / r /\ sin (atan (y / x)) = - y / r).
      { rewrite cos_atan, sin_atan, S by lra. rewrite Rabs_left by lra. split; field; lra. }
      destruct E as [Ec Es]. destruct (Rleb_spec 0 y).
      * rewrite neg_cos, neg_sin, Ec, Es. split; field; lra.
      * replace (atan (y / x) - PI) with (- (- atan (y / x) + PI)) by ring.
        rewrite cos_neg, sin_neg, neg_cos, neg_sin, cos_neg, sin_neg, Ec, Es. split; field; lra.
    + assert (x = 0) by lra. subst x.
      assert (R2 : r = Rabs y).
      { unfold r, len, inner. cbn [fst snd]. replace (0 * 0 + y * y) with (y²) by (unfold Rsqr; ring). apply sqrt_Rsqr_abs. }
      destruct (Rltb_spec 0 y) as [Py|Py].
      * rewrite cos_PI2, sin_PI2. rewrite R2, Rabs_pos_eq by lra. split; field; lra.
      * destruct (Rltb_spec y 0) as [Ny|Ny].
        -- replace (- PI / 2) with (- (PI / 2)) by lra. rewrite cos_neg, sin_neg, cos_PI2, sin_PI2, R2, Rabs_left by lra. split; field; lra.
        -- exfalso. apply N. f_equal; lra.
Qed.

Lemma atan2_range x y : - PI < arctan2 y x <= PI.
Proof.
  pose proof PI_RGT_0 as HP. unfold arctan2.
  assert (B : forall u, - PI / 2 < atan u < PI / 2) by (intro; apply atan_bound).
  destruct (Rltb_spec 0 x) as [Px|Px]; [specialize (B (y / x)); lra|].
  destruct (Rltb_spec x 0) as [Nx|Nx].
  - destruct (Rleb_spec 0 y) as [Py|Py].
    + assert (y / x <= 0).
      { unfold Rdiv. assert (/ x < 0) by (now apply Rinv_lt_0_compat). nra. }
      assert (atan (y / x) <= 0).
      { destruct (Rle_lt_or_eq_dec _ _ H) as [L|E]; [|rewrite E, atan_0; lra].
        left. rewrite <- atan_0. now apply atan_increasing. }
      specialize (B (y / x)). lra.
    + assert (0 < y / x).
      { unfold Rdiv. assert (/ x < 0) by (now apply Rinv_lt_0_compat). nra. }
      assert (0 < atan (y / x)) by (rewrite <- atan_0; now apply atan_increasing).
      specialize (B (y / x)). lra.
  - destruct (Rltb 0 y); [lra|]. destruct (Rltb y 0); lra.
Qed.

(** Two angles in (-pi, pi] with the same cosine and sine are equal. *)
Lemma angle_unique a b : - PI < a <= PI -> - PI < b <= PI -> cos a = cos b -> sin a = sin b -> a = b.
Proof.
  intros Ha Hb Ec Es.
  assert (C : cos (a - b) = 1) by (rewrite cos_minus, Ec, Es; pose proof (sin2_cos2 b) as H; unfold Rsqr in H; lra).
  assert (Sn : sin (a - b) = 0) by (rewrite sin_minus, Ec, Es; lra).
  destruct (Rtotal_order a b) as [L|[E|G]]; [|easy|]; exfalso.
  - assert (0 < b - a < 2 * PI) by lra.
    replace (a - b) with (- (b - a)) in C, Sn by ring. rewrite cos_neg in C. rewrite sin_neg in Sn.
    destruct (Rlt_or_le (b - a) PI) as [Hl|Hl].
    + pose proof (sin_gt_0 (b - a)). lra.
    + destruct (Rle_lt_or_eq_dec _ _ Hl) as [Hl'|Hl'].
      * pose proof (sin_lt_0 (b - a)). lra.
      * rewrite <- Hl', cos_PI in C. lra.
  - assert (0 < a - b < 2 * PI) by lra.
    destruct (Rlt_or_le (a - b) PI) as [Hl|Hl].
    + pose proof (sin_gt_0 (a - b)). lra.
    + destruct (Rle_lt_or_eq_dec _ _ Hl) as [Hl'|Hl'].
      * pose proof (sin_lt_0 (a - b)). lra.
      * rewrite <- Hl', cos_PI in C. lra.
Qed.

Lemma len_polar r t : 0 <= r -> len (r * cos t, r * sin t) = r.
Proof.
  intro H. unfold len, inner. cbn [fst snd]. apply sqrt_sq_abs; [easy|].
  pose proof (sin2_cos2 t) as E. unfold Rsqr in E.
  replace (r * cos t * (r * cos t) + r * sin t * (r * sin t)) with (r ^ 2 * (sin t * sin t + cos t * cos t)) by ring.
  rewrite E. ring.
Qed.

Lemma unit_len t : len (cos t, sin t) = 1.
Proof. pose proof (len_polar 1 t ltac:(lra)) as H. rewrite !Rmult_1_l in H. exact H. Qed.

(** Projection on a non-zero direction is finite. *)
Lemma project_fin vs d : d <> (0, 0) -> project_vectors vs d = map (fun v => Fin (inner v d / len d)) vs.
Proof.
  intro N. pose proof (len_pos d N). unfold project_vectors, unit_vec. rewrite magnitude_len.
  rewrite !fdiv_fin by lra. apply map_ext. intro v. cbn [fmul fadd]. f_equal. unfold inner. field. lra.
Qed.

Lemma project_zero_dir vs : project_vectors vs (0, 0) = map (fun _ => Nan) vs.
Proof.
  unfold project_vectors, unit_vec. rewrite magnitude_len. replace (len (0, 0)) with 0 by (symmetry; now apply len_zero).
  cbn [fst snd]. rewrite fdiv_zero, sgn_inf_0. apply map_ext. intro v. reflexivity.
Qed.

(** Lagrange identity in the plane. *)
Lemma lagrange2 a b : inner a b ^ 2 + cross a b ^ 2 = inner a a * inner b b.
Proof. unfold inner, cross. ring. Qed.

Lemma cauchy2 a b : Rabs (inner a b) <= len a * len b.
Proof.
  pose proof (lagrange2 a b) as L. pose proof (len_nonneg a). pose proof (len_nonneg b).
  rewrite <- (Rabs_pos_eq (len a * len b)) by (now apply Rmult_le_pos).
  apply Rsqr_le_abs_0. rewrite !Rsqr_pow2. replace ((len a * len b) ^ 2) with (len a ^ 2 * len b ^ 2) by ring.
  rewrite !len_sq. pose proof (pow2_ge_0 (cross a b)). lra.
Qed.

Lemma len_triangle a b : len (add2 a b) <= len a + len b.
Proof.
  pose proof (cauchy2 a b) as C. pose proof (len_nonneg a). pose proof (len_nonneg b). pose proof (len_nonneg (add2 a b)).
  apply Rsqr_incr_0; [|easy|lra]. rewrite !Rsqr_pow2.
  replace ((len a + len b) ^ 2) with (len a ^ 2 + len b ^ 2 + 2 * (len a * len b)) by ring. rewrite !len_sq.
  pose proof (Rle_abs (inner a b)).
  replace (inner (add2 a b) (add2 a b)) with (inner a a + inner b b + 2 * inner a b) by (unfold inner, add2; cbn [fst snd]; ring). lra.
Qed.

Lemma dist2_sym a b : dist2 a b = dist2 b a.
Proof. unfold dist2, len, inner, sub2. cbn [fst snd]. f_equal. ring. Qed.
Lemma dist2_self a : dist2 a a = 0.
Proof. unfold dist2. apply len_zero. unfold sub2. f_equal; ring. Qed.
Lemma dist2_nonneg a b : 0 <= dist2 a b.
Proof. apply len_nonneg. Qed.
Lemma dist2_zero a b : dist2 a b = 0 <-> a = b.
Proof.
  split; [|intros ->; apply dist2_self]. unfold dist2. intro E. apply len_zero in E.
  destruct a, b. unfold sub2 in E. cbn [fst snd] in E. injection E as E1 E2. f_equal; lra.
Qed.
Lemma dist2_triangle a b c : dist2 a c <= dist2 a b + dist2 b c.
Proof.
  unfold dist2. replace (sub2 a c) with (add2 (sub2 a b) (sub2 b c)); [apply len_triangle|].
  unfold add2, sub2. cbn [fst snd]. f_equal; ring.
Qed.
