(** spatial.py distances in floating point. *)
From Flocq Require Import Core Relative.
From Verif Require Import Prelude PreludeFacts RealBase M_spatial M_spatial_float X_spatial_zone X_trunc_float Spec_spatial P_plane X_spatial_time Spec_dist_float M_dist_float.
Local Open Scope R_scope.

Local Existing Instance prec53.
Local Existing Instance b64_valid.

Notation u := unit_roundoff.

Lemma u_bpow : / 2 * bpow radix2 (- (53) + 1) = u.
Proof. change (bpow radix2 (- (53) + 1)) with (/ IZR (Z.pow_pos 2 52)). unfold unit_roundoff. change (Z.pow_pos 2 52) with 4503599627370496%Z. lra. Qed.
Lemma u_pos : 0 < u.
Proof. unfold unit_roundoff. lra. Qed.
Lemma u_small : u <= / 1000.
Proof. unfold unit_roundoff. lra. Qed.

(** Rounding away from the underflow threshold. *)
Lemma b64_relative x : x = 0 \/ bpow radix2 (-1022) <= Rabs x -> within_rel u (b64 x) x.
Proof.
  unfold within_rel. intros [->|L].
  - rewrite b64_zero. rewrite Rminus_0_r, Rabs_R0. lra.
  - rewrite <- u_bpow. unfold b64. exact (relative_error_N_FLT radix2 (-1074) 53 ltac:(lia) (fun z => negb (Z.even z)) x L).
Qed.
(** Rounding anywhere. *)
Lemma b64_mixed x : Rabs (b64 x - x) <= u * Rabs x + bpow radix2 (-1074).
Proof.
  destruct (error_N_FLT radix2 (-1074) 53 ltac:(lia) (fun z => negb (Z.even z)) x) as (e & t & E & T & _ & Q).
  assert (Q' : b64 x = x * (1 + e) + t) by exact Q. rewrite Q'. rewrite u_bpow in E.
  replace (x * (1 + e) + t - x) with (e * x + t) by ring. eapply Rle_trans; [apply Rabs_triang|]. rewrite Rabs_mult.
  pose proof (Rabs_pos x). pose proof (bpow_ge_0 radix2 (-1074)). nra.
Qed.
Lemma b64_neg x : b64 (- x) = - b64 x.
Proof. unfold b64. apply round_NE_opp. Qed.

Lemma within_interval e a x : 0 <= x -> within_rel e a x -> (1 - e) * x <= a <= (1 + e) * x.
Proof. unfold within_rel. intros X W. rewrite (Rabs_pos_eq x X) in W. apply Rabs_le_inv in W. lra. Qed.

Lemma sq_pos x : 0 <= x * x.
Proof. apply Rle_0_sqr. Qed.
Lemma len_eq a b : len (a, b) = sqrt (a * a + b * b).
Proof. reflexivity. Qed.

Lemma ordinary_square v : ordinary v -> v * v = 0 \/ bpow radix2 (-1000) <= v * v <= bpow radix2 1000.
Proof.
  intros [->|[A B]]; [left; ring|right]. assert (E : v * v = Rabs v * Rabs v) by (rewrite <- Rabs_mult; symmetry; apply Rabs_pos_eq, sq_pos).
  rewrite E. change (-1000)%Z with (-500 + -500)%Z. change 1000%Z with (500 + 500)%Z. rewrite !bpow_plus.
  pose proof (bpow_ge_0 radix2 (-500)). pose proof (Rabs_pos v). split; apply Rmult_le_compat; lra.
Qed.
Lemma le_bpow a b : (a <= b)%Z -> bpow radix2 a <= bpow radix2 b.
Proof. apply bpow_le. Qed.

Lemma square_rel v : ordinary v -> (1 - u) * (v * v) <= b64 (v * v) <= (1 + u) * (v * v).
Proof.
  intro O. apply within_interval; [apply sq_pos|]. apply b64_relative. destruct (ordinary_square v O) as [E|[E _]]; [now left|right].
  rewrite Rabs_pos_eq by apply sq_pos. eapply Rle_trans; [|exact E]. apply le_bpow. lia.
Qed.

Lemma half_bpow e : bpow radix2 e = 2 * bpow radix2 (e - 1).
Proof. replace e with (1 + (e - 1))%Z at 1 by lia. rewrite bpow_plus. reflexivity. Qed.

Lemma sum_rel a b : ordinary a -> ordinary b ->
  (1 - u) ^ 2 * (a * a + b * b) <= b64 (b64 (a * a) + b64 (b * b)) <= (1 + u) ^ 2 * (a * a + b * b).
Proof.
  intros A B. pose proof (square_rel a A) as P. pose proof (square_rel b B) as Q. pose proof (sq_pos a). pose proof (sq_pos b).
  pose proof u_pos. pose proof u_small. set (p := b64 (a * a)) in *. set (q := b64 (b * b)) in *.
  assert (W : (1 - u) * (p + q) <= b64 (p + q) <= (1 + u) * (p + q)).
  { apply within_interval; [nra|]. apply b64_relative.
    destruct (ordinary_square a A) as [Ea|[Ea _]], (ordinary_square b B) as [Eb|[Eb _]].
    - left. rewrite Ea in P. rewrite Eb in Q. lra.
    - right. rewrite Rabs_pos_eq by nra. apply Rle_trans with (bpow radix2 (-1001)); [apply le_bpow; lia|].
      rewrite half_bpow in Eb. change (-1000 - 1)%Z with (-1001)%Z in Eb. nra.
    - right. rewrite Rabs_pos_eq by nra. apply Rle_trans with (bpow radix2 (-1001)); [apply le_bpow; lia|].
      rewrite half_bpow in Ea. change (-1000 - 1)%Z with (-1001)%Z in Ea. nra.
    - right. rewrite Rabs_pos_eq by nra. apply Rle_trans with (bpow radix2 (-1001)); [apply le_bpow; lia|].
      rewrite half_bpow in Ea. change (-1000 - 1)%Z with (-1001)%Z in Ea. nra. }
  split; nra.
Qed.

Lemma sqrt_scale k s : 0 <= k -> 0 <= s -> sqrt (k ^ 2 * s) = k * sqrt s.
Proof. intros K S. rewrite sqrt_mult by nra. now rewrite sqrt_pow2. Qed.

Lemma magnitude_interval a b : ordinary a -> ordinary b ->
  (1 - u) ^ 2 * len (a, b) <= magnitude_b64 (a, b) <= (1 + u) ^ 2 * len (a, b).
Proof.
  intros A B. rewrite len_eq. unfold magnitude_b64. cbn [fst snd]. pose proof (sum_rel a b A B) as S.
  set (s := b64 (b64 (a * a) + b64 (b * b))) in *. set (t := a * a + b * b) in *.
  assert (T : 0 <= t) by (unfold t; pose proof (sq_pos a); pose proof (sq_pos b); lra). pose proof u_pos. pose proof u_small.
  assert (S0 : 0 <= s) by nra.
  assert (L : (1 - u) * sqrt t <= sqrt s <= (1 + u) * sqrt t).
  { split; (rewrite <- sqrt_scale; [|lra|exact T]); apply sqrt_le_1_alt; apply S. }
  pose proof (sqrt_pos t). pose proof (sqrt_pos s).
  assert (W : (1 - u) * sqrt s <= b64 (sqrt s) <= (1 + u) * sqrt s).
  { apply within_interval; [lra|]. apply b64_relative.
    assert (Z : t = 0 \/ bpow radix2 (-1000) <= t).
    { unfold t. destruct (ordinary_square a A) as [Ea|[Ea _]], (ordinary_square b B) as [Eb|[Eb _]];
        pose proof (bpow_ge_0 radix2 (-1000)); [left; lra|right; lra..]. }
    destruct Z as [Z|Z].
    - left. rewrite Z, sqrt_0 in L. lra.
    - right. rewrite Rabs_pos_eq by lra. apply Rle_trans with (bpow radix2 (-501)); [apply le_bpow; lia|].
      assert (bpow radix2 (-500) <= sqrt t).
      { rewrite <- (sqrt_pow2 (bpow radix2 (-500))) by apply bpow_ge_0. apply sqrt_le_1_alt.
        replace (bpow radix2 (-500) ^ 2) with (bpow radix2 (-1000)); [exact Z|].
        change (-1000)%Z with (-500 + -500)%Z. rewrite bpow_plus. ring. }
      rewrite half_bpow in H3. change (-500 - 1)%Z with (-501)%Z in H3. pose proof (bpow_ge_0 radix2 (-501)). nra. }
  split; nra.
Qed.

(*@ C134 The computed length of a vector is its length to within a little over two rounding units, unless a square
    leaves the range of a double. *)
Lemma magnitude_relative : forall v, ordinary (fst v) -> ordinary (snd v) -> within_rel (2 * u + u ^ 2) (magnitude_b64 v) (len v).
Proof.
  intros [a b] A B. cbn [fst snd] in *. pose proof (magnitude_interval a b A B) as I. pose proof (len_nonneg (a, b)) as L.
  pose proof u_pos. unfold within_rel. rewrite (Rabs_pos_eq _ L). apply Rabs_le. split; nra.
Qed.

(*@ C134 In the same range only the zero vector has computed length zero, and no intermediate value overflows. *)
Lemma magnitude_zero : forall v, ordinary (fst v) -> ordinary (snd v) ->
  (magnitude_b64 v = 0 <-> v = (0, 0)) /\ b64 (b64 (fst v * fst v) + b64 (snd v * snd v)) < bpow radix2 1002.
Proof.
  intros [a b] A B. cbn [fst snd] in *. pose proof (magnitude_interval a b A B) as I. pose proof (len_nonneg (a, b)) as L.
  pose proof u_pos. pose proof u_small. split; [split|].
  - intro E. rewrite E in I. apply len_zero. nra.
  - intros E. assert (len (a, b) = 0) by now apply len_zero. rewrite H1 in I. lra.
  - pose proof (sum_rel a b A B) as [_ S]. eapply Rle_lt_trans; [exact S|].
    assert (a * a + b * b <= 2 * bpow radix2 1000).
    { pose proof (bpow_ge_0 radix2 1000). destruct (ordinary_square a A) as [Ea|[_ Ea]], (ordinary_square b B) as [Eb|[_ Eb]]; lra. }
    rewrite (half_bpow 1002). change (1002 - 1)%Z with 1001%Z. rewrite (half_bpow 1001). change (1001 - 1)%Z with 1000%Z.
    pose proof (bpow_gt_0 radix2 1000). pose proof (sq_pos a). pose proof (sq_pos b).
    assert ((1 + u) ^ 2 <= 3 / 2) by nra. nra.
Qed.

(*@ C134 Reversing or swapping the components leaves the computed length unchanged, bit for bit, and it is never negative. *)
Lemma magnitude_symmetric : forall a b, magnitude_b64 (- a, b) = magnitude_b64 (a, b) /\
  magnitude_b64 (b, a) = magnitude_b64 (a, b) /\ 0 <= magnitude_b64 (a, b).
Proof.
  intros a b. unfold magnitude_b64. cbn [fst snd]. split; [|split].
  - replace (- a * - a) with (a * a) by ring. reflexivity.
  - rewrite (Rplus_comm (b64 (b * b))). reflexivity.
  - apply b64_nonneg, sqrt_pos.
Qed.

(** ** Without any condition on the size *)
Lemma sqrt_add s e : 0 <= s -> 0 <= e -> sqrt (s + e) <= sqrt s + sqrt e.
Proof.
  intros S E. pose proof (sqrt_pos s). pose proof (sqrt_pos e). rewrite <- (sqrt_pow2 (sqrt s + sqrt e)) by lra. apply sqrt_le_1_alt.
  pose proof (pow2_sqrt s S). pose proof (pow2_sqrt e E). nra.
Qed.

(*@ C134 Whatever the components, the computed length is off by at most a little over two rounding units of the length
    and 2^-500. *)
Lemma magnitude_absolute : forall v, Rabs (magnitude_b64 v - len v) <= (2 * u + u ^ 2) * len v + bpow radix2 (-500).
Proof.
  intros [a b]. rewrite len_eq. unfold magnitude_b64. cbn [fst snd].
  pose proof u_pos as U. pose proof u_small as U'. set (h := bpow radix2 (-1074)).
  assert (Hh : 0 <= h) by apply bpow_ge_0.
  pose proof (b64_mixed (a * a)) as P. pose proof (b64_mixed (b * b)) as Q. fold h in P, Q.
  rewrite (Rabs_pos_eq (a * a)) in P by apply sq_pos. rewrite (Rabs_pos_eq (b * b)) in Q by apply sq_pos.
  apply Rabs_le_inv in P. apply Rabs_le_inv in Q. pose proof (sq_pos a) as Sa. pose proof (sq_pos b) as Sb.
  pose proof (b64_nonneg _ Sa) as Pa. pose proof (b64_nonneg _ Sb) as Pb.
  set (p := b64 (a * a)) in *. set (q := b64 (b * b)) in *. set (t := a * a + b * b).
  pose proof (b64_mixed (p + q)) as S. fold h in S. rewrite (Rabs_pos_eq (p + q)) in S by lra. apply Rabs_le_inv in S.
  pose proof (b64_nonneg (p + q) ltac:(lra)) as S0. set (s := b64 (p + q)) in *.
  assert (T0 : 0 <= t) by (unfold t; lra).
  assert (B : (1 - u) ^ 2 * t <= s + 4 * h /\ s <= (1 + u) ^ 2 * t + 4 * h).
  { assert ((1 - u) * t - 2 * h <= p + q <= (1 + u) * t + 2 * h) by (unfold t; lra). split; nra. }
  destruct B as [B1 B2].
  assert (R1 : (1 - u) * sqrt t <= sqrt s + sqrt (4 * h)).
  { rewrite <- sqrt_scale by lra. eapply Rle_trans; [apply sqrt_le_1_alt, B1|]. apply sqrt_add; lra. }
  assert (R2 : sqrt s <= (1 + u) * sqrt t + sqrt (4 * h)).
  { rewrite <- sqrt_scale by lra. eapply Rle_trans; [apply sqrt_le_1_alt, B2|]. apply sqrt_add; [|lra]. nra. }
  assert (H4 : sqrt (4 * h) = bpow radix2 (-536)).
  { rewrite <- (sqrt_pow2 (bpow radix2 (-536))) by apply bpow_ge_0. f_equal. unfold h.
    replace 4 with (bpow radix2 2) by reflexivity. rewrite <- bpow_plus. cbn [pow]. rewrite Rmult_1_r, <- bpow_plus. reflexivity. }
  rewrite H4 in R1, R2.
  assert (Z : h <= bpow radix2 (-536)) by (apply le_bpow; lia).
  assert (Y : 8 * bpow radix2 (-536) <= bpow radix2 (-500)).
  { replace 8 with (bpow radix2 3) by reflexivity. rewrite <- bpow_plus. apply le_bpow. lia. }
  pose proof (b64_mixed (sqrt s)) as M. fold h in M. pose proof (sqrt_pos s) as Ps. rewrite (Rabs_pos_eq _ Ps) in M.
  apply Rabs_le_inv in M. pose proof (sqrt_pos t) as Pt. apply Rabs_le. split; nra.
Qed.

(*@ C134 The computed unit vector is the exact one to within 2^-51 in each component. *)
Lemma unit_close : forall v, ordinary (fst v) -> ordinary (snd v) -> v <> (0, 0) ->
  Rabs (fst (unit_b64 v) - fst v / len v) <= / 2 ^ 51 /\ Rabs (snd (unit_b64 v) - snd v / len v) <= / 2 ^ 51.
Proof.
  intros [a b] A B N. cbn [fst snd] in *. unfold unit_b64. cbn [fst snd].
  pose proof (magnitude_interval a b A B) as I. pose proof (len_pos _ N) as L. pose proof (len_sq (a, b)) as Q. unfold inner in Q. cbn [fst snd] in Q.
  pose proof u_pos as U. pose proof u_small as U'.
  set (m := magnitude_b64 (a, b)) in *. set (d := len (a, b)) in *.
  assert (M : 0 < m) by nra.
  assert (Dd : d <= bpow radix2 501).
  { destruct (Rle_or_lt d (bpow radix2 501)) as [?|G]; [assumption|exfalso].
    assert (a * a + b * b <= 2 * bpow radix2 1000).
    { pose proof (bpow_ge_0 radix2 1000). destruct (ordinary_square a A) as [Ea|[_ Ea]], (ordinary_square b B) as [Eb|[_ Eb]]; lra. }
    assert (bpow radix2 501 * bpow radix2 501 = 4 * bpow radix2 1000).
    { change 4 with (bpow radix2 2). rewrite <- !bpow_plus. reflexivity. }
    pose proof (bpow_gt_0 radix2 501). pose proof (bpow_gt_0 radix2 1000). nra. }
  assert (Mm : m <= bpow radix2 502).
  { rewrite half_bpow. change (502 - 1)%Z with 501%Z. pose proof (bpow_ge_0 radix2 501). nra. }
  assert (One : forall x, ordinary x -> Rabs x <= d -> Rabs (b64 (x / m) - x / d) <= / 2 ^ 51).
  { intros x X Xd.
    assert (W : within_rel u (b64 (x / m)) (x / m)).
    { apply b64_relative. destruct X as [->|[X _]]; [left; field; lra|right]. unfold Rdiv. rewrite Rabs_mult, (Rabs_pos_eq (/ m)) by (left; now apply Rinv_0_lt_compat).
      apply Rle_trans with (bpow radix2 (-500) * bpow radix2 (-502)).
      - rewrite <- bpow_plus. apply le_bpow. lia.
      - apply Rmult_le_compat; [apply bpow_ge_0|apply bpow_ge_0|exact X|]. change (-502)%Z with (- (502))%Z. rewrite bpow_opp. now apply Rinv_le. }
    unfold within_rel in W.
    set (w := x / d) in *. assert (Ew : x / m = w * (d / m)) by (unfold w; field; lra).
    assert (Aw : Rabs w <= 1).
    { unfold w, Rdiv. rewrite Rabs_mult, (Rabs_pos_eq (/ d)) by (left; now apply Rinv_0_lt_compat).
      apply Rmult_le_reg_r with d; [exact L|]. rewrite Rmult_assoc, Rinv_l, Rmult_1_r by lra. lra. }
    set (k := d / m) in *. assert (Ek : k * m = d) by (unfold k; field; lra).
    assert (Kp : 0 < k) by (unfold k; apply Rdiv_lt_0_compat; assumption).
    assert (K : Rabs (k - 1) <= / 4 * 10 * u).
    { apply Rabs_le. split.
      - destruct (Rle_or_lt (- (/ 4 * 10 * u)) (k - 1)) as [?|G]; [assumption|exfalso]. nra.
      - destruct (Rle_or_lt (k - 1) (/ 4 * 10 * u)) as [?|G]; [assumption|exfalso]. 
        assert (k * ((1 - u) ^ 2 * d) <= d) by nra. assert (k * (1 - u) ^ 2 <= 1) by nra. nra. }
    rewrite Ew in W |- *.
    replace (b64 (w * k) - w) with ((b64 (w * k) - w * k) + w * (k - 1)) by ring.
    eapply Rle_trans; [apply Rabs_triang|]. rewrite (Rabs_mult w (k - 1)). rewrite (Rabs_mult w k) in W.
    assert (E51 : / 2 ^ 51 = 4 * u).
    { unfold unit_roundoff. replace (2 ^ 51) with 2251799813685248 by ring. lra. }
    rewrite E51. pose proof (Rabs_pos w). rewrite (Rabs_pos_eq k) in W by lra. apply Rabs_le_inv in K.
    assert (Rabs w * k <= 1 + / 4 * 10 * u) by nra.
    assert (Kabs : Rabs (k - 1) <= / 4 * 10 * u) by (apply Rabs_le; exact K).
    pose proof (Rabs_pos (k - 1)). nra. }
  split; apply One; try assumption; (apply Rsqr_incr_0_var; [|lra]; rewrite <- Rsqr_abs; unfold Rsqr; pose proof (sq_pos a); pose proof (sq_pos b); nra).
Qed.

(** ** Distances between sites at times *)
Definition flat (x dr : list R) : list R := concat (map (fun xi => map (fun d => b64 (xi - d)) dr) x).

Lemma flat_b64_eq x dr : flat_b64 x dr = flat x dr.
Proof.
  unfold flat_b64, flat, ravelF. rewrite transpose_transpose; [reflexivity|now rewrite map_length|].
  apply Forall_forall. intros r Hr. apply in_map_iff in Hr. destruct Hr as (? & <- & _). now rewrite map_length.
Qed.

Lemma flat_nth x dr i k xi d : nth_error x i = Some xi -> nth_error dr k = Some d ->
  nth_error (flat x dr) (i * length dr + k) = Some (b64 (xi - d)).
Proof.
  intros Hi Hk. unfold flat. rewrite (nth_error_concat (length dr) _ i k (map (fun d => b64 (xi - d)) dr)).
  - now rewrite nth_error_map, Hk.
  - apply Forall_forall. intros r Hr. apply in_map_iff in Hr. destruct Hr as (? & <- & _). apply map_length.
  - now rewrite nth_error_map, Hi.
  - apply nth_error_Some. congruence.
Qed.
Lemma flat_length x dr : length (flat x dr) = (length x * length dr)%nat.
Proof.
  unfold flat. rewrite (length_concat_uniform (length dr)); [now rewrite map_length|].
  apply Forall_forall. intros r Hr. apply in_map_iff in Hr. destruct Hr as (? & <- & _). apply map_length.
Qed.

Lemma float_matrix_entry (xf yf : list R) a b xa xb ya yb :
  nth_error xf a = Some xa -> nth_error xf b = Some xb -> nth_error yf a = Some ya -> nth_error yf b = Some yb ->
  entry (map2 (map2 (fun a b => magnitude_b64 (a, b))) (map (fun a => map (fun b => b64 (a - b)) xf) xf) (map (fun a => map (fun b => b64 (a - b)) yf) yf)) a b
  = Some (magnitude_b64 (b64 (xa - xb), b64 (ya - yb))).
Proof.
  intros Ha Hb Hc Hd. unfold entry. rewrite nth_error_map2, !nth_error_map, Ha, Hc. cbn [option_map].
  rewrite nth_error_map2, !nth_error_map, Hb, Hd. cbn [option_map]. reflexivity.
Qed.

(** Where the float computation puts a site at a time. *)
Definition float_position (p : R * R) (cs c s d : R) : R * R :=
  (b64 (fst p - b64 (b64 (cs * d) * c)), b64 (snd p - b64 (b64 (cs * d) * s))).

Lemma float_entry x y dur cs c s i j k l xi yi xj yj dk dl :
  length x = length y ->
  nth_error x i = Some xi -> nth_error y i = Some yi -> nth_error dur k = Some dk ->
  nth_error x j = Some xj -> nth_error y j = Some yj -> nth_error dur l = Some dl ->
  exists D, spacetime_distances_b64 x y dur cs c s = Ok D /\
    let p := float_position (xi, yi) cs c s dk in let q := float_position (xj, yj) cs c s dl in
    entry D (i * length dur + k) (j * length dur + l) = Some (magnitude_b64 (b64 (fst p - fst q), b64 (snd p - snd q))).
Proof.
  intros EL Hxi Hyi Hk Hxj Hyj Hl. unfold spacetime_distances_b64. rewrite EL, Nat.eqb_refl. cbn [negb].
  eexists. split; [reflexivity|]. rewrite !flat_b64_eq.
  assert (Lx : length (drift_b64 cs c dur) = length dur) by apply map_length.
  assert (Ly : length (drift_b64 cs s dur) = length dur) by apply map_length.
  cbv zeta. unfold float_position. cbn [fst snd]. apply float_matrix_entry.
  - rewrite <- Lx. apply flat_nth; [easy|]. unfold drift_b64. now rewrite nth_error_map, Hk.
  - rewrite <- Lx. apply flat_nth; [easy|]. unfold drift_b64. now rewrite nth_error_map, Hl.
  - rewrite <- Ly. apply flat_nth; [easy|]. unfold drift_b64. now rewrite nth_error_map, Hk.
  - rewrite <- Ly. apply flat_nth; [easy|]. unfold drift_b64. now rewrite nth_error_map, Hl.
Qed.

(*@ C134 The matrix of space-time distances computed in floating point is square with one row per site and time, exactly
    symmetric, exactly zero on the diagonal and nowhere negative. *)
Lemma spacetime_float_shape : forall (x y dur : list R) (cs c s : R) (D : list (list R)),
  spacetime_distances_b64 x y dur cs c s = Ok D ->
  length D = (length x * length dur)%nat /\ (forall row, In row D -> length row = (length x * length dur)%nat) /\
  forall a b, (a < length x * length dur)%nat -> (b < length x * length dur)%nat ->
    exists d, entry D a b = Some d /\ entry D b a = Some d /\ 0 <= d /\ (a = b -> d = 0).
Proof.
  intros x y dur cs c s D E. unfold spacetime_distances_b64 in E. destruct (Nat.eqb_spec (length x) (length y)) as [EL|]; [|discriminate].
  cbn [negb] in E. cbv zeta in E. rewrite !flat_b64_eq in E.
  match type of E with Ok ?X = Ok D => assert (HD : X = D) by congruence end. clear E. subst D.
  set (xf := flat x (drift_b64 cs c dur)). set (yf := flat y (drift_b64 cs s dur)).
  assert (Lx : length xf = (length x * length dur)%nat) by (unfold xf; rewrite flat_length; unfold drift_b64; now rewrite map_length).
  assert (Ly : length yf = (length x * length dur)%nat) by (unfold yf; rewrite flat_length, EL; unfold drift_b64; now rewrite map_length).
  split; [rewrite map2_length; rewrite !map_length; congruence|]. split.
  { intros row Hr. apply In_nth_error in Hr. destruct Hr as [n Hn]. rewrite nth_error_map2, !nth_error_map in Hn.
    destruct (nth_error xf n), (nth_error yf n); cbn [option_map] in Hn; try discriminate.
    match type of Hn with Some ?X = Some row => assert (HX : X = row) by congruence end. subst row.
    rewrite map2_length; rewrite !map_length; congruence. }
  intros a b Ha Hb.
  assert (Get : forall (l : list R) n, (n < length l)%nat -> exists v, nth_error l n = Some v).
  { intros l n Hn. destruct (nth_error l n) eqn:F; [eauto|]. apply nth_error_None in F. lia. }
  destruct (Get xf a ltac:(lia)) as [xa Xa]. destruct (Get xf b ltac:(lia)) as [xb Xb].
  destruct (Get yf a ltac:(lia)) as [ya Ya]. destruct (Get yf b ltac:(lia)) as [yb Yb].
  rewrite (float_matrix_entry xf yf a b xa xb ya yb) by assumption. rewrite (float_matrix_entry xf yf b a xb xa yb ya) by assumption.
  exists (magnitude_b64 (b64 (xa - xb), b64 (ya - yb))). split; [reflexivity|]. split; [f_equal|split].
  - replace (xb - xa) with (- (xa - xb)) by ring. replace (yb - ya) with (- (ya - yb)) by ring. rewrite !b64_neg.
    unfold magnitude_b64. cbn [fst snd]. rewrite !Rmult_opp_opp. reflexivity.
  - apply magnitude_symmetric.
  - intros ->. rewrite Xa in Xb. rewrite Ya in Yb. injection Xb as <-. injection Yb as <-.
    rewrite !Rminus_diag_eq by reflexivity. rewrite !b64_zero. unfold magnitude_b64. cbn [fst snd]. rewrite !Rmult_0_r, !b64_zero, Rplus_0_r, b64_zero, sqrt_0. apply b64_zero.
Qed.

Lemma err_at x e B : Rabs x < bpow radix2 e -> (-1021 <= e)%Z -> bpow radix2 (e - 54) = B -> - B <= b64 x - x <= B.
Proof. intros X E <-. apply Rabs_le_inv. now apply b64_err. Qed.

(** One coordinate of a drifted site. *)
Lemma coordinate_close xi w c g : Rabs xi <= 1048576 -> Rabs w <= 1048576 -> Rabs (c - g) <= u -> Rabs g <= 1 ->
  Rabs (b64 (xi - b64 (b64 w * c)) - (xi - w * g)) <= / 1073741824 /\ Rabs (xi - w * g) <= 2097152.
Proof.
  intros X W C G. apply Rabs_le_inv in X, W, C, G.
  assert (U : u <= / 9007199254740992) by (unfold unit_roundoff; lra). pose proof u_pos as U0.
  assert (E1 : - / 8589934592 <= b64 w - w <= / 8589934592).
  { apply (err_at w 21); [apply Rabs_lt; change (bpow radix2 21) with 2097152; lra|lia|reflexivity]. }
  set (v := b64 w) in *.
  assert (C1 : -1 - / 1000000 <= c <= 1 + / 1000000) by lra.
  assert (V : -1048577 <= v <= 1048577) by lra.
  assert (VC : -1048580 <= v * c <= 1048580) by (clear - V C1; split; nra).
  assert (E2 : - / 8589934592 <= b64 (v * c) - v * c <= / 8589934592).
  { apply (err_at (v * c) 21); [apply Rabs_lt; change (bpow radix2 21) with 2097152; lra|lia|reflexivity]. }
  set (z := b64 (v * c)) in *.
  assert (E3 : - / 4294967296 <= b64 (xi - z) - (xi - z) <= / 4294967296).
  { apply (err_at (xi - z) 22); [apply Rabs_lt; change (bpow radix2 22) with 4194304; lra|lia|reflexivity]. }
  assert (E4 : - (/ 8589934592 + / 17000000000) <= v * c - w * c <= / 8589934592 + / 17000000000).
  { replace (v * c - w * c) with ((v - w) * c) by ring. clear - E1 C1. split; nra. }
  assert (E5 : - / 8589934592 <= w * c - w * g <= / 8589934592).
  { replace (w * c - w * g) with (w * (c - g)) by ring.
    assert (-1048576 * / 9007199254740992 <= w * (c - g) <= 1048576 * / 9007199254740992) by (assert (C2 : - / 9007199254740992 <= c - g <= / 9007199254740992) by lra; clear - W C2; split; nra). lra. }
  split; [apply Rabs_le; lra|]. assert (-1048576 <= w * g <= 1048576) by (clear - W G; split; nra). apply Rabs_le. lra.
Qed.

Lemma len_le_sum a b : len (a, b) <= Rabs a + Rabs b.
Proof.
  rewrite len_eq. pose proof (Rabs_pos a). pose proof (Rabs_pos b). rewrite <- (sqrt_pow2 (Rabs a + Rabs b)) by lra. apply sqrt_le_1_alt.
  pose proof (Rsqr_abs a). pose proof (Rsqr_abs b). unfold Rsqr in *. nra.
Qed.
Lemma len_diff p q : Rabs (len p - len q) <= Rabs (fst p - fst q) + Rabs (snd p - snd q).
Proof.
  assert (K : forall p q, len p <= len q + (Rabs (fst p - fst q) + Rabs (snd p - snd q))).
  { intros [a b] [c d]. cbn [fst snd]. pose proof (len_triangle (c, d) (a - c, b - d)) as T. unfold add2 in T. cbn [fst snd] in T.
    replace (c + (a - c)) with a in T by ring. replace (d + (b - d)) with b in T by ring. pose proof (len_le_sum (a - c) (b - d)). lra. }
  pose proof (K p q) as A. pose proof (K q p) as B. rewrite (Rabs_minus_sym (fst q)), (Rabs_minus_sym (snd q)) in B. apply Rabs_le. lra.
Qed.

(*@ C134 Within a million metres: every entry is the exact distance between the two drifted sites to within 2^-26 metre
    (15 nanometres), whatever the sites, times, speed and direction. *)
Lemma spacetime_float_close : forall (x y dur : list R) (cs cd c s : R) (i j k l : nat) xi yi xj yj dk dl,
  length x = length y ->
  nth_error x i = Some xi -> nth_error y i = Some yi -> nth_error dur k = Some dk ->
  nth_error x j = Some xj -> nth_error y j = Some yj -> nth_error dur l = Some dl ->
  Forall (fun v => Rabs v <= 2 ^ 20) (x ++ y) -> Forall (fun d => Rabs (cs * d) <= 2 ^ 20) dur ->
  Rabs (c - cos cd) <= u -> Rabs (s - sin cd) <= u ->
  exists D d, spacetime_distances_b64 x y dur cs c s = Ok D /\
    entry D (i * length dur + k) (j * length dur + l) = Some d /\
    Rabs (d - dist2 (moved_back (xi, yi) cs cd dk) (moved_back (xj, yj) cs cd dl)) <= / 2 ^ 26.
Proof.
  intros x y dur cs cd c s i j k l xi yi xj yj dk dl EL Hxi Hyi Hk Hxj Hyj Hl FX FD HC HS.
  destruct (float_entry x y dur cs c s i j k l xi yi xj yj dk dl EL Hxi Hyi Hk Hxj Hyj Hl) as (D & E & En).
  exists D, (magnitude_b64 (b64 (fst (float_position (xi, yi) cs c s dk) - fst (float_position (xj, yj) cs c s dl)),
                            b64 (snd (float_position (xi, yi) cs c s dk) - snd (float_position (xj, yj) cs c s dl)))).
  split; [exact E|]. split; [exact En|]. clear D E En.
  replace (2 ^ 20) with 1048576 in FX, FD by ring.
  rewrite Forall_forall in FX, FD.
  assert (Gx : forall n v, nth_error x n = Some v -> Rabs v <= 1048576) by (intros n v H; apply FX, in_or_app; left; eapply nth_error_In; eauto).
  assert (Gy : forall n v, nth_error y n = Some v -> Rabs v <= 1048576) by (intros n v H; apply FX, in_or_app; right; eapply nth_error_In; eauto).
  assert (Gd : forall n v, nth_error dur n = Some v -> Rabs (cs * v) <= 1048576) by (intros n v H; apply FD; eapply nth_error_In; eauto).
  assert (Cc : Rabs (cos cd) <= 1) by (apply Rabs_le; pose proof (COS_bound cd); lra).
  assert (Cs : Rabs (sin cd) <= 1) by (apply Rabs_le; pose proof (SIN_bound cd); lra).
  destruct (coordinate_close xi (cs * dk) c (cos cd) (Gx _ _ Hxi) (Gd _ _ Hk) HC Cc) as [A1 A2].
  destruct (coordinate_close yi (cs * dk) s (sin cd) (Gy _ _ Hyi) (Gd _ _ Hk) HS Cs) as [B1 B2].
  destruct (coordinate_close xj (cs * dl) c (cos cd) (Gx _ _ Hxj) (Gd _ _ Hl) HC Cc) as [A3 A4].
  destruct (coordinate_close yj (cs * dl) s (sin cd) (Gy _ _ Hyj) (Gd _ _ Hl) HS Cs) as [B3 B4].
  unfold float_position, moved_back, dist2, sub2, scale2. cbn [fst snd].
  set (p := b64 (xi - b64 (b64 (cs * dk) * c))) in *. set (q := b64 (xj - b64 (b64 (cs * dl) * c))) in *.
  set (p' := b64 (yi - b64 (b64 (cs * dk) * s))) in *. set (q' := b64 (yj - b64 (b64 (cs * dl) * s))) in *.
  set (P := xi - cs * dk * cos cd) in *. set (Q := xj - cs * dl * cos cd) in *.
  set (P' := yi - cs * dk * sin cd) in *. set (Q' := yj - cs * dl * sin cd) in *.
  clearbody p q p' q' P Q P' Q'. clear - A1 A2 A3 A4 B1 B2 B3 B4.
  apply Rabs_le_inv in A1, A2, A3, A4, B1, B2, B3, B4.
  assert (E1 : - / 2147483648 <= b64 (p - q) - (p - q) <= / 2147483648).
  { apply (err_at (p - q) 23); [apply Rabs_lt; change (bpow radix2 23) with 8388608; lra|lia|reflexivity]. }
  assert (E2 : - / 2147483648 <= b64 (p' - q') - (p' - q') <= / 2147483648).
  { apply (err_at (p' - q') 23); [apply Rabs_lt; change (bpow radix2 23) with 8388608; lra|lia|reflexivity]. }
  set (a := b64 (p - q)) in *. set (b := b64 (p' - q')) in *.
  pose proof (magnitude_absolute (a, b)) as M. pose proof (len_diff (a, b) (P - Q, P' - Q')) as L. cbn [fst snd] in L.
  assert (Ma : Rabs (a - (P - Q)) <= / 536870912 + / 2147483648) by (apply Rabs_le; lra).
  assert (Mb : Rabs (b - (P' - Q')) <= / 536870912 + / 2147483648) by (apply Rabs_le; lra).
  assert (La : len (a, b) <= 8388612).
  { rewrite len_eq. rewrite <- (sqrt_pow2 8388612) by lra. apply sqrt_le_1_alt. 
    assert (Ba : -4194305 <= a <= 4194305) by lra. assert (Bb : -4194305 <= b <= 4194305) by lra. clear - Ba Bb. nra. }
  assert (Z : bpow radix2 (-500) <= / 1099511627776).
  { change (/ 1099511627776) with (bpow radix2 (-40)). apply le_bpow. lia. }
  pose proof (len_nonneg (a, b)) as Ln.
  assert (Mu : (2 * u + u ^ 2) * len (a, b) <= / 300000000).
  { assert (2 * u + u ^ 2 <= 3 / 9007199254740992) by (unfold unit_roundoff; lra).
    assert (0 <= 2 * u + u ^ 2) by (unfold unit_roundoff; lra).
    apply Rle_trans with (3 / 9007199254740992 * 8388612); [apply Rmult_le_compat; lra|lra]. }
  replace (/ 2 ^ 26) with (/ 67108864) by (f_equal; ring).
  replace (magnitude_b64 (a, b) - len (P - Q, P' - Q')) with ((magnitude_b64 (a, b) - len (a, b)) + (len (a, b) - len (P - Q, P' - Q'))) by ring.
  eapply Rle_trans; [apply Rabs_triang|]. lra.
Qed.

Lemma b64_top : b64 (9007199254740992 - 1 / 4) = 9007199254740992.
Proof.
  pose proof (is_b64_int 9007199254740992 ltac:(lia)) as F. apply Rle_antisym.
  - apply Rle_trans with (b64 9007199254740992); [apply b64_mono; lra|]. rewrite (b64_int 9007199254740992) by lia. lra.
  - unfold b64. apply (round_N_ge_midp radix2 b64_exp (fun z => negb (Z.even z))); [exact F|].
    change (IZR 9007199254740992) with (bpow radix2 53) at 2. rewrite pred_bpow. change (bpow radix2 (b64_exp 53)) with 1.
    change (bpow radix2 53) with 9007199254740992. lra.
Qed.

Lemma magnitude_axis a : 0 <= a -> b64 (a * a) = a * a -> b64 a = a -> magnitude_b64 (a, 0) = a /\ magnitude_b64 (- a, 0) = a.
Proof.
  intros P Q E. assert (K : magnitude_b64 (a, 0) = a).
  { unfold magnitude_b64. cbn [fst snd]. rewrite Rmult_0_r, b64_zero, Q, Rplus_0_r, Q, sqrt_square by exact P. exact E. }
  split; [exact K|]. destruct (magnitude_symmetric a 0) as [S _]. now rewrite S.
Qed.

(*@ C134 Refuted: "two sites are equally far apart at every time". Exactly they are; once the drift is large enough to
    absorb their separation the computed distance is zero. *)
Lemma spacetime_float_refuted : exists x y dur cs D,
  spacetime_distances_b64 x y dur cs 1 0 = Ok D /\ length dur = 2%nat /\ length x = 2%nat /\
  entry D (0 * 2 + 0) (1 * 2 + 0) = Some (1 / 4) /\ entry D (0 * 2 + 1) (1 * 2 + 1) = Some 0.
Proof.
  exists [0; 1 / 4], [0; 0], [0; 9007199254740992], 1.
  destruct (float_entry [0; 1 / 4] [0; 0] [0; 9007199254740992] 1 1 0 0 1 0 0 0 0 (1 / 4) 0 0 0
              eq_refl eq_refl eq_refl eq_refl eq_refl eq_refl eq_refl) as (D & E & En0).
  destruct (float_entry [0; 1 / 4] [0; 0] [0; 9007199254740992] 1 1 0 0 1 1 1 0 0 (1 / 4) 0 9007199254740992 9007199254740992
              eq_refl eq_refl eq_refl eq_refl eq_refl eq_refl eq_refl) as (D' & E' & En1).
  rewrite E in E'. assert (D' = D) by congruence. subst D'. exists D. split; [exact E|]. split; [reflexivity|]. split; [reflexivity|].
  cbv zeta in En0, En1. unfold float_position in En0, En1. cbn [fst snd length] in En0, En1.
  assert (Q4 : b64 (1 / 4) = 1 / 4) by (apply (b64_quarter 1); lia).
  assert (B : b64 9007199254740992 = 9007199254740992) by (apply (b64_int 9007199254740992); lia).
  split.
  - etransitivity; [exact En0|]. f_equal. rewrite ?Rmult_0_r, ?Rmult_0_l, ?b64_zero, ?Rmult_0_l, ?Rmult_0_r, ?b64_zero, ?Rminus_0_r, ?b64_zero, ?Q4, ?Rminus_0_r, ?b64_zero.
    replace (0 - 1 / 4) with (- (1 / 4)) by ring. rewrite b64_neg, Q4. refine (proj2 (magnitude_axis (1 / 4) _ _ Q4)); [lra|].
    replace (1 / 4 * (1 / 4)) with (/ 16) by lra. apply b64_id. change (/ 16) with (bpow radix2 (-4)). apply generic_format_bpow. unfold b64_exp, FLT_exp. lia.
  - etransitivity; [exact En1|]. f_equal. rewrite ?Rmult_0_r, ?b64_zero, ?Rmult_1_l, ?B, ?Rmult_1_r, ?B, ?Rminus_0_r, ?b64_zero, ?Rminus_0_r, ?b64_zero.
    replace (1 / 4 - 9007199254740992) with (- (9007199254740992 - 1 / 4)) by ring. replace (0 - 9007199254740992) with (Ropp 9007199254740992) by ring.
    rewrite !b64_neg, b64_top, B. rewrite Rminus_diag_eq by reflexivity. rewrite b64_zero.
    refine (proj1 (magnitude_axis 0 _ _ b64_zero)); [lra|]. rewrite Rmult_0_r. apply b64_zero.
Qed.

(*@ C134 Refuted without the range: a nonzero vector whose computed length is zero. *)
Lemma magnitude_zero_refuted : exists a, is_b64 a /\ a <> 0 /\ magnitude_b64 (a, 0) = 0.
Proof.
  exists (bpow radix2 (-600)). split; [apply generic_format_bpow; unfold b64_exp, FLT_exp; lia|].
  split; [pose proof (bpow_gt_0 radix2 (-600)); lra|].
  assert (Z : b64 (bpow radix2 (-600) * bpow radix2 (-600)) = 0).
  { rewrite <- bpow_plus. change (-600 + -600)%Z with (-1200)%Z. unfold b64. apply (round_N_small_pos radix2 b64_exp (fun z => negb (Z.even z)) _ (-1199)).
    - split; [apply le_bpow; lia|apply bpow_lt; lia].
    - unfold b64_exp, FLT_exp. lia. }
  unfold magnitude_b64. cbn [fst snd]. rewrite Z, Rmult_0_r, b64_zero, Rplus_0_r, b64_zero, sqrt_0. apply b64_zero.
Qed.

Lemma ordinary_int z : (1 <= Z.abs z <= 2 ^ 53)%Z -> ordinary (IZR z).
Proof.
  intros Z. right. rewrite <- abs_IZR. split.
  - apply Rle_trans with 1; [|apply IZR_le; lia]. change 1 with (bpow radix2 0). apply le_bpow. lia.
  - apply Rle_trans with (IZR (2 ^ 53)); [apply IZR_le; lia|]. change (IZR (2 ^ 53)) with (bpow radix2 53). apply le_bpow. lia.
Qed.

(*@ex C134 The vector (3, 4) is ordinary, its computed length is exactly 5; two sites, two times and a speed of 10 m/s along
    the first axis meet the conditions of the accuracy theorem. *)
Lemma dist_float_example : ordinary 3 /\ ordinary 4 /\ magnitude_b64 (3, 4) = 5 /\
  Forall (fun v => Rabs v <= 2 ^ 20) ([0; 300] ++ [0; 400]) /\ Forall (fun d => Rabs (10 * d) <= 2 ^ 20) [0; 60] /\
  Rabs (1 - cos 0) <= u /\ Rabs (0 - sin 0) <= u /\
  exists D, spacetime_distances_b64 [0; 300] [0; 400] [0; 60] 10 1 0 = Ok D /\ length D = 4%nat.
Proof.
  split; [apply (ordinary_int 3); lia|]. split; [apply (ordinary_int 4); lia|]. split; [|split; [|split; [|split; [|split]]]].
  - unfold magnitude_b64. cbn [fst snd]. replace (3 * 3) with 9 by ring. replace (4 * 4) with 16 by ring.
    rewrite (b64_int 9), (b64_int 16) by lia. replace (9 + 16) with 25 by ring. rewrite (b64_int 25) by lia.
    replace 25 with (5 * 5) by ring. rewrite sqrt_square by lra. apply (b64_int 5). lia.
  - replace (2 ^ 20) with 1048576 by ring. cbn [app]. repeat (apply Forall_cons; [apply Rabs_le; lra|]). apply Forall_nil.
  - replace (2 ^ 20) with 1048576 by ring. repeat (apply Forall_cons; [apply Rabs_le; lra|]). apply Forall_nil.
  - rewrite cos_0. rewrite Rminus_diag_eq, Rabs_R0 by reflexivity. pose proof u_pos. lra.
  - rewrite sin_0. rewrite Rminus_diag_eq, Rabs_R0 by reflexivity. pose proof u_pos. lra.
  - eexists. split; [reflexivity|]. reflexivity.
Qed.
