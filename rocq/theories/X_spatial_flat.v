(** spatial.py lla2flat: the flat-earth projection. *)
From Coq Require Import String.
From Verif Require Import Prelude PreludeFacts RealBase Fl M_spatial Spec_spatial.
Local Open Scope R_scope.

Lemma e2_eq : 2 * flattening - flattening ^ 2 = wgs84_e2.
Proof. unfold flattening, wgs84_e2, wgs84_f. lra. Qed.

Lemma f_bounds : 0 < wgs84_f < 1 / 298.
Proof. unfold wgs84_f. lra. Qed.
Lemma e2_bounds : 0 < wgs84_e2 < 1 / 100.
Proof. unfold wgs84_e2. pose proof f_bounds. nra. Qed.

Lemma sin2_bounds mu : 0 <= (sin mu) ^ 2 <= 1.
Proof. pose proof (SIN_bound mu). nra. Qed.

Lemma one_minus_f : 1 - wgs84_e2 = (1 - wgs84_f) ^ 2.
Proof. unfold wgs84_e2. lra. Qed.

Lemma W_bounds mu : 1 - wgs84_f <= wgs84_W mu <= 1 /\ wgs84_W mu ^ 2 = 1 - wgs84_e2 * (sin mu) ^ 2.
Proof.
  pose proof (sin2_bounds mu) as S. pose proof e2_bounds as E. pose proof f_bounds as F.
  assert (P : (1 - wgs84_f) ^ 2 <= 1 - wgs84_e2 * (sin mu) ^ 2 <= 1) by (rewrite <- one_minus_f; nra).
  unfold wgs84_W. split; [split|].
  - rewrite <- (sqrt_pow2 (1 - wgs84_f)) by lra. apply sqrt_le_1_alt. lra.
  - apply Rle_trans with (sqrt 1); [apply sqrt_le_1_alt; lra|rewrite sqrt_1; lra].
  - apply pow2_sqrt. nra.
Qed.

Lemma radius_n_eq mu : radius_n mu = prime_vertical_radius mu.
Proof. unfold radius_n, prime_vertical_radius, wgs84_W, r_earth, wgs84_a. now rewrite e2_eq. Qed.

Lemma radius_m_eq mu : radius_m mu = meridian_radius mu.
Proof.
  unfold radius_m, meridian_radius. rewrite radius_n_eq, e2_eq. destruct (W_bounds mu) as [[L _] E].
  rewrite <- E. pose proof f_bounds. unfold prime_vertical_radius, wgs84_a. field. lra.
Qed.

(*@ C06 The matlab method: metres per degree are the WGS84 radii of curvature at the reference
    latitude; East depends only on longitude, North only on latitude. *)
Lemma flat_is_affine : forall tmerc (lat lon latref lonref : R),
  lla2flat tmerc lat lon latref lonref "matlab" =
  Ok (prime_vertical_radius (latref * (PI / 180)) * cos (latref * (PI / 180)) * (PI / 180) * (lon - lonref),
      meridian_radius (latref * (PI / 180)) * (PI / 180) * (lat - latref)).
Proof.
  intros. unfold lla2flat. cbn [String.eqb Ascii.eqb Bool.eqb]. rewrite radius_n_eq, radius_m_eq.
  unfold deg2rad. replace (latref * PI / 180) with (latref * (PI / 180)) by lra. do 2 f_equal; lra.
Qed.

(*@ C06 Radii: meridional at most transverse, both between the extreme WGS84 curvature radii. *)
Lemma flat_radii : forall mu : R,
  meridian_radius mu <= prime_vertical_radius mu /\
  wgs84_a * (1 - wgs84_f) ^ 2 <= meridian_radius mu <= wgs84_a / (1 - wgs84_f) /\
  wgs84_a <= prime_vertical_radius mu <= wgs84_a / (1 - wgs84_f).
Proof.
  intro mu. destruct (W_bounds mu) as [[L U] E]. pose proof f_bounds as F.
  unfold meridian_radius, prime_vertical_radius. set (W := wgs84_W mu) in *.
  assert (HW : 0 < W) by lra.
  assert (A : 0 < wgs84_a) by (unfold wgs84_a; lra).
  assert (I1 : 1 <= / W) by (rewrite <- Rinv_1; apply Rinv_le_contravar; lra).
  assert (I2 : / W <= / (1 - wgs84_f)) by (apply Rinv_le_contravar; lra).
  assert (I3 : / W ^ 3 = / W * / W * / W) by (field; lra).
  assert (J : 0 < / (1 - wgs84_f)) by (apply Rinv_0_lt_compat; lra).
  assert (JF : (1 - wgs84_f) * / (1 - wgs84_f) = 1) by (field; lra).
  unfold Rdiv. rewrite I3, one_minus_f. set (w := / W) in *. set (j := / (1 - wgs84_f)) in *. set (g := 1 - wgs84_f) in *.
  assert (GW : 0 <= g * w <= 1) by (split; [unfold g; nra|]; replace 1 with (g * j) by easy; apply Rmult_le_compat_l; [unfold g; lra|easy]).
  assert (G1 : 0 < g < 1) by (unfold g; lra).
  assert (Q : g ^ 2 * (w * w) <= 1) by (replace (g ^ 2 * (w * w)) with ((g * w) * (g * w)) by ring; nra).
  assert (M : wgs84_a * g ^ 2 * (w * w * w) = wgs84_a * w * (g ^ 2 * (w * w))) by ring.
  assert (Aw : 0 < wgs84_a * w) by (apply Rmult_lt_0_compat; lra).
  assert (S : wgs84_a * w * (g ^ 2 * (w * w)) <= wgs84_a * w) by (rewrite <- (Rmult_1_r (wgs84_a * w)) at 2; apply Rmult_le_compat_l; lra).
  assert (T : wgs84_a * w <= wgs84_a * j) by (apply Rmult_le_compat_l; lra).
  assert (V : wgs84_a <= wgs84_a * w) by (rewrite <- (Rmult_1_r wgs84_a) at 1; apply Rmult_le_compat_l; lra).
  split; [lra|]. split; [|lra]. split; [|lra].
  assert (1 <= w * w * w) by nra. assert (0 < wgs84_a * g ^ 2) by (apply Rmult_lt_0_compat; [easy|nra]).
  rewrite <- (Rmult_1_r (wgs84_a * g ^ 2)) at 1. apply Rmult_le_compat_l; lra.
Qed.

(*@ C06 Orientation: more northern sites get larger North, more eastern sites get larger East
    (away from the poles); the reference maps to the origin; hence the map is injective. *)
Lemma flat_oriented : forall tmerc (latref lonref lat lon lat' lon' E N E' N' : R),
  -90 < latref < 90 ->
  lla2flat tmerc lat lon latref lonref "matlab" = Ok (E, N) ->
  lla2flat tmerc lat' lon' latref lonref "matlab" = Ok (E', N') ->
  (lat < lat' <-> N < N') /\ (lon < lon' <-> E < E') /\
  ((E, N) = (0, 0) <-> (lat, lon) = (latref, lonref)).
Proof.
  intros tmerc latref lonref lat lon lat' lon' E N E' N' HL H1 H2. rewrite flat_is_affine in H1, H2.
  injection H1 as <- <-. injection H2 as <- <-.
  pose proof PI_RGT_0 as HPI. set (mu := latref * (PI / 180)).
  destruct (flat_radii mu) as (_ & [Lm _] & [Ln _]). pose proof f_bounds as F.
  assert (A : 0 < wgs84_a) by (unfold wgs84_a; lra).
  assert (KN : 0 < meridian_radius mu * (PI / 180)).
  { apply Rmult_lt_0_compat; [|lra]. eapply Rlt_le_trans; [|exact Lm]. apply Rmult_lt_0_compat; [easy|nra]. }
  assert (C : 0 < cos mu) by (apply cos_gt_0; unfold mu; nra).
  assert (KE : 0 < prime_vertical_radius mu * cos mu * (PI / 180)).
  { apply Rmult_lt_0_compat; [|lra]. apply Rmult_lt_0_compat; lra. }
  set (kn := meridian_radius mu * (PI / 180)) in *. set (ke := prime_vertical_radius mu * cos mu * (PI / 180)) in *.
  assert (Inj : forall k a b c, 0 < k -> (a < b <-> k * (a - c) < k * (b - c))).
  { intros k a b c Hk. split; intro; [apply Rmult_lt_compat_l; lra|]. apply Rmult_lt_reg_l in H; lra. }
  split; [now apply Inj|]. split; [now apply Inj|]. split.
  - intros [= X Y]. apply Rmult_integral in X. apply Rmult_integral in Y. f_equal; [destruct Y; lra|destruct X; lra].
  - intros [= -> ->]. f_equal; lra.
Qed.

(*@ C06 Longitudes are not wrapped: two sites a fifth of a degree apart across the antimeridian
    are placed more than 38 000 km apart. *)
Lemma flat_antimeridian : forall tmerc : R -> R -> R -> R -> R * R, exists E N,
  lla2flat tmerc 0 (-179.9) 0 179.9 "matlab" = Ok (E, N) /\ E < -38000000.
Proof.
  intro. rewrite flat_is_affine. do 2 eexists. split; [reflexivity|].
  rewrite Rmult_0_l, cos_0. destruct (flat_radii 0) as (_ & _ & [L _]). pose proof PI2_3_2 as P. pose proof PI_RGT_0.
  unfold wgs84_a in L. set (r := prime_vertical_radius 0) in *.
  assert (6378137 * 3 <= r * PI) by nra. lra.
Qed.

(*@ C06 Method selection: tmerc delegates to the projection centred on the reference, any other
    name raises ValueError. *)
Lemma flat_methods : forall tmerc (lat lon latref lonref : R) (m : string),
  (m = "tmerc"%string -> lla2flat tmerc lat lon latref lonref m = Ok (tmerc latref lonref lon lat)) /\
  (lla2flat tmerc lat lon latref lonref m = Err ValueError <-> m <> "matlab"%string /\ m <> "tmerc"%string).
Proof.
  intros. split; [now intros ->|]. unfold lla2flat.
  destruct (String.eqb_spec m "matlab"), (String.eqb_spec m "tmerc"); split; try easy; intuition congruence.
Qed.

(*@ex C06 *)
Lemma flat_example : -90 < 40 < 90 /\ exists E N, lla2flat (fun _ _ _ _ => (0, 0)) 41 (-105) 40 (-104) "matlab" = Ok (E, N) /\ E < 0 < N.
Proof.
  split; [lra|]. do 2 eexists. split; [reflexivity|].
  match goal with |- ?e < 0 < ?n => set (E := e); set (N := n) end.
  assert (H : lla2flat (fun _ _ _ _ => (0, 0)) 41 (-105) 40 (-104) "matlab" = Ok (E, N)) by reflexivity.
  assert (R0 : lla2flat (fun _ _ _ _ => (0, 0)) 40 (-104) 40 (-104) "matlab" = Ok (0, 0)) by (rewrite flat_is_affine; do 2 f_equal; lra).
  assert (HL : -90 < 40 < 90) by lra.
  destruct (flat_oriented _ _ _ _ _ _ _ _ _ _ _ HL H R0) as (_ & B & _).
  destruct (flat_oriented _ _ _ _ _ _ _ _ _ _ _ HL R0 H) as (A & _ & _).
  split; [apply B; lra|apply A; lra].
Qed.
