(** Aligned sites record the same series with a delay; where the correlation between two sites peaks. *)
From Verif Require Import Prelude PreludeFacts RealBase Fl RealStat M_spatial Spec_spatial Spec_stats M_copula Spec_copula P_plane X_spatial_time
  X_stats_err P_list X_copula_params X_copula_inverse X_copula_down Spec_copula_frozen.
Local Open Scope R_scope.

Lemma vdot_nil_l : forall b, vdot [] b = 0.
Proof. reflexivity. Qed.
Lemma vdot_cons : forall x a y b, vdot (x :: a) (y :: b) = x * y + vdot a b.
Proof. intros. unfold vdot. cbn [combine map]. now rewrite Rsum_cons. Qed.
(** |a - b|^2 = 0 forces a = b. *)
Lemma vdot_gap : forall a b, length a = length b -> 0 <= vdot a a - 2 * vdot a b + vdot b b /\ (vdot a a - 2 * vdot a b + vdot b b = 0 -> a = b).
Proof.
  induction a as [|x a IH]; intros [|y b] L; try discriminate.
  - unfold vdot. cbn. split; [lra|reflexivity].
  - rewrite !vdot_cons. injection L as L. destruct (IH b L) as [G E]. pose proof (pow2_ge_0 (x - y)) as P.
    replace (x * x + vdot a a - 2 * (x * y + vdot a b) + (y * y + vdot b b)) with ((x - y) ^ 2 + (vdot a a - 2 * vdot a b + vdot b b)) by ring.
    split; [lra|]. intro Z. assert (Q : (x - y) ^ 2 = 0) by lra. assert (x = y) by nra. subst y. f_equal. apply E. lra.
Qed.

Lemma draw_equal : forall cov draw a b, gaussian_draw cov draw -> entry cov a a = Some 1 -> entry cov b b = Some 1 -> entry cov a b = Some 1 ->
  (a < length cov)%nat -> (b < length cov)%nat -> exists z, nth_error draw a = Some z /\ nth_error draw b = Some z.
Proof.
  intros cov draw a b (A & w & L & -> & Lr & G) Ea Eb Eab Ha Hb.
  destruct (nth_error A a) as [ra|] eqn:Ra; [|apply nth_error_None in Ra; lia]. destruct (nth_error A b) as [rb|] eqn:Rb; [|apply nth_error_None in Rb; lia].
  assert (ra = rb).
  { apply vdot_gap; [rewrite (Lr ra), (Lr rb) by (eapply nth_error_In; eauto); reflexivity|].
    pose proof (G _ _ _ _ Ra Ra) as G1. pose proof (G _ _ _ _ Rb Rb) as G2. pose proof (G _ _ _ _ Ra Rb) as G3.
    assert (vdot ra ra = 1) by congruence. assert (vdot rb rb = 1) by congruence. assert (vdot ra rb = 1) by congruence. lra. }
  subst rb. exists (vdot ra w). now rewrite !nth_error_map, Ra, Rb.
Qed.

Lemma finish_cells : forall scale noneg K m, exists f : R -> fl, finish scale noneg K m = map (map f) m.
Proof.
  intros scale noneg K m. unfold finish, clip_neg, scale_to. destruct scale, noneg; rewrite ?map_map.
  - eexists (fun v => _). apply map_ext. intro row. rewrite map_map. apply map_ext. intro v. reflexivity.
  - eexists (fun v => _). reflexivity.
  - eexists (fun v => _). apply map_ext. intro row. rewrite map_map. apply map_ext. intro v. reflexivity.
  - eexists (fun v => _). reflexivity.
Qed.

Lemma unit_cs : forall d, cos d * cos d + sin d * sin d = 1.
Proof. intro d. pose proof (sin2_cos2 d) as H. unfold Rsqr in H. lra. Qed.
Lemma some_index : forall A (l : list A) i x, nth_error l i = Some x -> (i < length l)%nat.
Proof. intros. apply nth_error_Some. congruence. Qed.
Lemma positive_k : forall K q pdf cdf k, proper q -> solar_gmm csi_grid K q = Ok (pdf, cdf, k) -> 0 < k.
Proof.
  intros K q pdf cdf k (Q1 & Q2 & Q3) E. destruct (solar_gmm_ok csi_grid K q grid_ne Q1 Q2 Q3) as (p' & c' & k' & E' & Hk & _).
  replace k with k' by congruence. rewrite Hk. pose proof (Rmax_r (corr_quadr q * K * (1 - K)) (1 / 100000)). lra.
Qed.

Lemma frozen_core : forall mvn Phi times e n spd dir K q seed, sampler mvn -> proper q -> times <> [] -> length e = length n ->
  (forall k cov, 0 < k -> site_time_cov k e n times spd dir cov -> gaussian_draw cov (mvn seed cov)) ->
  forall scale noneg, exists out, downscale mvn Phi times e n [spd] dir K q seed scale noneg = Ok out /\ shaped (length times) (length e) out /\
    forall i j a b dt, downwind e n dir i j (spd * dt) -> elapsed times a b dt -> exists v, cell_at out a i v /\ cell_at out b j v.
Proof.
  intros mvn Phi times e n spd dir K q seed Hm Hq Nt EL Dr scale noneg.
  destruct (downscale_core mvn Phi times e n spd dir K q seed Hm Hq Nt EL) as (pdf & cdf & k & cov & m & Eg & Hc & Sh & Cm & _ & Ed).
  pose proof (positive_k _ _ _ _ _ Hq Eg) as Kp. destruct (finish_cells scale noneg K m) as [f Ef].
  exists (map (map f) m). split; [now rewrite Ed, Ef|]. split; [now apply shaped_map|].
  intros i j a b dt (ei & ni & ej & nj & Ei & Ni & Ej & Nj & P1 & P2) (ta & tb & Ta & Tb & P3).
  destruct (cov_correlation k e n times spd dir cov Kp EL Nt Hc) as (D1 & _ & C1 & _).
  pose proof (some_index _ _ _ _ Ei) as Li. pose proof (some_index _ _ _ _ Ej) as Lj. pose proof (some_index _ _ _ _ Ta) as La. pose proof (some_index _ _ _ _ Tb) as Lb.
  assert (Xa : (i * length times + a < length cov)%nat) by (rewrite (proj1 Hc); nia).
  assert (Xb : (j * length times + b < length cov)%nat) by (rewrite (proj1 Hc); nia).
  assert (One : entry cov (i * length times + a) (j * length times + b) = Some 1).
  { apply (C1 i j a b ei ni ej nj ta tb Ei Ni Ta Ej Nj Tb). unfold sub2, scale2. cbn [fst snd]. f_equal; subst; ring. }
  destruct (draw_equal cov (mvn seed cov) _ _ (Dr k cov Kp Hc) (D1 _ Xa) (D1 _ Xb) One Xa Xb) as (z & Za & Zb).
  destruct (Cm a i z La Li Za) as (r1 & H1 & V1). destruct (Cm b j z Lb Lj Zb) as (r2 & H2 & V2).
  exists (f (inverse_sample csi_grid cdf (Phi z))). split; [exists (map f r1)|exists (map f r2)]; rewrite !nth_error_map.
  - now rewrite H1, V1.
  - now rewrite H2, V2.
Qed.

(*@ C117 The clear-sky index recorded at a site when the clouds arrive from an upwind site is the value recorded there before: same value
    at site i, time a and at site j, time b whenever j lies downwind of i at the distance travelled in between, for every option. *)
Lemma frozen_copy : forall mvn Phi times e n spd dir K q seed scale noneg, sampler mvn -> proper q -> times <> [] -> length e = length n ->
  (forall k cov, 0 < k -> site_time_cov k e n times spd dir cov -> gaussian_draw cov (mvn seed cov)) ->
  exists out, downscale mvn Phi times e n [spd] dir K q seed scale noneg = Ok out /\ shaped (length times) (length e) out /\
    forall i j a b dt, downwind e n dir i j (spd * dt) -> elapsed times a b dt -> exists v, cell_at out a i v /\ cell_at out b j v.
Proof. intros. now apply frozen_core. Qed.

(*@ C117 On evenly spaced times the downwind series is the upwind series delayed by a whole number of rows. *)
Lemma frozen_delay : forall mvn Phi times e n spd dir K q seed scale noneg step i j m, sampler mvn -> proper q -> times <> [] -> length e = length n ->
  (forall k cov, 0 < k -> site_time_cov k e n times spd dir cov -> gaussian_draw cov (mvn seed cov)) ->
  (forall r, (S r < length times)%nat -> elapsed times r (S r) step) -> downwind e n dir i j (spd * (INR m * step)) ->
  exists out, downscale mvn Phi times e n [spd] dir K q seed scale noneg = Ok out /\
    forall r, (r + m < length times)%nat -> exists v, cell_at out r i v /\ cell_at out (r + m) j v.
Proof.
  intros mvn Phi times e n spd dir K q seed scale noneg step i j m Hm Hq Nt EL Dr St Dw.
  destruct (frozen_core mvn Phi times e n spd dir K q seed Hm Hq Nt EL Dr scale noneg) as (out & E & _ & H). exists out. split; [exact E|].
  intros r Hr. apply (H i j r (r + m)%nat (INR m * step) Dw). clear - St Hr. induction m as [|m IH].
  - rewrite Nat.add_0_r in *. destruct (nth_error times r) as [t|] eqn:Et; [|apply nth_error_None in Et; lia]. exists t, t. rewrite Et. repeat split. cbn. ring.
  - destruct (IH ltac:(lia)) as (ta & tb & A & B & C). destruct (St (r + m)%nat ltac:(lia)) as (tb' & tc & B' & C' & D).
    rewrite Nat.add_succ_r in *. assert (tb' = tb) by congruence. subst tb'. exists ta, tc. repeat split; try easy. rewrite S_INR. lra.
Qed.

Lemma frame_dist : forall x y p c d s dir, x = p * cos dir - c * sin dir -> y = p * sin dir + c * cos dir -> d = s ->
  len (x - d * cos dir, y - d * sin dir) = sqrt ((p - s) ^ 2 + c ^ 2).
Proof.
  intros x y p c d s dir -> -> ->. unfold len, inner. cbn [fst snd]. f_equal. pose proof (unit_cs dir) as U.
  replace ((p - s) ^ 2 + c ^ 2) with (((p - s) ^ 2 + c ^ 2) * (cos dir * cos dir + sin dir * sin dir)) by (rewrite U; ring). ring.
Qed.

(*@ C117 The correlation between two sites depends on how far the second lies along and across the motion; it never exceeds the value
    set by the distance across, and reaches it exactly at the delay the clouds need for the distance along. *)
Lemma correlation_peak : forall k e n times spd dir cov i j a b along across dt, 0 < k -> length e = length n -> site_time_cov k e n times spd dir cov ->
  offset e n dir i j along across -> elapsed times a b dt ->
  exists c, entry cov (i * length times + a) (j * length times + b) = Some c /\
    c = exp (- (k * sqrt ((along - spd * dt) ^ 2 + across ^ 2))) /\
    c <= exp (- (k * Rabs across)) /\ (c = exp (- (k * Rabs across)) <-> spd * dt = along).
Proof.
  intros k e n times spd dir cov i j a b along across dt Kp EL (_ & _ & Hc) (ei & ni & ej & nj & Ei & Ni & Ej & Nj & P1 & P2) (ta & tb & Ta & Tb & P3).
  destruct times as [|t0 ts] eqn:Et; [destruct a; discriminate|]. rewrite <- Et in *.
  assert (H0 : nth_error times 0 = Some t0) by (rewrite Et; reflexivity).
  rewrite (Hc i j a b ei ni ej nj ta tb t0 H0 Ei Ni Ta Ej Nj Tb). eexists. split; [reflexivity|].
  assert (Dist : dist2 (moved_back (ei, ni) spd dir (ta - t0)) (moved_back (ej, nj) spd dir (tb - t0)) = sqrt ((along - spd * dt) ^ 2 + across ^ 2)).
  { rewrite <- (frame_dist (ej - ei) (nj - ni) along across (spd * dt) (spd * dt) dir); [|rewrite P1; ring|rewrite P2; ring|reflexivity].
    unfold dist2, moved_back, len, inner, sub2, scale2. cbn [fst snd]. f_equal. rewrite P3. ring. }
  rewrite Dist. split; [reflexivity|].
  assert (Ab : Rabs across = sqrt (across ^ 2)) by (rewrite <- sqrt_Rsqr_abs; unfold Rsqr; f_equal; ring).
  pose proof (pow2_ge_0 (along - spd * dt)) as P. pose proof (pow2_ge_0 across) as Q.
  rewrite Ab. split; [|split].
  - assert (sqrt (across ^ 2) <= sqrt ((along - spd * dt) ^ 2 + across ^ 2)) by (apply sqrt_le_1; lra).
    destruct (Req_dec (sqrt (across ^ 2)) (sqrt ((along - spd * dt) ^ 2 + across ^ 2))) as [->|Ne]; [apply Rle_refl|]. left. apply exp_increasing. nra.
  - intro E. apply exp_inv in E. assert (E' : sqrt ((along - spd * dt) ^ 2 + across ^ 2) = sqrt (across ^ 2)) by nra.
    apply sqrt_inj in E'; [|lra..]. assert ((along - spd * dt) ^ 2 = 0) by lra. nra.
  - intros ->. do 4 f_equal. ring.
Qed.

(** The demonstration: three sites, 450 m apart along and across an eastward motion of 1 m/s. *)
Definition demo_e : list R := [0; 450; 0].
Definition demo_n : list R := [0; 0; 450].
(*@ C117 demos/synthetic_copula_demo.py: with times 15 s apart the downwind site repeats the upwind site 30 rows (450 s) later, while the
    northward site is most correlated with the upwind site at equal times. *)
Lemma demo_delay : forall mvn Phi times K seed, sampler mvn -> times <> [] ->
  (forall k cov, 0 < k -> site_time_cov k demo_e demo_n times 1 0 cov -> gaussian_draw cov (mvn seed cov)) ->
  (forall r, (S r < length times)%nat -> elapsed times r (S r) 15) ->
  (exists out, downscale mvn Phi times demo_e demo_n [1] 0 K default_params seed true true = Ok out /\
    forall r, (r + 30 < length times)%nat -> exists v, cell_at out r 0 v /\ cell_at out (r + 30) 1 v) /\
  forall k cov a b dt, 0 < k -> site_time_cov k demo_e demo_n times 1 0 cov -> elapsed times a b dt ->
    exists c, entry cov (0 * length times + a) (2 * length times + b) = Some c /\ c <= exp (- (k * 450)) /\ (c = exp (- (k * 450)) <-> dt = 0).
Proof.
  intros mvn Phi times K seed Hm Nt Dr St. split.
  - apply (frozen_delay mvn Phi times demo_e demo_n 1 0 K default_params seed true true 15 0 1 30 Hm default_params_proper Nt eq_refl Dr St).
    exists 0, 0, 450, 0. repeat split; rewrite ?cos_0, ?sin_0; [|ring]. replace (INR 30) with 30 by (cbn; lra). lra.
  - intros k cov a b dt Kp Hc El.
    destruct (correlation_peak k demo_e demo_n times 1 0 cov 0 2 a b 0 450 dt Kp eq_refl Hc) as (c & E & _ & Le & Eq); [|exact El|].
    + exists 0, 0, 0, 450. repeat split; rewrite ?cos_0, ?sin_0; ring.
    + exists c. rewrite Rabs_right in * by lra. split; [exact E|]. split; [exact Le|]. rewrite Eq. lra.
Qed.

(** A sampler for two sites one metre apart in the direction of the motion and two times one second apart. *)
Definition pair_rows (r : R) : list (list R) :=
  let q := sqrt (1 - r * r) in [[r; q; 0]; [1; 0; 0]; [r * r; r * q; q]; [r; q; 0]].
Definition pair_draw (_ : Z) (cov : list (list R)) : list R :=
  match cov with
  | [r0; _; _; _] => map (fun row => vdot row [1; 2; 3]) (pair_rows (nth 1 r0 0))
  | _ => map (fun _ => 0) cov
  end.
Lemma line_entry : forall k cov i j a b ei ej ta tb, 0 < k -> site_time_cov k [0; 1] [0; 0] [0; 1] 1 0 cov -> nth_error [0; 1] i = Some ei -> nth_error [0; 1] j = Some ej ->
  nth_error [0; 1] a = Some ta -> nth_error [0; 1] b = Some tb -> entry cov (i * 2 + a) (j * 2 + b) = Some (exp (- (k * Rabs ((ej - ei) - (tb - ta))))).
Proof.
  intros k cov i j a b ei ej ta tb Kp Hc Ei Ej Ta Tb.
  assert (Z : forall i x, nth_error [0; 1] i = Some x -> nth_error [0; 0] i = Some 0) by (intros [|[|[|]]] x; cbn; congruence).
  destruct (correlation_peak k [0; 1] [0; 0] [0; 1] 1 0 cov i j a b (ej - ei) 0 (tb - ta) Kp eq_refl Hc) as (c & E & Ec & _).
  - exists ei, 0, ej, 0. rewrite (Z _ _ Ei), (Z _ _ Ej). repeat split; try easy; rewrite cos_0, sin_0; ring.
  - exists ta, tb. repeat split; try easy. ring.
  - cbn [length] in E. rewrite E, Ec. do 4 f_equal. rewrite <- sqrt_Rsqr_abs. f_equal. unfold Rsqr. ring.
Qed.
(*@ex C117 A sampler that meets the hypothesis, with a draw that is not constant. *)
Lemma frozen_example : sampler pair_draw /\
  (forall k cov, 0 < k -> site_time_cov k [0; 1] [0; 0] [0; 1] 1 0 cov -> gaussian_draw cov (pair_draw 7 cov)) /\
  downwind [0; 1] [0; 0] 0 0 1 (1 * 1) /\ elapsed [0; 1] 0 1 1 /\
  forall k cov, 0 < k -> site_time_cov k [0; 1] [0; 0] [0; 1] 1 0 cov -> nth_error (pair_draw 7 cov) 1 <> nth_error (pair_draw 7 cov) 0.
Proof.
  assert (Shape : forall k cov, 0 < k -> site_time_cov k [0; 1] [0; 0] [0; 1] 1 0 cov -> exists r, 0 < r < 1 /\ r = exp (- (k * 1)) /\ pair_draw 7 cov = map (fun row => vdot row [1; 2; 3]) (pair_rows r) /\ length cov = 4%nat).
  { intros k cov Kp Hc. exists (exp (- (k * 1))). split; [split; [apply exp_pos|apply Rlt_le_trans with (exp 0); [apply exp_increasing; lra|rewrite exp_0; lra]]|]. split; [reflexivity|].
    pose proof (line_entry k cov 0 0 0 1 0 0 0 1 Kp Hc eq_refl eq_refl eq_refl eq_refl) as E. destruct Hc as (L & _ & _). cbn in L. split; [|exact L].
    destruct cov as [|r0 [|r1 [|r2 [|r3 [|]]]]]; try discriminate. cbn [pair_draw]. unfold entry in E. cbn [nth_error Nat.mul Nat.add] in E.
    destruct r0 as [|y0 [|y1 yl]]; try discriminate. cbn [nth]. injection E as ->. do 2 f_equal. do 3 f_equal. rewrite Rabs_left; lra. }
  split; [|split; [|split; [|split]]].
  - intros seed cov. unfold pair_draw. destruct cov as [|r0 [|r1 [|r2 [|r3 [|]]]]]; rewrite ?map_length; reflexivity.
  - intros k cov Kp Hc. destruct (Shape k cov Kp Hc) as (r & Hr & Er & -> & L). exists (pair_rows r), [1; 2; 3]. split; [now rewrite L|]. split; [reflexivity|].
    split; [intros row; unfold pair_rows; cbn [In]; intros [<-|[<-|[<-|[<-|[]]]]]; reflexivity|].
    assert (Ent : forall i j a b ei ej ta tb, nth_error [0; 1] i = Some ei -> nth_error [0; 1] j = Some ej -> nth_error [0; 1] a = Some ta -> nth_error [0; 1] b = Some tb ->
      forall m, Rabs ((ej - ei) - (tb - ta)) = INR m -> entry cov (i * 2 + a) (j * 2 + b) = Some (r ^ m)).
    { intros i j a b ei ej ta tb A B C D m Em. rewrite (line_entry k cov i j a b ei ej ta tb Kp Hc A B C D), Em. f_equal. rewrite Er. clear.
      induction m as [|m IH]; [cbn; rewrite Rmult_0_r, Ropp_0, exp_0; reflexivity|]. rewrite <- tech_pow_Rmult, <- IH, <- exp_plus. f_equal. rewrite S_INR. ring. }
    assert (ab : forall x m, x = INR m \/ x = - INR m -> Rabs x = INR m).
    { intros x m [->| ->]; rewrite ?Rabs_Ropp; apply Rabs_right, Rle_ge, pos_INR. }
    assert (Tab : forall a b, (a < 4)%nat -> (b < 4)%nat -> entry cov a b = Some (r ^ Z.abs_nat (nth a [0; -1; 1; 0]%Z 0%Z - nth b [0; -1; 1; 0]%Z 0%Z))).
    { intros a b Ha Hb. destruct a as [|[|[|[|a]]]]; [..|lia]; (destruct b as [|[|[|[|b]]]]; [..|lia]).
      all: match goal with |- entry _ ?a ?b = _ => refine (Ent (a / 2) (b / 2) (a mod 2) (b mod 2) _ _ _ _ eq_refl eq_refl eq_refl eq_refl _ _)%nat end; apply ab; cbv - [Rplus Ropp Rminus IZR Rmult R0 R1]; lra. }
    clear Hc Shape Er Ent. destruct Hr as [R0 R1].
    assert (Q : sqrt (1 - r * r) * sqrt (1 - r * r) = 1 - r * r) by (apply sqrt_sqrt; nra). unfold pair_rows. revert Q. generalize (sqrt (1 - r * r)) as q. intros q Q.
    intros a b ra rb Ha Hb. assert (La : (a < 4)%nat) by (apply some_index in Ha; exact Ha). assert (Lb : (b < 4)%nat) by (apply some_index in Hb; exact Hb). rewrite (Tab a b La Lb).
    destruct a as [|[|[|[|a]]]]; [..|lia]; injection Ha as <-; (destruct b as [|[|[|[|b]]]]; [..|lia]; injection Hb as <-).
    all: rewrite !vdot_cons, vdot_nil_l; f_equal; (match goal with |- _ ^ ?m = _ => let v := eval vm_compute in m in change m with v end); cbn [pow]; ring [Q].
  - exists 0, 0, 1, 0. repeat split; rewrite ?cos_0, ?sin_0; ring.
  - exists 0, 1. repeat split. ring.
  - intros k cov Kp Hc. destruct (Shape k cov Kp Hc) as (r & [R0 R1] & _ & -> & _). unfold pair_rows. cbn [map nth_error]. rewrite !vdot_cons, vdot_nil_l. intro E. injection E as E.
    assert (Q : sqrt (1 - r * r) * sqrt (1 - r * r) = 1 - r * r) by (apply sqrt_sqrt; nra). assert (P : 0 < sqrt (1 - r * r)) by (apply sqrt_lt_R0; nra). set (q := sqrt (1 - r * r)) in *.
    assert (r + 2 * q = 1) by lra. nra.
Qed.
