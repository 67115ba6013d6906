(** cmv.py: normalised output, and recovery of a frozen advecting field by both methods. *)
From Coq Require Import String Permutation.
From Verif Require Import Prelude PreludeFacts RealBase Fl RealStat M_spatial M_cmv Spec_spatial Spec_cmv P_cmv P_plane X_cmv_options X_cmv_pairs X_cmv_qc X_cmv_cascade.
Local Open Scope R_scope.

(** ** Angle reduction *)
Lemma cos_sin_shift x (k : Z) : cos (x + 2 * IZR k * PI) = cos x /\ sin (x + 2 * IZR k * PI) = sin x.
Proof.
  destruct k as [|p|p].
  - rewrite Rmult_0_r, Rmult_0_l, Rplus_0_r. now split.
  - replace (IZR (Z.pos p)) with (INR (Pos.to_nat p)) by (rewrite INR_IZR_INZ; now rewrite positive_nat_Z).
    split; [apply cos_period|apply sin_period].
  - replace (IZR (Z.neg p)) with (- INR (Pos.to_nat p)) by (rewrite INR_IZR_INZ, positive_nat_Z; now rewrite <- opp_IZR).
    set (n := Pos.to_nat p). rewrite <- (cos_period (x + 2 * - INR n * PI) n), <- (sin_period (x + 2 * - INR n * PI) n).
    replace (x + 2 * - INR n * PI + 2 * INR n * PI) with x by ring. now split.
Qed.

Lemma mod_2pi_props a : 0 <= mod_2pi a < 2 * PI /\ cos (mod_2pi a) = cos a /\ sin (mod_2pi a) = sin a.
Proof.
  unfold mod_2pi. pose proof PI_RGT_0 as P. set (k := Int_part (a / (2 * PI))).
  destruct (base_Int_part (a / (2 * PI))) as [A B]. fold k in A, B.
  assert (E : a = 2 * PI * (a / (2 * PI))) by (field; lra).
  split; [split|].
  - assert (2 * PI * IZR k <= 2 * PI * (a / (2 * PI))) by (apply Rmult_le_compat_l; lra). lra.
  - assert (2 * PI * (a / (2 * PI)) < 2 * PI * (IZR k + 1)) by (apply Rmult_lt_compat_l; lra). lra.
  - replace (a - 2 * PI * IZR k) with (a + 2 * IZR (- k) * PI) by (rewrite opp_IZR; ring). apply cos_sin_shift.
Qed.

(*@ C20 Normalisation keeps the fitted vector and makes the speed non-negative and the angle lie in [0, 2 pi). *)
Lemma normalised_fit : forall speed angle : R, exists speed' angle',
  normalise_cmv (Fin speed) (Fin angle) = (Fin speed', Fin angle') /\
  0 <= speed' /\ 0 <= angle' < 2 * PI /\ polar speed' angle' = polar speed angle /\ speed' = Rabs speed.
Proof.
  intros s a. unfold normalise_cmv. cbn [fltb]. destruct (Rltb_spec s 0) as [L|L].
  - cbn [fmul fadd mod_2pi_fl]. exists (s * -1), (mod_2pi (a + PI)). destruct (mod_2pi_props (a + PI)) as (R & C & S).
    split; [reflexivity|]. split; [lra|]. split; [exact R|]. split; [|rewrite Rabs_left; lra].
    unfold polar. rewrite C, S, neg_cos, neg_sin. f_equal; ring.
  - cbn [mod_2pi_fl]. exists s, (mod_2pi a). destruct (mod_2pi_props a) as (R & C & S).
    split; [reflexivity|]. split; [lra|]. split; [exact R|]. split; [|rewrite Rabs_pos_eq; lra].
    unfold polar. now rewrite C, S.
Qed.

Lemma normalise_fin v0 t0 v t : normalise_cmv v0 t0 = (v, t) ->
  (forall a, v = Fin a -> v0 <> Ninf -> 0 <= a) /\ (forall b, t = Fin b -> 0 <= b < 2 * PI).
Proof.
  unfold normalise_cmv. destruct (fltb v0 (Fin 0)) eqn:L; intro E; inversion E; subst; clear E.
  - split.
    + intros a Ha N. destruct v0; cbn in *; try discriminate; try congruence. injection Ha as <-. destruct (Rltb_spec r 0); [lra|discriminate].
    + intros b Hb. destruct (fadd t0 (Fin PI)); cbn in Hb; try discriminate. injection Hb as <-. apply mod_2pi_props.
  - split.
    + intros a Ha N. rewrite Ha in L. cbn in L. destruct (Rltb_spec a 0); [discriminate|lra].
    + intros b Hb. destruct t0; cbn in Hb; try discriminate. injection Hb as <-. apply mod_2pi_props.
Qed.

Lemma magnitude_fl_cases x y : magnitude_fl x y = Nan \/ exists a, magnitude_fl x y = Fin a.
Proof. destruct x, y; cbn; eauto. Qed.
Lemma arctan2_fl_cases x y : arctan2_fl x y = Nan \/ exists a, arctan2_fl x y = Fin a.
Proof. destruct x, y; cbn; eauto. Qed.

(*@ C20 Whatever compute_cmv returns: the speed is a real >= 0 or NaN, the direction a real in [0, 2 pi) or NaN,
    and with 'jamaly' the direction is always a real number. *)
Lemma cmv_output_normalised : forall (K : Type) (HK : Label K) dx dt ms lsq ts (pos : list (K * (R * R))) ref m o bk v t w o',
  compute_cmv dx dt ms lsq ts pos ref m o bk = Ok ((v, t, w), o') ->
  (v = Nan \/ exists a, v = Fin a /\ 0 <= a) /\ (t = Nan \/ exists b, t = Fin b /\ 0 <= b < 2 * PI) /\
  (lower m = "jamaly"%string -> exists b, t = Fin b /\ 0 <= b < 2 * PI).
Proof.
  intros K HK dx dt ms lsq ts pos ref m o bk v t w o' E. apply compute_cmv_inv in E.
  destruct E as (A & B & d & Pb & Pa & f0 & ov & flags & E). cbv zeta in E.
  destruct E as (_ & _ & _ & _ & _ & _ & _ & _ & _ & _ & _ & F). apply finish_cases in F. pose proof PI_RGT_0 as HP.
  assert (B0 : 0 <= 0 < 2 * PI) by lra.
  destruct F as [(N & -> & -> & _)|(T & v0 & t0 & fg & md & Ef & En & _)].
  - split; [right; exists 0; split; [reflexivity|lra]|]. split; [right; exists 0; auto|]. intros _. exists 0. auto.
  - pose proof (normalise_fin _ _ _ _ En) as [NV NT].
    assert (C0 : (v0 = Nan \/ exists a, v0 = Fin a) /\ (t0 = Nan \/ exists b, t0 = Fin b) /\ (lower m = "jamaly"%string -> exists b, t0 = Fin b)).
    { destruct (String.eqb_spec (lower m) "jamaly") as [J|J].
      - unfold fit_jamaly in Ef. inversion Ef as [[E1 E2 E3 E4]]. clear Ef. split.
        + destruct (fin_part _) as [|x0 l0]; cbn [nan_reduce]; [now left|right; eexists; reflexivity].
        + split; [right; eexists; reflexivity|intros _; eexists; reflexivity].
      - unfold fit_gagne in Ef. destruct (lsq _) as [ax ay]. inversion Ef as [[E1 E2 E3 E4]]. clear Ef. split; [|split; [|contradiction]].
        + apply magnitude_fl_cases.
        + apply arctan2_fl_cases. }
    destruct C0 as (C1 & C2 & C3).
    assert (V2 : v = Nan \/ exists a, v = Fin a /\ 0 <= a).
    { destruct C1 as [->|(a & ->)].
      - left. unfold normalise_cmv in En. cbn in En. congruence.
      - unfold normalise_cmv in En. cbn [fltb] in En. destruct (Rltb_spec a 0); cbn [fmul] in En; inversion En; subst; right; eexists; (split; [reflexivity|lra]). }
    assert (T2 : (exists b, t0 = Fin b) -> exists b, t = Fin b).
    { intros [b ->]. unfold normalise_cmv in En. destruct (fltb v0 (Fin 0)); cbn in En; inversion En; eauto. }
    split; [exact V2|]. split.
    + destruct C2 as [->|X].
      * left. unfold normalise_cmv in En. destruct (fltb v0 (Fin 0)); cbn in En; congruence.
      * destruct (T2 X) as [b Hb]. right. exists b. split; [exact Hb|now apply NT].
    + intro J. destruct (T2 (C3 J)) as [b Hb]. exists b. split; [exact Hb|now apply NT].
Qed.

(*@ex C20 *)
Lemma normalise_example : exists a,
  normalise_cmv (Fin (-3)) (Fin (- PI)) = (Fin 3, Fin a) /\ polar 3 a = (3, 0).
Proof.
  destruct (normalised_fit (-3) (- PI)) as (s & a & E & _ & _ & P & Es). exists a.
  assert (E3 : s = 3) by (rewrite Es, Rabs_left; lra). rewrite E3 in *. split; [exact E|]. rewrite P. unfold polar.
  rewrite cos_neg, sin_neg, cos_PI, sin_PI. f_equal; lra.
Qed.

(** ** Linear algebra of the recovery *)
Lemma span_zero seps w : spanning seps -> (forall s, In s seps -> inner s w = 0) -> w = (0, 0).
Proof.
  intros (s & s' & I & I' & C) Z. pose proof (Z s I) as E1. pose proof (Z s' I') as E2.
  destruct s as [a b], s' as [c d], w as [x y]. unfold cross, inner in *. cbn [fst snd] in *.
  assert (X : (a * d - b * c) * x = 0) by (replace ((a * d - b * c) * x) with (d * (a * x + b * y) - b * (c * x + d * y)) by ring; rewrite E1, E2; ring).
  assert (Y : (a * d - b * c) * y = 0) by (replace ((a * d - b * c) * y) with (a * (c * x + d * y) - c * (a * x + b * y)) by ring; rewrite E1, E2; ring).
  apply Rmult_integral in X, Y. f_equal; [destruct X|destruct Y]; auto; contradiction.
Qed.

Lemma Rvar_zero_all l x : Rvar l = 0 -> In x l -> x = Rmean l.
Proof.
  intros V I. assert (NE : l <> []) by (intros ->; destruct I).
  pose proof (INR_length_pos l NE) as P.
  assert (S : Rsum (map (fun y => (y - Rmean l) ^ 2) l) = 0).
  { unfold Rvar in V. unfold Rmean at 1 in V. rewrite map_length in V.
    apply Rmult_eq_reg_r with (/ INR (length l)); [|apply Rinv_neq_0_compat; lra]. unfold Rdiv in V. rewrite V. ring. }
  assert (Z : (x - Rmean l) ^ 2 = 0).
  { apply (Rsum_zero_all _) with (2 := S); [|now apply (in_map (fun y => (y - Rmean l) ^ 2))].
    intros y Hy. apply in_map_iff in Hy. destruct Hy as (z & <- & _). apply pow2_ge_0. }
  assert (x - Rmean l = 0) by (destruct (Req_dec (x - Rmean l) 0) as [?|N]; [easy|]; exfalso; apply (pow_nonzero _ 2 N Z)). lra.
Qed.

Lemma Rvar_const {A} (f : A -> R) l c : l <> [] -> (forall x, In x l -> f x = c) -> Rvar (map f l) = 0.
Proof.
  intros NE H. assert (E : map f l = map (fun _ => c) l) by (now apply map_ext_in). rewrite E. unfold Rvar.
  rewrite Rmean_const by exact NE. rewrite map_map. rewrite Rmean_const by exact NE. ring.
Qed.

Lemma Rvar_nonneg l : 0 <= Rvar l.
Proof. unfold Rvar. apply Rmean_nonneg. intros y Hy. apply in_map_iff in Hy. destruct Hy as (z & <- & _). apply pow2_ge_0. Qed.

Lemma polar_exists v : v <> (0, 0) -> exists th, v = polar (len v) th.
Proof.
  destruct v as [x y]. intro N. exists (arctan2 y x). destruct (cos_sin_atan2 x y N) as [C S]. unfold polar. rewrite C, S.
  pose proof (len_pos _ N). f_equal; field; lra.
Qed.

Lemma inner_scale_r s k v : inner s (scale2 k v) = k * inner s v.
Proof. unfold inner, scale2. cbn. ring. Qed.

Lemma inner_vv v : v <> (0, 0) -> 0 < inner v v.
Proof. intro N. pose proof (len_pos v N). rewrite <- len_sq. nra. Qed.

(** A direction along which every pair has the same apparent speed c is the true one, up to sign. *)
Lemma constant_speed_direction seps v th c :
  v <> (0, 0) -> spanning seps -> (forall s, In s seps -> inner s v <> 0) ->
  (forall s, In s seps -> inner s (cos th, sin th) / (inner s v / inner v v) = c) ->
  polar c th = v.
Proof.
  intros Nv Sp NZ H. pose proof (inner_vv v Nv) as P.
  assert (D : sub2 (cos th, sin th) (scale2 (c / inner v v) v) = (0, 0)).
  { apply (span_zero seps _ Sp). intros s Hs. specialize (H s Hs). specialize (NZ s Hs).
    assert (E : inner s (cos th, sin th) = c * (inner s v / inner v v)) by (rewrite <- H; field; lra).
    replace (inner s (sub2 (cos th, sin th) (scale2 (c / inner v v) v))) with (inner s (cos th, sin th) - inner s (scale2 (c / inner v v) v))
      by (unfold inner, sub2, scale2; cbn; ring).
    rewrite inner_scale_r, E. field. lra. }
  unfold sub2, scale2 in D. cbn [fst snd] in D. injection D as D1 D2.
  set (k := c / inner v v) in *. assert (C : cos th = k * fst v) by lra. assert (S : sin th = k * snd v) by lra.
  pose proof (sin2_cos2 th) as U. unfold Rsqr in U. rewrite C, S in U.
  assert (KK : k * k * inner v v = 1) by (unfold inner; lra).
  assert (Ck : c = k * inner v v) by (unfold k; field; lra).
  unfold polar. rewrite C, S, Ck. destruct v as [x y]. cbn [fst snd] in *. f_equal.
  - replace (k * inner (x, y) (x, y) * (k * x)) with (k * k * inner (x, y) (x, y) * x) by ring. rewrite KK. ring.
  - replace (k * inner (x, y) (x, y) * (k * y)) with (k * k * inner (x, y) (x, y) * y) by ring. rewrite KK. ring.
Qed.

(** ** From the report to the pairs used by the fit *)
Section Good.
  Context {K : Type} `{HK : Label K}.
  Lemma good_lists (pos : list (K * (R * R))) v : forall (pairs : list (K * K)) flags vecs lags,
    length vecs = length pairs -> length flags = length pairs -> length lags = length pairs ->
    (forall i p, nth_error pairs i = Some p -> exists s, separation pos p = Some s /\ nth_error vecs i = Some s) ->
    frozen_field pos v pairs flags lags ->
    good_only flags vecs = good_separations pos pairs flags /\
    good_only flags lags = map (fun s => Fin (inner s v / inner v v)) (good_separations pos pairs flags).
  Proof.
    induction pairs as [|p ps IH]; intros [|f fs] [|s ss] [|l ls] L1 L2 L3 S F; try discriminate; [now split|].
    destruct (IH fs ss ls) as [I1 I2]; try (cbn in *; lia).
    { intros i q Hq. apply (S (Datatypes.S i) q Hq). }
    { intros i q Hq Hf. apply (F (Datatypes.S i) q Hq Hf). }
    destruct (S 0%nat p eq_refl) as (s0 & Hs & Es). cbn in Es. injection Es as ->.
    unfold good_only in *. cbn [combine filter good_separations fst]. rewrite Hs.
    destruct f; cbn [is_good flag_eqb map snd]; auto. rewrite I1, I2. split; [reflexivity|]. f_equal.
    destruct (F 0%nat p eq_refl eq_refl) as (s1 & Hs1 & El). rewrite Hs in Hs1. injection Hs1 as <-. cbn in El. congruence.
  Qed.

  Lemma good_sep_in (pos : list (K * (R * R))) pairs flags s : In s (good_separations pos pairs flags) ->
    exists i p, nth_error pairs i = Some p /\ nth_error flags i = Some GOOD /\ separation pos p = Some s.
  Proof.
    revert flags. induction pairs as [|p ps IH]; intros [|f fs] I; try easy. cbn [good_separations] in I.
    assert (R : In s (good_separations pos ps fs) -> exists i p0, nth_error (p :: ps) i = Some p0 /\ nth_error (f :: fs) i = Some GOOD /\ separation pos p0 = Some s).
    { intro J. destruct (IH _ J) as (i & q & A & B & C). exists (Datatypes.S i), q. auto. }
    destruct f; try (now apply R). destruct (separation pos p) as [s0|] eqn:Hs; [|now apply R].
    destruct I as [<-|I]; [|now apply R]. exists 0%nat, p. auto.
  Qed.

  Lemma good_sep_nonempty (pos : list (K * (R * R))) pairs flags :
    (forall i p, nth_error pairs i = Some p -> exists s, separation pos p = Some s) -> length flags = length pairs ->
    two_good flags -> good_separations pos pairs flags <> [].
  Proof.
    intros S L (i & _ & _ & Hi & _). revert flags i L Hi. induction pairs as [|p ps IH]; intros [|f fs] i L Hi; try discriminate; [now destruct i|].
    cbn [good_separations]. destruct (S 0%nat p eq_refl) as (s & Hs). rewrite Hs.
    assert (S' : forall i p, nth_error ps i = Some p -> exists s, separation pos p = Some s) by (intros j q Hq; apply (S (Datatypes.S j) q Hq)).
    destruct i as [|i].
    - cbn in Hi. injection Hi as ->. discriminate.
    - cbn in Hi. specialize (IH S' fs i). cbn in L. destruct f; try discriminate; apply IH; auto.
  Qed.
End Good.

Lemma unit_neq0 th : (cos th, sin th) <> (0, 0).
Proof. intro X. pose proof (unit_len th) as U. rewrite X in U. assert (len (0, 0) = 0) by (now apply len_zero). lra. Qed.

Lemma pair_velocity_frozen seps v th : (forall s, In s seps -> inner s v / inner v v <> 0) ->
  pair_velocity (map (fun s => Fin (inner s v / inner v v)) seps) seps th =
  map (fun s => Fin (inner s (cos th, sin th) / (inner s v / inner v v))) seps.
Proof.
  intro NZ. unfold pair_velocity, pol2rect. rewrite !Rmult_1_l. rewrite project_fin by apply unit_neq0. rewrite unit_len.
  induction seps as [|s seps IH]; [reflexivity|]. unfold map2 in *. cbn [map combine fst snd].
  rewrite fdiv_fin by (apply NZ; now left). cbn [drop_inf]. replace (inner s (cos th, sin th) / 1) with (inner s (cos th, sin th)) by field. f_equal. apply IH. intros; apply NZ; now right.
Qed.

Lemma fin_part_map {A} (f : A -> R) l : fin_part (map (fun x => Fin (f x)) l) = map f l.
Proof. rewrite <- (map_map f Fin). apply fin_part_map_Fin. Qed.

Lemma nan_reduce_ne f l : l <> [] -> nan_reduce f l = Fin (f l).
Proof. now destruct l. Qed.

Lemma polar_unique a b th ph : 0 <= a -> 0 <= b -> polar a th = polar b ph -> a = b.
Proof.
  intros A B E. unfold polar in E. rewrite <- (len_polar a th A), <- (len_polar b ph B). now rewrite E.
Qed.

(*@ C21 Frozen field of velocity [vel], passing separations spanning the plane, and a scalar minimiser
    that finds a global minimum of the variance of apparent speeds: 'jamaly' returns the speed
    |vel|, the direction of [vel] in [0, 2 pi), error index 0 and no TREND flag. *)
Lemma jamaly_recovers : forall (K : Type) (HK : Label K) dx dt ms lsq ts (pos : list (K * (R * R))) ref m o bk v t w o' f (vel : R * R),
  one_answer_per_pair dx -> one_answer_per_pair dt -> lower m = "jamaly"%string ->
  compute_cmv dx dt ms lsq ts pos ref m o bk = Ok ((v, t, w), o') -> w_fit w = Some f ->
  vel <> (0, 0) ->
  frozen_field pos vel (w_allpairs w) (w_pair_flag w) (w_pair_lag f) ->
  spanning (good_separations pos (w_allpairs w) (w_pair_flag w)) ->
  minimises ms (speed_variance (good_separations pos (w_allpairs w) (w_pair_flag w)) vel) ->
  exists a, v = Fin (len vel) /\ t = Fin a /\ 0 <= a < 2 * PI /\ polar (len vel) a = vel /\
    w_flag w = GOOD /\ exists md, w_method_data f = Some md /\ j_err md = Fin 0.
Proof.
  intros K HK dx dt ms lsq ts pos ref m o bk v t w o' f vel Hx Ht Hm E Hf Nv Fr Sp Min.
  destruct (cmv_facts dx dt ms lsq Hx Ht ts pos ref m o bk v t w o' E) as (d & vecs & rows & f0 & ov & flags & o0 & Km & V & Q & G & F & L1 & L2 & L3 & L4 & L5 & L6 & W & S & R).
  rewrite Hm in *. cbn [String.eqb Ascii.eqb Bool.eqb] in G, F. injection G as -> ->.
  apply finish_cases in F. destruct F as [(N & _ & _ & Ew)|(T & v0 & t0 & fg & md & Ef & En & Ew)]; [rewrite Ew in Hf; discriminate|].
  pose proof Hf as Hf'. rewrite Ew in Hf'. cbn [w_fit] in Hf'. injection Hf' as Hf'. rewrite <- Hf' in Fr. cbn [w_pair_lag] in Fr. rewrite W in *.
  set (seps := good_separations pos (w_allpairs w) f0) in *.
  destruct (good_lists pos vel (w_allpairs w) f0 vecs (d_delay d)) as [G1 G2]; auto.
  fold seps in G1, G2. rewrite G1, G2 in Ef. clear G1 G2.
  pose proof (inner_vv vel Nv) as P.
  assert (NE : seps <> []).
  { apply good_sep_nonempty; auto. intros i p Hp. destruct (S i p Hp) as (s & Hs & _). now exists s. }
  (* the QC has removed zero delays *)
  assert (KI : exists lo hi, dget o' "minvelocity"%string = Some lo /\ dget o' "maxvelocity"%string = Some hi).
  { destruct (proj2 (options_effective _ _ _ "minvelocity"%string V)) as [_ K1]. destruct (proj2 (options_effective _ _ _ "maxvelocity"%string V)) as [_ K2].
    destruct K1 as [lo Hlo]; [rewrite default_jamaly; cbn; discriminate|]. destruct K2 as [hi Hhi]; [rewrite default_jamaly; cbn; discriminate|]. eauto. }
  destruct KI as (lo & hi & Hlo & Hhi).
  assert (NZ : forall s, In s seps -> inner s vel / inner vel vel <> 0).
  { intros s Hs X. destruct (good_sep_in _ _ _ _ Hs) as (i & p & Hp & Hg & Hsep).
    destruct (Fr i p Hp Hg) as (s' & Hs' & Hl). rewrite Hsep in Hs'. injection Hs' as <-. rewrite X in Hl.
    destruct (nth_error rows i) as [r|] eqn:Er.
    - destruct (R i r Er) as (p1 & dl & pk & _ & _ & Hd & Ed & _). rewrite Hl in Hd. injection Hd as <-.
      destruct (qc_good_jamaly K HK o0 o' rows f0 lo hi i r V Hlo Hhi Q Er Hg) as (_ & Nd & _). contradiction.
    - apply nth_error_None in Er. assert (i < length (w_allpairs w))%nat by (apply nth_error_Some; congruence). lia. }
  assert (NZ' : forall s, In s seps -> inner s vel <> 0) by (intros s Hs X; apply (NZ s Hs); rewrite X; unfold Rdiv; ring).
  set (lag := map (fun s => Fin (inner s vel / inner vel vel)) seps) in *.
  set (g := speed_variance seps vel) in *.
  assert (Obj : forall x, vel_variance lag seps x = Fin (g x)).
  { intro x. unfold vel_variance, lag. rewrite pair_velocity_frozen by exact NZ. rewrite fin_part_map.
    rewrite nan_reduce_ne; [reflexivity|]. intro X. now apply map_eq_nil in X. }
  specialize (Min (vel_variance lag seps) Obj). unfold fit_jamaly in Ef. cbv zeta in Ef.
  set (th := ms (vel_variance lag seps)) in *.
  destruct (polar_exists vel Nv) as [th0 Hth0].
  assert (G0 : g th0 = 0).
  { unfold g, speed_variance. apply (Rvar_const _ _ (len vel)); [exact NE|]. intros s Hs. specialize (NZ' s Hs).
    assert (Ev : inner s vel = len vel * inner s (cos th0, sin th0)) by (rewrite Hth0 at 1; unfold polar, inner; cbn; ring).
    rewrite <- len_sq. pose proof (len_pos vel Nv). rewrite Ev in *. field. repeat split; first [lra|intro X; apply NZ'; rewrite X; ring]. }
  assert (Gth : g th = 0) by (pose proof (Min th0); pose proof (Rvar_nonneg (map (fun s => inner s (cos th, sin th) / (inner s vel / inner vel vel)) seps)) as NN; fold (speed_variance seps vel th) in NN; fold g in NN; lra).
  set (c := Rmean (map (fun s => inner s (cos th, sin th) / (inner s vel / inner vel vel)) seps)).
  assert (Const : forall s, In s seps -> inner s (cos th, sin th) / (inner s vel / inner vel vel) = c).
  { intros s Hs. apply (Rvar_zero_all _ _ Gth). now apply (in_map (fun s => inner s (cos th, sin th) / (inner s vel / inner vel vel))). }
  pose proof (constant_speed_direction seps vel th c Nv Sp NZ' Const) as Pol.
  assert (Cn : c <> 0) by (intro X; rewrite X in Pol; unfold polar in Pol; rewrite !Rmult_0_l in Pol; congruence).
  assert (Vel : pair_velocity lag seps th = map (fun s => Fin (inner s (cos th, sin th) / (inner s vel / inner vel vel))) seps) by (now apply pair_velocity_frozen).
  rewrite Vel, fin_part_map in Ef.
  set (vs := map (fun s => inner s (cos th, sin th) / (inner s vel / inner vel vel)) seps) in *.
  assert (NEv : vs <> []) by (intro X; now apply map_eq_nil in X).
  assert (AllC : forall x, In x vs -> x = c) by (intros x Hx0; apply in_map_iff in Hx0; destruct Hx0 as (s & <- & Hs); now apply Const).
  rewrite !nan_reduce_ne in Ef by exact NEv. rewrite (median_const _ c NEv AllC) in Ef.
  rewrite (quantile_const 0.6 _ c) in Ef by (auto; lra). rewrite (quantile_const 0.4 _ c) in Ef by (auto; lra).
  cbn [fsub fadd fopp] in Ef. rewrite fdiv_fin in Ef by exact Cn. replace ((c + - c) / c) with 0 in Ef by (field; exact Cn).
  cbn [fabs fltb] in Ef. rewrite Rabs_R0, Rltb_false in Ef by lra.
  assert (E1 : v0 = Fin c) by congruence. assert (E2 : t0 = Fin th) by congruence. assert (E3 : fg = GOOD) by congruence.
  assert (E4 : exists jm, md = Some jm /\ j_err jm = Fin 0) by (match type of Ef with (_, _, _, Some ?J) = _ => exists J end; split; [congruence|reflexivity]).
  destruct E4 as (jm & Ejm & Ejerr).
  subst v0 t0 fg. destruct (normalised_fit c th) as (s' & a' & Nrm & Sp0 & Rng & Pl & _). rewrite Nrm in En.
  assert (v = Fin s') by congruence. assert (t = Fin a') by congruence. subst v t.
  assert (Ls : s' = len vel). { rewrite Hth0 in Pol. rewrite <- Pl in Pol. eapply polar_unique; [exact Sp0|apply len_nonneg|exact Pol]. }
  exists a'. rewrite <- Ls. repeat split; auto; try lra.
  - rewrite Pl. exact Pol.
  - rewrite Ew. reflexivity.
  - exists jm. rewrite <- Hf'. auto.
Qed.

(*@ C22 Frozen field of velocity [vel], passing separations spanning the plane and a least-squares
    routine that finds a minimum of the sum of squared residuals: 'gagne' returns |vel| and the direction of [vel]. *)
Lemma gagne_recovers : forall (K : Type) (HK : Label K) dx dt ms lsq ts (pos : list (K * (R * R))) ref m o bk v t w o' f (vel : R * R),
  one_answer_per_pair dx -> one_answer_per_pair dt -> lower m = "gagne"%string ->
  compute_cmv dx dt ms lsq ts pos ref m o bk = Ok ((v, t, w), o') -> w_fit w = Some f ->
  vel <> (0, 0) ->
  frozen_field pos vel (w_allpairs w) (w_pair_flag w) (w_pair_lag f) ->
  spanning (good_separations pos (w_allpairs w) (w_pair_flag w)) ->
  least_squares_solves lsq (slowness_misfit (good_separations pos (w_allpairs w) (w_pair_flag w)) vel) ->
  exists a, v = Fin (len vel) /\ t = Fin a /\ 0 <= a < 2 * PI /\ polar (len vel) a = vel.
Proof.
  intros K HK dx dt ms lsq ts pos ref m o bk v t w o' f vel Hx Ht Hm E Hf Nv Fr Sp Min.
  destruct (cmv_facts dx dt ms lsq Hx Ht ts pos ref m o bk v t w o' E) as (d & vecs & rows & f0 & ov & flags & o0 & Km & V & Q & G & F & L1 & L2 & L3 & L4 & L5 & L6 & W & S & R).
  rewrite Hm in *. cbn [String.eqb Ascii.eqb Bool.eqb] in G, F. clear G.
  apply finish_cases in F. destruct F as [(N & _ & _ & Ew)|(T & v0 & t0 & fg & md & Ef & En & Ew)]; [rewrite Ew in Hf; discriminate|].
  pose proof Hf as Hf'. rewrite Ew in Hf'. cbn [w_fit] in Hf'. injection Hf' as Hf'. rewrite <- Hf' in Fr. cbn [w_pair_lag] in Fr. rewrite W in *.
  set (seps := good_separations pos (w_allpairs w) flags) in *.
  destruct (good_lists pos vel (w_allpairs w) flags vecs (d_delay d)) as [G1 G2]; auto.
  fold seps in G1, G2. rewrite G1, G2 in Ef. clear G1 G2.
  pose proof (inner_vv vel Nv) as P. pose proof (len_pos vel Nv) as LP.
  set (lag := map (fun s => Fin (inner s vel / inner vel vel)) seps) in *.
  assert (Obj : forall a, exists rs, gagne_resid lag seps (fst a) (snd a) = map Fin rs /\ Rsum (map (fun r => r ^ 2) rs) = slowness_misfit seps vel a).
  { intro a. exists (map (fun s => inner s vel / inner vel vel - inner s a) seps). split.
    - unfold gagne_resid, lag. clear. induction seps as [|s seps IH]; [reflexivity|]. unfold map2 in *. cbn [map combine fst snd].
      rewrite IH. f_equal.
    - unfold slowness_misfit. now rewrite map_map. }
  destruct (Min (gagne_resid lag seps) Obj) as (a & Ea & Opt).
  set (a0 := scale2 (/ inner vel vel) vel).
  assert (Z0 : slowness_misfit seps vel a0 = 0).
  { unfold slowness_misfit. transitivity (Rsum (map (fun _ => 0) seps)); [|rewrite Rsum_map_const; ring].
    apply Rsum_map_ext. intros s _. unfold a0. rewrite inner_scale_r. field. lra. }
  assert (Za : slowness_misfit seps vel a = 0).
  { apply Rle_antisym; [rewrite <- Z0; apply Opt|]. apply Rsum_nonneg. intros x Hx0. apply in_map_iff in Hx0. destruct Hx0 as (s & <- & _). apply pow2_ge_0. }
  assert (Res : forall s, In s seps -> inner s vel / inner vel vel - inner s a = 0).
  { intros s Hs. assert (Z : (inner s vel / inner vel vel - inner s a) ^ 2 = 0).
    { apply (Rsum_zero_all _) with (2 := Za); [|now apply (in_map (fun s => (inner s vel / inner vel vel - inner s a) ^ 2))].
      intros x Hx0. apply in_map_iff in Hx0. destruct Hx0 as (s' & <- & _). apply pow2_ge_0. }
    destruct (Req_dec (inner s vel / inner vel vel - inner s a) 0) as [?|Nz]; [easy|]. exfalso. apply (pow_nonzero _ 2 Nz Z). }
  assert (Aeq : sub2 a0 a = (0, 0)).
  { apply (span_zero seps _ Sp). intros s Hs. replace (inner s (sub2 a0 a)) with (inner s a0 - inner s a) by (unfold inner, sub2; cbn; ring).
    unfold a0. rewrite inner_scale_r. transitivity (inner s vel / inner vel vel - inner s a); [field; lra|now apply Res]. }
  unfold sub2 in Aeq. injection Aeq as A1 A2.
  assert (Ax : fst a = / inner vel vel * fst vel) by (unfold a0, scale2 in A1; cbn [fst snd] in A1; lra).
  assert (Ay : snd a = / inner vel vel * snd vel) by (unfold a0, scale2 in A2; cbn [fst snd] in A2; lra).
  unfold fit_gagne in Ef. rewrite Ea in Ef. cbv zeta in Ef. cbn [fmul fadd] in Ef.
  assert (S2 : fst a * fst a + snd a * snd a = / inner vel vel).
  { rewrite Ax, Ay. replace (/ inner vel vel * fst vel * (/ inner vel vel * fst vel) + / inner vel vel * snd vel * (/ inner vel vel * snd vel))
      with (/ inner vel vel * / inner vel vel * inner vel vel) by (unfold inner at 3; ring). field. lra. }
  rewrite S2 in Ef. assert (IV : / inner vel vel <> 0) by (apply Rinv_neq_0_compat; lra). rewrite fdiv_fin in Ef by exact IV. cbn [fmul] in Ef.
  assert (Vx : 1 / / inner vel vel * fst a = fst vel) by (rewrite Ax; field; lra).
  assert (Vy : 1 / / inner vel vel * snd a = snd vel) by (rewrite Ay; field; lra).
  rewrite Vx, Vy in Ef. cbn [magnitude_fl arctan2_fl] in Ef.
  assert (E1 : v0 = Fin (len vel)) by (rewrite <- magnitude_len; destruct vel; cbn [fst snd] in Ef; congruence).
  assert (E2 : t0 = Fin (arctan2 (snd vel) (fst vel))) by congruence. subst v0 t0.
  destruct (normalised_fit (len vel) (arctan2 (snd vel) (fst vel))) as (s' & a' & Nrm & Sp0 & Rng & Pl & Abs). rewrite Nrm in En.
  assert (v = Fin s') by congruence. assert (t = Fin a') by congruence. subst v t.
  rewrite Rabs_pos_eq in Abs by lra. subst s'. exists a'. repeat split; auto; try lra. rewrite Pl.
  destruct vel as [x y]. cbn [fst snd]. destruct (cos_sin_atan2 x y Nv) as [C Sn]. unfold polar. rewrite C, Sn. f_equal; field; lra.
Qed.

(** ** A concrete run: three sites, a field moving east at 10 m/s *)
Definition demo_pos : list (nat * (R * R)) := [(0%nat, (0, 0)); (1%nat, (100, 100)); (2%nat, (100, -100))].
Definition demo_ts : list (nat * list (option R)) := [(0%nat, demo_sig); (1%nat, demo_sig); (2%nat, demo_sig)].
Definition demo_delay : delay_out :=
  mkDelay [Fin 0; Fin 10; Fin 10; Fin 0; Fin 0; Fin 0] (repeat (Fin 0.92) 6) (repeat (Fin 0.1) 6) None None.
Definition demo_backend (A B : list (list (option R))) : result delay_out :=
  if Nat.eqb (length A) 6 then Ok demo_delay else Err ValueError.

Lemma demo_backend_ok : one_answer_per_pair demo_backend.
Proof.
  intros A B d _ E. unfold demo_backend in E. destruct (Nat.eqb_spec (length A) 6) as [->|]; [|discriminate].
  injection E as <-. now split.
Qed.

Definition demo_flags (m : string) : list Flag :=
  if String.eqb m "jamaly" then [VELLIMIT; GOOD; GOOD; VELLIMIT; VELLIMIT; VELLIMIT] else [NOLAG; GOOD; GOOD; NOLAG; NOLAG; NOLAG].

Lemma demo_nanstd : nanstd demo_sig = Fin 0.4.
Proof. unfold nanstd. change (present demo_sig) with [1; 0.2]. cbn [nan_reduce]. now rewrite demo_std. Qed.
Lemma demo_nanmax : nanmax demo_sig = Fin 1.
Proof. unfold nanmax. change (present demo_sig) with [1; 0.2]. cbn [nan_reduce]. now rewrite demo_max. Qed.
Lemma demo_var_s : var_s demo_sig = Fin 0.4.
Proof.
  unfold var_s. rewrite demo_nanmax. unfold nanmean. change (present demo_sig) with [1; 0.2]. cbn [nan_reduce]. rewrite demo_mean, fdiv_fin by lra.
  cbn [fsub fadd fopp]. f_equal. lra.
Qed.


Lemma demo_spacing x y : x ^ 2 + y ^ 2 = 20000 -> 140 < magnitude (x, y) < 150.
Proof.
  intro E. unfold magnitude. cbn [fst snd]. rewrite E. split.
  - rewrite <- (sqrt_pow2 140) by lra. apply sqrt_lt_1_alt. lra.
  - rewrite <- (sqrt_pow2 150) by lra. apply sqrt_lt_1_alt. lra.
Qed.

Lemma fdiv_by0 x : is_nan (fdiv (Fin x) (Fin 0)) = true \/ fdiv (Fin x) (Fin 0) = Pinf \/ fdiv (Fin x) (Fin 0) = Ninf.
Proof. rewrite fdiv_zero. unfold sgn_inf. destruct (Rltb 0 x); auto. destruct (Rltb x 0); auto. Qed.

Lemma speed_by0 x hi : (fltb (Fin 0) (fabs (fdiv (Fin x) (Fin 0))) && fltb (fabs (fdiv (Fin x) (Fin 0))) (Fin hi))%bool = false.
Proof.
  destruct (fdiv_by0 x) as [E|[E|E]].
  - destruct (fdiv (Fin x) (Fin 0)); try discriminate. reflexivity.
  - rewrite E. reflexivity.
  - rewrite E. reflexivity.
Qed.

Lemma demo_row_good m o ids x y : x ^ 2 + y ^ 2 = 20000 -> fst ids <> snd ids -> m = "jamaly"%string \/ m = "gagne"%string ->
  validate_method_options m (Some []) = Ok o ->
  decide_last (decisions m o (mkRow (K := nat) ids demo_sig demo_sig (Fin (magnitude (x, y))) (Fin 10) (Fin 0.92) (Fin 0.1))) GOOD = GOOD.
Proof.
  intros E N Hm V. pose proof (demo_spacing x y E) as B. unfold decisions. cbn [p_ids p_a p_b p_delay p_peak p_mean p_spacing].
  rewrite demo_nanstd, demo_nanmax, demo_var_s. unfold r_qc, pair_speed. cbn [p_ids p_a p_b p_delay p_peak p_mean p_spacing].
  rewrite !fdiv_fin by lra. rewrite lab_eqb_neq by exact N.
  destruct Hm as [->| ->]; injection V as <-; cbn [String.eqb Ascii.eqb Bool.eqb dget lab_eqb label_string app decide_last feqb is_nan fltb fabs fsub fadd fopp orb].
  - rewrite (Rltb_false 0.4 0.001), (Reqb_false 10 0), (Rltb_false 1 0.4), (Rltb_false 0.4 0.05), (Rltb_false 0.92 0.8), (Rltb_false (1 + - (0.1 / 0.92)) 0.8) by lra.
    rewrite Rabs_pos_eq by lra. rewrite (Rltb_true 0), (Rltb_true _ 70) by lra. reflexivity.
  - rewrite (Rltb_false 0.4 0.001), (Reqb_false 10 0), (Rltb_false 1 0.4) by lra. reflexivity.
Qed.

Lemma demo_row_zero m o ids x y : m = "jamaly"%string \/ m = "gagne"%string ->
  validate_method_options m (Some []) = Ok o ->
  decide_last (decisions m o (mkRow (K := nat) ids demo_sig demo_sig (Fin (magnitude (x, y))) (Fin 0) (Fin 0.92) (Fin 0.1))) GOOD =
  if String.eqb m "jamaly" then VELLIMIT else NOLAG.
Proof.
  intros Hm V. unfold decisions. cbn [p_ids p_a p_b p_delay p_peak p_mean p_spacing].
  rewrite demo_nanstd, demo_nanmax, demo_var_s. unfold r_qc, pair_speed. cbn [p_ids p_a p_b p_delay p_peak p_mean p_spacing].
  rewrite (fdiv_fin 0.1 0.92) by lra. set (b := lab_eqb _ _). clearbody b.
  destruct Hm as [->| ->]; injection V as <-; cbn [String.eqb Ascii.eqb Bool.eqb dget lab_eqb label_string app].
  - rewrite speed_by0. cbn [decide_last]. reflexivity.
  - cbn [decide_last feqb is_nan fltb orb]. rewrite (Rltb_false 0.4 0.001), (Reqb_true 0 0), (Rltb_false 1 0.4) by lra. reflexivity.
Qed.

Lemma demo_cascade : gagne_cascade (d_peak demo_delay) [NOLAG; GOOD; GOOD; NOLAG; NOLAG; NOLAG] = (ALLBAD, [NOLAG; GOOD; GOOD; NOLAG; NOLAG; NOLAG]).
Proof.
  unfold gagne_cascade, corr_at_least, demo_delay. cbv zeta. cbn [d_peak repeat map fleb].
  rewrite (Rleb_false 0.99 0.92), (Rleb_false 0.95 0.92), (Rleb_true 0.9 0.92) by lra. reflexivity.
Qed.

Lemma demo_run (m : string) ms lsq : m = "jamaly"%string \/ m = "gagne"%string ->
  exists v t w o f, compute_cmv demo_backend demo_backend ms lsq demo_ts demo_pos RefNone m None "xcorr" = Ok ((v, t, w), o) /\
    w_fit w = Some f /\
    w_allpairs w = [(0, 0); (0, 1); (0, 2); (1, 1); (1, 2); (2, 2)]%nat /\
    w_pair_flag w = demo_flags m /\ w_pair_lag f = d_delay demo_delay.
Proof.
  intro Hm. set (pairs := [(0, 0); (0, 1); (0, 2); (1, 1); (1, 2); (2, 2)]%nat).
  assert (Lm : lower m = m) by (destruct Hm as [->| ->]; reflexivity).
  destruct (validate_total m []) as [(_ & _ & o & V)|(N & _)].
  2: { exfalso. apply N. split; [exact Hm|]. intros k [v Hk]. discriminate. }
  set (vecs := map2 (fun b a : R * R => (fst b - fst a, snd b - snd a)) [(0, 0); (100, 100); (100, -100); (100, 100); (100, -100); (100, -100)]
                 [(0, 0); (0, 0); (0, 0); (100, 100); (100, 100); (100, -100)]).
  set (rows := map row_of (combine (combine (combine pairs (combine (repeat demo_sig 6) (repeat demo_sig 6))) vecs)
                                    (combine (combine (d_delay demo_delay) (d_peak demo_delay)) (d_mean demo_delay)))).
  assert (Q : pairwise_qc m o rows = Ok (demo_flags m)).
  { rewrite (qc_eq _ _ _ _ V). f_equal. unfold rows, pairs, vecs, demo_delay, demo_flags.
    cbn [map2 map combine repeat row_of fst snd d_delay d_peak d_mean].
    rewrite !demo_row_zero by assumption. rewrite !demo_row_good; try assumption; try (cbn; lia); try (cbn; lra).
    destruct (String.eqb m "jamaly"); reflexivity. }
  set (ov := if String.eqb m "gagne" then ALLBAD else GOOD).
  assert (C : (if String.eqb m "gagne" then gagne_cascade (d_peak demo_delay) (demo_flags m) else (GOOD, demo_flags m)) = (ov, demo_flags m)).
  { unfold ov. destruct Hm as [->| ->]; [reflexivity|]. apply demo_cascade. }
  destruct (finish_cmv ms lsq (String.eqb m "jamaly") (qc_figures rows) ov (demo_flags m) pairs vecs demo_delay) as [[v t] w] eqn:EF.
  pose proof EF as FC. apply finish_cases in FC.
  assert (TG : two_good (demo_flags m)) by (exists 1%nat, 2%nat; destruct Hm as [->| ->]; repeat split; easy).
  destruct FC as [(N & _)|(_ & v0 & t0 & fg & md & _ & _ & Ew)]; [contradiction|].
  exists v, t, w, o. eexists. split; [|split; [rewrite Ew; reflexivity|split; [rewrite Ew; reflexivity|split; [rewrite Ew; reflexivity|reflexivity]]]].
  unfold compute_cmv. rewrite Lm. cbv zeta.
  replace (String.eqb m "jamaly" || String.eqb m "gagne")%bool with true by (destruct Hm as [->| ->]; reflexivity).
  cbn [negb]. change (lower "xcorr") with "xcorr"%string. change (String.eqb "xcorr" "xcorr" || String.eqb "xcorr" "tf")%bool with true. cbn [negb].
  change (get_pairs (map fst demo_pos) (Some (ref_ids (map fst demo_pos) RefNone)) true) with pairs.
  change (match pairs with [] => _ | _ :: ps => ?k end) with k.

  change (mapM (fun p => lookup demo_ts (fst p)) pairs) with (Ok (repeat demo_sig 6)).
  change (mapM (fun p => lookup demo_ts (snd p)) pairs) with (Ok (repeat demo_sig 6)).
  cbn [rbind]. change (String.eqb "xcorr" "xcorr") with true. cbv iota. change (demo_backend (repeat demo_sig 6) (repeat demo_sig 6)) with (Ok demo_delay). cbn [rbind].
  change (mapM (fun p => lookup demo_pos (snd p)) pairs) with (Ok [(0, 0); (100, 100); (100, -100); (100, 100); (100, -100); (100, -100)]).
  change (mapM (fun p => lookup demo_pos (fst p)) pairs) with (Ok [(0, 0); (0, 0); (0, 0); (100, 100); (100, 100); (100, -100)]).
  cbn [rbind]. change (validate_method_options m None = Ok o) in V. rewrite V. cbn [rbind].
  fold vecs. fold rows. rewrite Q. cbn [rbind]. rewrite C, EF. reflexivity.
Qed.

Lemma demo_seps m : m = "jamaly"%string \/ m = "gagne"%string ->
  good_separations demo_pos [(0, 0); (0, 1); (0, 2); (1, 1); (1, 2); (2, 2)]%nat (demo_flags m) = [(100 - 0, 100 - 0); (100 - 0, -100 - 0)].
Proof. intros [->| ->]; reflexivity. Qed.

Lemma demo_frozen m : m = "jamaly"%string \/ m = "gagne"%string ->
  frozen_field demo_pos (10, 0) [(0, 0); (0, 1); (0, 2); (1, 1); (1, 2); (2, 2)]%nat (demo_flags m) (d_delay demo_delay).
Proof.
  intros Hm i p Hp Hg.
  assert (D : (i = 1%nat /\ p = (0, 1)%nat) \/ (i = 2%nat /\ p = (0, 2)%nat)).
  { destruct Hm as [->| ->]; destruct i as [|[|[|[|[|[|i]]]]]]; cbn in Hp, Hg; try discriminate; try (injection Hp as <-; auto); destruct i; discriminate. }
  destruct D as [(-> & ->)|(-> & ->)]; eexists; (split; [reflexivity|]); cbn [nth_error demo_delay d_delay]; do 2 f_equal; unfold inner; cbn; field.
Qed.

Lemma demo_spanning : spanning [(100 - 0, 100 - 0); (100 - 0, -100 - 0)].
Proof. exists (100 - 0, 100 - 0), (100 - 0, -100 - 0). split; [now left|]. split; [right; now left|]. unfold cross. cbn. lra. Qed.

(*@ex C21 *)
Lemma jamaly_example : exists ms lsq v t w o f,
  one_answer_per_pair demo_backend /\
  compute_cmv demo_backend demo_backend ms lsq demo_ts demo_pos RefNone "jamaly" None "xcorr" = Ok ((v, t, w), o) /\ w_fit w = Some f /\
  frozen_field demo_pos (10, 0) (w_allpairs w) (w_pair_flag w) (w_pair_lag f) /\
  spanning (good_separations demo_pos (w_allpairs w) (w_pair_flag w)) /\
  minimises ms (speed_variance (good_separations demo_pos (w_allpairs w) (w_pair_flag w)) (10, 0)).
Proof.
  exists (fun _ => 0), (fun _ => (Fin 0, Fin 0)).
  destruct (demo_run "jamaly" (fun _ => 0) (fun _ => (Fin 0, Fin 0)) (or_introl eq_refl)) as (v & t & w & o & f & E & Hf & Ep & Efl & El).
  exists v, t, w, o, f. rewrite Ep, Efl, El. rewrite demo_seps by auto.
  split; [apply demo_backend_ok|]. split; [exact E|]. split; [exact Hf|]. split; [apply demo_frozen; auto|]. split; [apply demo_spanning|].
  intros g _ x. apply Rle_trans with 0; [|apply Rvar_nonneg]. right. unfold speed_variance. apply (Rvar_const _ _ 10); [discriminate|].
  rewrite cos_0, sin_0. intros s [<-|[<-|[]]]; unfold inner; cbn; field.
Qed.

(*@ex C22 *)
Lemma gagne_example : exists ms lsq v t w o f,
  one_answer_per_pair demo_backend /\
  compute_cmv demo_backend demo_backend ms lsq demo_ts demo_pos RefNone "gagne" None "xcorr" = Ok ((v, t, w), o) /\ w_fit w = Some f /\
  frozen_field demo_pos (10, 0) (w_allpairs w) (w_pair_flag w) (w_pair_lag f) /\
  spanning (good_separations demo_pos (w_allpairs w) (w_pair_flag w)) /\
  least_squares_solves lsq (slowness_misfit (good_separations demo_pos (w_allpairs w) (w_pair_flag w)) (10, 0)).
Proof.
  exists (fun _ => 0), (fun _ => (Fin 0.1, Fin 0)).
  destruct (demo_run "gagne" (fun _ => 0) (fun _ => (Fin 0.1, Fin 0)) (or_intror eq_refl)) as (v & t & w & o & f & E & Hf & Ep & Efl & El).
  exists v, t, w, o, f. rewrite Ep, Efl, El. rewrite demo_seps by auto.
  split; [apply demo_backend_ok|]. split; [exact E|]. split; [exact Hf|]. split; [apply demo_frozen; auto|]. split; [apply demo_spanning|].
  intros g _. exists (0.1, 0). split; [reflexivity|]. intro b. apply Rle_trans with 0.
  - right. unfold slowness_misfit, inner. cbn. lra.
  - unfold slowness_misfit. apply Rsum_nonneg. intros x Hx. apply in_map_iff in Hx. destruct Hx as (s & <- & _). apply pow2_ge_0.
Qed.

Definition zero_backend (A B : list (list (option R))) : result delay_out :=
  Ok (mkDelay (map (fun _ => Fin 0) A) (map (fun _ => Fin 1) A) (map (fun _ => Fin 0) A) None None).
Lemma zero_backend_ok : one_answer_per_pair zero_backend.
Proof. intros A B d _ E. injection E as <-. cbn. now rewrite !map_length. Qed.

(*@ex C19 Both exits are reached: a fit for three sites, the failure exit for a single site. *)
Lemma exits_example :
  one_answer_per_pair demo_backend /\ one_answer_per_pair zero_backend /\
  (exists ms lsq v t w o f, compute_cmv demo_backend demo_backend ms lsq demo_ts demo_pos RefNone "jamaly" None "xcorr" = Ok ((v, t, w), o) /\ w_fit w = Some f) /\
  (exists ms lsq v t w o, compute_cmv zero_backend zero_backend ms lsq demo_ts [(0%nat, (0, 0))] RefNone "jamaly" None "xcorr" = Ok ((v, t, w), o) /\ w_fit w = None).
Proof.
  split; [apply demo_backend_ok|]. split; [apply zero_backend_ok|]. split.
  - destruct (demo_run "jamaly" (fun _ => 0) (fun _ => (Fin 0, Fin 0)) (or_introl eq_refl)) as (v & t & w & o & f & E & Hf & _). eauto 10.
  - exists (fun _ => 0), (fun _ => (Fin 0, Fin 0)).
    match goal with |- exists v t w o, ?c = _ /\ _ => destruct c as [[[[v t] w] o]|e] eqn:E end.
    2: { exfalso. cbn -[finish_cmv Rmax_of Rmean Rstd magnitude fltb fdiv] in E. discriminate. }
    exists v, t, w, o. split; [reflexivity|].
    destruct (cmv_failure_exit _ _ _ _ _ _ _ _ _ _ _ _ _ _ _ _ zero_backend_ok zero_backend_ok E) as (L & F & _).
    apply F. intros (i & j & N & Gi & Gj).
    assert (P : w_allpairs w = [(0, 0)]%nat).
    { apply compute_cmv_inv in E. destruct E as (A & B & d & Pb & Pa & f0 & ov & fl & E). cbv zeta in E.
      destruct E as (_ & _ & _ & _ & _ & _ & _ & _ & _ & _ & _ & EF). apply finish_pairs in EF. destruct EF as [-> _]. reflexivity. }
    rewrite P in L. destruct (w_pair_flag w) as [|a [|]]; try discriminate. destruct i as [|[|]], j as [|[|]]; cbn in *; congruence.
Qed.
