(** compute_cmv joined to the delay estimators, end to end: a pattern moving over the sites is measured exactly. *)
From Coq Require Import String Lra Psatz.
From Verif Require Import Prelude PreludeFacts RealBase Fl RealStat P_list M_spatial M_cmv M_signal_corr M_signal_tf M_link Spec_spatial Spec_signal Spec_cmv P_signal P_corr P_delay P_plane P_cmv X_signal_corr X_signal_delay X_signal_tfx X_cmv_options X_cmv_qc X_cmv_cascade X_cmv_motion X_cmv_rows X_cmv_total X_link_delay X_link_good.
From Verif Require M_cmv M_signal_corr.
Local Open Scope R_scope.

(** A record of [n] samples at background level [c], the record's own mean, in which the disturbance [g] is seen
    [k] samples late and completely. *)
Definition records (g : Z -> R) (c : R) (n : nat) (k : Z) (x : list R) : Prop :=
  length x = n /\ (forall i, (i < n)%nat -> nth i x 0 = c + g (Z.of_nat i - k)%Z) /\
  (forall j, g j <> 0 -> (0 <= j + k < Z.of_nat n)%Z) /\ Rmean x = c.
(** One disturbance, not zero everywhere, passes all sites with velocity [vel]: each site's record is gap-free and
    shows it, and the site-to-site lateness in samples is the exact travel time. *)
Definition moving_pattern {K} `{Label K} (dt : R) (n : nat) (ts : list (K * list (option R))) (pos : list (K * (R * R))) (vel : R * R) : Prop :=
  exists g c late, (exists j, g j <> 0) /\
    (forall k s, dget ts k = Some s -> exists x, s = map Some x /\ records g c n (late k) x) /\
    (forall p s, separation pos p = Some s -> IZR (late (snd p) - late (fst p)) * dt = inner s vel / inner vel vel).

Lemma centred_records g c n k x i : records g c n k x -> at0 (centred x) i = if (Z.ltb i 0 || Z.leb (Z.of_nat n) i)%bool then 0 else g (i - k)%Z.
Proof.
  intros (L & V & F & M). unfold at0. rewrite centred_length, L. destruct (Z.ltb_spec i 0), (Z.leb_spec (Z.of_nat n) i); cbn [orb]; auto.
  unfold centred. rewrite nth_indep with (d' := 0 - Rmean x) by (rewrite map_length; lia).
  rewrite (map_nth (fun v => v - Rmean x) x 0), M, V by lia. rewrite Z2Nat.id by lia. ring.
Qed.
Lemma records_delayed g c n k k' x y : records g c n k x -> records g c n k' y -> delayed_by (centred x) (centred y) (k' - k).
Proof.
  intros X Y. pose proof X as (Lx & _ & Fx & _). pose proof Y as (Ly & _ & Fy & _). split; [rewrite !centred_length; congruence|]. rewrite centred_length, Lx. split.
  - intros i Hi. rewrite (centred_records _ _ _ _ _ _ X), (centred_records _ _ _ _ _ _ Y).
    destruct (Z.ltb_spec (Z.of_nat i) 0); [lia|]. destruct (Z.leb_spec (Z.of_nat n) (Z.of_nat i)); [lia|]. cbn [orb].
    assert (E : (Z.of_nat i - (k' - k) - k)%Z = (Z.of_nat i - k')%Z) by lia.
    destruct (Z.ltb_spec (Z.of_nat i - (k' - k)) 0); [|destruct (Z.leb_spec (Z.of_nat n) (Z.of_nat i - (k' - k)))]; cbn [orb]; [| |now rewrite E].
    + destruct (Req_dec (g (Z.of_nat i - k')%Z) 0) as [Z0|N]; [exact Z0|]. rewrite <- E in N. apply Fx in N. lia.
    + destruct (Req_dec (g (Z.of_nat i - k')%Z) 0) as [Z0|N]; [exact Z0|]. rewrite <- E in N. apply Fx in N. lia.
  - intros i N. rewrite (centred_records _ _ _ _ _ _ X) in N. destruct (_ || _)%bool; [easy|]. apply Fy in N. lia.
Qed.
Lemma records_varies g c n k x : (exists j, g j <> 0) -> records g c n k x -> ~ constant x.
Proof.
  intros (j & Nj) X K. pose proof X as (L & V & F & M). pose proof (F j Nj) as B.
  set (i := Z.to_nat (j + k)). assert (Hi : (i < n)%nat) by (unfold i; lia).
  assert (E : nth i x 0 = c + g j) by (rewrite V by exact Hi; f_equal; f_equal; unfold i; lia).
  assert (A : forall z, In z x -> z = nth i x 0) by (intros z Hz; apply K; [exact Hz|apply nth_In; lia]).
  assert (M' : Rmean x = nth i x 0).
  { assert (Ex : x = map (fun _ => nth i x 0) x) by (rewrite <- (map_id x) at 1; apply map_ext_in; exact A).
    transitivity (Rmean (map (fun _ : R => nth i x 0) x)); [now rewrite <- Ex|]. apply Rmean_const. intros ->. cbn in L. lia. }
  rewrite M, E in M'. lra.
Qed.

(*@ C94 Two records of one disturbance: the normalised cross-correlation is 1 at minus the lateness, and smaller elsewhere. *)
Lemma pattern_best : forall g c n k k' x y, (exists j, g j <> 0) -> records g c n k x -> records g c n k' y ->
  best_lag n x y (k - k') /\ ncc x y (k - k') = 1 /\ forall L, lag_of n n L -> L <> (k - k')%Z -> ncc x y L < 1.
Proof.
  intros g c n k k' x y Ng X Y. pose proof (records_delayed g c n k k' x y X Y) as D.
  pose proof (centred_energy_pos x (records_varies _ _ _ _ _ Ng X)) as Px. pose proof (centred_energy_pos y (records_varies _ _ _ _ _ Ng Y)) as Py.
  pose proof (delayed_range _ _ _ Px D) as Rg. destruct X as (Lx & _), Y as (Ly & _). rewrite !centred_length, Lx, Ly in Rg.
  replace (- (k' - k))%Z with (k - k')%Z in Rg by lia.
  assert (Ee : energy (centred y) = energy (centred x)).
  { assert (D' : delayed_by (centred y) (centred x) (k - k')).
    { destruct D as (D0 & D1 & D2). 
      split; [congruence|]. split.
      - intros i Hi. pose proof (delayed_everywhere _ _ _ (conj D0 (conj D1 D2)) (Z.of_nat i - (k - k'))) as Q. rewrite Q. f_equal. lia.
      - intros i Ni. pose proof (delayed_everywhere _ _ _ (conj D0 (conj D1 D2)) i) as Q. rewrite Q in Ni.
        unfold at0 in Ni. rewrite centred_length in *. destruct (Z.ltb_spec (i - (k' - k)) 0), (Z.leb_spec (Z.of_nat (length x)) (i - (k' - k))); cbn in Ni; try easy. lia. }
    pose proof (delayed_lag_sum _ _ _ (k - k') D) as Q1. pose proof (delayed_lag_sum _ _ _ (k' - k) D') as Q2.
    replace (k - k' + (k' - k))%Z with 0%Z in Q1 by lia. replace (k' - k + (k - k'))%Z with 0%Z in Q2 by lia. rewrite lag_sum_self in Q1, Q2.
    rewrite <- Q1, <- Q2. rewrite lag_sum_swap. f_equal. lia. }
  assert (N1 : forall L, ncc x y L = lag_sum (centred x) (centred x) (L + (k' - k)) / energy (centred x)).
  { intro L. unfold ncc. rewrite Ee, sqrt_sqrt by lra. rewrite (delayed_lag_sum _ _ _ L D). reflexivity. }
  assert (V1 : ncc x y (k - k') = 1).
  { rewrite N1. replace (k - k' + (k' - k))%Z with 0%Z by lia. rewrite lag_sum_self. field. lra. }
  assert (V2 : forall L, L <> (k - k')%Z -> ncc x y L < 1).
  { intros L NL. rewrite N1. apply Rmult_lt_reg_r with (energy (centred x)); [exact Px|]. unfold Rdiv. rewrite Rmult_assoc, Rinv_l, Rmult_1_r, Rmult_1_l by lra.
    apply auto_strict; [exact Px|lia]. }
  split; [|auto]. split; [exact Rg|]. intros L' HL. destruct (Z.eq_dec L' (k - k')) as [-> | NL]; [split; [lra|lia]|].
  pose proof (V2 L' NL). split; [lra|]. intro E. lra.
Qed.

(*@ C94 End to end, 'xcorr' delays: if one disturbance moves over all sites, every reported delay is the exact travel time and
    every reported peak correlation is 1. *)
Lemma pattern_delays : forall (K : Type) (HK : Label K) ls win dtr ms lsq dt n ts (pos : list (K * (R * R))) ref m o bk v t w o' f vel,
  keeps_count ls -> 0 < dt -> (2 <= n)%nat -> lower bk = "xcorr"%string ->
  cmv ls win dtr ms lsq dt n ts pos ref m o bk = Ok ((v, t, w), o') -> w_fit w = Some f -> moving_pattern dt n ts pos vel ->
  forall i p, nth_error (w_allpairs w) i = Some p -> exists s, separation pos p = Some s /\
    nth_error (w_pair_lag f) i = Some (Fin (inner s vel / inner vel vel)) /\ nth_error (w_corr_lag f) i = Some (Fin 1).
Proof.
  intros K HK ls win dtr ms lsq dt n ts pos ref m o bk v t w o' f vel KC Hd Hn Hb E Hf (g & c & late & Ng & Rec & Sep) i p Hp.
  destruct (backends_answer dt n ls win dtr) as [Ax At]. specialize (At KC). unfold cmv in E.
  assert (exists kt, dget o' "ktlim"%string = Some kt) as [kt O1].
  { pose proof E as E0. apply compute_cmv_inv in E0. destruct E0 as (A & B & d & Pb & Pa & flags0 & overall & flags & E0). cbv zeta in E0.
    destruct E0 as (Km & _ & _ & _ & _ & _ & _ & _ & EV & _). rewrite options_none in EV.
    destruct (options_effective (lower m) (options_of o) o' "ktlim"%string EV) as [_ [_ H]]. apply H. destruct Km as [->| ->]; discriminate. }
  assert (Vj : lower m = "jamaly"%string -> exists vs mc lo hi, dget o' "var_s_lim"%string = Some vs /\ dget o' "mincorr"%string = Some mc /\
     dget o' "minvelocity"%string = Some lo /\ dget o' "maxvelocity"%string = Some hi).
  { intro Hm. destruct (cmv_option_values K HK _ _ ms lsq ts pos ref m o bk v t w o' Hm E) as (kt' & vs & mc & lo & hi & H). exists vs, mc, lo, hi. tauto. }
  assert (W : exists vs mc lo hi, lower m = "jamaly"%string -> dget o' "var_s_lim"%string = Some vs /\ dget o' "mincorr"%string = Some mc /\
     dget o' "minvelocity"%string = Some lo /\ dget o' "maxvelocity"%string = Some hi).
  { destruct (string_dec (lower m) "jamaly") as [J|J]; [destruct (Vj J) as (vs & mc & lo & hi & H); exists vs, mc, lo, hi; auto|exists Nan, Nan, Nan, Nan; contradiction]. }
  destruct W as (vs & mc & lo & hi & W).
  destruct (cmv_verdict K HK _ _ ms lsq ts pos ref m o bk v t w o' kt vs mc lo hi Ax At E O1 W)
    as (A & B & d & vd & FA & FB & ED & L1 & L2 & L3 & RF & Lv & _ & _ & V).
  rewrite Hb in ED. cbn [String.eqb Ascii.eqb Bool.eqb] in ED. destruct (RF f Hf) as (F1 & F2 & _).
  assert (LA : length A = length (w_allpairs w)) by (clear -FA; induction FA; cbn; congruence).
  assert (LB : length B = length (w_allpairs w)) by (clear -FB; induction FB; cbn; congruence).
  assert (Hi : (i < length (w_allpairs w))%nat) by (apply nth_error_Some; congruence).
  assert (X : forall T0 (l : list T0), length l = length (w_allpairs w) -> exists y, nth_error l i = Some y).
  { intros T0 l EL. destruct (nth_error l i) eqn:Z; [eauto|]. apply nth_error_None in Z. lia. }
  destruct (X _ A LA) as [a Ha]. destruct (X _ B LB) as [b HB]. destruct (X _ _ L1) as [dl Hdl]. destruct (X _ _ L2) as [pk Hpk].
  destruct (X _ _ L3) as [mn Hmn]. destruct (X _ _ Lv) as [gd Hg].
  destruct (V i p a b dl pk mn gd Hp Ha HB Hdl Hpk Hmn Hg) as (s & Es & _). exists s. split; [exact Es|].
  assert (T : table_of n ts) by (intros k z Hz; destruct (Rec k z Hz) as (x & -> & (L & _)); now rewrite map_length).
  pose proof (asked_samples n ts fst _ _ T FA) as SA. pose proof (asked_samples n ts snd _ _ T FB) as SB.
  pose proof (Forall2_nth _ _ _ _ _ _ FA Hp Ha) as Da. pose proof (Forall2_nth _ _ _ _ _ _ FB Hp HB) as Db. cbv beta in Da, Db.
  destruct (Rec _ _ Da) as (x & Ex & Rx). destruct (Rec _ _ Db) as (y & Ey & Ry).
  assert (NA : A <> []) by (intros ->; destruct i; discriminate).
  destruct (xcorr_backend_tells dt n A B ltac:(lra) Hn ltac:(congruence) NA SA SB) as (d' & zs & E' & _ & _ & _ & _ & _ & _ & Tell).
  assert (d' = d) by congruence. subst d'. destruct (Tell i a b Ha HB) as [TI _].
  destruct (TI x y) as (L & BL & T1 & T2 & _). { repeat split; auto; eapply records_varies; eauto. }
  destruct (pattern_best g c n (late (fst p)) (late (snd p)) x y Ng Rx Ry) as (BL' & N1 & _).
  rewrite (best_lag_unique _ _ _ _ _ BL BL') in T1, T2. rewrite N1 in T1, T2. rewrite F1, F2. split; [|exact T2].
  rewrite T1. f_equal. f_equal. destruct (Rlt_dec 1 (/ 10 ^ 10)) as [Q|Q]; [exfalso|].
  - assert (1 * 10 ^ 10 < / 10 ^ 10 * 10 ^ 10) by (apply Rmult_lt_compat_r; [apply pow_lt; lra|exact Q]). rewrite Rinv_l in H by (apply pow_nonzero; lra).
    assert (1 <= 10 ^ 10) by (apply pow_R1_Rle; lra). lra.
  - rewrite <- (Sep p s Es), !minus_IZR. ring.
Qed.

(*@ C94 So both methods return the true speed and direction, given two independent passing pairs and the optimiser's contract. *)
Lemma pattern_recovered : forall (K : Type) (HK : Label K) ls win dtr ms lsq dt n ts (pos : list (K * (R * R))) ref m o bk v t w o' f vel,
  keeps_count ls -> 0 < dt -> (2 <= n)%nat -> lower bk = "xcorr"%string ->
  cmv ls win dtr ms lsq dt n ts pos ref m o bk = Ok ((v, t, w), o') -> w_fit w = Some f -> moving_pattern dt n ts pos vel -> vel <> (0, 0) ->
  spanning (good_separations pos (w_allpairs w) (w_pair_flag w)) ->
  (lower m = "jamaly"%string -> minimises ms (speed_variance (good_separations pos (w_allpairs w) (w_pair_flag w)) vel)) ->
  (lower m = "gagne"%string -> least_squares_solves lsq (slowness_misfit (good_separations pos (w_allpairs w) (w_pair_flag w)) vel)) ->
  exists a, v = Fin (len vel) /\ t = Fin a /\ 0 <= a < 2 * PI /\ polar (len vel) a = vel.
Proof.
  intros K HK ls win dtr ms lsq dt n ts pos ref m o bk v t w o' f vel KC Hd Hn Hb E Hf MP Nv Sp Hj Hg.
  assert (Fr : frozen_field pos vel (w_allpairs w) (w_pair_flag w) (w_pair_lag f)).
  { intros i p Hp _. destruct (pattern_delays K HK ls win dtr ms lsq dt n ts pos ref m o bk v t w o' f vel KC Hd Hn Hb E Hf MP i p Hp) as (s & S1 & S2 & _). eauto. }
  destruct (backends_answer dt n ls win dtr) as [Ax At]. specialize (At KC).
  assert (Km : known_method (lower m)).
  { destruct (cmv_exceptions K HK (xcorr_backend dt n) (tf_backend ls win dtr dt n) ms lsq ts pos ref m o bk) as [X _].
    destruct (string_dec (lower m) "jamaly") as [J|J]; [now left|]. destruct (string_dec (lower m) "gagne") as [G|G]; [now right|].
    unfold cmv in E. rewrite X in E; [discriminate|]. left. intros [?|?]; contradiction. }
  destruct Km as [J|G].
  - destruct (jamaly_recovers K HK _ _ ms lsq ts pos ref m o bk v t w o' f vel Ax At J E Hf Nv Fr Sp (Hj J)) as (a & A1 & A2 & A3 & A4 & _). eauto.
  - exact (gagne_recovers K HK _ _ ms lsq ts pos ref m o bk v t w o' f vel Ax At G E Hf Nv Fr Sp (Hg G)).
Qed.

(*@ C94 and with 'jamaly' the passing pairs are those of distinct, adequate signals whose travel time is not zero and whose
    apparent speed, |v|^2 times distance over |separation . v|, is within limits *)
Lemma pattern_good : forall (K : Type) (HK : Label K) ls win dtr ms lsq dt n ts (pos : list (K * (R * R))) ref m o bk v t w o' kt vs mc lo hi vel,
  keeps_count ls -> 0 < dt -> (2 <= n)%nat -> lower m = "jamaly"%string -> lower bk = "xcorr"%string ->
  cmv ls win dtr ms lsq dt n ts pos ref m o bk = Ok ((v, t, w), o') -> jamaly_options o' kt vs mc lo hi -> 0 < kt -> / 10 ^ 10 <= mc <= 1 ->
  moving_pattern dt n ts pos vel ->
  forall i p, nth_error (w_allpairs w) i = Some p -> exists x y s, dget ts (fst p) = Some (map Some x) /\ dget ts (snd p) = Some (map Some y) /\ separation pos p = Some s /\
    (nth_error (w_pair_flag w) i = Some GOOD <->
     fst p <> snd p /\ signal_ok kt vs x /\ signal_ok kt vs y /\ inner s vel / inner vel vel <> 0 /\ lo < len s / Rabs (inner s vel / inner vel vel) < hi).
Proof.
  intros K HK ls win dtr ms lsq dt n ts pos ref m o bk v t w o' kt vs mc lo hi vel KC Hd Hn Hm Hb E OP Pk Pm (g & c & late & Ng & Rec & Sep) i p Hp.
  assert (T : table_of n ts) by (intros k z Hz; destruct (Rec k z Hz) as (x & -> & (L & _)); now rewrite map_length).
  destruct (xcorr_good K HK ls win dtr ms lsq dt n ts pos ref m o bk v t w o' kt vs mc lo hi KC Hd Hn T Hm Hb E OP Pk Pm i p Hp)
    as (a & b & s & Da & Db & Es & G).
  destruct (Rec _ _ Da) as (x & -> & Rx). destruct (Rec _ _ Db) as (y & -> & Ry). exists x, y, s. split; [exact Da|]. split; [exact Db|]. split; [exact Es|].
  destruct (pattern_best g c n (late (fst p)) (late (snd p)) x y Ng Rx Ry) as (BL' & N1 & _).
  assert (DE : - (IZR (late (fst p) - late (snd p)) * dt) = inner s vel / inner vel vel) by (rewrite <- (Sep p s Es), !minus_IZR; ring).
  rewrite G. split.
  - intros (N & x' & y' & L & E1 & E2 & BL & P). split; [exact N|].
    assert (x' = x /\ y' = y) as [-> ->].
    { split; [rewrite <- (present_map_Some x'), <- (present_map_Some x); congruence|rewrite <- (present_map_Some y'), <- (present_map_Some y); congruence]. }
    rewrite (best_lag_unique _ _ _ _ _ BL BL'), DE in P. destruct P as (S1 & S2 & D0 & _ & Sp). auto.
  - intros (N & S1 & S2 & D0 & Sp). split; [exact N|]. exists x, y, (late (fst p) - late (snd p))%Z. split; [reflexivity|]. split; [reflexivity|]. split; [exact BL'|].
    unfold pair_ok. rewrite DE, N1. split; [exact S1|]. split; [exact S2|]. split; [exact D0|]. split; [lra|exact Sp].
Qed.
