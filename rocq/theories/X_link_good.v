(** compute_cmv joined to the delay estimators: which pairs of signals pass, in terms of the data. *)
From Coq Require Import String Lra Psatz.
From Verif Require Import Prelude PreludeFacts RealBase Fl RealStat P_list M_spatial M_cmv M_signal_corr M_signal_tf M_link Spec_spatial Spec_signal Spec_welch Spec_cmv P_signal P_corr P_delay P_plane P_cmv X_signal_corr X_signal_delay X_signal_tf X_signal_tfx X_cmv_options X_cmv_qc X_cmv_cascade X_cmv_rows X_link_delay.
From Verif Require M_cmv M_signal_corr.
Local Open Scope R_scope.

(** The signal alone is good enough: it varies, is not overcast, and dips below its maximum. *)
Definition signal_ok (kt vs : R) (x : list R) : Prop :=
  1 / 1000 <= Rstd x /\ kt <= Rmax_of x /\ vs <= 1 - Rmean x / Rmax_of x.
(** The pair passes: its signals are good enough, correlate well at a delay [d], which is not 0 and makes
    the apparent speed acceptable. *)
Definition pair_ok (kt vs mc lo hi dist : R) (x y : list R) (d pk : R) : Prop :=
  signal_ok kt vs x /\ signal_ok kt vs y /\ d <> 0 /\ mc <= pk /\ lo < dist / Rabs d < hi.

Lemma below_fin x y : below (Fin x) (Fin y) <-> x < y.
Proof. unfold below. cbn. destruct (Rltb_spec x y); split; intro; try easy; lra. Qed.
Lemma figure_some f x lim : x <> [] -> ~ figure_below f (map Some x) (Fin lim) <-> lim <= f x.
Proof.
  intro N. unfold figure_below. rewrite present_map_Some, below_fin. split; [intro H; apply Rnot_lt_le; tauto|].
  intros H [_ L]. lra.
Qed.
Lemma variation_some x lim : x <> [] -> 0 < Rmax_of x -> ~ variation_below (map Some x) (Fin lim) <-> lim <= 1 - Rmean x / Rmax_of x.
Proof.
  intros N P. unfold variation_below. rewrite present_map_Some, fdiv_fin by lra. cbn [fsub fadd fopp]. rewrite below_fin.
  split; [intro H; apply Rnot_lt_le; intro L; apply H; split; [exact N|]; lra|]. intros H [_ L]. lra.
Qed.
Lemma std_pos_not_constant x : 1 / 1000 <= Rstd x -> ~ constant x.
Proof.
  intros H K. destruct x as [|x0 r]; [unfold Rstd, Rvar, Rmean in H; cbn in H; unfold Rdiv in H; rewrite Rmult_0_l, sqrt_0 in H; lra|].
  assert (M : forall z, In z (x0 :: r) -> z = x0) by (intros z Hz; apply K; cbn; auto).
  assert (E : x0 :: r = map (fun _ => x0) (x0 :: r)).
  { clear -M. induction (x0 :: r) as [|u l IH]; [reflexivity|]. cbn. rewrite (M u) by (cbn; auto). f_equal. apply IH. intros z Hz. apply M. cbn. auto. }
  unfold Rstd in H. rewrite E in H. unfold Rvar in H. rewrite Rmean_const in H by discriminate. rewrite map_map in H.
  rewrite Rmean_const in H by discriminate. replace ((x0 - x0) ^ 2) with 0 in H by ring. rewrite sqrt_0 in H. lra.
Qed.

Lemma row_passes {K} (p : K * K) x y dist dl pk kt vs mc lo hi : x <> [] -> y <> [] -> 0 < kt -> 0 < mc <= 1 ->
  (forall c, In c (common_checks (Fin kt) ++ jamaly_checks (Fin vs) (Fin mc) (Fin lo) (Fin hi)) ->
     ~ fst c (mkRow p (map Some x) (map Some y) (Fin dist) (Fin dl) (Fin pk) (Fin 0))) <->
  fst p <> snd p /\ (Rabs (dist / dl) = dist / Rabs dl -> pair_ok kt vs mc lo hi dist x y dl pk) /\
  (signal_ok kt vs x /\ signal_ok kt vs y /\ dl <> 0 /\ mc <= pk /\ lo < Rabs (dist / dl) < hi).
Proof.
  intros Nx Ny Pk Pm. set (r := mkRow _ _ _ _ _ _ _). rewrite <- Forall_forall. unfold common_checks, jamaly_checks. cbn [app].
  repeat rewrite Forall_cons_iff. cbn [fst]. unfold either. cbn [r p_ids p_a p_b p_delay p_peak p_mean].
  assert (S1 : forall A B : Prop, ~ (A \/ B) <-> ~ A /\ ~ B) by (intros; tauto). rewrite !S1, !figure_some by assumption.
  split.
  - intros (H1 & [H2 H2'] & H3 & [H4 H4'] & [H5 H5'] & [H6 H6'] & [H7 H7'] & H8 & _).
    rewrite variation_some in H6, H6' by (auto; lra).
    assert (D0 : dl <> 0) by (intros ->; now apply H3).
    assert (SO : speed_ok r (Fin lo) (Fin hi)).
    { unfold speed_ok in *. cbv zeta in *. unfold below in *. destruct (fltb (Fin lo) _), (fltb _ (Fin hi)); auto; exfalso; apply H8; intros [? ?]; discriminate. }
    unfold speed_ok in SO. cbv zeta in SO. cbn [r p_spacing p_delay] in SO. rewrite fdiv_fin in SO by exact D0. cbn [fabs] in SO.
    rewrite !below_fin in SO. rewrite below_fin in H7.
    split; [exact H1|]. assert (G : signal_ok kt vs x /\ signal_ok kt vs y /\ dl <> 0 /\ mc <= pk /\ lo < Rabs (dist / dl) < hi).
    { unfold signal_ok. repeat split; auto; lra. }
    split; [|exact G]. intro E. rewrite E in G. exact G.
  - intros (H1 & _ & (X1 & X2 & X3) & (Y1 & Y2 & Y3) & D0 & Mp & V).
    rewrite !variation_some by (auto; lra). rewrite below_fin.
    split; [exact H1|]. split; [split; assumption|]. split; [intro Z; injection Z as Z; lra|]. split; [split; discriminate|].
    split; [split; assumption|]. split; [split; assumption|]. split; [split; [lra|]|].
    + rewrite fdiv_fin by lra. cbn [fsub fadd fopp]. rewrite below_fin. unfold Rdiv. rewrite Rmult_0_l. lra.
    + split; [|constructor]. intro H. apply H. unfold speed_ok. cbv zeta. cbn [r p_spacing p_delay]. rewrite fdiv_fin by exact D0.
      cbn [fabs]. rewrite !below_fin. exact V.
Qed.

Lemma len_over s d : Rabs (len s / d) = len s / Rabs d.
Proof. unfold Rdiv. rewrite Rabs_mult, Rabs_inv. f_equal. apply Rabs_right, Rle_ge. unfold len. apply sqrt_pos. Qed.

(** What a table of [n]-sample signals and the options say about a call of the joined model. *)
Definition jamaly_options (o : opts) (kt vs mc lo hi : R) : Prop :=
  dget o "ktlim"%string = Some (Fin kt) /\ dget o "var_s_lim"%string = Some (Fin vs) /\ dget o "mincorr"%string = Some (Fin mc) /\
  dget o "minvelocity"%string = Some (Fin lo) /\ dget o "maxvelocity"%string = Some (Fin hi).
Definition table_of {K} `{Label K} (n : nat) (ts : list (K * list (option R))) : Prop :=
  forall k s, dget ts k = Some s -> length s = n.

Lemma asked_samples {K} `{Label K} n (ts : list (K * list (option R))) (g : K * K -> K) ps A :
  table_of n ts -> Forall2 (fun p a => dget ts (g p) = Some a) ps A -> samples n A.
Proof. intros T F. unfold samples. induction F; constructor; eauto. Qed.

(*@ C94 'jamaly' with 'xcorr' delays, on gap-free or gappy records of n samples: a pair passes exactly if its sites differ,
    both signals are free of gaps, vary, are not overcast and dip, and at the lag of largest cross-correlation the
    correlation reaches mincorr, the lag is not zero and the apparent speed is within limits. The documented second
    correlation criterion, 1 - mean/peak >= mincorr, plays no part (the mean is always 0) for any mincorr up to 1. *)
Lemma xcorr_good : forall (K : Type) (HK : Label K) ls win dtr ms lsq dt n ts (pos : list (K * (R * R))) ref m o bk v t w o' kt vs mc lo hi,
  keeps_count ls -> 0 < dt -> (2 <= n)%nat -> table_of n ts -> lower m = "jamaly"%string -> lower bk = "xcorr"%string ->
  cmv ls win dtr ms lsq dt n ts pos ref m o bk = Ok ((v, t, w), o') -> jamaly_options o' kt vs mc lo hi -> 0 < kt -> / 10 ^ 10 <= mc <= 1 ->
  forall i p, nth_error (w_allpairs w) i = Some p -> exists a b s, dget ts (fst p) = Some a /\ dget ts (snd p) = Some b /\ separation pos p = Some s /\
    (nth_error (w_pair_flag w) i = Some GOOD <->
     fst p <> snd p /\ exists x y L, a = map Some x /\ b = map Some y /\ best_lag n x y L /\
       pair_ok kt vs mc lo hi (len s) x y (- (IZR L * dt)) (ncc x y L)).
Proof.
  intros K HK ls win dtr ms lsq dt n ts pos ref m o bk v t w o' kt vs mc lo hi KC Hd Hn T Hm Hb E (O1 & O2 & O3 & O4 & O5) Pk Pm i p Hp.
  destruct (backends_answer dt n ls win dtr) as [Ax At]. specialize (At KC). unfold cmv in E.
  destruct (cmv_verdict K HK _ _ ms lsq ts pos ref m o bk v t w o' (Fin kt) (Fin vs) (Fin mc) (Fin lo) (Fin hi) Ax At E O1 (fun _ => conj O2 (conj O3 (conj O4 O5))))
    as (A & B & d & vd & FA & FB & ED & L1 & L2 & L3 & _ & Lv & Vj & _ & V).
  rewrite Hb in ED. cbn [String.eqb Ascii.eqb Bool.eqb] in ED. specialize (Vj Hm).
  assert (LA : length A = length (w_allpairs w)) by (clear -FA; induction FA; cbn; congruence).
  assert (LB : length B = length (w_allpairs w)) by (clear -FB; induction FB; cbn; congruence).
  assert (Hi : (i < length (w_allpairs w))%nat) by (apply nth_error_Some; congruence).
  assert (X : forall T0 (l : list T0), length l = length (w_allpairs w) -> exists y, nth_error l i = Some y).
  { intros T0 l EL. destruct (nth_error l i) eqn:Z; [eauto|]. apply nth_error_None in Z. lia. }
  destruct (X _ A LA) as [a Ha]. destruct (X _ B LB) as [b HB]. destruct (X _ _ L1) as [dl Hdl]. destruct (X _ _ L2) as [pk Hpk].
  destruct (X _ _ L3) as [mn Hmn]. destruct (X _ _ Lv) as [g Hg].
  pose proof (asked_samples n ts fst _ _ T FA) as SA. pose proof (asked_samples n ts snd _ _ T FB) as SB.
  pose proof (Forall2_nth _ _ _ _ _ _ FA Hp Ha) as Da. pose proof (Forall2_nth _ _ _ _ _ _ FB Hp HB) as Db. cbv beta in Da, Db.
  destruct (V i p a b dl pk mn g Hp Ha HB Hdl Hpk Hmn Hg) as (s & Es & VD). rewrite Hm in VD. cbn [String.eqb Ascii.eqb Bool.eqb] in VD.
  exists a, b, s. split; [exact Da|]. split; [exact Db|]. split; [exact Es|]. rewrite Vj, Hg.
  set (cs := common_checks (Fin kt) ++ jamaly_checks (Fin vs) (Fin mc) (Fin lo) (Fin hi)) in *.
  assert (NG : forall c, In c cs -> snd c <> GOOD) by (intros c Hc; cbn in Hc; repeat (destruct Hc as [<-|Hc]; [discriminate|]); destruct Hc).
  set (row := mkRow p a b (Fin (len s)) dl pk mn) in *.
  assert (GI : Some g = Some GOOD <-> forall c, In c cs -> ~ fst c row).
  { rewrite <- (verdict_good cs row NG). split; [intro Z; injection Z as ->; exact VD|]. intro VG. rewrite (verdict_good cs row NG) in VG.
    destruct VD as [[-> _]|(pre & c & post & Ec & F & -> & _)]; [reflexivity|]. exfalso. apply (VG c); [rewrite Ec; apply in_elt|exact F]. }
  rewrite GI. clear GI VD NG.
  assert (NA : A <> []) by (intros ->; destruct i; discriminate).
  destruct (xcorr_backend_tells dt n A B ltac:(lra) Hn ltac:(congruence) NA SA SB) as (d' & zs & E' & _ & _ & _ & _ & _ & _ & Tell).
  assert (d' = d) by congruence. subst d'. destruct (Tell i a b Ha HB) as [TI TN].
  assert (La : length a = n) by (apply (T (fst p)); exact Da). assert (Lb : length b = n) by (apply (T (snd p)); exact Db).
  destruct (usable_cases n a b La Lb) as [(x & y & I & U & Lx & Ly)|C].
  - destruct (TI x y I) as (L & BL & T1 & T2 & T3 & _). rewrite T1 in Hdl. injection Hdl as <-. rewrite T2 in Hpk. injection Hpk as <-. rewrite T3 in Hmn. injection Hmn as <-.
    destruct I as (-> & -> & Kx & Ky). assert (Nx : x <> []) by (intros ->; cbn in Lx; lia). assert (Ny : y <> []) by (intros ->; cbn in Ly; lia).
    assert (Pm' : 0 < mc <= 1) by (assert (0 < / 10 ^ 10) by (apply Rinv_0_lt_compat, pow_lt; lra); lra).
    unfold row, cs. rewrite (row_passes p x y (len s)) by assumption.
    match goal with |- context [Rlt_dec ?u ?v] => destruct (Rlt_dec u v) as [F|F] end.
    + change (ncc x y L < / 10 ^ 10) in F. split; [intros (_ & _ & _ & _ & _ & Mp & _); lra|].
      intros (_ & x' & y' & L' & E1 & E2 & BL' & _ & _ & _ & Mp & _).
      assert (x' = x /\ y' = y) as [-> ->].
      { split; [rewrite <- (present_map_Some x'), <- (present_map_Some x); congruence|rewrite <- (present_map_Some y'), <- (present_map_Some y); congruence]. }
      rewrite (best_lag_unique _ _ _ _ _ BL' BL) in Mp. lra.
    + rewrite len_over. split.
      * intros (N & P & _). split; [exact N|]. exists x, y, L. split; [reflexivity|]. split; [reflexivity|]. split; [assumption|]. now apply P.
      * intros (N & x' & y' & L' & E1 & E2 & BL' & P).
        assert (x' = x /\ y' = y) as [-> ->].
        { split; [rewrite <- (present_map_Some x'), <- (present_map_Some x); congruence|rewrite <- (present_map_Some y'), <- (present_map_Some y); congruence]. }
        rewrite (best_lag_unique _ _ _ _ _ BL' BL) in P. split; [exact N|]. split; [auto|]. exact P.
  - assert (NI : forall x y, ~ informative a b x y) by tauto. destruct (TN NI) as (_ & T2 & _). rewrite T2 in Hpk. injection Hpk as <-.
    split.
    + intro H. exfalso. apply (H (fun r => p_peak r = Nan \/ p_mean r = Nan, LOWCORR)); [cbn; tauto|]. cbn. auto.
    + intros (_ & x & y & L & -> & -> & _ & S1 & S2 & _). exfalso. apply (NI x y). repeat split; apply std_pos_not_constant; [apply S1|apply S2].
Qed.

(*@ C94 so with 'xcorr' delays a pair whose sites are farther apart than maxvelocity times the duration of the record never passes *)
Lemma xcorr_reach : forall (K : Type) (HK : Label K) ls win dtr ms lsq dt n ts (pos : list (K * (R * R))) ref m o bk v t w o' kt vs mc lo hi,
  keeps_count ls -> 0 < dt -> (2 <= n)%nat -> table_of n ts -> lower m = "jamaly"%string -> lower bk = "xcorr"%string ->
  cmv ls win dtr ms lsq dt n ts pos ref m o bk = Ok ((v, t, w), o') -> jamaly_options o' kt vs mc lo hi -> 0 < kt -> / 10 ^ 10 <= mc <= 1 ->
  forall i p s, nth_error (w_allpairs w) i = Some p -> separation pos p = Some s -> nth_error (w_pair_flag w) i = Some GOOD ->
  len s < hi * (INR (n - 1) * dt) /\ lo * dt < len s.
Proof.
  intros K HK ls win dtr ms lsq dt n ts pos ref m o bk v t w o' kt vs mc lo hi KC Hd Hn T Hm Hb E OP Pk Pm i p s Hp Es Hg.
  destruct (xcorr_good K HK ls win dtr ms lsq dt n ts pos ref m o bk v t w o' kt vs mc lo hi KC Hd Hn T Hm Hb E OP Pk Pm i p Hp)
    as (a & b & s' & _ & _ & Es' & G). rewrite Es in Es'. injection Es' as <-.
  apply G in Hg. destruct Hg as (_ & x & y & L & _ & _ & [BL _] & _ & _ & D0 & _ & Sl & Sh).
  set (D := Rabs (- (IZR L * dt))) in *. assert (DP : 0 < D) by (unfold D; now apply Rabs_pos_lt).
  assert (AL : D = IZR (Z.abs L) * dt) by (unfold D; rewrite Rabs_Ropp, Rabs_mult, (Rabs_right dt) by lra; rewrite abs_IZR; reflexivity).
  unfold lag_of in BL. assert (B1 : (1 <= Z.abs L <= Z.of_nat (n - 1))%Z). { assert (L <> 0%Z) by (intros ->; apply D0; lra). lia. }
  destruct B1 as [B1 B2]. apply IZR_le in B1, B2. rewrite <- INR_IZR_INZ in B2. pose proof (sqrt_pos (inner s s)) as P0. change (sqrt (inner s s)) with (len s) in P0.
  assert (Q : len s = len s / D * D) by (field; lra). set (q := len s / D) in *. split.
  - assert (0 <= q) by (unfold q; apply Rmult_le_pos; [exact P0|left; now apply Rinv_0_lt_compat]).
    rewrite Q. apply Rlt_le_trans with (hi * D); [apply Rmult_lt_compat_r; lra|]. apply Rmult_le_compat_l; [lra|]. rewrite AL. apply Rmult_le_compat_r; lra.
  - assert (0 <= q) by (unfold q; apply Rmult_le_pos; [exact P0|left; now apply Rinv_0_lt_compat]).
    rewrite Q. apply Rlt_le_trans with (q * dt); [apply Rmult_lt_compat_r; lra|]. apply Rmult_le_compat_l; [lra|]. rewrite AL. rewrite <- (Rmult_1_l dt) at 1. apply Rmult_le_compat_r; lra.
Qed.
