(** compute_cmv joined to the delay estimators: success, a complete run, and where recovery fails. *)
From Coq Require Import String Lra Psatz.
From Verif Require Import Prelude PreludeFacts RealBase Fl RealStat P_list M_spatial M_cmv M_signal_corr M_signal_tf M_link Spec_spatial Spec_signal Spec_cmv P_signal P_corr P_delay P_plane P_cmv X_signal_corr X_signal_delay X_signal_tfx X_cmv_options X_cmv_qc X_cmv_cascade X_cmv_motion X_cmv_pairs X_cmv_rows X_cmv_total X_link_delay X_link_good X_link_recover.
From Verif Require M_cmv M_signal_corr.
Local Open Scope R_scope.

(*@ C94 With 'xcorr' delays the joined compute_cmv succeeds on every table of at least two rows with a column for every site,
    a reference site, a known method and admissible options. *)
Lemma xcorr_succeeds : forall (K : Type) (HK : Label K) ls win dtr ms lsq dt n ts (pos : list (K * (R * R))) ref m o bk,
  dt <> 0 -> (2 <= n)%nat -> table_of n ts -> known_method (lower m) -> lower bk = "xcorr"%string -> some_reference (map fst pos) ref ->
  (forall k, In k (map fst pos) -> dget ts k <> None) -> admissible (lower m) (options_of o) ->
  exists v t w o', cmv ls win dtr ms lsq dt n ts pos ref m o bk = Ok ((v, t, w), o').
Proof.
  intros K HK ls win dtr ms lsq dt n ts pos ref m o bk Hd Hn T Km Hb Sr Ct Ad. unfold cmv.
  apply cmv_succeeds; auto; [left; exact Hb|]. intros A B El NA Hs. unfold routine. rewrite Hb. cbn [String.eqb Ascii.eqb Bool.eqb].
  destruct (xcorr_backend_tells dt n A B Hd Hn El NA) as (d & _ & E & _).
  - apply Forall_forall. intros s I. destruct (Hs s) as [k Hk]; [apply in_app_iff; auto|]. exact (T k s Hk).
  - apply Forall_forall. intros s I. destruct (Hs s) as [k Hk]; [apply in_app_iff; auto|]. exact (T k s Hk).
  - eauto.
Qed.

(*@ C94 An exactly shifted disturbance inside the record is not always given its delay: the 'coeff' scaling removes the means
    first, and [1,1,1,0] against [0,1,1,1] (one step late) is reported three steps early. (A disturbance whose record mean
    is the background level, as in the recovery theorem, does not suffer from this.) *)
Lemma shift_refuted :
  ~ (forall dt n a b k, 0 < dt -> (2 <= n)%nat -> length a = n -> delayed_by a b k -> ~ constant a -> ~ constant b ->
     exists d, xcorr_backend dt n [map Some a] [map Some b] = Ok d /\ M_cmv.d_delay d = [Fin (IZR k * dt)]).
Proof.
  intro H. set (a := [1; 1; 1; 0]). set (b := [0; 1; 1; 1]).
  assert (Ka : ~ constant a) by (intro K; assert (1 = 0) by (apply K; cbn; auto); lra).
  assert (Kb : ~ constant b) by (intro K; assert (0 = 1) by (apply K; cbn; auto); lra).
  assert (D : delayed_by a b 1).
  { split; [reflexivity|]. split.
    - intros i Hi. cbn in Hi. do 4 (destruct i as [|i]; [reflexivity|]). lia.
    - intros i Ni. cbn [length a]. destruct (Z.ltb_spec i 0); [exfalso; apply Ni, at0_out; lia|]. destruct (Z.ltb_spec i 3); [lia|].
      exfalso. apply Ni. destruct (Z.eq_dec i 3) as [-> | N]; [reflexivity|]. apply at0_out. cbn. lia. }
  destruct (H 1 4%nat a b 1%Z ltac:(lra) ltac:(lia) eq_refl D Ka Kb) as (d & E & Ed).
  destruct (xcorr_backend_tells 1 4 [map Some a] [map Some b] ltac:(lra) ltac:(lia) eq_refl ltac:(discriminate)) as (d' & zs & E' & _ & _ & _ & _ & _ & _ & Tell);
    [repeat constructor|repeat constructor|].
  assert (d' = d) by congruence. subst d'. destruct (Tell 0%nat _ _ eq_refl eq_refl) as [TI _].
  destruct (TI a b) as (L & [BL BM] & T1 & _); [repeat split; auto|]. rewrite Ed in T1. cbn [nth_error] in T1. injection T1 as T1.
  assert (G : forall M, ncc a b M = lag_sum (centred a) (centred b) M / (sqrt (energy (centred a)) * sqrt (energy (centred b)))) by reflexivity.
  pose proof (centred_energy_pos a Ka) as Pa. pose proof (centred_energy_pos b Kb) as Pb. apply sqrt_lt_R0 in Pa, Pb.
  assert (P : 0 < sqrt (energy (centred a)) * sqrt (energy (centred b))) by now apply Rmult_lt_0_compat.
  assert (Ma : Rmean a = 3 / 4) by (unfold Rmean, a; cbn; lra). assert (Mb : Rmean b = 3 / 4) by (unfold Rmean, b; cbn; lra).
  assert (Ca : centred a = [1 / 4; 1 / 4; 1 / 4; - (3 / 4)]) by (unfold centred; rewrite Ma; unfold a; cbn; repeat (apply (f_equal2 cons); [lra|]); reflexivity).
  assert (Cb : centred b = [- (3 / 4); 1 / 4; 1 / 4; 1 / 4]) by (unfold centred; rewrite Mb; unfold b; cbn; repeat (apply (f_equal2 cons); [lra|]); reflexivity).
  assert (V3 : lag_sum (centred a) (centred b) 3 = 9 / 16) by (rewrite Ca, Cb; unfold lag_sum; cbn; change (Pos.to_nat 1) with 1%nat; change (Pos.to_nat 2) with 2%nat; change (Pos.to_nat 3) with 3%nat; lra).
  assert (V1 : lag_sum (centred a) (centred b) (-1) = 3 / 16) by (rewrite Ca, Cb; unfold lag_sum; cbn; change (Pos.to_nat 1) with 1%nat; change (Pos.to_nat 2) with 2%nat; change (Pos.to_nat 3) with 3%nat; lra).
  destruct (Rlt_dec _ _) as [Q|Q] in T1; [lra|].
  assert (L = (-1)%Z) by (apply eq_IZR; lra). subst L.
  destruct (BM 3%Z ltac:(unfold lag_of; cbn; lia)) as [B _]. rewrite !G, V1, V3 in B.
  apply (Rmult_le_compat_r _ _ _ (Rlt_le _ _ P)) in B. unfold Rdiv in B. rewrite !Rmult_assoc, !Rinv_l in B by lra. lra.
Qed.

(** Three sites; a disturbance up-down by 1/2 around level 1/2 crosses them with velocity (5, 5) m/s. *)
Definition run_pos : list (nat * (R * R)) := [(0%nat, (0, 0)); (1%nat, (10, 0)); (2%nat, (0, 10))].
Definition rec0 : list R := [1; 0; 1 / 2; 1 / 2].
Definition rec1 : list R := [1 / 2; 1; 0; 1 / 2].
Definition run_ts : list (nat * list (option R)) := [(0%nat, map Some rec0); (1%nat, map Some rec1); (2%nat, map Some rec1)].
Definition bump (j : Z) : R := if Z.eqb j 0 then 1 / 2 else if Z.eqb j 1 then - (1 / 2) else 0.

Lemma run_moves : moving_pattern 1 4 run_ts run_pos (5, 5).
Proof.
  exists bump, (1 / 2), (fun k => match k with O => 0%Z | _ => 1%Z end). split; [exists 0%Z; cbn; lra|].
  assert (Sup : forall j, bump j <> 0 -> (0 <= j <= 1)%Z).
  { intros j N. unfold bump in N. destruct (Z.eqb_spec j 0); [lia|]. destruct (Z.eqb_spec j 1); [lia|]. easy. }
  split.
  - assert (R0 : records bump (1 / 2) 4 0 rec0).
    { split; [reflexivity|]. split; [|split; [|unfold Rmean, rec0; cbn; lra]].
      - intros i Hi. do 4 (destruct i as [|i]; [cbn; lra|]). lia.
      - intros j Nj. apply Sup in Nj. cbn. lia. }
    assert (R1 : records bump (1 / 2) 4 1 rec1).
    { split; [reflexivity|]. split; [|split; [|unfold Rmean, rec1; cbn; lra]].
      - intros i Hi. do 4 (destruct i as [|i]; [cbn; lra|]). lia.
      - intros j Nj. apply Sup in Nj. cbn. lia. }
    intros k s Hs. destruct k as [|[|[|k]]]; cbn in Hs; try discriminate; injection Hs as <-;
      first [exists rec0; split; [reflexivity|exact R0] | exists rec1; split; [reflexivity|exact R1]].
  - intros [p q] s Hs. unfold separation, inner, sub2 in *. cbn [fst snd] in *.
    destruct p as [|[|[|p]]]; destruct q as [|[|[|q]]]; cbn in Hs; try discriminate; injection Hs as <-; cbn [fst snd]; cbn; field.
Qed.

Lemma good_sep_intro {K} `{Label K} (pos : list (K * (R * R))) : forall pairs flags i p s,
  nth_error pairs i = Some p -> nth_error flags i = Some GOOD -> separation pos p = Some s -> In s (good_separations pos pairs flags).
Proof.
  induction pairs as [|q ps IH]; intros [|f fs] [|i] p s Hp Hf Hs; cbn in Hp, Hf; try discriminate.
  - injection Hp as ->. injection Hf as ->. cbn. rewrite Hs. cbn. auto.
  - cbn. specialize (IH _ _ _ _ Hp Hf Hs). destruct f; auto. destruct (separation pos q); cbn; auto.
Qed.

(*@ex C94 A complete run of the joined model, no delay given: the hypotheses of all theorems above hold, and the velocity is
    found from the four-sample records. *)
Lemma run_example : exists ls win dtr ms lsq v t w o f a,
  keeps_count ls /\ table_of 4 run_ts /\ moving_pattern 1 4 run_ts run_pos (5, 5) /\
  cmv ls win dtr ms lsq 1 4 run_ts run_pos RefNone "jamaly" None "xcorr" = Ok ((v, t, w), o) /\
  jamaly_options o (4 / 10) (5 / 100) (8 / 10) 0 70 /\ w_fit w = Some f /\
  spanning (good_separations run_pos (w_allpairs w) (w_pair_flag w)) /\
  minimises ms (speed_variance (good_separations run_pos (w_allpairs w) (w_pair_flag w)) (5, 5)) /\
  v = Fin (len (5, 5)) /\ t = Fin a /\ polar (len (5, 5)) a = (5, 5).
Proof.
  set (ls := fun (_ : list R -> list R) (s : list R) => s). set (win := fun (_ : string) n => repeat 1 n). set (dtr := fun (_ : string) (l : list R) => l).
  set (ms := fun _ : R -> fl => PI / 4). set (lsq := fun _ : R -> R -> list fl => (Fin 0, Fin 0)).
  assert (KC : keeps_count ls) by (intros g s; reflexivity).
  pose proof run_moves as MP.
  assert (T : table_of 4 run_ts) by (intros k s Hs; destruct k as [|[|[|k]]]; cbn in Hs; try discriminate; injection Hs as <-; reflexivity).
  destruct (xcorr_succeeds nat _ ls win dtr ms lsq 1 4 run_ts run_pos RefNone "jamaly" None "xcorr") as (v & t & w & o & E);
    [lra|lia|exact T|now left|reflexivity|exists 0%nat; cbn; auto| |intros k [z Hz]; discriminate|].
  { intros k [<-|[<-|[<-|[]]]]; discriminate. }
  assert (OP : jamaly_options o (4 / 10) (5 / 100) (8 / 10) 0 70).
  { pose proof E as E0. unfold cmv in E0. apply compute_cmv_inv in E0. destruct E0 as (A & B & d & Pb & Pa & flags0 & overall & flags & E0). cbv zeta in E0.
    destruct E0 as (_ & _ & _ & _ & _ & _ & _ & _ & EV & _). rewrite options_none in EV. change (lower "jamaly") with "jamaly"%string in EV.
    assert (G : forall k, dget o k = option_map Fin (documented_default "jamaly" k)) by (intro k; destruct (options_effective _ _ _ k EV) as [-> _]; reflexivity).
    unfold jamaly_options. rewrite !G. repeat split. }
  assert (PR : w_allpairs w = [(0, 0); (0, 1); (0, 2); (1, 1); (1, 2); (2, 2)]%nat).
  { pose proof E as E0. unfold cmv in E0. apply compute_cmv_inv in E0. destruct E0 as (A & B & d & Pb & Pa & flags0 & overall & flags & E0). cbv zeta in E0.
    destruct E0 as (_ & _ & _ & _ & _ & _ & _ & _ & _ & _ & _ & EF). apply finish_pairs in EF. destruct EF as [-> _]. reflexivity. }
  assert (SO : forall x, x = rec0 \/ x = rec1 -> signal_ok (4 / 10) (5 / 100) x).
  { assert (Mx : forall x, x = rec0 \/ x = rec1 -> Rmax_of x = 1 /\ Rmean x = 1 / 2 /\ Rvar x = 1 / 8).
    { intros x [-> | ->]; (split; [apply Rmax_of_unique; [cbn; auto|intros z Hz; cbn in Hz; intuition lra]|]); (split; [unfold Rmean, rec0, rec1; cbn; lra|]);
        unfold Rvar, Rmean, rec0, rec1; cbn; lra. }
    intros x Hx. destruct (Mx x Hx) as (M1 & M2 & M3). unfold signal_ok. rewrite M1, M2. unfold Rstd. rewrite M3. split; [|lra].
    replace (1 / 1000) with (sqrt ((1 / 1000) * (1 / 1000))) by (apply sqrt_square; lra). apply sqrt_le_1_alt. lra. }
  assert (Pm : / 10 ^ 10 <= 8 / 10 <= 1).
  { split; [|lra]. apply Rmult_le_reg_r with (10 ^ 10); [apply pow_lt; lra|]. rewrite Rinv_l by (apply pow_nonzero; lra).
    assert (1 <= 10 ^ 9) by (apply pow_R1_Rle; lra). replace (10 ^ 10) with (10 * 10 ^ 9) by ring. lra. }
  pose proof (pattern_good nat _ ls win dtr ms lsq 1 4 run_ts run_pos RefNone "jamaly" None "xcorr" v t w o (4 / 10) (5 / 100) (8 / 10) 0 70 (5, 5)
     KC ltac:(lra) ltac:(lia) eq_refl eq_refl E OP ltac:(lra) Pm MP) as PG.
  assert (G1 : nth_error (w_pair_flag w) 1 = Some GOOD).
  { destruct (PG 1%nat (0, 1)%nat) as (x & y & s & Dx & Dy & Es & G); [now rewrite PR|]. cbn in Dx, Dy. apply G. split; [discriminate|].
    injection Dx as Dx. injection Dy as Dy. cbn in Es. injection Es as <-.
    assert (x = rec0) by (rewrite <- (present_map_Some x), <- (present_map_Some rec0); f_equal; unfold rec0; cbn; congruence).
    assert (y = rec1) by (rewrite <- (present_map_Some y), <- (present_map_Some rec1); f_equal; unfold rec1; cbn; congruence).
    split; [apply SO; auto|]. split; [apply SO; auto|]. unfold inner, sub2, len. cbn [fst snd].
    replace ((5 * 5 + 5 * 5)) with 50 by ring. unfold inner. cbn [fst snd].
    replace (((10 - 0) * 5 + (0 - 0) * 5) / 50) with 1 by field. replace ((10 - 0) * (10 - 0) + (0 - 0) * (0 - 0)) with (10 * 10) by ring.
    rewrite sqrt_square, Rabs_R1 by lra. lra. }
  assert (G2 : nth_error (w_pair_flag w) 2 = Some GOOD).
  { destruct (PG 2%nat (0, 2)%nat) as (x & y & s & Dx & Dy & Es & G); [now rewrite PR|]. cbn in Dx, Dy. apply G. split; [discriminate|].
    injection Dx as Dx. injection Dy as Dy. cbn in Es. injection Es as <-.
    assert (x = rec0) by (rewrite <- (present_map_Some x), <- (present_map_Some rec0); f_equal; unfold rec0; cbn; congruence).
    assert (y = rec1) by (rewrite <- (present_map_Some y), <- (present_map_Some rec1); f_equal; unfold rec1; cbn; congruence).
    split; [apply SO; auto|]. split; [apply SO; auto|]. unfold inner, sub2, len. cbn [fst snd].
    replace ((5 * 5 + 5 * 5)) with 50 by ring. unfold inner. cbn [fst snd].
    replace (((0 - 0) * 5 + (10 - 0) * 5) / 50) with 1 by field. replace ((0 - 0) * (0 - 0) + (10 - 0) * (10 - 0)) with (10 * 10) by ring.
    rewrite sqrt_square, Rabs_R1 by lra. lra. }
  destruct (backends_answer 1 4 ls win dtr) as [Ax At]. specialize (At KC).
  destruct (cmv_failure_exit nat _ _ _ ms lsq run_ts run_pos RefNone "jamaly" None "xcorr" v t w o Ax At E) as (_ & FE & _).
  destruct (w_fit w) as [f|] eqn:Hf; [|exfalso; apply (proj1 FE eq_refl); exists 1%nat, 2%nat; auto].
  set (seps := good_separations run_pos (w_allpairs w) (w_pair_flag w)) in *.
  assert (Sp : spanning seps).
  { exists (sub2 (10, 0) (0, 0)), (sub2 (0, 10) (0, 0)). split; [|split].
    - apply (good_sep_intro run_pos _ _ 1 (0, 1)%nat); [now rewrite PR|exact G1|reflexivity].
    - apply (good_sep_intro run_pos _ _ 2 (0, 2)%nat); [now rewrite PR|exact G2|reflexivity].
    - unfold cross, sub2. cbn. lra. }
  assert (Mn : minimises ms (speed_variance seps (5, 5))).
  { intros g Hg x. unfold ms. replace (speed_variance seps (5, 5) (PI / 4)) with 0; [apply Rvar_nonneg|]. symmetry. unfold speed_variance.
    apply Rvar_const with (c := 50 / (5 * sqrt 2)); [destruct Sp as (s & _ & I & _); intros Z; rewrite Z in I; destruct I|].
    intros s I. apply good_sep_in in I. destruct I as (i & p & Hp & Hg' & Es). destruct (PG i p Hp) as (x' & y' & s' & _ & _ & Es' & G).
    rewrite Es in Es'. injection Es' as <-. apply G in Hg'. destruct Hg' as (_ & _ & _ & D0 & _).
    rewrite cos_PI4, sin_PI4. unfold inner in *. cbn [fst snd] in *. assert (0 < sqrt 2) by (apply sqrt_lt_R0; lra).
    assert (N0 : fst s + snd s <> 0). { intro Z. apply D0. replace (fst s * 5 + snd s * 5) with (5 * (fst s + snd s)) by ring. rewrite Z. unfold Rdiv. ring. }
    field. repeat split; lra. }
  destruct (pattern_recovered nat _ ls win dtr ms lsq 1 4 run_ts run_pos RefNone "jamaly" None "xcorr" v t w o f (5, 5) KC ltac:(lra) ltac:(lia) eq_refl E Hf MP)
    as (a & A1 & A2 & _ & A4); [intro Z; injection Z as Z; lra|exact Sp|intros _; exact Mn|discriminate|].
  exists ls, win, dtr, ms, lsq, v, t, w, o, f, a. repeat (split; [assumption|]). assumption.
Qed.

(*@ex C95 On the three sites above: each of the exceptions, and success. *)
Lemma outcomes_example : forall ls win dtr ms lsq,
  cmv ls win dtr ms lsq 1 4 run_ts run_pos RefNone "best" None "xcorr" = Err ValueError /\
  cmv ls win dtr ms lsq 1 4 run_ts run_pos RefNone "jamaly" None "fft" = Err ValueError /\
  cmv ls win dtr ms lsq 1 4 run_ts run_pos (RefOne 7%nat) "jamaly" None "xcorr" = Err IndexError /\
  cmv ls win dtr ms lsq 1 4 (tl run_ts) run_pos RefNone "jamaly" None "xcorr" = Err KeyError /\
  cmv ls win dtr ms lsq 1 4 run_ts run_pos RefNone "jamaly" (Some [("speed"%string, Fin 1)]) "xcorr" = Err ValueError /\
  exists v t w o, cmv ls win dtr ms lsq 1 4 run_ts run_pos RefNone "jamaly" None "xcorr" = Ok ((v, t, w), o).
Proof.
  intros ls win dtr ms lsq.
  assert (T : table_of 4 run_ts) by (intros k s Hs; destruct k as [|[|[|k]]]; cbn in Hs; try discriminate; injection Hs as <-; reflexivity).
  assert (Sr : some_reference (map fst run_pos) RefNone) by (exists 0%nat; cbn; auto).
  assert (KM : known_method (lower "jamaly")) by now left. assert (KB : known_backend (lower "xcorr")) by now left.
  assert (Ct : forall k, In k (map fst run_pos) -> dget run_ts k <> None) by (intros k [<-|[<-|[<-|[]]]]; discriminate).
  split; [|split; [|split; [|split; [|split]]]].
  - apply cmv_exceptions. left. intros [N|N]; discriminate.
  - apply cmv_exceptions. right. intros [N|N]; discriminate.
  - apply cmv_exceptions; auto. intros (r & I1 & I2). cbn in I1, I2. intuition lia.
  - apply cmv_exceptions; auto. exists 0%nat. cbn. auto.
  - destruct (get_pairs (map fst run_pos) (Some (reference_sites (map fst run_pos) RefNone)) true) as [|p0 ps0] eqn:Ep; [discriminate|].
    set (A := map (fun p : nat * nat => match dget run_ts (fst p) with Some s => s | None => [] end) (p0 :: ps0)).
    set (B := map (fun p : nat * nat => match dget run_ts (snd p) with Some s => s | None => [] end) (p0 :: ps0)).
    assert (El : length A = length B) by (unfold A, B; now rewrite !map_length).
    assert (PSig : pair_signals run_ts (p0 :: ps0) A B).
    { rewrite <- Ep. unfold A, B. rewrite <- Ep. unfold pair_signals. cbn. split; repeat constructor. }
    destruct (xcorr_backend_tells 1 4 A B ltac:(lra) ltac:(lia) El ltac:(discriminate)) as (d & _ & E & _).
    { destruct PSig as [F _]. revert F. generalize (p0 :: ps0). intros l F. clear -T F. induction F; constructor; auto. eapply T; eauto. }
    { destruct PSig as [_ F]. revert F. generalize (p0 :: ps0). intros l F. clear -T F. induction F; constructor; auto. eapply T; eauto. }
    rewrite <- Ep in PSig.
    destruct (cmv_exceptions nat _ (xcorr_backend 1 4) (tf_backend ls win dtr 1 4) ms lsq run_ts run_pos RefNone "jamaly" (Some [("speed"%string, Fin 1)]) "xcorr") as [_ X].
    destruct (X KM KB) as (_ & _ & Y). destruct (Y A B Sr PSig) as [_ Z]. apply (Z d); [exact E|].
    intros N. apply (N "speed"%string); [exists (Fin 1); reflexivity|]. reflexivity.
  - apply xcorr_succeeds; auto. intros k [z Hz]. discriminate.
Qed.
