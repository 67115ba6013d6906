(** compute_cmv joined to the spectral delay estimator: what it is told, and which pairs pass. *)
From Coq Require Import String Lra Psatz.
From Verif Require Import Prelude PreludeFacts RealBase Fl RealStat P_list M_spatial M_cmv M_signal_corr M_signal_tf M_link Spec_spatial Spec_signal Spec_welch Spec_cmv P_signal P_corr P_delay P_plane P_cmv X_signal_corr X_signal_delay X_signal_tf X_signal_tfx X_cmv_options X_cmv_qc X_cmv_cascade X_cmv_rows X_link_delay X_link_good.
From Verif Require M_cmv M_signal_corr.
Local Open Scope R_scope.

Lemma partner_nth {A} (l : list A) i x : nth_error l i = Some x -> partner l i = Some x.
Proof.
  unfold partner. destruct l as [|u [|v l]]; cbn [length Nat.eqb]; auto. destruct i as [|i]; cbn; [auto|]. destruct i; discriminate.
Qed.

(*@ C94 What the spectral backend tells compute_cmv. Gap-free, non-constant pair: mean correlation exactly 0, zero-lag value
    Pearson's coefficient, and as peak the normalised cross-correlation interpolated at minus the delay, NaN when there is
    no delay or it exceeds the record. Any other pair: NaN figures. *)
Lemma tf_backend_tells : forall ls win dtr dt n A B d, 0 < dt -> (2 <= n)%nat -> keeps_count ls -> length A = length B -> samples n A -> samples n B ->
  tf_backend ls win dtr dt n A B = Ok d ->
  exists zs cs, M_cmv.d_zero d = Some zs /\ d_coh d = Some cs /\
    forall i a b, nth_error A i = Some a -> nth_error B i = Some b -> exists dl, nth_error (M_cmv.d_delay d) i = Some dl /\ (dl = Nan \/ exists r, dl = Fin r) /\
      (forall x y, informative a b x y -> exists pk, nth_error (M_cmv.d_peak d) i = Some pk /\
         nth_error (M_cmv.d_mean d) i = Some (Fin 0) /\ nth_error zs i = Some (Fin (pearson x y)) /\
         (dl = Nan -> pk = Nan) /\ forall r, dl = Fin r ->
           (INR (n - 1) * dt < Rabs r -> pk = Nan) /\
           (forall L, lag_of n n L -> r = - (IZR L * dt) -> pk = Fin (ncc x y L)) /\
           (forall L, lag_of n n L -> lag_of n n (L + 1) -> IZR L * dt <= - r <= IZR (L + 1) * dt ->
              pk = Fin (ncc x y L + (ncc x y (L + 1) - ncc x y L) * (- r / dt - IZR L)))) /\
      ((forall x y, ~ informative a b x y) ->
         nth_error (M_cmv.d_peak d) i = Some Nan /\ nth_error (M_cmv.d_mean d) i = Some Nan /\ nth_error zs i = Some Nan).
Proof.
  intros ls win dtr dt n A B d Hd Hn KC El SA SB E. destruct (backends_answer dt n ls win dtr) as [_ At]. specialize (At KC A B d El E).
  destruct At as (L1 & L2 & L3).
  unfold tf_backend in E. set (k := rows_read n 5 (1 / 2)) in *. set (ps := seen_pairs k n A B) in *. assert (Lp : length ps = length A) by now apply seen_length.
  set (ins := map (pair ""%string) (map fst ps)) in *. set (outs := map (pair ""%string) (map snd ps)) in *.
  destruct (compute_delays_tf _ _ _ _ _ _ _ _ _ _ _ _ _ _) as [[delay ex]|] eqn:Q; [|discriminate]. cbn [rbind] in E.
  destruct (te_xcorr ex) as [[[pks mns] zrs]|] eqn:X; [|discriminate].
  apply (f_equal (fun r => match r with Ok q => q | Err _ => d end)) in E. cbv beta iota in E. rewrite <- E in *. clear E.
  cbn [M_cmv.d_delay M_cmv.d_peak M_cmv.d_mean M_cmv.d_zero d_coh] in *. rewrite map_length in L1.
  exists (blanked A B zrs). eexists. split; [reflexivity|]. split; [reflexivity|].
  intros i a b Ha Hb. pose proof (seen_nth k n A B i a b Ha Hb) as Hp. fold ps in Hp.
  assert (P1 : nth_error ins i = Some (""%string, fst (seen_pair k n (a, b)))) by (unfold ins; apply map_nth_error; now apply map_nth_error).
  assert (P2 : nth_error outs i = Some (""%string, snd (seen_pair k n (a, b)))) by (unfold outs; apply map_nth_error; now apply map_nth_error).
  assert (La : length a = n) by (unfold samples in SA; rewrite Forall_forall in SA; apply SA; eapply nth_error_In; eauto).
  assert (Lb : length b = n) by (unfold samples in SB; rewrite Forall_forall in SB; apply SB; eapply nth_error_In; eauto).
  assert (Hi : (i < length A)%nat) by (apply nth_error_Some; congruence).
  assert (Li : length ins = length A) by (unfold ins; now rewrite !map_length). assert (Lo : length outs = length A) by (unfold outs; now rewrite !map_length).
  assert (Hm : (i < Nat.max (length ins) (length outs))%nat) by lia.
  destruct (nth_error delay i) as [od|] eqn:Ed; [|apply nth_error_None in Ed; lia].
  exists (of_option od). split; [now apply map_nth_error|]. split; [destruct od; cbn; eauto|].
  apply partner_nth in P1, P2. pose proof (nth_error_nth delay i None Ed) as Nd.
  destruct (usable_cases n a b La Lb) as [(x & y & I & U & Lx & Ly)|C].
  - split; [|intro NN; now apply NN in I]. intros x' y' I'.
    assert (x' = x /\ y' = y) as [-> ->].
    { destruct I as (E1 & E2 & _), I' as (E1' & E2' & _). split; [rewrite <- (present_map_Some x'), <- (present_map_Some x); congruence|rewrite <- (present_map_Some y'), <- (present_map_Some y); congruence]. }
    destruct I as (-> & -> & Kx & Ky). rewrite seen_some in P1, P2. cbn [fst snd] in P1, P2.
    destruct (xcorr_value ls win dtr dt n ins outs _ _ _ _ _ _ delay ex i _ x _ y Q Hd P1 P2 Hm Lx Ly Kx Ky) as (pk & (k1 & k2 & k3 & M0 & M1 & M2 & M3) & V1 & V2).
    rewrite X in M0. injection M0 as <- <- <-. rewrite Nd in V1, V2. exists pk.
    rewrite !(blanked_nth A B _ i _ _ _ Ha Hb M1), !(blanked_nth A B _ i _ _ _ Ha Hb M2), !(blanked_nth A B _ i _ _ _ Ha Hb M3), !complete_map. cbn [andb].
    split; [reflexivity|]. split; [reflexivity|]. split; [reflexivity|]. split.
    + destruct od; [discriminate|]. intros _. now apply V1.
    + intros r Er. destruct od as [r'|]; [|discriminate]. cbn in Er. injection Er as ->. destruct (V2 r eq_refl) as (W1 & W2 & W3).
      split; [exact W1|]. split; [|exact W3]. intros L HL Er. apply W2; [exact HL|]. rewrite Er. ring.
  - assert (Ni : forall x y, ~ informative a b x y) by tauto.
    split; [intros x y I; now apply Ni in I|]. intros _.
    destruct (seen_lengths k n a b La Lb) as [G1 G2].
    assert (F : exists k1 k2 k3 v1 v2 v3, te_xcorr ex = Some (k1, k2, k3) /\ nth_error k1 i = Some v1 /\ nth_error k2 i = Some v2 /\ nth_error k3 i = Some v3 /\
                ((complete a && complete b)%bool = true -> v1 = Nan /\ v2 = Nan /\ v3 = Nan)).
    { destruct (complete a && complete b)%bool eqn:Cc.
      - apply andb_true_iff in Cc as [Ca Cb]. apply complete_some in Ca as [x ->], Cb as [y ->]. rewrite seen_some in P1, P2, G1, G2. cbn [fst snd] in P1, P2, G1, G2.
        assert (Ki : constant x \/ constant y).
        { destruct (constant_dec x) as [Kx|Kx]; [now left|]. destruct (constant_dec y) as [Ky|Ky]; [now right|]. exfalso. apply (Ni x y). now repeat split. }
        destruct (xcorr_constant ls win dtr dt n ins outs _ _ _ _ _ _ delay ex i _ _ _ _ Q ltac:(lra) P1 P2 Hm G1 G2 ltac:(lia) Ki) as (k1 & k2 & k3 & M0 & M1 & M2 & M3).
        exists k1, k2, k3, Nan, Nan, Nan. repeat split; assumption.
      - destruct (metrics_entry _ _ _ _ _ _ _ _ _ _ _ _ _ _ _ _ _ _ _ _ Q P1 P2 Hm) as (v1 & v2 & v3 & Mt & _). destruct Mt as (q1 & q2 & q3 & M0 & M1 & M2 & M3).
        exists q1, q2, q3, v1, v2, v3. split; [exact M0|]. split; [exact M1|]. split; [exact M2|]. split; [exact M3|]. discriminate. }
    destruct F as (k1 & k2 & k3 & v1 & v2 & v3 & M0 & M1 & M2 & M3 & N).
    rewrite X in M0. injection M0 as <- <- <-. rewrite (blanked_nth A B _ i _ _ _ Ha Hb M1), (blanked_nth A B _ i _ _ _ Ha Hb M2), (blanked_nth A B _ i _ _ _ Ha Hb M3).
    destruct (complete a && complete b)%bool; [destruct (N eq_refl) as (-> & -> & ->)|]; auto.
Qed.

(*@ C94 'jamaly' with spectral delays: a pair passes exactly if its sites differ, both signals are gap-free and good enough,
    the delay reported for it lies inside the record and the cross-correlation interpolated there reaches mincorr, the
    delay is not zero and the apparent speed is within limits. Again 1 - mean/peak plays no part. *)
Lemma tf_good : forall (K : Type) (HK : Label K) ls win dtr ms lsq dt n ts (pos : list (K * (R * R))) ref m o bk v t w o' kt vs mc lo hi,
  keeps_count ls -> 0 < dt -> (2 <= n)%nat -> table_of n ts -> lower m = "jamaly"%string -> lower bk <> "xcorr"%string ->
  cmv ls win dtr ms lsq dt n ts pos ref m o bk = Ok ((v, t, w), o') -> jamaly_options o' kt vs mc lo hi -> 0 < kt -> 0 < mc <= 1 ->
  exists A B d, Forall2 (fun p a => dget ts (fst p) = Some a) (w_allpairs w) A /\ Forall2 (fun p b => dget ts (snd p) = Some b) (w_allpairs w) B /\
  tf_backend ls win dtr dt n A B = Ok d /\ (forall f, w_fit w = Some f -> w_pair_lag f = M_cmv.d_delay d) /\
  forall i p a b dl, nth_error (w_allpairs w) i = Some p -> nth_error A i = Some a -> nth_error B i = Some b -> nth_error (M_cmv.d_delay d) i = Some dl ->
  exists s, separation pos p = Some s /\
    (nth_error (w_pair_flag w) i = Some GOOD <->
     fst p <> snd p /\ exists x y r pk, a = map Some x /\ b = map Some y /\ dl = Fin r /\ Rabs r <= INR (n - 1) * dt /\ nth_error (M_cmv.d_peak d) i = Some (Fin pk) /\
       pair_ok kt vs mc lo hi (len s) x y r pk).
Proof.
  intros K HK ls win dtr ms lsq dt n ts pos ref m o bk v t w o' kt vs mc lo hi KC Hd Hn T Hm Hb E (O1 & O2 & O3 & O4 & O5) Pk Pm.
  destruct (backends_answer dt n ls win dtr) as [Ax At]. specialize (At KC). unfold cmv in E.
  destruct (cmv_verdict K HK _ _ ms lsq ts pos ref m o bk v t w o' (Fin kt) (Fin vs) (Fin mc) (Fin lo) (Fin hi) Ax At E O1 (fun _ => conj O2 (conj O3 (conj O4 O5))))
    as (A & B & d & vd & FA & FB & ED & L1 & L2 & L3 & RF & Lv & Vj & _ & V).
  destruct (String.eqb_spec (lower bk) "xcorr"); [contradiction|]. specialize (Vj Hm).
  assert (LA : length A = length (w_allpairs w)) by (clear -FA; induction FA; cbn; congruence).
  assert (LB : length B = length (w_allpairs w)) by (clear -FB; induction FB; cbn; congruence).
  exists A, B, d. split; [exact FA|]. split; [exact FB|]. split; [exact ED|]. split; [intros f Hf; apply (RF f Hf)|].
  intros i p a b dl Hp Ha HB Hdl.
  assert (Hi : (i < length (w_allpairs w))%nat) by (apply nth_error_Some; congruence).
  assert (X : forall T0 (l : list T0), length l = length (w_allpairs w) -> exists y, nth_error l i = Some y).
  { intros T0 l EL. destruct (nth_error l i) eqn:Z; [eauto|]. apply nth_error_None in Z. lia. }
  destruct (X _ _ L2) as [pk Hpk]. destruct (X _ _ L3) as [mn Hmn]. destruct (X _ _ Lv) as [g Hg].
  pose proof (asked_samples n ts fst _ _ T FA) as SA. pose proof (asked_samples n ts snd _ _ T FB) as SB.
  pose proof (Forall2_nth _ _ _ _ _ _ FA Hp Ha) as Da. pose proof (Forall2_nth _ _ _ _ _ _ FB Hp HB) as Db. cbv beta in Da, Db.
  destruct (V i p a b dl pk mn g Hp Ha HB Hdl Hpk Hmn Hg) as (s & Es & VD). rewrite Hm in VD. cbn [String.eqb Ascii.eqb Bool.eqb] in VD.
  exists s. split; [exact Es|]. rewrite Vj, Hg.
  set (cs := common_checks (Fin kt) ++ jamaly_checks (Fin vs) (Fin mc) (Fin lo) (Fin hi)) in *.
  assert (NG : forall c, In c cs -> snd c <> GOOD) by (intros c Hc; cbn in Hc; repeat (destruct Hc as [<-|Hc]; [discriminate|]); destruct Hc).
  set (row := mkRow p a b (Fin (len s)) dl pk mn) in *.
  assert (GI : Some g = Some GOOD <-> forall c, In c cs -> ~ fst c row).
  { rewrite <- (verdict_good cs row NG). split; [intro Z; injection Z as ->; exact VD|]. intro VG. rewrite (verdict_good cs row NG) in VG.
    destruct VD as [[-> _]|(pre & c & post & Ec & F & -> & _)]; [reflexivity|]. exfalso. apply (VG c); [rewrite Ec; apply in_elt|exact F]. }
  rewrite GI. clear GI VD NG.
  destruct (tf_backend_tells ls win dtr dt n A B d Hd Hn KC ltac:(congruence) SA SB ED) as (zs & cohs & _ & _ & Tell).
  destruct (Tell i a b Ha HB) as (dl' & Hdl' & Kd & TI & TN). rewrite Hdl in Hdl'. injection Hdl' as <-.
  assert (La : length a = n) by (apply (T (fst p)); exact Da). assert (Lb : length b = n) by (apply (T (snd p)); exact Db).
  assert (Nan_bad : pk = Nan -> (forall c, In c cs -> ~ fst c row) -> False).
  { intros Z H. apply (H (fun r => p_peak r = Nan \/ p_mean r = Nan, LOWCORR)); [cbn; tauto|]. cbn. auto. }
  destruct (usable_cases n a b La Lb) as [(x & y & I & U & Lx & Ly)|C].
  - destruct (TI x y I) as (pk' & T1 & T2 & _ & T3 & T4). rewrite T1 in Hpk. injection Hpk as ->. rewrite T2 in Hmn. injection Hmn as <-.
    destruct I as (Ea & Eb & Kx & Ky). assert (Nx : x <> []) by (intros ->; cbn in Lx; lia). assert (Ny : y <> []) by (intros ->; cbn in Ly; lia).
    destruct Kd as [-> | [r ->]].
    { specialize (T3 eq_refl). split; [intro H; exfalso; now apply Nan_bad|]. intros (_ & ? & ? & ? & ? & _ & _ & Z & _). discriminate. }
    destruct (T4 r eq_refl) as (W1 & _ & W3).
    destruct (Rlt_dec (INR (n - 1) * dt) (Rabs r)) as [F|F].
    { split; [intro H; exfalso; apply Nan_bad; auto|]. intros (_ & ? & ? & ? & ? & _ & _ & Z & Bd & _). injection Z as ->. lra. }
    assert (exists q, pk = Fin q) as [q ->].
    { set (u := - r / dt). assert (Eu : - r = u * dt) by (unfold u; field; lra).
      assert (Bu : - INR (n - 1) <= u <= INR (n - 1)).
      { apply Rnot_lt_le in F. assert (Rabs (u * dt) <= INR (n - 1) * dt) by (rewrite <- Eu, Rabs_Ropp; exact F).
        rewrite Rabs_mult, (Rabs_right dt) in H by lra. apply Rmult_le_reg_r in H; [|exact Hd].
        pose proof (Rle_abs u). pose proof (Rle_abs (- u)). rewrite Rabs_Ropp in *. lra. }
      pose proof (base_Int_part u) as [I1 I2]. set (L := Int_part u) in *.
      rewrite INR_IZR_INZ in Bu. set (N := Z.of_nat (n - 1)) in *.
      destruct (Z.eq_dec L N) as [EN|NN].
      - eexists. apply (W3 (L - 1)%Z); [unfold lag_of; lia|unfold lag_of; lia|]. rewrite Eu. replace (L - 1 + 1)%Z with L by lia. rewrite minus_IZR.
        assert (u = IZR L) by (rewrite EN in *; lra). rewrite H. split; [|lra]. apply Rmult_le_compat_r; lra.
      - assert (A1 : (- N - 1 < L)%Z) by (apply lt_IZR; rewrite minus_IZR, opp_IZR; lra). assert (A2 : (L < N + 1)%Z) by (apply lt_IZR; rewrite plus_IZR; lra).
        eexists. apply (W3 L); [unfold lag_of; lia|unfold lag_of; lia|]. rewrite Eu, plus_IZR. split; apply Rmult_le_compat_r; lra. }
    unfold row, cs. rewrite Ea, Eb. rewrite (row_passes p x y (len s)) by assumption. rewrite len_over. split.
    + intros (N & P & _). split; [exact N|]. exists x, y, r, q. split; [reflexivity|]. split; [reflexivity|]. split; [reflexivity|].
      split; [now apply Rnot_lt_le|]. split; [exact T1|]. now apply P.
    + intros (N & x' & y' & r' & q' & E1 & E2 & E3 & _ & E4 & P).
      assert (x' = x /\ y' = y) as [-> ->].
      { split; [rewrite <- (present_map_Some x'), <- (present_map_Some x); congruence|rewrite <- (present_map_Some y'), <- (present_map_Some y); congruence]. }
      injection E3 as ->. rewrite T1 in E4. injection E4 as ->. split; [exact N|]. split; [auto|]. exact P.
  - assert (NI : forall x y, ~ informative a b x y) by tauto. destruct (TN NI) as (T2 & _). rewrite T2 in Hpk. injection Hpk as <-.
    split; [intro H; exfalso; now apply Nan_bad|].
    intros (_ & x & y & r & q & -> & -> & _ & _ & _ & S1 & S2 & _). exfalso. apply (NI x y). repeat split; apply std_pos_not_constant; [apply S1|apply S2].
Qed.
