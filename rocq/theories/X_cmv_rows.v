(** cmv.py: the quality verdict of every pair in terms of the data handed to compute_cmv, and the speed limit on the estimate. *)
From Coq Require Import String Permutation.
From Verif Require Import Prelude PreludeFacts RealBase Fl RealStat M_spatial M_cmv Spec_spatial Spec_cmv P_cmv P_plane X_cmv_options X_cmv_pairs X_cmv_qc X_cmv_cascade X_cmv_motion X_cmv_fit.
Local Open Scope R_scope.

Lemma nth_error_combine2 {A B} (a : list A) (b : list B) i x y :
  nth_error a i = Some x -> nth_error b i = Some y -> nth_error (combine a b) i = Some (x, y).
Proof. revert b i. induction a as [|x0 a IH]; intros [|y0 b] [|i]; cbn; try discriminate; [congruence|apply IH]. Qed.
Lemma lookups {K V} `{Label K} (d : list (K * V)) (g : K * K -> K) pairs A :
  mapM (fun p => lookup d (g p)) pairs = Ok A -> Forall2 (fun p a => dget d (g p) = Some a) pairs A.
Proof.
  intro E. apply mapM_ok_iff in E. induction E as [|p a l l' Hp _ IH]; constructor; auto.
  unfold lookup in Hp. destruct (dget d (g p)); congruence.
Qed.
Lemma Forall2_nth {A B} (P : A -> B -> Prop) l l' i x y : Forall2 P l l' -> nth_error l i = Some x -> nth_error l' i = Some y -> P x y.
Proof. intro F. revert i. induction F as [|a b l l' Hab _ IH]; intros [|i] E1 E2; cbn in *; try discriminate; [congruence|eauto]. Qed.

(*@ C17 In every successful call: the delay routine is asked once, with the two signals of each pair in pair order; a
    fit's report carries its delays, peak and zero-lag correlations and coherences; and each pair's verdict is the
    last failing check applied to the pair's own signals, distance, delay and correlations. With 'jamaly' these
    verdicts are the reported flags; with 'gagne' the correlation cascade is applied on top. *)
Lemma cmv_verdict : forall (K : Type) (HK : Label K) dx dt ms lsq ts (pos : list (K * (R * R))) ref m o bk v t w o' kt vs mc lo hi,
  one_answer_per_pair dx -> one_answer_per_pair dt ->
  compute_cmv dx dt ms lsq ts pos ref m o bk = Ok ((v, t, w), o') ->
  dget o' "ktlim"%string = Some kt ->
  (lower m = "jamaly"%string -> dget o' "var_s_lim"%string = Some vs /\ dget o' "mincorr"%string = Some mc /\
     dget o' "minvelocity"%string = Some lo /\ dget o' "maxvelocity"%string = Some hi) ->
  exists A B d verdicts,
    Forall2 (fun p a => dget ts (fst p) = Some a) (w_allpairs w) A /\
    Forall2 (fun p b => dget ts (snd p) = Some b) (w_allpairs w) B /\
    (if String.eqb (lower bk) "xcorr" then dx A B else dt A B) = Ok d /\
    length (d_delay d) = length (w_allpairs w) /\ length (d_peak d) = length (w_allpairs w) /\ length (d_mean d) = length (w_allpairs w) /\
    (forall f, w_fit w = Some f -> w_pair_lag f = d_delay d /\ w_corr_lag f = d_peak d /\ w_corr_raw f = d_zero d /\ w_pair_coh f = d_coh d) /\
    length verdicts = length (w_allpairs w) /\
    (lower m = "jamaly"%string -> w_pair_flag w = verdicts) /\
    (lower m = "gagne"%string -> exists overall, gagne_cascade (d_peak d) verdicts = (overall, w_pair_flag w)) /\
    forall i p a b dl pk mn g,
      nth_error (w_allpairs w) i = Some p -> nth_error A i = Some a -> nth_error B i = Some b ->
      nth_error (d_delay d) i = Some dl -> nth_error (d_peak d) i = Some pk -> nth_error (d_mean d) i = Some mn ->
      nth_error verdicts i = Some g ->
      exists s, separation pos p = Some s /\
      verdict (common_checks kt ++ (if String.eqb (lower m) "jamaly" then jamaly_checks vs mc lo hi else []))
        (mkRow p a b (Fin (len s)) dl pk mn) g.
Proof.
  intros K HK dx dt ms lsq ts pos ref m o bk v t w o' kt vs mc lo hi Hx Ht E Hkt Hj.
  apply compute_cmv_inv in E. destruct E as (A & B & d & Pb & Pa & flags0 & overall & flags & E). cbv zeta in E.
  destruct E as (Km & Bk & NE & EA & EB & ED & EPb & EPa & EV & EQ & EG & EF).
  pose proof (finish_pairs _ _ _ _ _ _ _ _ _ _ _ _ EF) as [EP EFl].
  set (pairs := get_pairs _ _ _) in *. set (vecs := map2 _ Pb Pa) in *. set (rows := map row_of _) in *.
  pose proof (mapM_length _ _ _ EA) as LA. pose proof (mapM_length _ _ _ EB) as LB.
  pose proof (mapM_length _ _ _ EPa) as LPa. pose proof (mapM_length _ _ _ EPb) as LPb.
  assert (LD : length (d_delay d) = length A /\ length (d_peak d) = length A /\ length (d_mean d) = length A).
  { destruct (String.eqb (lower bk) "xcorr"); [apply (Hx A B d)|apply (Ht A B d)]; auto; congruence. }
  destruct LD as (L1 & L2 & L3).
  set (o0 := match o with None => [] | Some x => x end).
  assert (EV' : validate_method_options (lower m) (Some o0) = Ok o') by (rewrite <- EV; unfold o0; now destruct o).
  destruct (qc_verdict K HK (lower m) o0 o' rows kt vs mc lo hi EV' Hkt Hj) as (fs & Ef & Vf).
  assert (fs = flags0) by congruence. subst fs. rewrite EP.
  assert (LR : length rows = length pairs).
  { unfold rows. rewrite map_length, !combine_length. unfold vecs. rewrite map2_length by congruence. lia. }
  exists A, B, d, flags0.
  split; [now apply lookups|]. split; [now apply lookups|]. split; [exact ED|].
  split; [congruence|]. split; [congruence|]. split; [congruence|].
  split.
  { intros f Hf. apply finish_cases in EF. destruct EF as [(_ & _ & _ & ->)|(_ & v0 & t0 & fg & md & _ & _ & ->)]; [discriminate|].
    cbn [w_fit] in Hf. injection Hf as <-. cbn. auto. }
  split; [rewrite <- LR; clear -Vf; induction Vf; cbn; congruence|].
  split. { intro J. rewrite J in EG. cbn in EG. rewrite EFl. congruence. }
  split. { intro G. rewrite G in EG. cbn in EG. exists overall. rewrite EFl. congruence. }
  intros i p a b dl pk mn g Hp Ha Hb Hd Hk Hm Hg.
  pose proof (lookups _ _ _ _ EPb) as FB. pose proof (lookups _ _ _ _ EPa) as FA.
  assert (exists pb, nth_error Pb i = Some pb) as [pb Epb].
  { destruct (nth_error Pb i) eqn:X; [eauto|]. apply nth_error_None in X. assert (i < length pairs)%nat by (apply nth_error_Some; congruence). lia. }
  assert (exists pa, nth_error Pa i = Some pa) as [pa Epa].
  { destruct (nth_error Pa i) eqn:X; [eauto|]. apply nth_error_None in X. assert (i < length pairs)%nat by (apply nth_error_Some; congruence). lia. }
  pose proof (Forall2_nth _ _ _ _ _ _ FB Hp Epb) as Db. pose proof (Forall2_nth _ _ _ _ _ _ FA Hp Epa) as Da. cbv beta in Da, Db.
  exists (sub2 pb pa). split; [unfold separation; now rewrite Da, Db|].
  rewrite <- magnitude_len. refine (Forall2_nth _ _ _ i _ _ Vf _ Hg). unfold rows.
  erewrite map_nth_error; [|apply nth_error_combine2; [apply nth_error_combine2; [apply nth_error_combine2; [exact Hp|apply nth_error_combine2; [exact Ha|exact Hb]]|]|apply nth_error_combine2; [apply nth_error_combine2; [exact Hd|exact Hk]|exact Hm]]].
  - cbn [row_of]. reflexivity.
  - unfold vecs. rewrite nth_error_map2, Epb, Epa. reflexivity.
Qed.

Lemma cmv_option_values : forall (K : Type) (HK : Label K) dx dt ms lsq ts (pos : list (K * (R * R))) ref m o bk v t w o',
  lower m = "jamaly"%string -> compute_cmv dx dt ms lsq ts pos ref m o bk = Ok ((v, t, w), o') ->
  exists kt vs mc lo hi, dget o' "ktlim"%string = Some kt /\ dget o' "var_s_lim"%string = Some vs /\ dget o' "mincorr"%string = Some mc /\
     dget o' "minvelocity"%string = Some lo /\ dget o' "maxvelocity"%string = Some hi.
Proof.
  intros K HK dx dt ms lsq ts pos ref m o bk v t w o' J E.
  apply compute_cmv_inv in E. destruct E as (A & B & d & Pb & Pa & flags0 & overall & flags & E). cbv zeta in E.
  destruct E as (_ & _ & _ & _ & _ & _ & _ & _ & EV & _). rewrite J in EV.
  set (o0 := match o with None => [] | Some x => x end).
  assert (EV' : validate_method_options "jamaly" (Some o0) = Ok o') by (rewrite <- EV; unfold o0; now destruct o).
  assert (V : forall k, documented_default "jamaly" k <> None -> exists x, dget o' k = Some x).
  { intros k Hk. destruct (options_effective "jamaly" o0 o' k EV') as [_ [_ H]]. exact (H Hk). }
  destruct (V "ktlim"%string) as [kt ?]; [discriminate|]. destruct (V "var_s_lim"%string) as [vs ?]; [discriminate|].
  destruct (V "mincorr"%string) as [mc ?]; [discriminate|]. destruct (V "minvelocity"%string) as [lo ?]; [discriminate|].
  destruct (V "maxvelocity"%string) as [hi ?]; [discriminate|]. exists kt, vs, mc, lo, hi. auto.
Qed.

Lemma median_within l h : l <> [] -> (forall x, In x l -> Rabs x < h) -> Rabs (median l) < h.
Proof.
  intros NE H. unfold median. set (n := length l). assert (Hn : (0 < n)%nat) by (unfold n; destruct l; [easy|cbn; lia]).
  assert (Hd : (n / 2 < n)%nat) by (apply Nat.div_lt; lia).
  assert (E : forall i, (i < n)%nat -> Rabs (nth i (rsort l) 0) < h) by (intros i Hi; apply H; now apply rsort_nth_in).
  destruct (Nat.even n); [|now apply E].
  pose proof (E (n / 2 - 1)%nat ltac:(lia)) as A. pose proof (E (n / 2)%nat Hd) as B. unfold Rabs in *. repeat destruct Rcase_abs; lra.
Qed.

(*@ C20 The speed 'jamaly' returns stays below the maxvelocity option in effect, whatever the data (a call without
    fit returns 0). *)
Lemma jamaly_speed_limit : forall (K : Type) (HK : Label K) dx dt ms lsq ts (pos : list (K * (R * R))) ref m o bk v t w o' hi,
  one_answer_per_pair dx -> one_answer_per_pair dt -> lower m = "jamaly"%string ->
  compute_cmv dx dt ms lsq ts pos ref m o bk = Ok ((v, t, w), o') ->
  dget o' "maxvelocity"%string = Some (Fin hi) ->
  (forall f, w_fit w = Some f -> finite_delays (w_pair_flag w) (w_pair_lag f) -> exists s, v = Fin s /\ 0 <= s < hi) /\
  (w_fit w = None -> v = Fin 0).
Proof.
  intros K HK dx dt ms lsq ts pos ref m o bk v t w o' hi Hx Ht Hm E Hhi. split.
  - intros f Hf Fd.
    destruct (jamaly_value K HK dx dt ms lsq ts pos ref m o bk v t w o' f Hx Ht Hm E Hf Fd) as (Lp & NZ & obj & th & a & jm & _ & _ & Ev & _).
    set (ps := used_pairs _ _ _ _) in *. cbv zeta in Ev. exists (Rabs (median (apparent_speeds ps th))).
    split; [exact Ev|]. split; [apply Rabs_pos|]. apply median_within.
    { unfold apparent_speeds. destruct ps; [cbn in Lp; lia|discriminate]. }
    intros x Hin. unfold apparent_speeds in Hin. apply in_map_iff in Hin. destruct Hin as (q & <- & Iq).
    specialize (NZ q Iq). destruct (used_in pos _ _ _ q Iq) as (i & p & Hp & Hg & Hs & Hl).
    destruct (cmv_option_values K HK dx dt ms lsq ts pos ref m o bk v t w o' Hm E) as (kt & vs & mc & lo & hi' & O1 & O2 & O3 & O4 & O5).
    destruct (cmv_verdict K HK dx dt ms lsq ts pos ref m o bk v t w o' kt vs mc lo hi' Hx Ht E O1 (fun _ => conj O2 (conj O3 (conj O4 O5))))
      as (A & B & d & vd & FA & FB & _ & L1 & L2 & L3 & Rp & Lv & Vj & _ & V).
    assert (Hhi' : hi' = Fin hi) by congruence. subst hi'.
    destruct (Rp f Hf) as (El & _). rewrite El in Hl. specialize (Vj Hm). rewrite Vj in Hg.
    assert (In1 : (i < length (w_allpairs w))%nat) by (apply nth_error_Some; congruence).
    assert (X : forall T (l : list T), length l = length (w_allpairs w) -> exists y, nth_error l i = Some y).
    { intros T l EL. destruct (nth_error l i) eqn:Z; [eauto|]. apply nth_error_None in Z. lia. }
    assert (LA : length A = length (w_allpairs w)) by (clear -FA; induction FA; cbn; congruence).
    assert (LB : length B = length (w_allpairs w)) by (clear -FB; induction FB; cbn; congruence).
    destruct (X _ A LA) as [sa Ha]. destruct (X _ B LB) as [sb Hb]. destruct (X _ _ L2) as [pk Hk]. destruct (X _ _ L3) as [mn Hn].
    destruct (V i p sa sb (Fin (snd q)) pk mn GOOD Hp Ha Hb Hl Hk Hn Hg) as (s & Es & VD).
    rewrite Hs in Es. injection Es as <-. rewrite Hm in VD. cbn [String.eqb Ascii.eqb Bool.eqb] in VD.
    rewrite verdict_good in VD; [|intros c Hc; cbn in Hc; repeat (destruct Hc as [<-|Hc]; [discriminate|]); destruct Hc].
    assert (SO : speed_ok (mkRow p sa sb (Fin (len (fst q))) (Fin (snd q)) pk mn) lo (Fin hi)).
    { assert (In2 : In (fun r : prow K => ~ speed_ok r lo (Fin hi), VELLIMIT) (common_checks kt ++ jamaly_checks vs mc lo (Fin hi))) by (cbn; intuition).
      specialize (VD _ In2). cbn [fst] in VD. unfold speed_ok in *. cbv zeta in *. unfold below in *.
      repeat match type of VD with context [fltb ?a ?b] => destruct (fltb a b) end; auto; exfalso; apply VD; intros [? ?]; discriminate. }
    destruct SO as [_ SO]. cbn [p_spacing p_delay] in SO. rewrite fdiv_fin in SO by exact NZ. unfold below in SO. cbn [fabs fltb] in SO.
    destruct (Rltb_spec (Rabs (len (fst q) / snd q)) hi) as [SB|]; [|discriminate].
    eapply Rle_lt_trans; [|exact SB]. unfold Rdiv. rewrite !Rabs_mult. apply Rmult_le_compat_r; [apply Rabs_pos|].
    eapply Rle_trans; [apply cauchy2|]. rewrite unit_len, Rmult_1_r. apply Rle_abs.
  - intro N. destruct (cmv_failure_exit K HK dx dt ms lsq ts pos ref m o bk v t w o' Hx Ht E) as (_ & _ & H). apply H, N.
Qed.

(*@ex C20 Both theorems' hypotheses are met by the three-site run of the other examples. *)
Lemma speed_limit_example : exists ms lsq v t w o f,
  one_answer_per_pair demo_backend /\
  compute_cmv demo_backend demo_backend ms lsq demo_ts demo_pos RefNone "jamaly" None "xcorr" = Ok ((v, t, w), o) /\ w_fit w = Some f /\
  finite_delays (w_pair_flag w) (w_pair_lag f) /\ dget o "maxvelocity"%string = Some (Fin 70) /\ exists kt, dget o "ktlim"%string = Some kt.
Proof.
  exists (fun _ => PI / 2), (fun _ => (Fin 0, Fin 0)).
  destruct (demo_run "jamaly" (fun _ => PI / 2) (fun _ => (Fin 0, Fin 0)) (or_introl eq_refl)) as (v & t & w & o & f & E & Hf & Ep & Efl & El).
  exists v, t, w, o, f. split; [apply demo_backend_ok|]. split; [exact E|]. split; [exact Hf|].
  split; [rewrite Efl, El; apply demo_finite; auto|].
  apply compute_cmv_inv in E. destruct E as (A & B & d & Pb & Pa & flags0 & overall & flags & E). cbv zeta in E.
  destruct E as (_ & _ & _ & _ & _ & _ & _ & _ & EV & _).
  change (lower "jamaly") with "jamaly"%string in EV. cbn in EV. injection EV as <-. split; [reflexivity|eexists; reflexivity].
Qed.

(*@ C19 Two runs of the same method with the same flags whose GOOD pairs have equal separations and delays return the same speed, direction and quality flag, whatever their sites,
    series, options, delay backends and other pairs. *)
Lemma cmv_good_pairs_only : forall (K K' : Type) (HK : Label K) (HK' : Label K') dx dt dx' dt' ms lsq
    ts (pos : list (K * (R * R))) ref m o bk v t w d f ts' (pos' : list (K' * (R * R))) ref' m' o' bk' v' t' w' d' f',
  one_answer_per_pair dx -> one_answer_per_pair dt -> one_answer_per_pair dx' -> one_answer_per_pair dt' ->
  compute_cmv dx dt ms lsq ts pos ref m o bk = Ok ((v, t, w), d) -> compute_cmv dx' dt' ms lsq ts' pos' ref' m' o' bk' = Ok ((v', t', w'), d') ->
  lower m = lower m' -> w_fit w = Some f -> w_fit w' = Some f' -> w_pair_flag w = w_pair_flag w' ->
  (forall i p p', nth_error (w_pair_flag w) i = Some GOOD -> nth_error (w_allpairs w) i = Some p -> nth_error (w_allpairs w') i = Some p' ->
     separation pos p = separation pos' p' /\ nth_error (w_pair_lag f) i = nth_error (w_pair_lag f') i) ->
  v = v' /\ t = t' /\ w_flag w = w_flag w'.
Proof.
  intros K K' HK HK' dx dt dx' dt' ms lsq ts pos ref m o bk v t w d f ts' pos' ref' m' o' bk' v' t' w' d' f' Hx Ht Hx' Ht' E E' Em Hf Hf' Efl A.
  assert (Fg : lower m = "gagne"%string -> w_flag w = w_flag w').
  { intro Hm. assert (Hm' : lower m' = "gagne"%string) by congruence.
    destruct (cmv_gagne_flag _ _ _ _ _ _ _ _ _ _ _ _ _ _ _ _ Hx Ht Hm E) as (Fa & Fb & _). destruct (cmv_gagne_flag _ _ _ _ _ _ _ _ _ _ _ _ _ _ _ _ Hx' Ht' Hm' E') as (Fa' & Fb' & _).
    rewrite Efl in *. destruct (Classical_Prop.classic (good_at_least 12 (w_pair_flag w'))) as [G|G]; [apply Fb in G as G1; apply Fb' in G as G2|apply Fa in G as G1; apply Fa' in G as G2]; congruence. }
  destruct (cmv_facts dx dt ms lsq Hx Ht ts pos ref m o bk v t w d E) as (dd & vecs & rows & f0 & ov & flags & o0 & Km & V & Q & G & F & L1 & L2 & L3 & L4 & L5 & L6 & W & S & Rr).
  destruct (cmv_facts dx' dt' ms lsq Hx' Ht' ts' pos' ref' m' o' bk' v' t' w' d' E') as (dd' & vecs' & rows' & f0' & ov' & flags' & o0' & Km' & V' & Q' & G' & F' & L1' & L2' & L3' & L4' & L5' & L6' & W' & S' & Rr').
  rewrite <- Em in *. assert (Hfl : flags' = flags) by congruence. clear W'. subst flags'.
  assert (Lg : forall X (j : bool) qc ov0 fl0 (ps : list (X * X)) vs dl x y z g, finish_cmv ms lsq j qc ov0 fl0 ps vs dl = (x, y, z) -> w_fit z = Some g -> w_pair_lag g = d_delay dl).
  { intros X j qc ov0 fl0 ps vs dl x y z g Hz Hg. apply finish_cases in Hz. destruct Hz as [(_ & _ & _ & Ez)|(_ & v0 & t0 & fg & md & _ & _ & Ez)]; rewrite Ez in Hg; cbn [w_fit] in Hg; [discriminate|]. injection Hg as <-. reflexivity. }
  pose proof (Lg _ _ _ _ _ _ _ _ _ _ _ _ F Hf) as Gl. pose proof (Lg _ _ _ _ _ _ _ _ _ _ _ _ F' Hf') as Gl'. clear Lg.
  assert (Ag : forall i, nth_error flags i = Some GOOD -> nth_error vecs i = nth_error vecs' i /\ nth_error (d_delay dd) i = nth_error (d_delay dd') i).
  { intros i Hi. assert (Li : (i < length flags)%nat) by (apply nth_error_Some; congruence).
    destruct (nth_error (w_allpairs w) i) as [p|] eqn:Ep; [|apply nth_error_None in Ep; lia]. destruct (nth_error (w_allpairs w') i) as [p'|] eqn:Ep'; [|apply nth_error_None in Ep'; lia].
    rewrite <- W in Hi. destruct (A i p p' Hi Ep Ep') as [B1 B2]. rewrite Gl, Gl' in B2. split; [|exact B2].
    destruct (S i p Ep) as (s & Hs & Hv). destruct (S' i p' Ep') as (s' & Hs' & Hv'). congruence. }
  assert (Ov : ov = ov').
  { destruct Km as [Hm|Hm]; rewrite Hm in *; cbn [String.eqb Ascii.eqb Bool.eqb] in G, G', F, F'; [congruence|].
    specialize (Fg eq_refl). apply finish_cases in F. apply finish_cases in F'.
    destruct F as [(_ & _ & _ & Ew)|(_ & v0 & t0 & fg & md & Ef & _ & Ew)]; [rewrite Ew in Hf; discriminate|].
    destruct F' as [(_ & _ & _ & Ew')|(_ & v0' & t0' & fg' & md' & Ef' & _ & Ew')]; [rewrite Ew' in Hf'; discriminate|].
    unfold fit_gagne in Ef, Ef'. destruct (lsq (gagne_resid (good_only flags (d_delay dd)) _)). destruct (lsq (gagne_resid (good_only flags (d_delay dd')) _)).
    rewrite Ew, Ew' in Fg. cbn [w_flag] in Fg. cbv zeta in Ef, Ef'. congruence. }
  subst ov'. set (j := String.eqb (lower m) "jamaly") in *.
  destruct (finish_cmv ms lsq j (qc_figures rows) ov flags (w_allpairs w) vecs' dd') as [[v1 t1] w1] eqn:F1.
  assert (L7 : length vecs = length flags) by congruence. assert (L8 : length vecs' = length flags) by congruence.
  assert (L9 : length (d_delay dd) = length flags) by congruence. assert (L10 : length (d_delay dd') = length flags) by congruence.
  destruct (cmv_good_only _ _ _ _ _ _ _ _ _ _ _ _ _ _ _ _ _ _ _ _ L7 L8 L9 L10 Ag F F1) as (-> & -> & ->).
  apply finish_cases in F1. apply finish_cases in F'.
  destruct F1 as [(N & -> & -> & ->)|(T & v0 & t0 & fg & md & Ef & En & ->)], F' as [(N' & -> & -> & ->)|(T' & v0' & t0' & fg' & md' & Ef' & En' & ->)]; try contradiction; auto.
  assert (S3 : v0 = v0' /\ t0 = t0' /\ fg = fg').
  { destruct j; [unfold fit_jamaly in Ef, Ef'; cbv zeta in Ef, Ef'; repeat split; congruence|]. rewrite Ef in Ef'. repeat split; congruence. }
  destruct S3 as (<- & <- & <-). rewrite En in En'. injection En' as -> ->. auto.
Qed.
