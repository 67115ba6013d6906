(** cmv.py pairwise QC, the gagne correlation cascade and the all-bad exit. *)
From Coq Require Import String Permutation.
From Verif Require Import Prelude PreludeFacts RealBase Fl RealStat M_spatial M_cmv Spec_spatial Spec_cmv P_cmv X_cmv_options X_cmv_pairs.
Local Open Scope R_scope.

Lemma set_where_map {A} mask f (rows : list A) g :
  set_where mask f rows (map g rows) = map (fun r => if mask r then f else g r) rows.
Proof. unfold set_where, map2. induction rows as [|r rows IH]; [easy|]. cbn. now rewrite IH. Qed.

(** The verdict by a fold over decided checks. *)
Section Fold.
  Context {K : Type}.
  Fixpoint decide_last (bs : list (bool * Flag)) (g : Flag) : Flag :=
    match bs with [] => g | (b, f) :: r => decide_last r (if b then f else g) end.


  Lemma decide_verdict (cs : list ((prow K -> Prop) * Flag)) bs r :
    Forall2 (fun c b => (fst c r <-> fst b = true) /\ snd c = snd b) cs bs ->
    (verdict cs r (decide_last bs GOOD)).
  Proof.
    intro F.
    assert (G : forall g, (decide_last bs g = g /\ (forall c, In c cs -> ~ fst c r)) \/
              (exists pre c post, cs = pre ++ c :: post /\ fst c r /\ decide_last bs g = snd c /\ forall c', In c' post -> ~ fst c' r)).
    { induction F as [|c [b f] cs bs [Hb Hf] F IH]; intro g; cbn [decide_last].
      - left. split; [easy|]. now intros.
      - cbn [fst snd] in *. destruct (IH (if b then f else g)) as [(E & N)|(p & c0 & q & E & H1 & H2 & H3)].
        + destruct b.
          * right. exists [], c, cs. rewrite E. repeat split; auto. now apply Hb.
          * left. split; [exact E|]. intros c' [<-|I]; [|now apply N]. intro X. apply Hb in X. discriminate.
        + right. exists (c :: p), c0, q. rewrite E. repeat split; auto. }
    destruct (G GOOD) as [(E & N)|(p & c & q & H)]; [left; split; auto|right; now exists p, c, q].
  Qed.
End Fold.

Lemma nan_reduce_below f s lim : fltb (nan_reduce f (present s)) lim = true <-> figure_below f s lim.
Proof.
  unfold figure_below, below, nan_reduce. destruct (present s) as [|x l] eqn:E.
  - cbn. split; [discriminate|]. intros [N _]. congruence.
  - split; [intro Hx; split; [discriminate|exact Hx]|now intros [_ Hx]].
Qed.

Lemma var_s_below s lim : fltb (var_s s) lim = true <-> variation_below s lim.
Proof.
  unfold variation_below, below, var_s, nanmean, nanmax, nan_reduce. destruct (present s) as [|x l] eqn:E.
  - cbn. split; [discriminate|]. intros [N _]. congruence.
  - split; [intro Hx; split; [discriminate|exact Hx]|now intros [_ Hx]].
Qed.

Lemma or_either {K} (f : list (option R) -> bool) P (r : prow K) : (forall s, f s = true <-> P s) ->
  (either P r <-> (f (p_a r) || f (p_b r))%bool = true).
Proof. intro E. unfold either. rewrite Bool.orb_true_iff, !E. tauto. Qed.

Lemma feqb_zero x : feqb x (Fin 0) = true <-> x = Fin 0.
Proof.
  destruct x as [a| | |]; cbn; try (split; [discriminate|congruence]).
  destruct (Reqb_spec a 0) as [->|N]; split; auto; try discriminate. intro X. injection X as X. contradiction.
Qed.
Lemma is_nan_iff x : is_nan x = true <-> x = Nan.
Proof. destruct x; cbn; split; congruence. Qed.

Definition checks_of {K} (m : string) (o : opts) : list ((prow K -> Prop) * Flag) :=
  let g k := match dget o k with Some v => v | None => Nan end in
  common_checks (g "ktlim"%string) ++
  (if String.eqb m "jamaly" then jamaly_checks (g "var_s_lim"%string) (g "mincorr"%string) (g "minvelocity"%string) (g "maxvelocity"%string) else []).

Definition decisions {K} `{Label K} (m : string) (o : opts) (r : prow K) : list (bool * Flag) :=
  let g k := match dget o k with Some v => v | None => Nan end in
  [ (lab_eqb (fst (p_ids r)) (snd (p_ids r)), SAME);
    (fltb (nanstd (p_a r)) (Fin 0.001) || fltb (nanstd (p_b r)) (Fin 0.001), NOSIGNAL);
    (feqb (p_delay r) (Fin 0), NOLAG);
    (is_nan (p_peak r) || is_nan (p_mean r), LOWCORR);
    (fltb (nanmax (p_a r)) (g "ktlim"%string) || fltb (nanmax (p_b r)) (g "ktlim"%string), OVERCAST) ]%bool ++
  (if String.eqb m "jamaly" then
    [ (fltb (var_s (p_a r)) (g "var_s_lim"%string) || fltb (var_s (p_b r)) (g "var_s_lim"%string), LOWVAR_S);
      (fltb (p_peak r) (g "mincorr"%string) || fltb (r_qc r) (g "mincorr"%string), LOWCORR);
      (negb (fltb (g "minvelocity"%string) (fabs (pair_speed r)) && fltb (fabs (pair_speed r)) (g "maxvelocity"%string)), VELLIMIT) ]%bool
   else []).

Lemma decisions_ok {K} `{Label K} m o (r : prow K) :
  Forall2 (fun c b => (fst c r <-> fst b = true) /\ snd c = snd b) (checks_of m o) (decisions m o r).
Proof.
  unfold checks_of, decisions. apply Forall2_app.
  - unfold common_checks.
    constructor; [split; [|reflexivity]; cbn [fst snd]; now rewrite lab_eqb_eq|].
    constructor; [split; [|reflexivity]; cbn [fst snd]|].
    { apply (or_either (fun s => fltb (nanstd s) (Fin 0.001))). intro s. unfold nanstd. rewrite nan_reduce_below.
      replace (1 / 1000) with 0.001 by lra. reflexivity. }
    constructor; [split; [|reflexivity]; cbn [fst snd]; now rewrite feqb_zero|].
    constructor; [split; [|reflexivity]; cbn [fst snd]; rewrite Bool.orb_true_iff, !is_nan_iff; reflexivity|].
    constructor; [split; [|reflexivity]; cbn [fst snd]|constructor].
    apply (or_either (fun s => fltb (nanmax s) _)). intro s. apply nan_reduce_below.
  - destruct (String.eqb m "jamaly"); [|constructor]. unfold jamaly_checks.
    constructor; [split; [|reflexivity]; cbn [fst snd]|].
    { apply (or_either (fun s => fltb (var_s s) _)). intro s. apply var_s_below. }
    constructor; [split; [|reflexivity]; cbn [fst snd]; rewrite Bool.orb_true_iff; reflexivity|].
    constructor; [split; [|reflexivity]; cbn [fst snd]|constructor].
    unfold speed_ok, below. cbv zeta. unfold pair_speed. rewrite Bool.negb_true_iff, Bool.andb_false_iff.
    destruct (fltb _ (fabs _)), (fltb (fabs _) _); intuition congruence.
Qed.

Lemma qc_eq {K} `{Label K} m o0 o (rows : list (prow K)) :
  validate_method_options m (Some o0) = Ok o ->
  pairwise_qc m o rows = Ok (map (fun r => decide_last (decisions m o r) GOOD) rows).
Proof.
  intro V.
  assert (Keys : forall k, documented_default m k <> None -> exists v, dget o k = Some v).
  { intros k Hk. apply (options_effective _ _ _ _ V) in Hk. exact Hk. }
  destruct (validate_total m o0) as [(Km & _)|(_ & X)]; [|congruence].
  unfold pairwise_qc. cbv zeta. rewrite !set_where_map. unfold opt_get.
  assert (HK : exists v, dget o "ktlim"%string = Some v).
  { apply Keys. destruct Km as [->| ->]; [rewrite default_jamaly|rewrite default_gagne]; cbn; discriminate. }
  destruct HK as [kt Hkt]. rewrite Hkt. cbn [rbind]. rewrite set_where_map. unfold decisions. rewrite Hkt.
  destruct (String.eqb_spec m "jamaly") as [->|N].
  - destruct (Keys "var_s_lim"%string) as [v1 H1]; [rewrite default_jamaly; cbn; discriminate|].
    destruct (Keys "mincorr"%string) as [v2 H2]; [rewrite default_jamaly; cbn; discriminate|].
    destruct (Keys "minvelocity"%string) as [v3 H3]; [rewrite default_jamaly; cbn; discriminate|].
    destruct (Keys "maxvelocity"%string) as [v4 H4]; [rewrite default_jamaly; cbn; discriminate|].
    rewrite H1. cbn [rbind]. rewrite set_where_map, H2. cbn [rbind]. rewrite set_where_map, H3. cbn [rbind]. rewrite H4. cbn [rbind].
    rewrite set_where_map. f_equal. apply map_ext. intro r. cbn [decide_last app].
    destruct (is_nan (p_mean r)), (is_nan (p_peak r)); reflexivity.
  - f_equal. apply map_ext. intro r. cbn [decide_last app].
    destruct (is_nan (p_mean r)), (is_nan (p_peak r)); reflexivity.
Qed.

(*@ C17 Each pair gets the flag of the last check it fails in the documented order, GOOD when it
    fails none; one flag per pair, in order. [o0] are the caller's options, [o] those in effect. *)
Lemma qc_verdict : forall (K : Type) (HK : Label K) (m : string) (o0 o : opts) (rows : list (prow K)) (kt vs mc lo hi : fl),
  validate_method_options m (Some o0) = Ok o ->
  dget o "ktlim"%string = Some kt ->
  (m = "jamaly"%string -> dget o "var_s_lim"%string = Some vs /\ dget o "mincorr"%string = Some mc /\
     dget o "minvelocity"%string = Some lo /\ dget o "maxvelocity"%string = Some hi) ->
  exists flags, pairwise_qc m o rows = Ok flags /\
    Forall2 (verdict (common_checks kt ++ (if String.eqb m "jamaly" then jamaly_checks vs mc lo hi else []))) rows flags.
Proof.
  intros K HK m o0 o rows kt vs mc lo hi V Hk Hj. eexists. split; [now apply (qc_eq _ _ _ _ V)|].
  assert (E : @checks_of K m o = common_checks kt ++ (if String.eqb m "jamaly" then jamaly_checks vs mc lo hi else [])).
  { unfold checks_of. rewrite Hk. destruct (String.eqb_spec m "jamaly") as [J|]; [|reflexivity].
    destruct (Hj J) as (-> & -> & -> & ->). reflexivity. }
  rewrite <- E. induction rows as [|r rows IH]; cbn [map]; constructor; auto. apply decide_verdict, decisions_ok.
Qed.

Lemma verdict_good {K} (cs : list ((prow K -> Prop) * Flag)) r :
  (forall c, In c cs -> snd c <> GOOD) -> verdict cs r GOOD <-> forall c, In c cs -> ~ fst c r.
Proof.
  intro N. split.
  - intros [(_ & X)|(p & c & q & E & _ & F & _)]; [exact X|]. exfalso. apply (N c); [|congruence].
    rewrite E. apply in_elt.
  - intro X. left. now split.
Qed.

(*@ C17 Consequence for GOOD jamaly pairs: two different sites, a delay that is neither zero nor NaN,
    numeric correlations and spacing, and an apparent speed strictly between the limits. *)
Lemma qc_good_jamaly : forall (K : Type) (HK : Label K) (o0 o : opts) (rows : list (prow K)) (flags : list Flag) (lo hi : fl) i r,
  validate_method_options "jamaly" (Some o0) = Ok o ->
  dget o "minvelocity"%string = Some lo -> dget o "maxvelocity"%string = Some hi ->
  pairwise_qc "jamaly" o rows = Ok flags ->
  nth_error rows i = Some r -> nth_error flags i = Some GOOD ->
  fst (p_ids r) <> snd (p_ids r) /\ p_delay r <> Fin 0 /\ p_delay r <> Nan /\
  p_peak r <> Nan /\ p_mean r <> Nan /\ p_spacing r <> Nan /\
  speed_ok r lo hi.
Proof.
  intros K HK o0 o rows flags lo hi i r V Hlo Hhi Q Hr Hf.
  rewrite (qc_eq _ _ _ _ V) in Q. match type of Q with Ok ?X = Ok _ => assert (HD : X = flags) by congruence end. subst flags.
  rewrite nth_error_map, Hr in Hf. cbn [option_map] in Hf.
  pose proof (decide_verdict _ _ _ (decisions_ok "jamaly" o r)) as D.
  match type of Hf with Some ?X = Some GOOD => assert (HG : X = GOOD) by congruence end. rewrite HG in D. clear Hf HG.
  assert (NG : forall c, In c (@checks_of K "jamaly" o) -> snd c <> GOOD).
  { intros c Hc. cbn in Hc. intuition (subst; discriminate). }
  pose proof (proj1 (verdict_good _ r NG) D) as D1. clear D. rename D1 into D. unfold checks_of in D. cbn [app common_checks jamaly_checks] in D.
  assert (D0 := fun c I => D c I). 
  assert (S1 : ~ fst (p_ids r) = snd (p_ids r)) by (apply (D (fun r => fst (p_ids r) = snd (p_ids r), SAME)); now left).
  assert (S2 : ~ p_delay r = Fin 0) by (apply (D (fun r => p_delay r = Fin 0, NOLAG)); right; right; now left).
  assert (S3 : ~ (p_peak r = Nan \/ p_mean r = Nan)) by (apply (D (fun r => p_peak r = Nan \/ p_mean r = Nan, LOWCORR)); do 3 right; now left).
  assert (S4 : ~ ~ speed_ok r lo hi).
  { apply (D (fun r => ~ speed_ok r lo hi, VELLIMIT)). do 7 right. left. rewrite Hlo, Hhi. reflexivity. }
  assert (S5 : speed_ok r lo hi).
  { unfold speed_ok, below in *. cbv zeta in *. destruct (fltb lo _), (fltb _ hi); auto; exfalso; apply S4; intros [A B]; discriminate. }
  assert (S6 : fdiv (p_spacing r) (p_delay r) <> Nan).
  { intro X. unfold speed_ok, below in S5. cbv zeta in S5. rewrite X in S5. cbn in S5. now destruct lo. }
  repeat split; auto.
  - intro X. apply S6. rewrite X. now destruct (p_spacing r).
  - intro X. apply S6. rewrite X. now destruct (p_delay r).
  - apply S5.
  - apply S5.
Qed.

(*@ C17 Conversely a jamaly pair is GOOD exactly when every check passes. *)
Lemma qc_good_iff : forall (K : Type) (HK : Label K) (o0 o : opts) (rows : list (prow K)) (flags : list Flag) (kt vs mc lo hi : fl) i r f,
  validate_method_options "jamaly" (Some o0) = Ok o ->
  dget o "ktlim"%string = Some kt -> dget o "var_s_lim"%string = Some vs -> dget o "mincorr"%string = Some mc ->
  dget o "minvelocity"%string = Some lo -> dget o "maxvelocity"%string = Some hi ->
  pairwise_qc "jamaly" o rows = Ok flags ->
  nth_error rows i = Some r -> nth_error flags i = Some f ->
  (f = GOOD <->
   fst (p_ids r) <> snd (p_ids r) /\
   ~ either (fun s => figure_below Rstd s (Fin (1 / 1000))) r /\
   p_delay r <> Fin 0 /\ p_peak r <> Nan /\ p_mean r <> Nan /\
   ~ either (fun s => figure_below Rmax_of s kt) r /\
   ~ either (fun s => variation_below s vs) r /\
   ~ below (p_peak r) mc /\ ~ below (fsub (Fin 1) (fdiv (p_mean r) (p_peak r))) mc /\
   speed_ok r lo hi).
Proof.
  intros K HK o0 o rows flags kt vs mc lo hi i r f V H1 H2 H3 H4 H5 Q Hr Hf.
  destruct (qc_verdict K HK "jamaly" o0 o rows kt vs mc lo hi V H1 (fun _ => conj H2 (conj H3 (conj H4 H5)))) as (fl & Q' & F).
  rewrite Q in Q'. assert (fl = flags) by congruence. subst fl. clear Q'.
  assert (VD : verdict (common_checks kt ++ jamaly_checks vs mc lo hi) r f).
  { clear -F Hr Hf. revert i Hr Hf. induction F; intros [|i]; cbn; try discriminate; [|now apply IHF].
    intros E1 E2. injection E1 as <-. injection E2 as <-. assumption. }
  assert (NG : forall c, In c (@common_checks K kt ++ jamaly_checks vs mc lo hi) -> snd c <> GOOD).
  { intros c Hc. cbn in Hc. intuition (subst; discriminate). }
  assert (G : f = GOOD <-> forall c, In c (common_checks kt ++ jamaly_checks vs mc lo hi) -> ~ fst c r).
  { split.
    - intros ->. now apply verdict_good.
    - intro A. destruct VD as [(-> & _)|(p & c & q & E & Hc & _)]; [reflexivity|]. exfalso. apply (A c); [|exact Hc]. rewrite E. apply in_elt. }
  rewrite G. clear G VD F NG. cbn [app common_checks jamaly_checks In].
  assert (SD : ~ ~ speed_ok r lo hi <-> speed_ok r lo hi).
  { unfold speed_ok, below. cbv zeta. destruct (fltb lo _), (fltb _ hi); intuition discriminate. }
  split.
  - intro A.
    assert (A' : forall P fg, In (P, fg) (common_checks kt ++ jamaly_checks vs mc lo hi) -> ~ P r) by (intros P fg I; apply (A (P, fg) I)).
    cbn [app common_checks jamaly_checks In] in A'.
    pose proof (A' _ _ (or_introl eq_refl)) as B1.
    pose proof (A' _ _ (or_intror (or_introl eq_refl))) as B2.
    pose proof (A' _ _ (or_intror (or_intror (or_introl eq_refl)))) as B3.
    pose proof (A' _ _ (or_intror (or_intror (or_intror (or_introl eq_refl))))) as B4.
    pose proof (A' _ _ (or_intror (or_intror (or_intror (or_intror (or_introl eq_refl)))))) as B5.
    pose proof (A' _ _ (or_intror (or_intror (or_intror (or_intror (or_intror (or_introl eq_refl))))))) as B6.
    pose proof (A' _ _ (or_intror (or_intror (or_intror (or_intror (or_intror (or_intror (or_introl eq_refl)))))))) as B7.
    pose proof (A' _ _ (or_intror (or_intror (or_intror (or_intror (or_intror (or_intror (or_intror (or_introl eq_refl))))))))) as B8.
    cbv beta in *. apply SD in B8. tauto.
  - intros (B1 & B2 & B3 & B4 & B5 & B6 & B7 & B8 & B9 & B10) c Hc.
    repeat (destruct Hc as [<-|Hc]; [cbn [fst]; try tauto; intuition congruence|]). destruct Hc.
Qed.

(** A concrete table: three pairs, the first one a site with itself, the second good. *)
Definition demo_sig : list (option R) := [Some 1; Some 0.2; None].
Definition demo_rows : list (prow nat) :=
  [ mkRow (0, 0)%nat demo_sig demo_sig (Fin 0) (Fin 0) (Fin 1) (Fin 0);
    mkRow (0, 1)%nat demo_sig demo_sig (Fin 100) (Fin 10) (Fin 0.9) (Fin 0.1);
    mkRow (1, 2)%nat demo_sig demo_sig (Fin 100) Nan (Fin 0.9) (Fin 0.1) ].

Lemma demo_mean : Rmean [1; 0.2] = 0.6.
Proof. unfold Rmean, Rsum. cbn. lra. Qed.
Lemma demo_max : Rmax_of [1; 0.2] = 1.
Proof. cbn. apply Rmax_left. lra. Qed.
Lemma demo_std : Rstd [1; 0.2] = 0.4.
Proof.
  unfold Rstd, Rvar. rewrite demo_mean. cbn [map]. unfold Rmean, Rsum. cbn [fold_right length INR].
  replace ((1 - 0.6) ^ 2 + ((0.2 - 0.6) ^ 2 + 0)) with (2 * 0.4 ^ 2) by lra.
  replace (2 * 0.4 ^ 2 / (1 + 1)) with (0.4 ^ 2) by lra. apply sqrt_pow2. lra.
Qed.

(*@ex C17 *)
Lemma qc_example : exists o,
  validate_method_options "jamaly" (Some []) = Ok o /\
  pairwise_qc "jamaly" o demo_rows = Ok [VELLIMIT; GOOD; VELLIMIT] /\
  pairwise_qc "gagne" o demo_rows = Ok [NOLAG; GOOD; GOOD].
Proof.
  exists [("minvelocity"%string, Fin 0); ("maxvelocity"%string, Fin 70); ("var_s_lim"%string, Fin 0.05);
          ("ktlim"%string, Fin 0.4); ("mincorr"%string, Fin 0.8)]. split; [reflexivity|].
  assert (P : present demo_sig = [1; 0.2]) by reflexivity.
  assert (N1 : nanstd demo_sig = Fin 0.4) by (unfold nanstd; rewrite P; cbn [nan_reduce]; now rewrite demo_std).
  assert (N2 : nanmax demo_sig = Fin 1) by (unfold nanmax; rewrite P; cbn [nan_reduce]; now rewrite demo_max).
  assert (N3 : nanmean demo_sig = Fin 0.6) by (unfold nanmean; rewrite P; cbn [nan_reduce]; now rewrite demo_mean).
  assert (VS : var_s demo_sig = Fin 0.4).
  { unfold var_s. rewrite N2, N3, fdiv_fin by lra. cbn [fsub fadd fopp]. f_equal. lra. }
  unfold pairwise_qc, demo_rows, set_where, map2. cbv zeta.
  cbn [map combine fst snd p_ids p_a p_b p_delay p_peak p_mean p_spacing opt_get dget rbind String.eqb Ascii.eqb Bool.eqb lab_eqb label_string label_nat Nat.eqb].
  unfold r_qc, pair_speed. cbn [p_ids p_a p_b p_delay p_peak p_mean p_spacing].
  rewrite N1, N2, VS. rewrite !(fdiv_fin 0.1 0.9), !(fdiv_fin 0 1), !(fdiv_fin 100 10) by lra. rewrite fdiv_zero, sgn_inf_0. cbn [feqb is_nan fltb fabs fsub fadd fopp].
  rewrite !(Rltb_false 0.4) by lra. rewrite !(Rltb_false 1 0.4) by lra. rewrite (Reqb_true 0 0) by easy. rewrite (Reqb_false 10 0) by lra.
  rewrite (Rltb_false 0.9 0.8) by lra. rewrite (Rltb_false (1 + - (0.1 / 0.9)) 0.8) by lra.
  rewrite (Rabs_pos_eq (100 / 10)) by lra. rewrite (Rltb_true 0 (100 / 10)) by lra. rewrite (Rltb_true (100 / 10) 70) by lra.
  cbn [orb andb negb]. split; reflexivity.
Qed.
