(** Numpy's error handling across calls (C129). *)
From Coq Require Import String.
From Verif Require Import Prelude PreludeFacts RealBase Fl RealStat M_cmv M_cloudfield M_session Spec_session.
Local Open Scope R_scope.

Lemma block_run e s body : run_step e (Block s body) = (fst (session (seterr s e) body), e).
Proof. reflexivity. Qed.
Lemma accepted_known m b : accepted m b = true <-> known m b.
Proof. unfold accepted, known. now rewrite andb_true_iff, !orb_true_iff, !String.eqb_eq. Qed.

Lemma session_app l1 l2 : forall e, session e (l1 ++ l2) = (fst (session e l1) ++ fst (session (snd (session e l1)) l2), snd (session (snd (session e l1)) l2)).
Proof.
  induction l1 as [|s l IH]; intro e; cbn; [now destruct (session e l2)|]. destruct (run_step e s) as [o e1]. rewrite (IH e1).
  destruct (session e1 l) as [os e2]. cbn. now rewrite app_assoc.
Qed.
(** One field of the error handling. *)
Lemma last_set_run (get : errs -> mode) (sets : step -> mode -> Prop) :
  (forall e s x, sets s x -> get (snd (run_step e s)) = x) ->
  (forall e s, (forall x, ~ sets s x) -> get (snd (run_step e s)) = get e) ->
  (forall s, {x | sets s x} + {forall x, ~ sets s x}) ->
  forall l e, last_set sets l (get e) (get (snd (session e l))).
Proof.
  intros H1 H2 D l. induction l as [|s l IH] using rev_ind; intro e; [left; split; [easy|contradiction]|].
  rewrite session_app. cbn [snd session]. set (e1 := snd (session e l)). replace (snd (let (o, e0) := run_step e1 s in (o ++ [], e0))) with (snd (run_step e1 s)) by now destruct (run_step e1 s).
  destruct (D s) as [[x Hx]|N].
  - right. exists l, s, []. split; [easy|]. rewrite (H1 _ _ _ Hx). split; [easy|contradiction].
  - rewrite (H2 _ _ N). destruct (IH e) as [[E F]|(pre & s0 & post & E & F & G)].
    + left. split; [easy|]. intros s' x I. apply in_app_iff in I. destruct I as [I|[<-|[]]]; [now apply F|apply N].
    + right. exists pre, s0, (post ++ [s]). rewrite E, <- app_assoc. split; [easy|]. split; [exact F|].
      intros s' x I. apply in_app_iff in I. destruct I as [I|[<-|[]]]; [now apply G|apply N].
Qed.
Lemma known_dec m b : {known m b} + {~ known m b}.
Proof. destruct (accepted m b) eqn:E; [left; now apply accepted_known|right; intro K; apply accepted_known in K; congruence]. Qed.
Lemma opt_dec (o : option mode) : {x | o = Some x} + {forall x, o <> Some x}.
Proof. destruct o as [x|]; [left; now exists x|now right]. Qed.
Lemma cmv_state e m b r : snd (np_cmv e m b r) = if accepted m b then Errs Ignore (e_over e) (e_under e) Ignore else e.
Proof. unfold np_cmv. now destruct (accepted m b). Qed.
Lemma cmv_after e m b r : snd (run_step e (Cmv m b r)) = if accepted m b then Errs Ignore (e_over e) (e_under e) Ignore else e.
Proof. rewrite <- cmv_state with (r := r). cbn. now destruct (np_cmv e m b r). Qed.

(*@ C129 After any session, division by zero and invalid operations are handled as the last caller's setting or compute_cmv call says (a call
    with known names means 'ignore', also when it fails later), overflow and underflow as the caller says. Blocks, averaged_tf and refused calls
    leave nothing behind. *)
Lemma error_handling_after : forall e l,
  last_set sets_divide l (e_divide e) (e_divide (snd (session e l))) /\ last_set sets_invalid l (e_invalid e) (e_invalid (snd (session e l))) /\
  last_set sets_over l (e_over e) (e_over (snd (session e l))) /\ last_set sets_under l (e_under e) (e_under (snd (session e l))).
Proof.
  intros e l. split; [|split; [|split]].
  - apply (last_set_run e_divide sets_divide); clear.
    + intros e [s|s body|m b r|t|sc vs] x H; cbn in H; try easy; [cbn; now rewrite H|]. rewrite cmv_after. destruct H as [K ->]. apply accepted_known in K. now rewrite K.
    + intros e [s|s body|m b r|t|sc vs] H; try easy; [cbn in *; destruct (s_divide s) as [x|]; [now destruct (H x)|easy]|].
      rewrite cmv_after. destruct (accepted m b) eqn:K; [|easy]. apply accepted_known in K. now destruct (H Ignore).
    + intros [s|s body|m b r|t|sc vs]; cbn; try (now right); [apply opt_dec|]. destruct (known_dec m b); [left; now exists Ignore|right; tauto].
  - apply (last_set_run e_invalid sets_invalid); clear.
    + intros e [s|s body|m b r|t|sc vs] x H; cbn in H; try easy; [cbn; now rewrite H|]. rewrite cmv_after. destruct H as [K ->]. apply accepted_known in K. now rewrite K.
    + intros e [s|s body|m b r|t|sc vs] H; try easy; [cbn in *; destruct (s_invalid s) as [x|]; [now destruct (H x)|easy]|].
      rewrite cmv_after. destruct (accepted m b) eqn:K; [|easy]. apply accepted_known in K. now destruct (H Ignore).
    + intros [s|s body|m b r|t|sc vs]; cbn; try (now right); [apply opt_dec|]. destruct (known_dec m b); [left; now exists Ignore|right; tauto].
  - apply (last_set_run e_over sets_over); clear.
    + intros e [s|s body|m b r|t|sc vs] x H; cbn in H; try easy. cbn. now rewrite H.
    + intros e [s|s body|m b r|t|sc vs] H; try easy; [cbn in *; destruct (s_over s) as [x|]; [now destruct (H x)|easy]|].
      rewrite cmv_after. now destruct (accepted m b).
    + intros [s|s body|m b r|t|sc vs]; cbn; try (now right). apply opt_dec.
  - apply (last_set_run e_under sets_under); clear.
    + intros e [s|s body|m b r|t|sc vs] x H; cbn in H; try easy. cbn. now rewrite H.
    + intros e [s|s body|m b r|t|sc vs] H; try easy; [cbn in *; destruct (s_under s) as [x|]; [now destruct (H x)|easy]|].
      rewrite cmv_after. now destruct (accepted m b).
    + intros [s|s body|m b r|t|sc vs]; cbn; try (now right). apply opt_dec.
Qed.

(*@ C129 A caller who wraps the calls in a block of np.errstate gets the error handling back as it was. *)
Lemma wrapped_calls : forall e s calls, snd (session e [Block s calls]) = e.
Proof. reflexivity. Qed.

(** ** Values *)
Lemma div_value e a b : e_divide e <> Raise -> e_invalid e <> Raise -> value (np_div e a b) = Some (fdiv a b).
Proof.
  intros D I. assert (SD : forall A (v : A), value (signal (e_divide e) v) = Some v) by (intros; now destruct (e_divide e)).
  assert (SI : forall A (v : A), value (signal (e_invalid e) v) = Some v) by (intros; now destruct (e_invalid e)).
  destruct a as [x| | |], b as [y| | |]; cbn; rewrite ?SI; try easy.
  destruct (Reqb_spec y 0) as [->|N]; [|easy]. destruct (Reqb_spec x 0) as [->|N]; [now rewrite SI, sgn_inf_0|apply SD].
Qed.
Lemma div_quiet e a b : e_divide e = Ignore -> e_invalid e = Ignore -> np_div e a b = Value false (fdiv a b).
Proof.
  intros D I. destruct a as [x| | |], b as [y| | |]; cbn; rewrite ?D, ?I; try easy.
  destruct (Reqb_spec y 0) as [->|N]; [|easy]. destruct (Reqb_spec x 0) as [->|N]; [now rewrite sgn_inf_0|easy].
Qed.
Lemma omap_quiet {A B} (f : A -> outcome B) (g : A -> B) l : (forall a, f a = Value false (g a)) -> omap f l = Value false (map g l).
Proof. intro H. induction l as [|a l IH]; cbn; [easy|]. now rewrite H, IH. Qed.
Lemma omap_value {A B} (f : A -> outcome B) (g : A -> B) l : (forall a, value (f a) = Some (g a)) -> value (omap f l) = Some (map g l).
Proof.
  intro H. induction l as [|a l IH]; cbn; [easy|]. specialize (H a). destruct (f a) as [w v|]; [|easy]. cbn in H. injection H as ->.
  cbn. destruct (omap f l) as [w' v'|]; [|easy]. cbn in IH. now injection IH as ->.
Qed.
Lemma obind_value {A B} (o : outcome A) (f : A -> outcome B) v : value o = Some v -> value (obind o f) = value (f v).
Proof. destruct o as [w v'|]; [|easy]. intro H. injection H as ->. cbn. now destruct (f v). Qed.

Lemma cmv_seen e m b rest : fst (np_cmv e m b rest) = Value false (if accepted m b then rmap (speeds m) rest else Err ValueError).
Proof.
  unfold np_cmv. destruct (accepted m b); [|easy]. cbn [negb fst]. destruct rest as [pairs|x]; [|easy].
  unfold speeds. cbn [rmap]. destruct (String.eqb (lower m) "jamaly"); [cbn [negb]|easy].
  rewrite (omap_quiet _ (fun p => fdiv (Fin (fst p)) (Fin (snd p)))); [easy|]. intro p. now apply div_quiet.
Qed.
Lemma tf_seen e bins : np_coherence e bins = Value false (coherence bins).
Proof. unfold np_coherence, coherence. apply omap_quiet. intros [[c x] y]. now apply div_quiet. Qed.

(*@ C129 compute_cmv and averaged_tf give the same result, without warnings, under every error handling, also where division by zero is to raise. *)
Lemma protected_calls : forall e m b rest bins,
  fst (session e [Cmv m b rest]) = [Value false (if accepted m b then rmap (speeds m) rest else Err ValueError)] /\
  fst (session e [Tf bins]) = [Value false (Ok (coherence bins))].
Proof.
  intros e m b rest bins. split; cbn.
  - rewrite <- (cmv_seen e). now destruct (np_cmv e m b rest).
  - now rewrite tf_seen.
Qed.

Lemma exponent_value e vs : 0 <= vs -> e_divide e <> Raise -> e_invalid e <> Raise -> value (np_exponent e vs) = Some (vs_exponent vs).
Proof.
  intros P D I. assert (SD : forall A (v : A), value (signal (e_divide e) v) = Some v) by (intros; now destruct (e_divide e)).
  assert (SI : forall A (v : A), value (signal (e_invalid e) v) = Some v) by (intros; now destruct (e_invalid e)).
  unfold np_exponent, vs_exponent, np_log. destruct (Reqb_spec vs 0) as [->|N].
  - rewrite Rltb_true by lra. rewrite (obind_value _ _ (Fin (ln (1 - 0 / 180)))) by easy. apply SD.
  - destruct (Rltb_spec vs 180) as [L|L].
    + rewrite Rltb_true by lra. rewrite (obind_value _ _ (Fin (ln (1 - vs / 180)))) by easy. rewrite div_value by easy. f_equal.
      assert (ln (1 - vs / 180) < 0) by (rewrite <- ln_1; apply ln_increasing; lra).
      cbn [fopp]. rewrite fdiv_fin by lra. apply fdiv_fin. intro Z. apply Rmult_eq_compat_r with (r := 6 / 10) in Z. field_simplify in Z. lra.
    + rewrite Rltb_false by lra. destruct (Reqb_spec vs 180) as [->|N'].
      * rewrite Reqb_true by lra. rewrite (obind_value _ _ Ninf) by apply SD. rewrite div_value by easy. f_equal. cbn [fopp fdiv]. rewrite Rltb_false by lra. easy.
      * rewrite Reqb_false by lra. rewrite (obind_value _ _ Nan) by apply SI. rewrite div_value by easy. easy.
Qed.
Lemma weights_value e scales vs : e_divide e <> Raise -> e_invalid e <> Raise -> value (np_vs_weights e scales vs) = Some (calc_vs_weights scales vs).
Proof.
  intros D I. unfold np_vs_weights, calc_vs_weights. destruct (Rltb_spec vs 0) as [L|L]; [easy|].
  rewrite (obind_value _ _ (vs_exponent vs)) by (apply exponent_value; lra || easy). cbv zeta.
  set (weight := map (fun s => np_pow s (vs_exponent vs)) scales).
  rewrite (obind_value _ _ (map (fun w => fdiv w (fsum weight)) weight)); [easy|]. apply omap_value. intro w. now apply div_value.
Qed.

Lemma obind_warned {A B} (o : outcome A) (f : A -> outcome B) v x : o = Value true v -> value (obind o f) = Some x -> obind o f = Value true x.
Proof. intros ->. cbn. destruct (f v) as [w y|]; [|easy]. cbn. intro H. now injection H as ->. Qed.
Lemma log_event e vs : 180 <= vs -> np_log e (1 - vs / 180) = if Reqb vs 180 then signal (e_divide e) Ninf else signal (e_invalid e) Nan.
Proof.
  intros L. unfold np_log. rewrite Rltb_false by lra. destruct (Reqb_spec vs 180) as [->|N]; [now rewrite Reqb_true by lra|now rewrite Reqb_false by lra].
Qed.
Lemma omap_quiet_in {A B} (f : A -> outcome B) (g : A -> B) l : (forall a, In a l -> f a = Value false (g a)) -> omap f l = Value false (map g l).
Proof. intro H. induction l as [|a l IH]; cbn; [easy|]. rewrite (H a) by now left. rewrite IH; [easy|]. intros b I. apply H. now right. Qed.
Lemma pow_sum p scales : Forall (fun s => 0 < s) scales ->
  exists r, fsum (map (fun s => np_pow s (Fin p)) scales) = Fin r /\ 0 <= r /\ (scales <> [] -> 0 < r).
Proof.
  induction 1 as [|s l P _ (r & E & N & _)]; [exists 0; cbn; split; [easy|split; [lra|easy]]|].
  exists (Rpower s p + r). cbn [map fsum fold_right]. fold (fsum (map (fun s => np_pow s (Fin p)) l)). rewrite E. cbn [np_pow]. rewrite Rltb_true by easy.
  assert (0 < Rpower s p) by apply exp_pos. split; [easy|]. split; [lra|]. intros _. lra.
Qed.

(*@ C129 The weights for a variability score call attention to themselves exactly at the ends of the scale. A score strictly between 0 and
    180 gives neither warning nor exception under any error handling; at 0 and at 180 a division by zero is reported, above 180 an
    invalid operation: as a warning together with the value, or as FloatingPointError, as the session has it. *)
Lemma weights_events : forall e scales vs,
  Forall (fun s => 0 < s) scales ->
  (vs < 0 -> fst (session e [Weights scales vs]) = [Value false (Err ValueError)]) /\
  (0 < vs < 180 -> fst (session e [Weights scales vs]) = [Value false (calc_vs_weights scales vs)]) /\
  (vs = 0 \/ vs = 180 -> e_divide e = Raise -> fst (session e [Weights scales vs]) = [FPE]) /\
  (vs = 0 \/ vs = 180 -> e_divide e = Warn -> e_invalid e <> Raise ->
     fst (session e [Weights scales vs]) = [Value true (calc_vs_weights scales vs)]) /\
  (180 < vs -> e_invalid e = Raise -> fst (session e [Weights scales vs]) = [FPE]) /\
  (180 < vs -> e_invalid e = Warn -> e_divide e <> Raise ->
     fst (session e [Weights scales vs]) = [Value true (calc_vs_weights scales vs)]).
Proof.
  intros e scales vs P. cbn [session run_step fst snd app].
  assert (W : forall v, e_divide e <> Raise -> e_invalid e <> Raise -> ~ vs < 0 -> np_exponent e vs = Value true v ->
            [np_vs_weights e scales vs] = [Value true (calc_vs_weights scales vs)]).
  { intros v D I L E. f_equal. pose proof (weights_value e scales vs D I) as V. unfold np_vs_weights in *. rewrite Rltb_false in * by lra.
    now apply obind_warned with v. }
  assert (F : ~ vs < 0 -> np_exponent e vs = FPE -> [np_vs_weights e scales vs] = [FPE]).
  { intros L E. unfold np_vs_weights. rewrite Rltb_false by lra. now rewrite E. }
  split; [|split; [|split; [|split; [|split]]]].
  - intros L. unfold np_vs_weights. now rewrite Rltb_true by lra.
  - intros [L U]. f_equal. unfold np_vs_weights, calc_vs_weights, np_exponent, vs_exponent, np_log. rewrite (Rltb_false vs 0) by lra.
    rewrite (Reqb_false vs 0), (Rltb_true vs 180), (Rltb_true 0 (1 - vs / 180)) by lra. cbn [obind].
    assert (N : ln (1 - vs / 180) < 0) by (rewrite <- ln_1; apply ln_increasing; lra).
    cbn [fopp]. rewrite fdiv_fin by lra.
    assert (Z : - ln (1 - vs / 180) / (6 / 10) <> 0). { intro Z. apply Rmult_eq_compat_r with (r := 6 / 10) in Z. field_simplify in Z. lra. }
    cbn [np_div]. rewrite Reqb_false by exact Z. cbn [obind orb]. set (p := 1 / (- ln (1 - vs / 180) / (6 / 10))).
    destruct (pow_sum p scales P) as (r & E & N0 & N1). rewrite E.
    rewrite (omap_quiet_in _ (fun w => fdiv w (Fin r))); [easy|]. intros w I. apply in_map_iff in I. destruct I as (s & <- & I).
    assert (0 < r) by (apply N1; intros ->; contradiction). assert (0 < s) by (rewrite Forall_forall in P; now apply P).
    cbn [np_pow]. rewrite Rltb_true by easy. cbn [np_div]. rewrite Reqb_false by lra. now rewrite fdiv_fin by lra.
  - intros C D. apply F; [lra|]. unfold np_exponent. destruct C as [->| ->].
    + unfold np_log. rewrite Rltb_true by lra. cbn [obind]. rewrite Reqb_true by lra. now rewrite D.
    + rewrite log_event by lra. rewrite Reqb_true by lra. now rewrite D.
  - intros C D I. assert (DR : e_divide e <> Raise) by congruence. destruct C as [->| ->].
    + apply (W Ninf); [easy|easy|lra|]. unfold np_exponent, np_log. rewrite Rltb_true by lra. cbn [obind]. rewrite Reqb_true by lra. now rewrite D.
    + apply (W (Fin 0)); [easy|easy|lra|]. unfold np_exponent. rewrite log_event, (Reqb_true 180 180), (Reqb_false 180 0) by lra. rewrite D.
      apply obind_warned with Ninf; [easy|]. cbn [signal]. cbn [obind]. cbn [fopp fdiv np_div value orb]. now rewrite Rltb_false by lra.
  - intros C I. apply F; [lra|]. unfold np_exponent. rewrite log_event, Reqb_false by lra. now rewrite I.
  - intros C I D. apply (W Nan); [easy|congruence|lra|]. unfold np_exponent. rewrite log_event, (Reqb_false vs 180), (Reqb_false vs 0) by lra. rewrite I.
    apply obind_warned with Nan; easy.
Qed.

Definition tame (e : errs) : Prop := e_divide e <> Raise /\ e_invalid e <> Raise.
Lemma tame_set e s : tame e -> lenient s -> tame (seterr s e).
Proof. intros [D I] [D' I']. unfold tame. cbn. destruct (s_divide s), (s_invalid s); split; congruence. Qed.
Fixpoint step_ind' (P : step -> Prop) (HS : forall s, P (SetErr s)) (HB : forall s body, Forall P body -> P (Block s body))
    (HC : forall m b r, P (Cmv m b r)) (HT : forall t, P (Tf t)) (HW : forall sc vs, P (Weights sc vs)) (s : step) {struct s} : P s :=
  match s with
  | SetErr s => HS s
  | Block s body => HB s body ((fix go l : Forall P l := match l with [] => Forall_nil _ | s :: l => Forall_cons _ (step_ind' P HS HB HC HT HW s) (go l) end) body)
  | Cmv m b r => HC m b r
  | Tf t => HT t
  | Weights sc vs => HW sc vs
  end.
Lemma calm_session body :
  Forall (fun s => forall e, calm s -> tame e -> tame (snd (run_step e s)) /\ map value (fst (run_step e s)) = map Some (plain s)) body ->
  forall e, Forall calm body -> tame e -> tame (snd (session e body)) /\ map value (fst (session e body)) = map Some (flat_map plain body).
Proof.
  induction 1 as [|s l Hs _ IH]; intros e C T; [easy|]. inversion C as [|? ? C1 C2]; subst. destruct (Hs e C1 T) as [T1 V1].
  cbn. destruct (run_step e s) as [o e1]. cbn in T1, V1. destruct (IH e1 C2 T1) as [T2 V2]. destruct (session e1 l) as [os e2]. cbn in *.
  split; [easy|]. now rewrite !map_app, V1, V2.
Qed.
Lemma calm_step s : forall e, calm s -> tame e -> tame (snd (run_step e s)) /\ map value (fst (run_step e s)) = map Some (plain s).
Proof.
  induction s as [s|s body IH|m b r|t|sc vs] using step_ind'; intros e C T.
  - inversion C; subst. split; [now apply tame_set|easy].
  - inversion C as [|? ? L F| | |]; subst. rewrite block_run. cbn [fst snd plain]. split; [easy|]. apply (calm_session body IH); [easy|now apply tame_set].
  - split; [rewrite cmv_after; destruct (accepted m b); [split; discriminate|easy]|]. cbn [run_step plain].
    rewrite (surjective_pairing (np_cmv e m b r)). cbn [fst map]. now rewrite cmv_seen.
  - split; [easy|]. cbn [run_step plain fst map]. now rewrite tf_seen.
  - split; [easy|]. cbn [run_step plain fst map]. destruct T. now rewrite weights_value.
Qed.
(*@ C129 Unless someone asks for exceptions, the values that calls return do not depend on the error handling or on the calls made before. *)
Lemma calm_values : forall l e, Forall calm l -> e_divide e <> Raise -> e_invalid e <> Raise ->
  map value (fst (session e l)) = map Some (flat_map plain l).
Proof. intros l e C D I. apply calm_session; [|easy|now split]. apply Forall_forall. intros s _. apply calm_step. Qed.

(** Every event is to raise. *)
Definition strict : errs := Errs Raise Raise Raise Raise.
(*@ C129 With exceptions asked for, what a call returns depends on the calls before: the weights for a score of 180 raise FloatingPointError,
    and no longer do so once compute_cmv has been called, even if that call failed. *)
Lemma history_refuted : forall scales, (forall s, In s scales -> 0 < s) -> forall rest, exists v,
  fst (session strict [Weights scales 180; Cmv "jamaly" "xcorr" rest; Weights scales 180]) = [FPE; v; Value false (calc_vs_weights scales 180)].
Proof.
  intros scales P rest. exists (fst (np_cmv strict "jamaly" "xcorr" rest)).
  assert (F : forall e, np_vs_weights e scales 180 = obind (np_exponent e 180) (fun p => let weight := map (fun s => np_pow s p) scales in
         obind (omap (fun w => np_div e w (fsum weight)) weight) (fun l => Value false (Ok l)))) by (intro e; unfold np_vs_weights; now rewrite Rltb_false by lra).
  assert (E1 : np_vs_weights strict scales 180 = FPE).
  { rewrite F. unfold np_exponent, np_log. rewrite Rltb_false by lra. now rewrite Reqb_true by lra. }
  assert (E2 : forall e, e_divide e = Ignore -> e_invalid e = Ignore -> np_vs_weights e scales 180 = Value false (calc_vs_weights scales 180)).
  { intros e D I. assert (V := weights_value e scales 180). rewrite F in *.
    assert (X : np_exponent e 180 = Value false (Fin 0)).
    { unfold np_exponent, np_log. rewrite Rltb_false by lra. rewrite Reqb_true by lra. rewrite D. cbn [signal obind]. rewrite Reqb_false by lra.
      rewrite div_quiet by easy. cbn. rewrite Rltb_false by lra. reflexivity. }
    rewrite X in *. cbn [obind] in *. cbv zeta in *. rewrite (omap_quiet _ (fun w => fdiv w (fsum (map (fun s => np_pow s (Fin 0)) scales)))) in * by (intro; now apply div_quiet).
    cbn in *. rewrite D, I in V. assert (Z : Ignore <> Raise) by discriminate. specialize (V Z Z). now injection V as <-. }
  cbn [session run_step]. rewrite E1. rewrite (surjective_pairing (np_cmv strict "jamaly" "xcorr" rest)). rewrite E2; [reflexivity| |]; now rewrite cmv_state.
Qed.
(*@ex C129 A caller who asks for exceptions, computes weights inside a block, calls compute_cmv twice (once with an unknown method) and then sets
    the handling of invalid operations again. *)
Lemma session_example :
  let l := [SetErr (Settings (Some Raise) (Some Warn) None (Some Raise)); Block (Settings (Some Warn) None None None) [Cmv "gagne" "tf" (Err KeyError)];
            Cmv "other" "tf" (Ok []); Cmv "Jamaly" "TF" (Ok [(10, 0); (0, 0); (6, 3)]); SetErr (Settings None None None (Some Warn))]%string in
  session (Errs Warn Warn Ignore Warn) l =
    ([Value false (Err KeyError); Value false (Err ValueError); Value false (Ok [Pinf; Nan; Fin (6 / 3)])], Errs Ignore Warn Ignore Warn).
Proof.
  lazy -[sgn_inf Reqb Rdiv Rinv IZR]. rewrite (Reqb_true 0 0) by lra. rewrite (Reqb_false 3 0) by lra. rewrite (Reqb_false 10 0) by lra. lazy -[sgn_inf Rdiv Rinv IZR]. now rewrite sgn_inf_pos by lra.
Qed.
