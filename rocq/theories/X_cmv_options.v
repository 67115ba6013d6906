(** cmv.py _validate_method_options: validation, defaults and aliasing. *)
From Coq Require Import String.
From Verif Require Import Prelude PreludeFacts RealBase Fl RealStat M_spatial M_cmv Spec_spatial Spec_cmv P_cmv.
Local Open Scope R_scope.

Lemma default_jamaly k : documented_default "jamaly" k =
  if String.eqb k "minvelocity" then Some 0 else if String.eqb k "maxvelocity" then Some 70
  else if String.eqb k "var_s_lim" then Some (5 / 100) else if String.eqb k "ktlim" then Some (4 / 10)
  else if String.eqb k "mincorr" then Some (8 / 10) else None.
Proof.
  unfold documented_default. cbn [find documented_options fst snd].
  change (String.eqb "jamaly" "jamaly") with true. change (String.eqb "gagne" "jamaly") with false. cbn [andb].
  rewrite !(String.eqb_sym _ k).
  repeat match goal with |- context [if String.eqb k ?s then _ else _] => destruct (String.eqb k s); try reflexivity end.
Qed.
Lemma default_gagne k : documented_default "gagne" k = if String.eqb k "ktlim" then Some (4 / 10) else None.
Proof.
  unfold documented_default. cbn [find documented_options fst snd].
  change (String.eqb "jamaly" "gagne") with false. change (String.eqb "gagne" "gagne") with true. cbn [andb].
  rewrite !(String.eqb_sym _ k). destruct (String.eqb k "ktlim"); reflexivity.
Qed.

Lemma default_matches m ds k : method_defaults m = Some ds ->
  dget ds k = option_map Fin (documented_default m k).
Proof.
  unfold method_defaults.
  destruct (String.eqb_spec m "jamaly") as [->|N1]; [|destruct (String.eqb_spec m "gagne") as [->|N2]]; [| |discriminate];
  intro E; injection E as <-; [rewrite default_jamaly|rewrite default_gagne]; cbn [dget]; change (@lab_eqb string label_string) with String.eqb.
  - rewrite !(String.eqb_sym _ k).
    repeat match goal with |- context [if String.eqb k ?s then _ else _] => destruct (String.eqb k s); cbn [option_map]; [try (do 2 f_equal; lra)|] end. reflexivity.
  - rewrite !(String.eqb_sym _ k). destruct (String.eqb k "ktlim"); cbn [option_map]; [do 2 f_equal; lra|reflexivity].
Qed.

Lemma method_known m : known_method m <-> method_defaults m <> None.
Proof.
  unfold known_method, method_defaults.
  destruct (String.eqb_spec m "jamaly") as [->|N1]; [|destruct (String.eqb_spec m "gagne") as [->|N2]]; split; auto; try discriminate; intuition.
Qed.

Lemma defaults_NoDup m ds : method_defaults m = Some ds -> NoDup (dkeys ds).
Proof.
  unfold method_defaults. destruct (String.eqb m "jamaly"); [|destruct (String.eqb m "gagne")]; [| |discriminate];
  intro E; injection E as <-; cbn; repeat constructor; cbn; intuition discriminate.
Qed.

Lemma dmem_key (d : opts) k : dmem d k = true <-> key_in d k.
Proof. unfold dmem, key_in. destruct (dget d k) as [v|]; split; try easy; [now exists v|now intros [v E]]. Qed.

Lemma keys_forallb (d : opts) (f : string -> bool) :
  forallb (fun kv => f (fst kv)) d = true <-> forall k, key_in d k -> f k = true.
Proof.
  rewrite forallb_forall. split.
  - intros A k E. apply dmem_key, dmem_In in E. unfold dkeys in E. apply in_map_iff in E. destruct E as (kv & <- & I). now apply A.
  - intros A kv I. apply A. apply dmem_key, dmem_In. unfold dkeys. now apply in_map.
Qed.

Lemma fill_get (ds d : opts) k : NoDup (dkeys ds) ->
  dget (fold_left (fun o kv => if dmem o (fst kv) then o else dset o (fst kv) (snd kv)) ds d) k =
  match dget d k with Some v => Some v | None => dget ds k end.
Proof.
  revert d. induction ds as [|[a v] ds IH]; intros d ND; cbn [fold_left]; [destruct (dget d k); reflexivity|].
  cbn in ND. inversion ND as [|x l Nin ND']; subst. rewrite IH by assumption. cbn [fst snd dget].
  destruct (dmem d a) eqn:M.
  - destruct (dget d k) as [u|] eqn:Dk; [reflexivity|]. destruct (lab_eqb_spec a k) as [->|N]; [|reflexivity].
    unfold dmem in M. now rewrite Dk in M.
  - destruct (lab_eqb_spec a k) as [->|N].
    + rewrite dget_dset_same. unfold dmem in M. destruct (dget d k); [discriminate|reflexivity].
    + rewrite dget_dset_other by assumption. reflexivity.
Qed.

Lemma validate_some m d :
  validate_method_options m (Some d) =
  match method_defaults m with
  | None => Err ValueError
  | Some defaults =>
      if forallb (fun kv => dmem defaults (fst kv)) d then
        Ok (fold_left (fun o kv => if dmem o (fst kv) then o else dset o (fst kv) (snd kv)) defaults d)
      else Err ValueError
  end.
Proof. reflexivity. Qed.

Lemma admissible_forallb m ds d : method_defaults m = Some ds ->
  (forallb (fun kv => dmem ds (fst kv)) d = true <-> admissible m d).
Proof.
  intro E. rewrite keys_forallb. unfold admissible. split; intros A k Hk; specialize (A k Hk).
  - apply dmem_key in A. destruct A as [v A]. rewrite (default_matches _ _ _ E) in A. now destruct (documented_default m k).
  - apply dmem_key. rewrite <- dmem_key. unfold dmem. rewrite (default_matches _ _ _ E). now destruct (documented_default m k).
Qed.

Lemma validate_total m d :
  (known_method m /\ admissible m d /\ exists d', validate_method_options m (Some d) = Ok d') \/
  (~ (known_method m /\ admissible m d) /\ validate_method_options m (Some d) = Err ValueError).
Proof.
  rewrite validate_some. pose proof (method_known m) as KM. destruct (method_defaults m) as [ds|] eqn:E.
  - destruct (forallb (fun kv => dmem ds (fst kv)) d) eqn:F.
    + left. apply (admissible_forallb _ _ _ E) in F. split; [apply KM; discriminate|]. split; [exact F|]. eauto.
    + right. split; [|reflexivity]. intros [_ A]. apply (admissible_forallb _ _ _ E) in A. congruence.
  - right. split; [|reflexivity]. intros [A _]. apply KM in A. congruence.
Qed.

Lemma validate_values m d d' k : validate_method_options m (Some d) = Ok d' ->
  dget d' k = match dget d k with Some v => Some v | None => option_map Fin (documented_default m k) end.
Proof.
  rewrite validate_some. destruct (method_defaults m) as [ds|] eqn:E; [|discriminate].
  destruct (forallb _ d); [|discriminate]. intro V.
  match type of V with Ok ?X = Ok d' => assert (HD : X = d') by congruence end. subst d'.
  rewrite fill_get by (eapply defaults_NoDup; eauto). now rewrite (default_matches _ _ _ E).
Qed.

(*@ C15 Rejection exactly for unknown methods or unknown option keys, always with ValueError. *)
Lemma options_validated : forall (m : string) (d : opts),
  (validate_method_options m (Some d) = Err ValueError <-> ~ known_method m \/ exists k, key_in d k /\ documented_default m k = None) /\
  ((exists d', validate_method_options m (Some d) = Ok d') <-> known_method m /\ admissible m d) /\
  validate_method_options m None = validate_method_options m (Some []).
Proof.
  intros m d. split; [|split; [|reflexivity]].
  - destruct (validate_total m d) as [(A & B & d' & E)|(N & E)]; rewrite E.
    + split; [discriminate|]. intros [C|(k & C & D)]; [contradiction|]. exfalso. now apply (B k).
    + split; [|easy]. intros _.
      assert (KD : known_method m \/ ~ known_method m).
      { unfold known_method. destruct (string_dec m "jamaly"), (string_dec m "gagne"); tauto. }
      destruct KD as [Km|Nm]; [|now left]. right.
      destruct (method_defaults m) as [ds|] eqn:ED; [|apply method_known in Km; congruence].
      rewrite validate_some, ED in E. destruct (forallb (fun kv => dmem ds (fst kv)) d) eqn:F; [discriminate|].
      assert (G : exists kv, In kv d /\ dmem ds (fst kv) = false).
      { clear -F. induction d as [|kv d IH]; cbn in F; [discriminate|]. apply Bool.andb_false_iff in F. destruct F as [F|F].
        - exists kv. split; auto. now left.
        - destruct (IH F) as (x & I & X). exists x. split; auto. now right. }
      destruct G as (kv & I & X). exists (fst kv). split.
      * apply dmem_key, dmem_In. unfold dkeys. now apply in_map.
      * unfold dmem in X. rewrite (default_matches _ _ _ ED) in X. now destruct (documented_default m (fst kv)).
  - destruct (validate_total m d) as [(A & B & d' & E)|(N & E)]; rewrite E; split; eauto; try (intros [? ?]; discriminate); tauto.
Qed.

(*@ C15 Effective options: the caller's value where given, the documented default elsewhere, and no other key. *)
Lemma options_effective : forall (m : string) (d d' : opts) (k : string),
  validate_method_options m (Some d) = Ok d' ->
  dget d' k = match dget d k with Some v => Some v | None => option_map Fin (documented_default m k) end /\
  (key_in d' k <-> documented_default m k <> None).
Proof.
  intros m d d' k E. pose proof (validate_values _ _ _ k E) as V. split; [exact V|].
  destruct (validate_total m d) as [(A & B & _)|(N & E')]; [|congruence].
  unfold key_in. rewrite V. destruct (dget d k) as [v|] eqn:Dk.
  - split; [|eauto]. intros _. apply B. now exists v.
  - destruct (documented_default m k); cbn; split; try easy; [eauto|intros [v X]; discriminate].
Qed.

(*@ C15 compute_cmv uses exactly that validation (method names are case-insensitive): it succeeds
    only with a known method and admissible options, and reports the options in effect. *)
Lemma cmv_options : forall (K : Type) (HK : Label K) dx dt ms lsq ts (pos : list (K * (R * R))) ref m d bk v t w d',
  compute_cmv dx dt ms lsq ts pos ref m (Some d) bk = Ok ((v, t, w), d') ->
  known_method (lower m) /\ admissible (lower m) d /\
  forall k, dget d' k = match dget d k with Some x => Some x | None => option_map Fin (documented_default (lower m) k) end.
Proof.
  intros K HK dx dt ms lsq ts pos ref m d bk v t w d' E. apply compute_cmv_inv in E.
  destruct E as (A & B & dd & Pb & Pa & f0 & ov & fl & E). cbv zeta in E.
  destruct E as (Km & _ & _ & _ & _ & _ & _ & _ & V & _).
  destruct (validate_total (lower m) d) as [(A1 & B1 & _)|(N & E')]; [|congruence].
  repeat split; auto. intro k. eapply validate_values; eauto.
Qed.

(*@ C15 An unknown method is a ValueError whatever the other arguments. *)
Lemma cmv_unknown_method : forall (K : Type) (HK : Label K) dx dt ms lsq ts (pos : list (K * (R * R))) ref m o bk,
  ~ known_method (lower m) -> compute_cmv dx dt ms lsq ts pos ref m o bk = Err ValueError.
Proof.
  intros K HK dx dt ms lsq ts pos ref m o bk N. unfold compute_cmv. cbv zeta.
  destruct (String.eqb_spec (lower m) "jamaly") as [e|]; [exfalso; apply N; now left|].
  destruct (String.eqb_spec (lower m) "gagne") as [e|]; [exfalso; apply N; now right|]. reflexivity.
Qed.

Lemma lower_ascii_idem c : lower_ascii (lower_ascii c) = lower_ascii c.
Proof. destruct c as [[] [] [] [] [] [] [] []]; reflexivity. Qed.
Lemma lower_idem s : lower (lower s) = lower s.
Proof. induction s as [|c s IH]; cbn; [easy|]. now rewrite lower_ascii_idem, IH. Qed.

(*@ C15 Case of the method and backend names is irrelevant. *)
Lemma cmv_case_insensitive : forall (K : Type) (HK : Label K) dx dt ms lsq ts (pos : list (K * (R * R))) ref m o bk,
  compute_cmv dx dt ms lsq ts pos ref m o bk = compute_cmv dx dt ms lsq ts pos ref (lower m) o (lower bk).
Proof. intros. unfold compute_cmv. now rewrite !lower_idem. Qed.

(*@ex C15 *)
Lemma options_example :
  validate_method_options "gagne" (Some [("mincorr"%string, Fin 0.5)]) = Err ValueError /\
  validate_method_options "jamaly" (Some [("mincorr"%string, Fin 0.5)]) =
    Ok [("mincorr"%string, Fin 0.5); ("minvelocity"%string, Fin 0); ("maxvelocity"%string, Fin 70);
        ("var_s_lim"%string, Fin 0.05); ("ktlim"%string, Fin 0.4)] /\
  validate_method_options "Jamaly" (Some []) = Err ValueError /\ lower "JAMALY" = "jamaly"%string.
Proof. repeat split. Qed.

(** ** Histories *)
Lemma history_cons m r d :
  history (m :: r) d =
  match validate_method_options m (Some d) with
  | Ok d' => (true :: fst (history r d'), snd (history r d'))
  | Err _ => (false :: fst (history r d), snd (history r d))
  end.
Proof. cbn [history]. destruct (validate_method_options m (Some d)); now destruct (history r _). Qed.

Lemma fill_absorb (ds d : opts) : (forall k, In k (dkeys ds) -> dmem d k = true) ->
  fold_left (fun o kv => if dmem o (fst kv) then o else dset o (fst kv) (snd kv)) ds d = d.
Proof.
  induction ds as [|[a v] ds IH]; cbn [fold_left]; intro A; [easy|].
  cbn [fst]. rewrite (A a) by (now left). apply IH. intros k Hk. apply A. now right.
Qed.

Lemma validate_again m d d' : validate_method_options m (Some d) = Ok d' -> validate_method_options m (Some d') = Ok d'.
Proof.
  intro E. destruct (validate_total m d) as [(Km & Ad & _)|(N & E')]; [|congruence].
  assert (Keys : forall k, key_in d' k <-> documented_default m k <> None) by (intro k; now apply (options_effective m d d' k)).
  rewrite validate_some. destruct (method_defaults m) as [ds|] eqn:ED; [|apply method_known in Km; congruence].
  assert (F : forallb (fun kv => dmem ds (fst kv)) d' = true).
  { apply (admissible_forallb _ _ _ ED). intros k Hk. now apply Keys. }
  rewrite F, fill_absorb; [reflexivity|]. intros k Hk. apply dmem_key, Keys.
  apply dmem_In, dmem_key in Hk. destruct Hk as [v Hk]. rewrite (default_matches _ _ _ ED) in Hk. now destruct (documented_default m k).
Qed.

(*@ C16 Re-using the dictionary with one method: every call is accepted and the dictionary is as after the first call. *)
Lemma reuse_same_method : forall (m : string) (n : nat) (d d' : opts),
  validate_method_options m (Some d) = Ok d' ->
  history (repeat m (S n)) d = (repeat true (S n), d').
Proof.
  intros m n d d' E.
  assert (G : forall k, history (repeat m k) d' = (repeat true k, d')).
  { induction k as [|k IH]; [reflexivity|]. cbn [repeat]. rewrite history_cons, (validate_again _ _ _ E), IH. reflexivity. }
  cbn [repeat]. rewrite history_cons, E, G. reflexivity.
Qed.

Lemma history_app ms1 ms2 d : history (ms1 ++ ms2) d =
  (fst (history ms1 d) ++ fst (history ms2 (snd (history ms1 d))), snd (history ms2 (snd (history ms1 d)))).
Proof.
  revert d. induction ms1 as [|m r IH]; intro d; cbn [app].
  - cbn. now destruct (history ms2 d).
  - rewrite !history_cons. destruct (validate_method_options m (Some d)); now rewrite IH.
Qed.

Lemma history_keeps ms (d : opts) k v : dget d k = Some v -> dget (snd (history ms d)) k = Some v.
Proof.
  revert d. induction ms as [|m r IH]; intros d E; [exact E|]. rewrite history_cons.
  destruct (validate_method_options m (Some d)) as [d'|] eqn:V; cbn [snd]; apply IH; [|exact E].
  rewrite (validate_values _ _ _ k V). now rewrite E.
Qed.

(*@ C16 No sequence of calls ever changes a value the dictionary already has. *)
Lemma history_preserves_values : forall (ms : list string) (d : opts) (k : string) (v : fl),
  dget d k = Some v -> dget (snd (history ms d)) k = Some v.
Proof. intros. now apply history_keeps. Qed.

(*@ C16 After an accepted 'jamaly' call, every later 'gagne' call on the same dictionary is
    rejected with ValueError, whatever calls come before, between or after. *)
Lemma jamaly_then_gagne_rejected : forall (before between after : list string) (d : opts) (d' : opts),
  validate_method_options "jamaly" (Some (snd (history before d))) = Ok d' ->
  let calls := before ++ "jamaly"%string :: between ++ "gagne"%string :: after in
  nth_error (fst (history calls d)) (length before) = Some true /\
  nth_error (fst (history calls d)) (length before + 1 + length between) = Some false /\
  validate_method_options "gagne" (Some (snd (history (before ++ "jamaly"%string :: between) d))) = Err ValueError.
Proof.
  intros before between after d d' E calls.
  assert (Len : forall ms e, length (fst (history ms e)) = length ms).
  { induction ms as [|m r IH]; intro e; [reflexivity|]. rewrite history_cons. destruct (validate_method_options m (Some e)); cbn; now rewrite IH. }
  set (d0 := snd (history before d)) in *.
  assert (R : validate_method_options "gagne" (Some (snd (history between d'))) = Err ValueError).
  { destruct (validate_total "gagne" (snd (history between d'))) as [(_ & Ad & _)|(_ & X)]; [|exact X]. exfalso.
    apply (Ad "mincorr"%string); [|now rewrite default_gagne].
    assert (KI : key_in d' "mincorr") by (apply (options_effective _ _ _ _ E); rewrite default_jamaly; discriminate).
    destruct KI as [v Hv]. exists v. now apply history_keeps. }
  unfold calls. rewrite !history_app. cbn [fst snd]. fold d0.
  rewrite !history_cons, E. cbn [fst snd]. rewrite history_app. cbn [fst snd]. rewrite history_cons, R. cbn [fst snd].
  repeat split; auto.
  - rewrite nth_error_app2 by (rewrite Len; lia). rewrite Len, Nat.sub_diag. reflexivity.
  - rewrite nth_error_app2 by (rewrite Len; lia). rewrite Len.
    replace (length before + 1 + length between - length before)%nat with (S (length between)) by lia. cbn [nth_error].
    rewrite nth_error_app2 by (rewrite Len; lia). rewrite Len, Nat.sub_diag. reflexivity.
Qed.

(*@ C16 A dictionary accepted for 'gagne' stays accepted for both methods after any number of 'gagne' calls. *)
Lemma gagne_keeps_acceptance : forall (n : nat) (d d' : opts),
  validate_method_options "gagne" (Some d) = Ok d' ->
  let d1 := snd (history (repeat "gagne"%string n) d) in
  (exists e, validate_method_options "gagne" (Some d1) = Ok e) /\
  (exists e, validate_method_options "jamaly" (Some d1) = Ok e).
Proof.
  intros n d d' E d1.
  assert (G : exists e, validate_method_options "gagne" (Some d1) = Ok e).
  { unfold d1. destruct n as [|n]; [exists d'; exact E|]. rewrite (reuse_same_method _ n _ _ E). exists d'. cbn [snd]. now apply validate_again with d. }
  split; [exact G|]. apply options_validated in G. destruct G as [_ Ad]. apply options_validated.
  split; [now left|]. intros k Hk. specialize (Ad k Hk). rewrite default_gagne in Ad. rewrite default_jamaly.
  destruct (String.eqb_spec k "ktlim") as [Ek|Nk]; [subst k; cbn; discriminate|congruence].
Qed.

(*@ C16 The same through compute_cmv: the dictionary a successful 'jamaly' call leaves behind makes
    every later 'gagne' call fail. *)
Lemma cmv_jamaly_then_gagne : forall (K : Type) (HK : Label K) dx dt ms lsq ts (pos : list (K * (R * R))) ref m d bk r d'
    dx2 dt2 ms2 lsq2 ts2 (pos2 : list (K * (R * R))) ref2 m2 bk2,
  lower m = "jamaly"%string -> lower m2 = "gagne"%string ->
  compute_cmv dx dt ms lsq ts pos ref m (Some d) bk = Ok (r, d') ->
  exists e, compute_cmv dx2 dt2 ms2 lsq2 ts2 pos2 ref2 m2 (Some d') bk2 = Err e.
Proof.
  intros K HK dx dt ms lsq ts pos ref m d bk r d' dx2 dt2 ms2 lsq2 ts2 pos2 ref2 m2 bk2 J G E.
  destruct r as [[v t] w]. apply compute_cmv_inv in E. destruct E as (A & B & dd & Pb & Pa & f0 & ov & fl & E). cbv zeta in E.
  destruct E as (_ & _ & _ & _ & _ & _ & _ & _ & V & _). rewrite J in V.
  destruct (compute_cmv dx2 dt2 ms2 lsq2 ts2 pos2 ref2 m2 (Some d') bk2) as [[[[v2 t2] w2] o2]|e] eqn:E2; [|now exists e].
  exfalso. apply cmv_options in E2. destruct E2 as (_ & Ad & _). rewrite G in Ad.
  apply (Ad "mincorr"%string); [|now rewrite default_gagne].
  apply (options_effective _ _ _ _ V). rewrite default_jamaly. discriminate.
Qed.

(*@ex C16 *)
Lemma history_example :
  fst (history ["gagne"; "gagne"; "jamaly"; "gagne"; "jamaly"]%string []) = [true; true; true; false; true].
Proof. reflexivity. Qed.
