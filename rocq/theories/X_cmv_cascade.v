(** cmv.py:273-294, 371-395: gagne cascade, failure exit and what is returned. *)
From Coq Require Import String Permutation.
From Verif Require Import Prelude PreludeFacts RealBase Fl RealStat M_spatial M_cmv Spec_spatial Spec_cmv P_cmv P_plane X_cmv_options X_cmv_pairs X_cmv_qc.
Local Open Scope R_scope.

(** ** Counting *)
Definition idx_where {A} (f : A -> bool) (l : list A) : list nat :=
  map fst (filter (fun p => f (snd p)) (combine (seq 0 (length l)) l)).

Lemma filter_combine_length {A} (f : A -> bool) l : forall k,
  length (filter (fun p => f (snd p)) (combine (seq k (length l)) l)) = length (filter f l).
Proof.
  induction l as [|a l IH]; intro k; [reflexivity|]. cbn [length seq combine filter snd].
  destruct (f a); cbn [length]; now rewrite IH.
Qed.

Lemma idx_where_length {A} (f : A -> bool) l : length (idx_where f l) = length (filter f l).
Proof. unfold idx_where. rewrite map_length. apply filter_combine_length. Qed.

Lemma in_combine_seq {A} (l : list A) k i a : In (i, a) (combine (seq k (length l)) l) <-> (k <= i)%nat /\ nth_error l (i - k) = Some a.
Proof.
  revert k. induction l as [|x l IH]; intro k; cbn [length seq combine].
  - split; [easy|]. intros [_ E]. now destruct (i - k)%nat.
  - cbn [In]. rewrite IH. split.
    + intros [E|[L E]].
      * inversion E; subst. split; [lia|]. now rewrite Nat.sub_diag.
      * split; [lia|]. replace (i - k)%nat with (S (i - S k)) by lia. exact E.
    + intros [L E]. destruct (Nat.eq_dec k i) as [->|N].
      * left. rewrite Nat.sub_diag in E. cbn in E. congruence.
      * right. split; [lia|]. replace (i - k)%nat with (S (i - S k)) in E by lia. exact E.
Qed.

Lemma idx_where_In {A} (f : A -> bool) l i : In i (idx_where f l) <-> exists a, nth_error l i = Some a /\ f a = true.
Proof.
  unfold idx_where. rewrite in_map_iff. split.
  - intros ([j a] & E & I). cbn in E. subst j. apply filter_In in I. destruct I as [I F]. apply in_combine_seq in I.
    destruct I as [_ I]. rewrite Nat.sub_0_r in I. now exists a.
  - intros (a & E & F). exists (i, a). split; [reflexivity|]. apply filter_In. split; [|exact F].
    apply in_combine_seq. rewrite Nat.sub_0_r. split; [lia|exact E].
Qed.

Lemma idx_where_NoDup {A} (f : A -> bool) l : NoDup (idx_where f l).
Proof.
  unfold idx_where.
  assert (G : NoDup (map fst (combine (seq 0 (length l)) l))).
  { replace (map fst (combine (seq 0 (length l)) l)) with (seq 0 (length l)); [apply seq_NoDup|].
    symmetry. clear f. generalize 0%nat as k. induction l as [|a l IH]; intro k; cbn; [easy|]. now rewrite IH. }
  revert G. generalize (combine (seq 0 (length l)) l) as c. induction c as [|[i a] c IH]; cbn [map filter]; intro G; [constructor|].
  inversion G as [|x y N1 N2]; subst. destruct (f (snd (i, a))); [|now apply IH]. cbn [map fst]. constructor; [|now apply IH].
  intro I. apply N1. apply in_map_iff in I. destruct I as (p & E & I). apply filter_In in I. rewrite <- E. apply in_map. apply I.
Qed.

Lemma NoDup_app_l {A} (l l' : list A) : NoDup (l ++ l') -> NoDup l.
Proof.
  induction l as [|a l IH]; cbn; intro N; [constructor|]. inversion N; subst. constructor; [|auto].
  intro I. apply H1. apply in_app_iff. now left.
Qed.

(** A lower bound on the number of elements satisfying a predicate. *)
Lemma at_least_n {A} (f : A -> bool) (l : list A) (n : nat) :
  (n <= length (filter f l))%nat <->
  exists idx, NoDup idx /\ length idx = n /\ forall i, In i idx -> exists a, nth_error l i = Some a /\ f a = true.
Proof.
  rewrite <- idx_where_length. split.
  - intro L. exists (firstn n (idx_where f l)). split; [|split].
    + pose proof (idx_where_NoDup f l) as ND. rewrite <- (firstn_skipn n (idx_where f l)) in ND. now apply NoDup_app_l in ND.
    + apply firstn_length_le. exact L.
    + intros i Hi. apply idx_where_In. rewrite <- (firstn_skipn n (idx_where f l)). apply in_app_iff. now left.
  - intros (idx & ND & <- & A0). apply NoDup_incl_length; [exact ND|]. intros i Hi. apply idx_where_In. now apply A0.
Qed.

(** ** C18 *)
Lemma corr_ge t p : fleb (Fin t) p = true <-> at_least t p.
Proof.
  unfold at_least. destruct p as [x| | |]; cbn; try (split; [discriminate|]; intros [E|(y & E & _)]; discriminate).
  - destruct (Rleb_spec t x); split; auto; try discriminate.
    + intros _. right. now exists x.
    + intros [E|(y & E & L)]; [discriminate|]. injection E as ->. contradiction.
  - split; auto.
Qed.

Lemma count_good_at t peaks flags : length peaks = length flags ->
  (12 <= count_good (corr_at_least t peaks) flags)%nat <-> sufficient t peaks flags.
Proof.
  intro L. unfold count_good. rewrite at_least_n. unfold sufficient.
  split; intros (idx & ND & Len & P); exists idx; repeat split; auto.
  - destruct (P i H) as ([b g] & E & F). cbn [fst snd] in F. apply Bool.andb_true_iff in F. destruct F as [F1 F2].
    assert (G : nth_error flags i = Some g /\ nth_error (corr_at_least t peaks) i = Some b).
    { clear -E. revert i flags E. induction (corr_at_least t peaks) as [|c cs IH]; intros [|i] [|f fs]; cbn; try discriminate.
      - intro E. inversion E. now split.
      - apply IH. }
    destruct G as [G _]. rewrite G. unfold is_good in F1. now destruct g.
  - destruct (P i H) as ([b g] & E & F). cbn [fst snd] in F. apply Bool.andb_true_iff in F. destruct F as [F1 F2].
    assert (G : nth_error (corr_at_least t peaks) i = Some b).
    { clear -E. revert i flags E. induction (corr_at_least t peaks) as [|c cs IH]; intros [|i] [|f fs]; cbn; try discriminate.
      - intro E. inversion E. now split.
      - apply IH. }
    unfold corr_at_least in G. rewrite nth_error_map in G. destruct (nth_error peaks i) as [p|]; [|discriminate]. cbn [option_map] in G.
    exists p. split; [reflexivity|]. apply corr_ge. congruence.
  - intros i Hi. destruct (P i Hi) as (Gf & p & Hp & Ap). apply corr_ge in Ap. exists (true, GOOD). split; [|reflexivity].
    assert (G : nth_error (corr_at_least t peaks) i = Some true) by (unfold corr_at_least; rewrite nth_error_map, Hp; cbn [option_map]; now rewrite Ap).
    clear -G Gf. revert i flags G Gf. induction (corr_at_least t peaks) as [|c cs IH]; intros [|i] [|f fs]; cbn; try discriminate.
    + congruence.
    + apply IH.
Qed.

(*@ C18 The threshold is the strictest of 0.99, 0.95, 0.90 that twelve passing pairs reach, else 0.90;
    ALLBAD exactly when not even 0.90 is reached by twelve; pairs below it (or NaN) become LOWCORR and
    the others keep their flag. *)
Lemma cascade_threshold : forall (peaks : list fl) (flags : list Flag) (overall : Flag) (flags' : list Flag),
  length peaks = length flags ->
  gagne_cascade peaks flags = (overall, flags') ->
  exists t, chosen_threshold t peaks flags /\
    (overall = ALLBAD <-> ~ sufficient (90 / 100) peaks flags) /\ (overall = GOOD <-> sufficient (90 / 100) peaks flags) /\
    length flags' = length flags /\
    forall i p f, nth_error peaks i = Some p -> nth_error flags i = Some f ->
      (at_least t p -> nth_error flags' i = Some f) /\ (~ at_least t p -> nth_error flags' i = Some LOWCORR).
Proof.
  intros peaks flags overall flags' L E. unfold gagne_cascade in E. cbv zeta in E.
  pose proof (count_good_at 0.99 peaks flags L) as C1. pose proof (count_good_at 0.95 peaks flags L) as C2. pose proof (count_good_at 0.9 peaks flags L) as C3.
  replace 0.99 with (99 / 100) in * by lra. replace 0.95 with (95 / 100) in * by lra. replace 0.9 with (90 / 100) in * by lra.
  assert (Mono : forall s t, t <= s -> sufficient s peaks flags -> sufficient t peaks flags).
  { intros s t Hst (idx & ND & Len & P). exists idx. repeat split; auto; destruct (P i H) as (G & p & Hp & Ap); auto.
    exists p. split; [exact Hp|]. destruct Ap as [->|(x & -> & Lx)]; [now left|right]. exists x. split; [reflexivity|lra]. }
  assert (Fin : forall t, length (map2 (fun (b : bool) g => if b then g else LOWCORR) (corr_at_least t peaks) flags) = length flags /\
    forall i p f, nth_error peaks i = Some p -> nth_error flags i = Some f ->
      (at_least t p -> nth_error (map2 (fun (b : bool) g => if b then g else LOWCORR) (corr_at_least t peaks) flags) i = Some f) /\
      (~ at_least t p -> nth_error (map2 (fun (b : bool) g => if b then g else LOWCORR) (corr_at_least t peaks) flags) i = Some LOWCORR)).
  { intro t. split.
    - rewrite map2_length; unfold corr_at_least; rewrite map_length; lia.
    - intros i p f Hp Hf. rewrite nth_error_map2. unfold corr_at_least. rewrite nth_error_map, Hp, Hf. cbn [option_map].
      rewrite <- corr_ge. destruct (fleb _ p); split; congruence. }
  assert (Res : forall t, t = 99 / 100 \/ t = 95 / 100 \/ t = 90 / 100 ->
     (sufficient t peaks flags <-> sufficient (90 / 100) peaks flags) -> chosen_threshold t peaks flags ->
     overall = (if Nat.ltb (count_good (corr_at_least t peaks) flags) 12 then ALLBAD else GOOD) ->
     flags' = map2 (fun (b : bool) g => if b then g else LOWCORR) (corr_at_least t peaks) flags ->
     exists t, chosen_threshold t peaks flags /\
    (overall = ALLBAD <-> ~ sufficient (90 / 100) peaks flags) /\ (overall = GOOD <-> sufficient (90 / 100) peaks flags) /\
    length flags' = length flags /\
    forall i p f, nth_error peaks i = Some p -> nth_error flags i = Some f ->
      (at_least t p -> nth_error flags' i = Some f) /\ (~ at_least t p -> nth_error flags' i = Some LOWCORR)).
  { intros t Ht Eq Ch Ho Hf. exists t. split; [exact Ch|].
    rewrite <- Eq. assert (Ct : (12 <= count_good (corr_at_least t peaks) flags)%nat <-> sufficient t peaks flags) by (now apply count_good_at).
    destruct (Fin t) as [F1 F2]. rewrite <- Hf in F1, F2.
    destruct (Nat.ltb_spec (count_good (corr_at_least t peaks) flags) 12); rewrite Ho.
    - assert (~ sufficient t peaks flags) by (rewrite <- Ct; lia). (split; [split; (discriminate || tauto)|]); (split; [split; (tauto || discriminate || reflexivity)|]); split; [exact F1|exact F2].
    - assert (sufficient t peaks flags) by (rewrite <- Ct; lia). (split; [split; [tauto || discriminate|tauto || discriminate || reflexivity]|]); (split; [split; (tauto || discriminate || reflexivity)|]); split; [exact F1|exact F2]. }
  destruct (Nat.ltb_spec (count_good (corr_at_least (99 / 100) peaks) flags) 12) as [A|A].
  - assert (N1 : ~ sufficient (99 / 100) peaks flags) by (rewrite <- C1; lia).
    destruct (Nat.ltb_spec (count_good (corr_at_least (95 / 100) peaks) flags) 12) as [B|B].
    + assert (N2 : ~ sufficient (95 / 100) peaks flags) by (rewrite <- C2; lia).
      apply (Res (90 / 100)); auto; [tauto|right; right; auto|..]; congruence.
    + assert (S2 : sufficient (95 / 100) peaks flags) by (rewrite <- C2; lia).
      apply (Res (95 / 100)); auto.
      * split; [apply Mono; lra|auto].
      * right; left; auto.
      * rewrite (proj2 (Nat.ltb_ge _ _) B) in *. congruence.
      * congruence.
  - assert (S1 : sufficient (99 / 100) peaks flags) by (rewrite <- C1; lia).
    rewrite (proj2 (Nat.ltb_ge _ _) A) in E. rewrite (proj2 (Nat.ltb_ge _ _) A) in E.
    apply (Res (99 / 100)); auto.
    + split; [apply Mono; lra|auto].
    + left; auto.
    + rewrite (proj2 (Nat.ltb_ge _ _) A). congruence.
    + congruence.
Qed.

(*@ex C18 *)
Lemma cascade_example :
  let peaks := repeat (Fin 0.96) 12 ++ [Fin 0.5; Nan; Fin 1] in
  let flags := repeat GOOD 12 ++ [GOOD; OVERCAST; SAME] in
  length peaks = length flags /\ chosen_threshold (95 / 100) peaks flags /\
  gagne_cascade peaks flags = (GOOD, repeat GOOD 12 ++ [LOWCORR; LOWCORR; SAME]).
Proof.
  intros peaks flags. assert (L : length peaks = length flags) by reflexivity. split; [exact L|].
  assert (C1 : count_good (corr_at_least 0.99 peaks) flags = 0%nat).
  { unfold corr_at_least, peaks. cbn [map app repeat fleb]. rewrite !(Rleb_false 0.99 0.96), (Rleb_false 0.99 0.5), (Rleb_true 0.99 1) by lra. reflexivity. }
  assert (C2 : count_good (corr_at_least 0.95 peaks) flags = 12%nat).
  { unfold corr_at_least, peaks. cbn [map app repeat fleb]. rewrite !(Rleb_true 0.95 0.96), (Rleb_false 0.95 0.5), (Rleb_true 0.95 1) by lra. reflexivity. }
  split.
  - right. left. split; [reflexivity|]. split.
    + intro S. replace (99 / 100) with 0.99 in S by lra. apply (count_good_at _ _ _ L) in S. lia.
    + replace (95 / 100) with 0.95 by lra. apply (count_good_at _ _ _ L). lia.
  - unfold gagne_cascade. cbv zeta. rewrite C1. cbn [Nat.ltb Nat.leb]. rewrite C2. cbn [Nat.ltb Nat.leb]. rewrite C2. cbn [Nat.ltb Nat.leb].
    f_equal. unfold corr_at_least, peaks. cbn [map app repeat fleb].
    rewrite !(Rleb_true 0.95 0.96), (Rleb_false 0.95 0.5), (Rleb_true 0.95 1) by lra. reflexivity.
Qed.

(** ** Lengths and the two exits *)

Section Exits.
  Context {K : Type} `{HK : Label K}.
  Variable dx dt : list (list (option R)) -> list (list (option R)) -> result delay_out.
  Variable ms : (R -> fl) -> R.
  Variable lsq : (R -> R -> list fl) -> fl * fl.
  Hypothesis Hx : one_answer_per_pair dx.
  Hypothesis Ht : one_answer_per_pair dt.

  (** Everything the later lemmas need about one successful call. *)
  Lemma cmv_facts ts (pos : list (K * (R * R))) ref m o bk v t w o' :
    compute_cmv dx dt ms lsq ts pos ref m o bk = Ok ((v, t, w), o') ->
    exists d vecs rows flags0 overall flags o0,
      known_method (lower m) /\
      validate_method_options (lower m) (Some o0) = Ok o' /\
      pairwise_qc (lower m) o' rows = Ok flags0 /\
      (overall, flags) = (if String.eqb (lower m) "gagne" then gagne_cascade (d_peak d) flags0 else (GOOD, flags0)) /\
      finish_cmv ms lsq (String.eqb (lower m) "jamaly") (qc_figures rows) overall flags (w_allpairs w) vecs d = (v, t, w) /\
      length vecs = length (w_allpairs w) /\ length rows = length (w_allpairs w) /\ length flags0 = length (w_allpairs w) /\
      length flags = length (w_allpairs w) /\
      length (d_delay d) = length (w_allpairs w) /\ length (d_peak d) = length (w_allpairs w) /\
      w_pair_flag w = flags /\
      (forall i p, nth_error (w_allpairs w) i = Some p ->
         exists s, separation pos p = Some s /\ nth_error vecs i = Some s) /\
      (forall i r, nth_error rows i = Some r ->
         exists p dl pk, nth_error (w_allpairs w) i = Some p /\ p_ids r = p /\
           nth_error (d_delay d) i = Some dl /\ p_delay r = dl /\ nth_error (d_peak d) i = Some pk /\ p_peak r = pk).
  Proof.
    intro E. apply compute_cmv_inv in E. destruct E as (A & B & d & Pb & Pa & flags0 & overall & flags & E). cbv zeta in E.
    destruct E as (Km & Bk & NE & EA & EB & ED & EPb & EPa & EV & EQ & EG & EF).
    pose proof (finish_pairs _ _ _ _ _ _ _ _ _ _ _ _ EF) as [EP EFl].
    set (pairs := get_pairs _ _ _) in *. set (vecs := map2 _ Pb Pa) in *. set (rows := map row_of _) in *.
    pose proof (mapM_length _ _ _ EA) as LA. pose proof (mapM_length _ _ _ EB) as LB.
    pose proof (mapM_length _ _ _ EPa) as LPa. pose proof (mapM_length _ _ _ EPb) as LPb.
    assert (LD : length (d_delay d) = length A /\ length (d_peak d) = length A /\ length (d_mean d) = length A).
    { destruct (String.eqb (lower bk) "xcorr"); [apply (Hx A B d)|apply (Ht A B d)]; auto; congruence. }
    destruct LD as (L1 & L2 & L3).
    assert (LV : length vecs = length pairs) by (unfold vecs; rewrite map2_length; congruence).
    assert (LR : length rows = length pairs).
    { unfold rows. rewrite map_length, !combine_length. lia. }
    set (o0 := match o with None => [] | Some x => x end).
    assert (EV' : validate_method_options (lower m) (Some o0) = Ok o') by (rewrite <- EV; unfold o0; now destruct o).
    assert (LF : length flags0 = length pairs).
    { rewrite (qc_eq _ _ _ _ EV') in EQ. match type of EQ with Ok ?X = Ok _ => assert (HD : X = flags0) by congruence end.
      rewrite <- HD, map_length. exact LR. }
    assert (LG : length flags = length pairs).
    { destruct (String.eqb (lower m) "gagne").
      - symmetry in EG. destruct (cascade_threshold (d_peak d) flags0 overall flags) as (t0 & _ & _ & _ & L & _); auto; congruence.
      - congruence. }
    exists d, vecs, rows, flags0, overall, flags, o0. rewrite EP.
    split; [exact Km|]. split; [exact EV'|]. split; [exact EQ|]. split; [exact EG|]. split; [exact EF|].
    split; [exact LV|]. split; [exact LR|]. split; [exact LF|]. split; [exact LG|].
    split; [congruence|]. split; [congruence|]. split; [exact EFl|]. split.
    - intros i p Hp. apply mapM_ok_iff in EPb, EPa.
      assert (G : exists b, nth_error Pb i = Some b /\ lookup pos (snd p) = Ok b).
      { clear -EPb Hp. revert i Hp. induction EPb as [|x y l l' Hxy F IH]; intros [|i] Hp; cbn in *; try discriminate.
        - injection Hp as ->. now exists y.
        - now apply IH. }
      assert (G' : exists a, nth_error Pa i = Some a /\ lookup pos (fst p) = Ok a).
      { clear -EPa Hp. revert i Hp. induction EPa as [|x y l l' Hxy F IH]; intros [|i] Hp; cbn in *; try discriminate.
        - injection Hp as ->. now exists y.
        - now apply IH. }
      destruct G as (b & Gb & Lb). destruct G' as (a & Ga & La). unfold lookup in La, Lb.
      destruct (dget pos (snd p)) as [b'|] eqn:Db; [|discriminate]. destruct (dget pos (fst p)) as [a'|] eqn:Da; [|discriminate].
      injection Lb as ->. injection La as ->.
      exists (sub2 b a). split; [unfold separation; now rewrite Da, Db|].
      unfold vecs. rewrite nth_error_map2, Ga, Gb. reflexivity.
    - intros i r Hr. unfold rows in Hr. rewrite nth_error_map in Hr.
      destruct (nth_error (combine _ _) i) as [q|] eqn:Eq; [|discriminate]. cbn [option_map] in Hr.
      assert (NC : forall X Y (a : list X) (b : list Y) i z, nth_error (combine a b) i = Some z -> nth_error a i = Some (fst z) /\ nth_error b i = Some (snd z)).
      { clear. intros X Y a. induction a as [|x a IH]; intros [|y b] [|i] z; cbn; try discriminate.
        - intro E. injection E as <-. now split.
        - apply IH. }
      destruct q as [[[p [a b]] vv] [[dl pk] mn]].
      apply NC in Eq. cbn [fst snd] in Eq. destruct Eq as [Q1 Q2]. apply NC in Q1, Q2. cbn [fst snd] in Q1, Q2.
      destruct Q1 as [Q1 _]. destruct Q2 as [Q2 _]. apply NC in Q1, Q2. cbn [fst snd] in Q1, Q2. destruct Q1 as [Q1 _]. destruct Q2 as [Q2 Q3].
      exists p, dl, pk. unfold row_of in Hr. injection Hr as <-. cbn [p_ids p_delay p_peak]. repeat split; auto.
  Qed.

  Lemma good_count flags n : (n <= length (filter is_good flags))%nat <-> good_at_least n flags.
  Proof.
    rewrite at_least_n. unfold good_at_least. split; intros (idx & ND & L & P); exists idx; repeat split; auto; intros i Hi.
    - destruct (P i Hi) as (f & E & F). now destruct f.
    - exists GOOD. split; [now apply P|reflexivity].
  Qed.

  Lemma two_good_count flags : (2 <= length (filter is_good flags))%nat <-> two_good flags.
  Proof.
    rewrite good_count. split.
    - intros (idx & ND & L & P). destruct idx as [|i [|j [|]]]; try discriminate. exists i, j. inversion ND as [|x y N1 N2]; subst.
      split; [intros ->; apply N1; now left|]. split; apply P; cbn; auto.
    - intros (i & j & N & A & B). exists [i; j]. split; [|split].
      + constructor; [cbn; intuition|]. constructor; [easy|constructor].
      + reflexivity.
      + cbn. intros k [<-|[<-|[]]]; auto.
  Qed.

  Lemma finish_cases j qc overall flags (pairs : list (K * K)) vecs d v t w :
    finish_cmv ms lsq j qc overall flags pairs vecs d = (v, t, w) ->
    (~ two_good flags /\ v = Fin 0 /\ t = Fin 0 /\ w = mkWind ALLBAD flags pairs None) \/
    (two_good flags /\ exists v0 t0 flag md,
       (if j then fit_jamaly ms overall qc (good_only flags (d_delay d)) (good_only flags vecs)
        else fit_gagne lsq overall (good_only flags (d_delay d)) (good_only flags vecs)) = (v0, t0, flag, md) /\
       normalise_cmv v0 t0 = (v, t) /\
       w = mkWind flag flags pairs (Some (mkFit (d_delay d) (d_coh d) (d_zero d) (d_peak d) (project_angle vecs t) t v md))).
  Proof.
    unfold finish_cmv. destruct (Nat.leb_spec (length (filter is_good flags)) 1) as [L|L].
    - intro E. inversion E. left. rewrite <- two_good_count. repeat split; auto. lia.
    - destruct (if j then _ else _) as [[[v0 t0] flag] md] eqn:EF. destruct (normalise_cmv v0 t0) as [v1 t1] eqn:EN.
      intro E. inversion E; subst. right. rewrite <- two_good_count. split; [lia|]. exists v0, t0, flag, md. auto.
  Qed.
End Exits.

(*@ C19 The early exit (no fit data; speed 0, direction 0, ALLBAD) is taken exactly when fewer than two
    pairs are GOOD; in both cases there is one flag per reported pair. *)
Lemma cmv_failure_exit : forall (K : Type) (HK : Label K) dx dt ms lsq ts (pos : list (K * (R * R))) ref m o bk v t w o',
  one_answer_per_pair dx -> one_answer_per_pair dt ->
  compute_cmv dx dt ms lsq ts pos ref m o bk = Ok ((v, t, w), o') ->
  length (w_pair_flag w) = length (w_allpairs w) /\
  (w_fit w = None <-> ~ two_good (w_pair_flag w)) /\
  (w_fit w = None -> v = Fin 0 /\ t = Fin 0 /\ w_flag w = ALLBAD).
Proof.
  intros K HK dx dt ms lsq ts pos ref m o bk v t w o' Hx Ht E.
  destruct (cmv_facts dx dt ms lsq Hx Ht ts pos ref m o bk v t w o' E) as (d & vecs & rows & f0 & ov & flags & o0 & Km & V & Q & G & F & L1 & L2 & L3 & L4 & L5 & L6 & W & S & R).
  split; [congruence|]. apply finish_cases in F. rewrite W.
  destruct F as [(N & -> & -> & ->)|(T & v0 & t0 & fg & md & _ & _ & ->)]; cbn [w_fit w_flag w_pair_flag].
  - split; [split; auto|auto].
  - split; [split; [discriminate|contradiction]|discriminate].
Qed.

(*@ C19 Otherwise the report holds the returned speed and direction, the delays and peak correlations of all
    pairs, and each pair's separation projected on the returned direction. *)
Lemma cmv_report : forall (K : Type) (HK : Label K) dx dt ms lsq ts (pos : list (K * (R * R))) ref m o bk v t w o' f,
  one_answer_per_pair dx -> one_answer_per_pair dt ->
  compute_cmv dx dt ms lsq ts pos ref m o bk = Ok ((v, t, w), o') -> w_fit w = Some f ->
  w_wind_speed f = v /\ w_wind_angle f = t /\
  length (w_pair_lag f) = length (w_allpairs w) /\ length (w_corr_lag f) = length (w_allpairs w) /\
  length (w_pair_dists f) = length (w_allpairs w) /\
  forall i p a, nth_error (w_allpairs w) i = Some p -> t = Fin a ->
    exists s, separation pos p = Some s /\ nth_error (w_pair_dists f) i = Some (Fin (inner s (cos a, sin a))).
Proof.
  intros K HK dx dt ms lsq ts pos ref m o bk v t w o' f Hx Ht E Hf.
  destruct (cmv_facts dx dt ms lsq Hx Ht ts pos ref m o bk v t w o' E) as (d & vecs & rows & f0 & ov & flags & o0 & Km & V & Q & G & F & L1 & L2 & L3 & L4 & L5 & L6 & W & S & R).
  apply finish_cases in F.
  destruct F as [(N & -> & -> & Ew)|(T & v0 & t0 & fg & md & _ & _ & Ew)].
  - rewrite Ew in Hf. discriminate.
  - rewrite Ew in Hf. cbn [w_fit] in Hf. injection Hf as <-. cbn [w_wind_speed w_wind_angle w_pair_lag w_corr_lag w_pair_dists].
    repeat split; auto.
    + assert (PL : forall th, length (project_angle vecs th) = length vecs).
      { intro th. destruct th; cbn [project_angle]; try apply map_length. }
      congruence.
    + intros i p a Hp ->. destruct (S i p Hp) as (s & Hs & Hv). exists s. split; [exact Hs|].
      cbn [project_angle]. unfold pol2rect. rewrite !Rmult_1_l.
      assert (NZ : (cos a, sin a) <> (0, 0)) by (intro X; pose proof (unit_len a) as U; rewrite X in U; assert (len (0, 0) = 0) by (now apply len_zero); lra).
      rewrite project_fin by exact NZ. rewrite nth_error_map, Hv. cbn [option_map]. rewrite unit_len. do 2 f_equal. field.
Qed.

(*@ C19 The estimate depends on the GOOD pairs only: delays and separations of the other pairs, and the
    correlations, have no influence on the returned speed, direction and quality flag. *)
Lemma cmv_good_only : forall (K : Type) ms lsq (jam : bool) qc qc' (overall : Flag) (flags : list Flag)
    (pairs pairs' : list (K * K)) (vecs vecs' : list (R * R)) (d d' : delay_out) v t w v' t' w',
  length vecs = length flags -> length vecs' = length flags ->
  length (d_delay d) = length flags -> length (d_delay d') = length flags ->
  (forall i, nth_error flags i = Some GOOD ->
     nth_error vecs i = nth_error vecs' i /\ nth_error (d_delay d) i = nth_error (d_delay d') i) ->
  finish_cmv ms lsq jam qc overall flags pairs vecs d = (v, t, w) ->
  finish_cmv ms lsq jam qc' overall flags pairs' vecs' d' = (v', t', w') ->
  v = v' /\ t = t' /\ w_flag w = w_flag w'.
Proof.
  intros K ms lsq jam qc qc' overall flags pairs pairs' vecs vecs' d d' v t w v' t' w' L1 L2 L3 L4 A F F'.
  assert (G : forall (X : Type) (fl : list Flag) (l l' : list X), length l = length fl -> length l' = length fl ->
     (forall i, nth_error fl i = Some GOOD -> nth_error l i = nth_error l' i) -> good_only fl l = good_only fl l').
  { intros X fl. unfold good_only. induction fl as [|f fl IH]; intros [|x l] [|x' l'] E1 E2 P; cbn in *; try discriminate; auto.
    assert (R : map snd (filter (fun p => is_good (fst p)) (combine fl l)) = map snd (filter (fun p => is_good (fst p)) (combine fl l'))).
    { apply IH; [lia|lia|]. intros i Hi. apply (P (S i) Hi). }
    destruct f; cbn; auto. rewrite R. f_equal. specialize (P 0%nat eq_refl). cbn in P. congruence. }
  apply finish_cases in F. apply finish_cases in F'.
  destruct F as [(N & -> & -> & ->)|(T & v0 & t0 & fg & md & Ef & En & ->)], F' as [(N' & -> & -> & ->)|(T' & v0' & t0' & fg' & md' & Ef' & En' & ->)]; try contradiction; auto.
  rewrite (G _ flags vecs vecs'), (G _ flags (d_delay d) (d_delay d')) in Ef; auto; try (intros i Hi; now apply A).
  assert (S3 : v0 = v0' /\ t0 = t0' /\ fg = fg').
  { destruct jam; [unfold fit_jamaly in Ef, Ef'; repeat split; congruence|]. rewrite Ef in Ef'. repeat split; congruence. }
  destruct S3 as (<- & <- & <-). rewrite En in En'. injection En' as -> ->. auto.
Qed.

(*@ C18 Through compute_cmv: the overall flag is ALLBAD exactly when fewer than twelve pairs end up GOOD,
    GOOD otherwise; and one of the three thresholds separates the pairs. *)
Lemma cmv_gagne_flag : forall (K : Type) (HK : Label K) dx dt ms lsq ts (pos : list (K * (R * R))) ref m o bk v t w o',
  one_answer_per_pair dx -> one_answer_per_pair dt -> lower m = "gagne"%string ->
  compute_cmv dx dt ms lsq ts pos ref m o bk = Ok ((v, t, w), o') ->
  (w_flag w = ALLBAD <-> ~ good_at_least 12 (w_pair_flag w)) /\
  (w_flag w = GOOD <-> good_at_least 12 (w_pair_flag w)) /\
  forall f, w_fit w = Some f ->
    exists th, (th = 99 / 100 \/ th = 95 / 100 \/ th = 90 / 100) /\
    forall i c g, nth_error (w_corr_lag f) i = Some c -> nth_error (w_pair_flag w) i = Some g ->
      (g = GOOD -> at_least th c) /\ (~ at_least th c -> g = LOWCORR).
Proof.
  intros K HK dx dt ms lsq ts pos ref m o bk v t w o' Hx Ht Hm E.
  destruct (cmv_facts dx dt ms lsq Hx Ht ts pos ref m o bk v t w o' E) as (d & vecs & rows & f0 & ov & flags & o0 & Km & V & Q & G & F & L1 & L2 & L3 & L4 & L5 & L6 & W & S & R).
  rewrite Hm in *. cbn [String.eqb Ascii.eqb Bool.eqb] in G, F. symmetry in G.
  destruct (cascade_threshold (d_peak d) f0 ov flags) as (th & Ch & Oa & Og & Lf & P); [congruence|exact G|].
  assert (Cnt : good_at_least 12 flags <-> sufficient (90 / 100) (d_peak d) f0).
  { assert (St : sufficient th (d_peak d) f0 <-> sufficient (90 / 100) (d_peak d) f0).
    { destruct Ch as [(-> & C)|[(-> & C & C')|(-> & C & C')]]; [| |tauto].
      - split; [|auto]. intros _. destruct C as (idx & ND & Len & Pi). exists idx. repeat split; auto; destruct (Pi i H) as (Gi & p & Hp & Ap); auto.
        exists p. split; [exact Hp|]. destruct Ap as [->|(x & -> & Lx)]; [now left|right]. exists x. split; [reflexivity|lra].
      - split; [|auto]. intros _. destruct C' as (idx & ND & Len & Pi). exists idx. repeat split; auto; destruct (Pi i H) as (Gi & p & Hp & Ap); auto.
        exists p. split; [exact Hp|]. destruct Ap as [->|(x & -> & Lx)]; [now left|right]. exists x. split; [reflexivity|lra]. }
    rewrite <- St. unfold good_at_least, sufficient.
    assert (PW : forall i, nth_error flags i = Some GOOD <-> nth_error f0 i = Some GOOD /\ exists p, nth_error (d_peak d) i = Some p /\ at_least th p).
    { intro i. destruct (nth_error f0 i) as [f|] eqn:Ef.
      - destruct (nth_error (d_peak d) i) as [p|] eqn:Ep.
        + destruct (P i p f Ep Ef) as [P1 P2]. destruct (fleb (Fin th) p) eqn:Fc.
          * pose proof (proj1 (corr_ge _ _) Fc) as Al. rewrite (P1 Al). split; [|tauto]. intro X. split; [congruence|]. exists p. now split.
          * assert (Al : ~ at_least th p) by (rewrite <- corr_ge; congruence). rewrite (P2 Al). split; [discriminate|].
            intros (_ & q & Hq & Aq). congruence.
        + apply nth_error_None in Ep. assert (i < length f0)%nat by (apply nth_error_Some; congruence). lia.
      - apply nth_error_None in Ef. assert (Nf : nth_error flags i = None) by (apply nth_error_None; lia). rewrite Nf. split; [discriminate|intros [X _]; discriminate]. }
    split; intros (idx & ND & Len & Pi); exists idx; repeat split; auto; try (apply PW; now apply Pi). intros i Hi. apply PW. now apply Pi. }
  rewrite W.
  pose proof (finish_cases ms lsq _ _ _ _ _ _ _ _ _ _ F) as FC.
  destruct FC as [(N & _ & _ & Ew)|(T & v0 & t0 & fg & md & Ef & _ & Ew)].
  - assert (N12 : ~ good_at_least 12 flags) by (rewrite <- good_count; rewrite <- two_good_count in N; lia).
    rewrite Ew. cbn [w_flag w_fit]. split; [tauto|]. split; [split; [discriminate|contradiction]|discriminate].
  - assert (Hfg : fg = ov) by (unfold fit_gagne in Ef; destruct (lsq _); congruence). subst fg.
    rewrite Ew. cbn [w_flag w_fit]. rewrite Oa, Og, Cnt. split; [tauto|]. split; [tauto|].
    intros f Hf. injection Hf as <-. cbn [w_corr_lag]. exists th. split; [destruct Ch as [(-> & _)|[(-> & _)|(-> & _)]]; auto|].
    intros i c g Hc Hg. destruct (nth_error f0 i) as [f|] eqn:Ef0.
    + destruct (P i c f Hc Ef0) as [P1 P2]. split.
      * intros ->. destruct (fleb (Fin th) c) eqn:Fc; [now apply corr_ge|]. assert (Al : ~ at_least th c) by (rewrite <- corr_ge; congruence).
        rewrite (P2 Al) in Hg. discriminate.
      * intro Al. rewrite (P2 Al) in Hg. congruence.
    + apply nth_error_None in Ef0. assert (i < length flags)%nat by (apply nth_error_Some; congruence). lia.
Qed.
