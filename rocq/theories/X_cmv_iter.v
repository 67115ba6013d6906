(** cmv.py compute_cmv: references given as a one-shot iterator. *)
From Coq Require Import String.
From Verif Require Import Prelude PreludeFacts RealBase Fl RealStat M_spatial Spec_spatial M_cmv Spec_cmv P_cmv P_plane X_cmv_options X_cmv_pairs X_cmv_qc X_cmv_cascade M_cmv_iter.
Local Open Scope R_scope.

Lemma it_mem_sound {K} `{Label K} (k : K) it b left : it_mem k it = (b, left) ->
  (b = true -> In k it) /\ incl left it /\ (length left + (if b then 1 else 0) <= length it)%nat.
Proof.
  revert b left. induction it as [|x it IH]; intros b left E; cbn in E.
  - injection E as <- <-. split; [discriminate|]. split; [apply incl_refl|cbn; lia].
  - destruct (lab_eqb x k) eqn:Q.
    + injection E as <- <-. apply lab_eqb_eq in Q. subst. split; [now left|]. split; [apply incl_tl, incl_refl|cbn; lia].
    + destruct (IH _ _ E) as (A & B & C). split; [right; auto|]. split; [apply incl_tl, B|]. cbn [length]. lia.
Qed.
Lemma it_mem_absent {K} `{Label K} (k : K) it : ~ In k it -> it_mem k it = (false, []).
Proof.
  induction it as [|x it IH]; [reflexivity|]. intro N. cbn. destruct (lab_eqb x k) eqn:Q.
  - apply lab_eqb_eq in Q. subst. destruct N. now left.
  - apply IH. intro I. apply N. now right.
Qed.
Lemma it_mem_present {K} `{Label K} (k : K) it : In k it -> NoDup it -> exists left, it_mem k it = (true, left) /\ ~ In k left.
Proof.
  induction it as [|x it IH]; [intros []|]. intros I N. inversion N as [|? ? N1 N2]; subst. cbn. destruct (lab_eqb x k) eqn:Q.
  - apply lab_eqb_eq in Q. subst. eauto.
  - destruct I as [->|I]; [rewrite (proj2 (lab_eqb_eq k k)) in Q by reflexivity; discriminate|]. now apply IH.
Qed.
Lemma pairs_kept_nil {K} `{Label K} (pairs : list (K * K)) : pairs_kept [] pairs = [].
Proof. induction pairs as [|p pairs IH]; [reflexivity|]. cbn. exact IH. Qed.

(*@ C136 A one-shot iterator of distinct references leaves at most one pair: the first site with itself, if it is one of
    them. *)
Lemma iterator_pairs : forall (K : Type) (HK : Label K) (a : K) (sites refs : list K), NoDup refs ->
  (In a refs -> get_pairs_iter (a :: sites) refs true = [(a, a)]) /\
  (~ In a refs -> get_pairs_iter (a :: sites) refs true = []).
Proof.
  intros K HK a sites refs N. unfold get_pairs_iter. cbn [combinations_wr map app]. split; intro I.
  - cbn [pairs_kept fst snd]. destruct (it_mem_present a refs I N) as (left & E & F). rewrite E. f_equal.
    destruct sites as [|b sites]; [cbn; reflexivity|]. cbn [map app pairs_kept fst snd]. rewrite (it_mem_absent a left F). cbn [it_mem]. apply pairs_kept_nil.
  - cbn [pairs_kept fst snd]. rewrite (it_mem_absent a refs I). cbn [it_mem]. apply pairs_kept_nil.
Qed.

(*@ C136 With or without repetitions: every pair kept is one the same references as a list would keep, and there are at most
    as many as references. *)
Lemma iterator_sound : forall (K : Type) (HK : Label K) (sites refs : list K) (rep : bool),
  incl (get_pairs_iter sites refs rep) (get_pairs sites (Some refs) rep) /\
  (length (get_pairs_iter sites refs rep) <= length refs)%nat.
Proof.
  intros K HK sites refs rep. unfold get_pairs_iter, get_pairs. generalize (if rep then combinations_wr sites else combinations sites). intro pairs.
  assert (G : forall it, incl it refs ->
    incl (pairs_kept it pairs) (filter (fun p => lab_mem (fst p) refs || lab_mem (snd p) refs) pairs) /\ (length (pairs_kept it pairs) <= length it)%nat).
  { induction pairs as [|p pairs IH]; intros it I; [split; [apply incl_refl|cbn; lia]|]. cbn [pairs_kept filter].
    destruct (it_mem (fst p) it) as [b left] eqn:E. destruct (it_mem_sound _ _ _ _ E) as (A & B & C).
    assert (Skip : forall l, incl l (filter (fun p => lab_mem (fst p) refs || lab_mem (snd p) refs) pairs) ->
      incl l (if lab_mem (fst p) refs || lab_mem (snd p) refs then p :: filter (fun p => lab_mem (fst p) refs || lab_mem (snd p) refs) pairs
              else filter (fun p => lab_mem (fst p) refs || lab_mem (snd p) refs) pairs)).
    { intros l L. destruct (_ || _); [now apply incl_tl|exact L]. }
    assert (Keep : forall l, (In (fst p) refs \/ In (snd p) refs) -> incl l (filter (fun p => lab_mem (fst p) refs || lab_mem (snd p) refs) pairs) ->
      incl (p :: l) (if lab_mem (fst p) refs || lab_mem (snd p) refs then p :: filter (fun p => lab_mem (fst p) refs || lab_mem (snd p) refs) pairs
              else filter (fun p => lab_mem (fst p) refs || lab_mem (snd p) refs) pairs)).
    { intros l M L. assert (T : lab_mem (fst p) refs || lab_mem (snd p) refs = true) by (apply Bool.orb_true_iff; rewrite !lab_mem_In; exact M).
      rewrite T. intros q [<-|Q]; [now left|right; now apply L]. }
    assert (Il : incl left refs) by (eapply incl_tran; eassumption).
    destruct b.
    - destruct (IH left Il) as (J & L). split; [apply Keep; [left; apply I, A; reflexivity|exact J]|cbn [length]; lia].
    - destruct (it_mem (snd p) left) as [b2 left2] eqn:E2. destruct (it_mem_sound _ _ _ _ E2) as (A2 & B2 & C2).
      assert (Il2 : incl left2 refs) by (eapply incl_tran; eassumption). destruct (IH left2 Il2) as (J & L). destruct b2.
      + split; [apply Keep; [right; apply Il, A2; reflexivity|exact J]|cbn [length]; lia].
      + split; [apply Skip, J|lia]. }
  exact (G refs (incl_refl _)).
Qed.

Lemma it_mem_false {K} `{Label K} (k : K) it left : it_mem k it = (false, left) -> left = [].
Proof. induction it as [|x it IH]; cbn; [now intros [= <-]|]. destruct (lab_eqb x k); [discriminate|exact IH]. Qed.

(*@ C136 The pairs kept are an initial stretch of all pairs, and each has a reference as its first site: a reference in
    second place is never noticed. *)
Lemma iterator_prefix : forall (K : Type) (HK : Label K) (sites refs : list K) (rep : bool),
  exists rest, get_pairs sites None rep = get_pairs_iter sites refs rep ++ rest /\
    forall p, In p (get_pairs_iter sites refs rep) -> In (fst p) refs.
Proof.
  intros K HK sites refs rep. unfold get_pairs_iter, get_pairs. generalize (if rep then combinations_wr sites else combinations sites). intro pairs.
  assert (G : forall it, incl it refs -> exists rest, pairs = pairs_kept it pairs ++ rest /\ forall p, In p (pairs_kept it pairs) -> In (fst p) refs).
  { induction pairs as [|p pairs IH]; intros it I; [exists []; split; [reflexivity|intros ? []]|]. cbn [pairs_kept].
    destruct (it_mem (fst p) it) as [b left] eqn:E. destruct (it_mem_sound _ _ _ _ E) as (A & B & _). destruct b.
    - destruct (IH left ltac:(eapply incl_tran; eassumption)) as (rest & R & S). exists rest. split; [cbn; now rewrite <- R|].
      intros q [<-|Q]; [apply I, A; reflexivity|auto].
    - apply it_mem_false in E. subst left. cbn [it_mem]. rewrite pairs_kept_nil. exists (p :: pairs). split; [reflexivity|intros ? []]. }
  exact (G refs (incl_refl _)).
Qed.

Lemma compute_cmv_pairs {K} `{Label K} dx dt ms lsq ts (pos : list (K * (R * R))) ref m o bk :
  compute_cmv dx dt ms lsq ts pos ref m o bk =
  if negb (String.eqb (lower m) "jamaly" || String.eqb (lower m) "gagne") then Err ValueError else
  if negb (String.eqb (lower bk) "xcorr" || String.eqb (lower bk) "tf") then Err ValueError else
  cmv_on_pairs dx dt ms lsq (get_pairs (map fst pos) (Some (ref_ids (map fst pos) ref)) true) ts pos (lower m) o (lower bk).
Proof. reflexivity. Qed.

(*@ C136 With such an iterator compute_cmv does exactly what it does on a layout of the first site alone, and whenever it
    returns, it returns speed 0, direction 0, the flag ALLBAD and that one pair. *)
Lemma iterator_motion : forall (K : Type) (HK : Label K) dx dt ms lsq ts (a : K) pa (pos : list (K * (R * R))) refs m o bk,
  one_answer_per_pair dx -> one_answer_per_pair dt -> NoDup refs -> In a refs ->
  compute_cmv_iter dx dt ms lsq ts ((a, pa) :: pos) refs m o bk = compute_cmv dx dt ms lsq ts [(a, pa)] RefNone m o bk /\
  forall v t w o', compute_cmv_iter dx dt ms lsq ts ((a, pa) :: pos) refs m o bk = Ok ((v, t, w), o') ->
    v = Fin 0 /\ t = Fin 0 /\ w_flag w = ALLBAD /\ w_allpairs w = [(a, a)] /\ w_fit w = None.
Proof.
  intros K HK dx dt ms lsq ts a pa pos refs m o bk Hx Ht N I.
  assert (Q : lab_eqb a a = true) by now apply lab_eqb_eq.
  assert (P1 : get_pairs [a] (Some [a]) true = [(a, a)]).
  { unfold get_pairs. cbn. now rewrite Q. }
  assert (E : compute_cmv_iter dx dt ms lsq ts ((a, pa) :: pos) refs m o bk = compute_cmv dx dt ms lsq ts [(a, pa)] RefNone m o bk).
  { rewrite compute_cmv_pairs. unfold compute_cmv_iter. cbv zeta. cbn [map fst ref_ids]. rewrite P1.
    rewrite (proj1 (iterator_pairs _ _ a (map fst pos) refs N) I).
    destruct (negb _); [reflexivity|]. destruct (negb _); [reflexivity|].
    unfold cmv_on_pairs. cbn [mapM fst snd]. unfold lookup at 3 4 7 8. cbn [dget]. rewrite Q. reflexivity. }
  split; [exact E|]. intros v t w o' R. rewrite E in R.
  destruct (cmv_failure_exit K HK dx dt ms lsq ts _ RefNone m o bk v t w o' Hx Ht R) as (L & F & G).
  assert (AP : w_allpairs w = [(a, a)]).
  { apply compute_cmv_inv in R. destruct R as (A & B & d & Pb & Pa & flags0 & overall & flags & R). cbv zeta in R.
    destruct R as (Km & Bk & NE & EA & EB & ED & EPb & EPa & EV & EQ & EG & EF).
    pose proof (finish_pairs _ _ _ _ _ _ _ _ _ _ _ _ EF) as [EP _]. rewrite EP. exact P1. }
  assert (W : w_fit w = None).
  { apply F. intro T. apply two_good_count in T. rewrite AP in L. cbn [length] in L.
    destruct (w_pair_flag w) as [|f [|? ?]]; [discriminate| |discriminate]. cbn in T. destruct (is_good f); cbn in T; lia. }
  destruct (G W) as (-> & -> & ->). auto.
Qed.

(*@ C136 If the first site is not among the references the call raises IndexError, whatever pairs the others would make. *)
Lemma iterator_no_first : forall (K : Type) (HK : Label K) dx dt ms lsq ts (a : K) pa (pos : list (K * (R * R))) refs m o bk,
  NoDup refs -> ~ In a refs -> known_method (lower m) -> (lower bk = "xcorr"%string \/ lower bk = "tf"%string) ->
  compute_cmv_iter dx dt ms lsq ts ((a, pa) :: pos) refs m o bk = Err IndexError.
Proof.
  intros K HK dx dt ms lsq ts a pa pos refs m o bk N I M B. unfold compute_cmv_iter. cbv zeta. cbn [map fst].
  rewrite (proj2 (iterator_pairs _ _ a (map fst pos) refs N) I).
  destruct M as [->| ->], B as [->| ->]; reflexivity.
Qed.

(*@ C136 Refuted: "an iterator of references is as good as the list of them". *)
Lemma iterator_refuted : exists (sites refs : list nat), NoDup refs /\
  get_pairs sites (Some refs) true = [(0, 0); (0, 1); (0, 2); (1, 1); (1, 2)]%nat /\ get_pairs_iter sites refs true = [(0, 0)]%nat.
Proof. exists [0; 1; 2]%nat, [0; 1]%nat. split; [repeat constructor; cbn; lia|]. split; reflexivity. Qed.

(*@ex C136 Three sites; the iterator repeats the first one: two pairs are kept, one for each time it is met. *)
Lemma iterator_example : get_pairs_iter [0; 1; 2]%nat [0; 0; 2]%nat true = [(0, 0); (0, 1)]%nat /\
  NoDup [2; 0]%nat /\ In 0%nat [2; 0]%nat /\ ~ In 1%nat [2; 0]%nat.
Proof. split; [reflexivity|]. split; [repeat constructor; cbn; lia|]. split; cbn; lia. Qed.
