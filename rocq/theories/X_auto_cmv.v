(** Final forms: the automatic selection of cloud-motion vectors in the demos. *)
From Coq Require Import String Permutation Sorted Lia Lra Ratan.
From Verif Require Import Prelude PreludeFacts RealBase Fl RealStat M_spatial Spec_spatial P_plane M_cmv Spec_field P_field_lsa Spec_cmv P_cmv X_cmv_fit X_cmv_subset M_cmv_dict X_cmv_dict Spec_field_loop
  M_auto_cmv Spec_auto_cmv.
Local Open Scope R_scope.

(*@ C109 The hours looked at are the ones with the largest median score, at most [n] of them; hours without any score only if the others do
    not suffice. *)
Lemma auto_hours : forall (H : Type) sv (vs : list (H * list (option R))) n, sorts_desc sv ->
  exists scored, Forall2 (fun v s => fst s = fst v /\ median_of (snd v) (snd s)) vs scored /\ top_scores scored n (variable_hours sv vs n).
Proof.
  intros H sv vs n Hs. exists (map (fun r => (fst r, hour_score (snd r))) vs). split.
  - induction vs as [|v vs IH]; constructor; auto. split; [reflexivity|]. exists (present (snd v)). split; [|reflexivity].
    cbn. unfold present. clear. induction (snd v) as [|x l IH]; [reflexivity|]. cbn. destruct x; cbn; congruence.
  - destruct (Hs (map (fun r => (fst r, hour_score (snd r))) vs)) as [HP HS]. unfold variable_hours, top_scores.
    set (l := sv _) in *. exists (firstn n l), (skipn n l). split; [reflexivity|]. rewrite firstn_skipn. split; [exact HP|].
    split; [rewrite firstn_length; now rewrite (Permutation_length HP)|].
    clear HP. clearbody l. intros b r Hb Hr. revert l HS Hb Hr. induction n as [|n IH]; intros l HS Hb Hr; [destruct Hb|].
    destruct l as [|x l]; [destruct Hb|]. inversion HS as [|? ? HS' F]; subst. cbn in Hb, Hr. destruct Hb as [->|Hb]; [|now apply (IH l)].
    rewrite Forall_forall in F. apply F. rewrite <- (firstn_skipn n l). apply in_or_app. now right.
Qed.

Lemma hour_cmv_ok {H K} (run : H -> result (fl * fl * windspeed K)) h x : hour_cmv run h = Ok x <-> hour_report run h x.
Proof.
  unfold hour_cmv, hour_report. destruct (run h) as [[[s t] w]|e]; cbn [rbind]; [|split; [discriminate|intros (? & ? & ? & ? & ? & F & _); discriminate]].
  destruct (w_fit w) as [f|] eqn:Ef; [|split; [discriminate|intros (? & ? & ? & ? & ? & F & F' & _); congruence]].
  destruct (w_method_data f) as [j|] eqn:Ej; [|split; [discriminate|intros (? & ? & ? & ? & ? & F & F' & F'' & _); congruence]].
  split; [intro E; injection E as <-; do 5 eexists; repeat split; eauto|].
  intros (? & ? & ? & ? & ? & F & F' & F'' & ->). injection F as <- <- <-. rewrite Ef in F'. injection F' as <-. rewrite Ej in F''. now injection F'' as <-.
Qed.

(*@ C109 Of an hour's run of compute_cmv: with at least two passing pairs the row holds the returned speed and direction, the number of
    passing pairs and the run's r_corr; with fewer the demo stops with a TypeError. *)
Lemma auto_hour : forall (H K : Type) (HK : Label K) dx dt ms lsq (ts : H -> list (K * list (option R))) pos o h s t w o',
  one_answer_per_pair dx -> one_answer_per_pair dt ->
  compute_cmv dx dt ms lsq (ts h) pos RefNone "jamaly" o "xcorr" = Ok ((s, t, w), o') ->
  let run h := rmap fst (compute_cmv dx dt ms lsq (ts h) pos RefNone "jamaly" o "xcorr") in
  (two_good (w_pair_flag w) -> exists f j, w_fit w = Some f /\ w_method_data f = Some j /\
     hour_cmv run h = Ok (h, (s, t, length (filter (fun g => flag_eqb g GOOD) (w_pair_flag w)), j_rcorr j), w_flag w)) /\
  (~ two_good (w_pair_flag w) -> hour_cmv run h = Err TypeError).
Proof.
  intros H K HK dx dt ms lsq ts pos o h s t w o' Hx Ht E run.
  assert (ER : run h = Ok (s, t, w)) by (unfold run; rewrite E; reflexivity). split; intro G.
  - destruct (cmv_dict _ _ _ _ _ _ _ _ _ _ _ _ _ _ _ _ Hx Ht E G) as (A & B & d & lag & cor & dists & md & _ & _ & _ & _ & _ & _ & _ & _ & _ & _ & _ & _ & _ & _ & _ & _ & _ & _ & _ & EM & _ & HJ).
    destruct (HJ eq_refl) as (vel & rq & va & vb & EK & EN & _ & EL & _). unfold to_dict in EM. cbn in EM.
    destruct (w_fit w) as [f|] eqn:Ef; [|discriminate]. injection EM as <-. exists f. destruct (w_method_data f) as [j|] eqn:Ej; [|discriminate].
    exists j. split; [reflexivity|]. split; [first [exact Ej|reflexivity]|]. apply hour_cmv_ok. exists s, t, w, f, j. repeat split; auto.
    cbn in EN. injection EN as EN. rewrite EN, EL. reflexivity.
  - destruct (cmv_dict_failed _ _ _ _ _ _ _ _ _ _ _ _ _ _ _ _ Hx Ht E G) as (_ & _ & D). specialize (D "method_data"%string). cbn in D.
    unfold hour_cmv. rewrite ER. cbn [rbind]. destruct (w_fit w); [discriminate|reflexivity].
Qed.

Lemma picks_filter {A} (Q : A -> Prop) (f : A -> bool) l : (forall x, In x l -> f x = true <-> Q x) -> picks Q l (filter f l).
Proof.
  induction l as [|x l IH]; intro Hf; [constructor|]. cbn. assert (picks Q l (filter f l)) by (apply IH; intros; apply Hf; now right).
  specialize (Hf x (or_introl eq_refl)). destruct (f x); constructor; auto; [now apply Hf|]. intro F. apply Hf in F. discriminate.
Qed.
Lemma picks_unique {A} (Q : A -> Prop) l a : picks Q l a -> forall b, picks Q l b -> a = b.
Proof. intro P. induction P; intros b Pb; inversion Pb; subst; try contradiction; auto. f_equal. auto. Qed.

Lemma kept_good {H} ngm rmin (rows : list (H * cmv_row)) flags : nth 0 flags GOOD = GOOD -> picks (sound_row ngm rmin) rows (kept_rows ngm rmin rows flags).
Proof.
  intro G. apply picks_filter. intros [h [[[sp di] m] q]] _. unfold bad_row, sound_row, cr_ngood, cr_rcorr. rewrite G. cbn [is_good flag_eqb negb fst snd].
  destruct (Nat.ltb_spec m ngm). { cbn [negb]. split; [intro F; discriminate F|]. intros [F _]. lia. }
  destruct (fltb q (Fin rmin)). { cbn [negb]. split; [intro F; discriminate F|]. intros [_ F]. now contradiction F. }
  cbn. split; auto.
Qed.
Lemma kept_bad {H} ngm rmin (rows : list (H * cmv_row)) flags : nth 0 flags GOOD <> GOOD -> kept_rows ngm rmin rows flags = [].
Proof.
  intro G. unfold kept_rows. induction rows as [|r rows IH]; [reflexivity|]. cbn [filter]. 
  assert (B : bad_row ngm rmin flags (snd r) = true).
  { unfold bad_row. destruct (Nat.ltb _ _); auto. destruct (fltb _ _); auto. destruct (nth 0 flags GOOD); try reflexivity. now contradiction G. }
  rewrite B. exact IH.
Qed.

(*@ C109 The quality filter looks at the number of passing pairs, at r_corr, and at the flag of the first hour only: if that is GOOD, an hour is
    kept exactly when it has enough passing pairs and its r_corr is not too small, whatever its own flag; otherwise no hour is kept. *)
Lemma auto_kept : forall (H K : Type) sv (run : H -> result (fl * fl * windspeed K)) lsa shgo nv ngm rmin n vs kept chosen,
  auto_select sv run lsa shgo nv ngm rmin n vs = Ok (kept, chosen) ->
  exists reports, Forall2 (hour_report run) (variable_hours sv vs nv) reports /\
    (forall x rest, reports = x :: rest -> snd x = GOOD -> picks (sound_row ngm rmin) (map fst reports) kept) /\
    (forall x rest, reports = x :: rest -> snd x <> GOOD -> kept = []) /\ (reports = [] -> kept = []).
Proof.
  intros H K sv run lsa shgo nv ngm rmin n vs kept chosen E. unfold auto_select in E.
  destruct (mapM (hour_cmv run) _) as [done|] eqn:ED; [|discriminate]. cbn [rbind] in E.
  destruct (diverse _ _ _ _) as [idx|]; [|discriminate]. cbn [rbind] in E. destruct (mapM _ idx) as [ch|]; [|discriminate]. cbn [rbind] in E. injection E as <- _.
  exists done. split.
  { apply mapM_ok_iff in ED. clear -ED. induction ED; constructor; auto. now apply hour_cmv_ok. }
  split; [|split].
  - intros x rest -> G. apply kept_good. exact G.
  - intros x rest -> G. apply kept_bad. exact G.
  - intros ->. reflexivity.
Qed.

Lemma diverse_inv {H} lsa shgo n (kept : list (H * cmv_row)) idx : diverse lsa shgo n kept = Ok idx ->
  n <> 0%nat /\ exists vecs, Forall2 row_vector kept vecs /\ optimum_subset lsa shgo (map fst vecs) (map snd vecs) n = Ok idx.
Proof.
  unfold diverse. destruct (Nat.eqb_spec n 0) as [|N]; [discriminate|]. destruct (forallb _ kept) eqn:F; [|discriminate]. intro E. split; auto.
  set (vec := fun r : H * cmv_row => match cr_spd (snd r), cr_dir (snd r) with Fin s, Fin t => pol2rect s t | _, _ => (0, 0) end) in E.
  exists (map vec kept). rewrite !map_map. split; [|exact E]. rewrite forallb_forall in F. clear E. induction kept as [|r kept IH]; constructor.
  - specialize (F r (or_introl eq_refl)). unfold row_vector, vec, cr_spd, cr_dir in *. destruct r as [h [[[s t] m] q]]. cbn [fst snd] in *.
    destruct s as [s| | |]; try discriminate. destruct t as [t| | |]; try discriminate. exists s, t. repeat split.
  - apply IH. intros; apply F; now right.
Qed.
Lemma diverse_ok {H} lsa shgo n (kept : list (H * cmv_row)) vecs : n <> 0%nat -> Forall2 row_vector kept vecs ->
  diverse lsa shgo n kept = optimum_subset lsa shgo (map fst vecs) (map snd vecs) n.
Proof.
  intros N F. unfold diverse. destruct (Nat.eqb_spec n 0) as [|_]; [contradiction|].
  assert (A : forallb (fun r : H * cmv_row => (is_finite (cr_spd (snd r)) && is_finite (cr_dir (snd r)))%bool) kept = true /\
     map (fun r : H * cmv_row => match cr_spd (snd r), cr_dir (snd r) with Fin s, Fin t => pol2rect s t | _, _ => (0, 0) end) kept = vecs).
  { induction F as [|r v kept vecs (s & t & Es & Et & ->) F IH]; [easy|]. destruct IH as [IH1 IH2]. cbn [forallb map]. rewrite IH1, IH2. destruct r as [h [[[s' t'] m] q]]. cbn [fst snd] in Es, Et. subst s' t'. split; reflexivity. }
  destruct A as [A1 A2]. rewrite A1. rewrite <- A2, !map_map. reflexivity.
Qed.

Lemma combine_fst_snd {A B} (l : list (A * B)) : combine (map fst l) (map snd l) = l.
Proof. induction l as [|[a b] l IH]; cbn; congruence. Qed.

Lemma gather {A} (l : list A) idx out : mapM (fun i => match nth_error l i with Some r => Ok r | None => Err IndexError end) idx = Ok out <-> Forall2 (fun i r => nth_error l i = Some r) idx out.
Proof.
  rewrite mapM_ok_iff. split; intro F; induction F as [|i r idx out E F IH]; constructor; auto.
  - destruct (nth_error l i); congruence.
  - now rewrite E.
Qed.

Lemma NoDup_map_on {A B} (f : A -> B) l : (forall x y, In x l -> In y l -> f x = f y -> x = y) -> NoDup l -> NoDup (map f l).
Proof.
  intros Hf N. induction N as [|x l NI N IH]; cbn; constructor.
  - intro I. apply in_map_iff in I. destruct I as (y & E & I). apply Hf in E; [subst; contradiction|now right|now left].
  - apply IH. intros; apply Hf; auto; now right.
Qed.
Lemma NoDup_join {A} (l l' : list A) : NoDup l -> NoDup l' -> (forall x, In x l -> In x l' -> False) -> NoDup (l ++ l').
Proof.
  intros N N' D. induction N as [|x l NI N IH]; cbn; [exact N'|]. constructor.
  - rewrite in_app_iff. intros [I|I]; [contradiction|]. apply (D x); [now left|exact I].
  - apply IH. intros y I. apply D. now right.
Qed.
Lemma gather_perm {A} (l : list A) : forall idx out, NoDup idx -> Forall2 (fun i r => nth_error l i = Some r) idx out -> exists rest, Permutation l (out ++ rest).
Proof.
  induction l as [|x l IH]; intros idx out ND F.
  - inversion F as [|i r ? ? E]; subst; [exists []; constructor|]. destruct i; discriminate.
  - destruct (in_dec Nat.eq_dec 0%nat idx) as [I|I].
    + apply in_split in I. destruct I as (a & b & ->). apply Forall2_app_inv_l in F. destruct F as (oa & ob & Fa & Fb & ->). inversion Fb as [|? r ? ob' E Fb']; subst. cbn in E. injection E as ->.
      apply NoDup_remove in ND. destruct ND as [ND NI].
      destruct (IH (map Nat.pred (a ++ b)) (oa ++ ob')) as (rest & HP).
      * apply NoDup_map_on; auto. intros i j Hi Hj E. assert (i <> 0%nat) by (intros ->; contradiction). assert (j <> 0%nat) by (intros ->; contradiction). lia.
      * rewrite map_app. apply Forall2_app; [clear -Fa NI|clear -Fb' NI].
        { assert (N : ~ In 0%nat a) by (intro F; apply NI, in_or_app; now left). clear NI. induction Fa as [|i y ? ? E Fa IH]; constructor; [|apply IH; intro; apply N; now right].
          destruct i; [exfalso; apply N; now left|]. exact E. }
        { assert (N : ~ In 0%nat b) by (intro F; apply NI, in_or_app; now right). clear NI. induction Fb' as [|i y ? ? E Fa IH]; constructor; [|apply IH; intro; apply N; now right].
          destruct i; [exfalso; apply N; now left|]. exact E. }
      * exists rest. rewrite <- app_assoc. cbn. rewrite <- Permutation_middle. apply perm_skip. now rewrite app_assoc.
    + destruct (IH (map Nat.pred idx) out) as (rest & HP).
      * apply NoDup_map_on; auto. intros i j Hi Hj E. assert (i <> 0%nat) by (intros ->; contradiction). assert (j <> 0%nat) by (intros ->; contradiction). lia.
      * clear -F I. induction F as [|i y ? ? E Fa IH]; constructor; [|apply IH; intro; apply I; now right]. destruct i; [exfalso; apply I; now left|]. exact E.
      * exists (x :: rest). rewrite <- Permutation_middle. now apply perm_skip.
Qed.

(*@ C109 The chosen hours: [n] different kept ones, all kept ones having a direction; for the rotation the optimiser settled on no other
    [n] kept hours are better aligned with [n] evenly spaced axes. *)
Lemma auto_chosen : forall (H K : Type) sv (run : H -> result (fl * fl * windspeed K)) lsa shgo nv ngm rmin n vs kept chosen,
  lsa_correct lsa -> auto_select sv run lsa shgo nv ngm rmin n vs = Ok (kept, chosen) -> (n <= length kept)%nat ->
  length chosen = n /\ (exists rest, Permutation kept (chosen ++ rest)) /\
  exists vecs idx y, Forall2 row_vector kept vecs /\ Forall (fun v => v <> (0, 0)) vecs /\
    assignment n (length kept) idx /\ Forall2 (fun i r => nth_error kept i = Some r) idx chosen /\
    forall cols, assignment n (length kept) cols -> total_alignment vecs n y cols <= total_alignment vecs n y idx.
Proof.
  intros H K sv run lsa shgo nv ngm rmin n vs kept chosen Hl E Ln. unfold auto_select in E.
  destruct (mapM (hour_cmv run) _) as [done|]; [|discriminate]. cbn [rbind] in E.
  destruct (diverse _ _ _ _) as [idx|] eqn:EV; [|discriminate]. cbn [rbind] in E. destruct (mapM _ idx) as [ch|] eqn:EC; [|discriminate]. cbn [rbind] in E. injection E as EK EH. subst ch.
  rewrite EK in *. apply gather in EC. apply diverse_inv in EV. destruct EV as (N & vecs & FV & EO).
  assert (LV : length vecs = length kept) by (symmetry; eapply Forall2_len; exact FV).
  destruct (subset_optimal lsa shgo (map fst vecs) (map snd vecs) n idx Hl) as (A & f & y & _ & Opt & _); [rewrite map_length; lia|exact EO|].
  rewrite map_length, LV in *. rewrite combine_fst_snd in Opt. destruct A as (A1 & A2 & A3).
  split; [rewrite <- A1; symmetry; eapply Forall2_len; exact EC|]. split; [eapply gather_perm; eauto|].
  exists vecs, idx, y. split; [exact FV|]. split.
  { destruct (subset_success lsa shgo (map fst vecs) (map snd vecs) n) as (_ & S & _). destruct (proj1 S (ex_intro _ idx EO)) as (_ & _ & NZ). now rewrite combine_fst_snd in NZ. }
  split; [now split|]. split; [exact EC|]. exact Opt.
Qed.

Lemma mapM_first {A B} (f : A -> result B) a h b e : (forall x, In x a -> exists y, f x = Ok y) -> f h = Err e -> mapM f (a ++ h :: b) = Err e.
Proof.
  intros Ha Hh. induction a as [|x a IH]; cbn [app mapM]; [now rewrite Hh|].
  destruct (Ha x (or_introl eq_refl)) as (y & ->). cbn [rbind]. rewrite IH; [reflexivity|]. intros; apply Ha; now right.
Qed.

(*@ C109 The first hour that cannot be reported ends the selection: with its own exception, or with a TypeError when it has fewer than two
    passing pairs. *)
Lemma auto_fails : forall (H K : Type) sv (run : H -> result (fl * fl * windspeed K)) lsa shgo nv ngm rmin n vs a h b,
  variable_hours sv vs nv = a ++ h :: b -> (forall x, In x a -> exists r, hour_report run x r) ->
  (forall e, run h = Err e -> auto_select sv run lsa shgo nv ngm rmin n vs = Err e) /\
  (forall s t w, run h = Ok (s, t, w) -> w_fit w = None -> auto_select sv run lsa shgo nv ngm rmin n vs = Err TypeError).
Proof.
  intros H K sv run lsa shgo nv ngm rmin n vs a h b Eh Ha.
  assert (Ha' : forall x, In x a -> exists y, hour_cmv run x = Ok y) by (intros x Hx; destruct (Ha x Hx) as (r & Hr); exists r; now apply hour_cmv_ok).
  split.
  - intros e Ee. unfold auto_select. rewrite Eh, (mapM_first _ a h b e Ha'); [reflexivity|]. unfold hour_cmv. now rewrite Ee.
  - intros s t w Ew Ef. unfold auto_select. rewrite Eh, (mapM_first _ a h b TypeError Ha'); [reflexivity|]. unfold hour_cmv. rewrite Ew. cbn [rbind]. now rewrite Ef.
Qed.

(*@ C109 When every hour is reported and at least [n] >= 1 hours are kept, the selection succeeds exactly if each kept one has a finite direction and a
    finite speed other than zero; otherwise it is a ValueError. *)
Lemma auto_success : forall (H K : Type) sv (run : H -> result (fl * fl * windspeed K)) lsa shgo nv ngm rmin n vs x reports kept,
  lsa_correct lsa -> Forall2 (hour_report run) (variable_hours sv vs nv) (x :: reports) -> snd x = GOOD ->
  picks (sound_row ngm rmin) (map fst (x :: reports)) kept -> n <> 0%nat -> (n <= length kept)%nat ->
  ((forall r, In r kept -> exists s t, fst (fst (fst (snd r))) = Fin s /\ s <> 0 /\ snd (fst (fst (snd r))) = Fin t) ->
     exists chosen, auto_select sv run lsa shgo nv ngm rmin n vs = Ok (kept, chosen)) /\
  (~ (forall r, In r kept -> exists s t, fst (fst (fst (snd r))) = Fin s /\ s <> 0 /\ snd (fst (fst (snd r))) = Fin t) ->
     auto_select sv run lsa shgo nv ngm rmin n vs = Err ValueError).
Proof.
  intros H K sv run lsa shgo nv ngm rmin n vs x reports kept Hl FR G HP N Ln.
  assert (EM : mapM (hour_cmv run) (variable_hours sv vs nv) = Ok (x :: reports)).
  { apply mapM_ok_iff. clear -FR. induction FR; constructor; auto. now apply hour_cmv_ok. }
  assert (EK : kept_rows ngm rmin (map fst (x :: reports)) (map snd (x :: reports)) = kept) by (eapply picks_unique; [apply kept_good; exact G|exact HP]).
  unfold auto_select. rewrite EM. cbn [rbind]. rewrite EK. clear EM EK HP FR.
  assert (Z : forall s t, (s * cos t, s * sin t) = (0, 0) -> s = 0).
  { intros s t E. injection E as E1 E2. pose proof (sin2_cos2 t) as SC. unfold Rsqr in SC. nra. }
  split.
  - intro HF.
    assert (VV : exists vecs, Forall2 row_vector kept vecs /\ Forall (fun v => v <> (0, 0)) vecs).
    { clear -HF Z. induction kept as [|r kept IH]; [exists []; split; constructor|].
      destruct IH as (vecs & F1 & F2); [intros; apply HF; now right|]. destruct (HF r (or_introl eq_refl)) as (s & t & Es & Ns & Et).
      exists ((s * cos t, s * sin t) :: vecs). split; constructor; auto; [exists s, t; auto|]. intro F. apply Ns. now apply (Z s t). }
    destruct VV as (vecs & F1 & F2). rewrite (diverse_ok lsa shgo n kept vecs N F1).
    destruct (subset_success lsa shgo (map fst vecs) (map snd vecs) n) as (_ & S & _).
    destruct (proj2 S) as (idx & EO). { split; auto. rewrite !map_length. split; auto. now rewrite combine_fst_snd. }
    rewrite EO. cbn [rbind]. pose proof (Forall2_len _ _ _ F1) as LV.
    destruct (subset_optimal lsa shgo (map fst vecs) (map snd vecs) n idx Hl) as (A & _); [rewrite map_length; lia|exact EO|]. rewrite map_length in A.
    assert (exists out, Forall2 (fun i r => nth_error kept i = Some r) idx out) as (out & Fo).
    { destruct A as (_ & _ & A). clear -A LV. induction A as [|i idx Hi A IH]; [exists []; constructor|]. destruct IH as (out & Fo).
      destruct (nth_error kept i) as [r|] eqn:Er; [exists (r :: out); now constructor|]. apply nth_error_None in Er. lia. }
    apply gather in Fo. rewrite Fo. cbn [rbind]. eauto.
  - intro HF. destruct (diverse lsa shgo n kept) as [idx|e] eqn:ED.
    + exfalso. apply HF. apply diverse_inv in ED. destruct ED as (_ & vecs & F1 & EO).
      destruct (subset_success lsa shgo (map fst vecs) (map snd vecs) n) as (_ & S & _). destruct (proj1 S (ex_intro _ idx EO)) as (_ & _ & NZ). rewrite combine_fst_snd in NZ.
      clear -F1 NZ. induction F1 as [|r v kept vecs (s & t & Es & Et & ->) F1 IH]; intros r0 Hr; [destruct Hr|]. inversion NZ; subst. destruct Hr as [<-|Hr]; [|now apply IH].
      exists s, t. split; [exact Es|]. split; [|exact Et]. intros ->. apply H2. f_equal; ring.
    + cbn [rbind]. f_equal. unfold diverse in ED. destruct (Nat.eqb_spec n 0) as [|_]; [contradiction|]. destruct (forallb _ kept); [|congruence].
      destruct (subset_success lsa shgo (map (fun r : H * cmv_row => fst (match cr_spd (snd r), cr_dir (snd r) with Fin s, Fin t => pol2rect s t | _, _ => (0, 0) end)) kept)
         (map (fun r : H * cmv_row => snd (match cr_spd (snd r), cr_dir (snd r) with Fin s, Fin t => pol2rect s t | _, _ => (0, 0) end)) kept) n) as (Z0 & _ & S).
      destruct (S e ED) as [->| ->]; [reflexivity|]. apply Z0 in ED. destruct ED as [ED _]. contradiction.
Qed.

Lemma Rltb_iff a b : Rltb a b = true <-> a < b.
Proof. destruct (Rltb_spec a b); intuition congruence. Qed.
Lemma earlier_cons {A} (x : A) l p : earlier_later (x :: l) p <-> (fst p = x /\ In (snd p) l) \/ earlier_later l p.
Proof.
  unfold earlier_later. split.
  - intros (i & j & Hij & Ei & Ej). destruct j as [|j]; [lia|]. cbn in Ej. destruct i as [|i].
    + left. cbn in Ei. split; [congruence|]. eapply nth_error_In; eauto.
    + right. exists i, j. repeat split; auto. lia.
  - intros [[E I]|(i & j & Hij & Ei & Ej)].
    + apply In_nth_error in I. destruct I as (j & Ej). exists 0%nat, (S j). repeat split; [lia|cbn; congruence|exact Ej].
    + exists (S i), (S j). repeat split; auto. lia.
Qed.
Lemma combinations_In {A} (l : list A) p : In p (combinations2 l) <-> earlier_later l p.
Proof.
  induction l as [|x l IH]; cbn [combinations2].
  - split; [intros []|]. intros (i & j & _ & E & _). destruct i; discriminate.
  - rewrite in_app_iff, earlier_cons, <- IH, in_map_iff. split; (intros [F|F]; [left|now right]).
    + destruct F as (y & <- & I). auto.
    + destruct F as [E I]. exists (snd p). split; [|exact I]. destruct p. cbn in *. congruence.
Qed.
Lemma combinations_NoDup {A} (l : list A) : NoDup l -> NoDup (combinations2 l).
Proof.
  induction l as [|x l IH]; intro N; [constructor|]. inversion N; subst. cbn [combinations2]. apply NoDup_join.
  - apply FinFun.Injective_map_NoDup; auto. intros a b E. congruence.
  - auto.
  - intros p I J. apply in_map_iff in I. destruct I as (y & <- & _). apply combinations_In in J. destruct J as (i & j & _ & E & _). apply nth_error_In in E. contradiction.
Qed.

Lemma unit_ok v : v <> (0, 0) -> unit_vec v = (Fin (fst v / len v), Fin (snd v / len v)).
Proof.
  intro N. unfold unit_vec. rewrite magnitude_len. assert (len v <> 0) by (intro F; apply N; now apply len_zero). now rewrite !fdiv_fin.
Qed.
Lemma unit_zero : unit_vec (0, 0) = (Nan, Nan).
Proof.
  unfold unit_vec. rewrite magnitude_len. replace (len (0, 0)) with 0; [|symmetry; apply len_zero; reflexivity]. cbn [fst snd]. rewrite !fdiv_zero. unfold sgn_inf. rewrite !Rltb_false by lra. reflexivity.
Qed.

Lemma inner_bound a b : Rabs (inner a b) <= len a * len b.
Proof.
  rewrite <- (Rabs_pos_eq (len a * len b)) by (apply Rmult_le_pos; apply sqrt_pos). apply Rsqr_le_abs_0.
  unfold Rsqr. unfold len. replace (sqrt (inner a a) * sqrt (inner b b) * (sqrt (inner a a) * sqrt (inner b b))) with ((sqrt (inner a a) * sqrt (inner a a)) * (sqrt (inner b b) * sqrt (inner b b))) by ring.
  rewrite !sqrt_sqrt by (unfold inner; nra). unfold inner. pose proof (Rle_0_sqr (fst a * snd b - snd a * fst b)) as Q. unfold Rsqr in Q. nra.
Qed.

Lemma angle_ok a b : a <> (0, 0) -> b <> (0, 0) -> angle_between a b = Fin (acos (inner a b / (len a * len b)) * 180 / PI).
Proof.
  intros Na Nb. unfold angle_between. rewrite (unit_ok a Na), (unit_ok b Nb). do 4 f_equal. unfold dot, inner. cbn [fst snd].
  assert (len a <> 0) by (intro F; apply Na; now apply len_zero). assert (len b <> 0) by (intro F; apply Nb; now apply len_zero). field. auto.
Qed.

Lemma acos_between x d : -1 <= x <= 1 -> 0 <= d <= PI / 2 -> (d < acos x < PI - d <-> Rabs x < cos d).
Proof.
  intros Hx Hd. pose proof (acos_bound x) as B. pose proof (cos_acos x Hx) as E. set (y := acos x) in *. clearbody y. subst x. clear Hx.
  pose proof PI_RGT_0.
  assert (C : cos (PI - d) = - cos d) by (rewrite Rtrigo_facts.cos_pi_minus; reflexivity).
  assert (C0 : 0 <= cos d) by (apply cos_ge_0; lra). split.
  - intros [L U]. apply Rabs_def1.
    + apply cos_decreasing_1; lra.
    + rewrite <- C. apply cos_decreasing_1; lra.
  - intro L. apply Rabs_def2 in L. destruct L as [L1 L2]. split.
    + apply cos_decreasing_0; lra.
    + apply cos_decreasing_0; try lra. 
Qed.

(*@ C109 The pairs of CMVs used by the field demo: exactly the pairs of different CMVs, the earlier one first, whose lines of motion cross at more than
    [sep] degrees; a CMV of zero is in no pair; no pair comes twice. *)
Lemma pairs_crossing : forall (A : Type) sep (cmvs : list (A * (R * R))), 0 <= sep <= 90 ->
  (forall p, In p (cmv_pairs sep cmvs) <-> earlier_later cmvs p /\ crosses_at sep (snd (fst p)) (snd (snd p))) /\
  (NoDup cmvs -> NoDup (cmv_pairs sep cmvs)).
Proof.
  intros A sep cmvs Hs. unfold cmv_pairs. split; [|intro N; apply NoDup_filter; now apply combinations_NoDup].
  intro p. rewrite filter_In, combinations_In. apply and_iff_compat_l. cbv zeta. destruct p as [[ka a] [kb b]]. cbn [fst snd]. unfold crosses_at.
  assert (Zl : forall c, angle_between (0, 0) c = Nan) by (intro c; unfold angle_between; now rewrite unit_zero).
  assert (Zr : forall c, angle_between c (0, 0) = Nan) by (intro c; unfold angle_between; rewrite unit_zero; destruct (unit_vec c) as [[] []]; reflexivity).
  assert (D : forall c : R * R, c = (0, 0) \/ c <> (0, 0)) by (intros [x y]; destruct (Req_dec x 0) as [->|]; [destruct (Req_dec y 0) as [->|]; [left; reflexivity|right; congruence]|right; congruence]).
  destruct (D a) as [->|Na]. { rewrite Zl. cbn. split; [discriminate|]. intros (F & _). now contradiction F. }
  destruct (D b) as [->|Nb]. { rewrite Zr. cbn. split; [discriminate|]. intros (_ & F & _). now contradiction F. }
  rewrite (angle_ok a b Na Nb). cbn [fltb]. rewrite andb_true_iff, !Rltb_iff.
  assert (Pa : 0 < len a) by (destruct (Req_dec (len a) 0) as [F|F]; [exfalso; apply Na; now apply len_zero|pose proof (sqrt_pos (inner a a)) as Q; unfold len in *; lra]).
  assert (Pb : 0 < len b) by (destruct (Req_dec (len b) 0) as [F|F]; [exfalso; apply Nb; now apply len_zero|pose proof (sqrt_pos (inner b b)) as Q; unfold len in *; lra]).
  assert (Pab : 0 < len a * len b) by now apply Rmult_lt_0_compat.
  pose proof (inner_bound a b) as IB. pose proof PI_RGT_0 as PP.
  assert (Bx : -1 <= inner a b / (len a * len b) <= 1).
  { assert (IB' : - (len a * len b) <= inner a b <= len a * len b) by (revert IB; unfold Rabs; destruct (Rcase_abs _); lra). clear IB; rename IB' into IB. split; [apply Rmult_le_reg_r with (len a * len b)|apply Rmult_le_reg_r with (len a * len b)]; try assumption; unfold Rdiv; rewrite ?Rmult_assoc, Rinv_l; lra. }
  pose proof (acos_between _ (sep * PI / 180) Bx) as AB. assert (H0 : 0 <= sep * PI / 180 <= PI / 2) by nra. specialize (AB H0). clear H0.
  set (th := acos _) in *. set (x := inner a b / _) in *.
  assert (X : Rabs (inner a b) = Rabs x * (len a * len b)) by (unfold x; rewrite <- (Rabs_pos_eq (len a * len b)) at 2 by lra; rewrite <- Rabs_mult; f_equal; field; lra).
  transitivity (sep * PI / 180 < th < PI - sep * PI / 180).
  - split; intros [L U]; split.
    + apply Rmult_lt_reg_r with (180 / PI); [now apply Rdiv_lt_0_compat; lra|]. replace (sep * PI / 180 * (180 / PI)) with sep by (field; lra). replace (th * (180 / PI)) with (th * 180 / PI) by (field; lra). exact L.
    + apply Rmult_lt_reg_r with (180 / PI); [now apply Rdiv_lt_0_compat; lra|]. replace ((PI - sep * PI / 180) * (180 / PI)) with (180 - sep) by (field; lra). replace (th * (180 / PI)) with (th * 180 / PI) by (field; lra). exact U.
    + apply Rmult_lt_reg_r with (PI / 180); [lra|]. replace (th * 180 / PI * (PI / 180)) with th by (field; lra). lra.
    + apply Rmult_lt_reg_r with (PI / 180); [lra|]. replace (th * 180 / PI * (PI / 180)) with th by (field; lra). lra.
  - rewrite AB, X. split; [intro L; split; auto; split; auto; now apply Rmult_lt_compat_r|]. intros (_ & _ & L). now apply Rmult_lt_reg_r in L.
Qed.

(*@ C109 No pair that is used is parallel or opposite. *)
Lemma pairs_not_parallel : forall (A : Type) sep (cmvs : list (A * (R * R))) p, 0 <= sep <= 90 -> In p (cmv_pairs sep cmvs) ->
  ~ parallel (snd (fst p)) (snd (snd p)).
Proof.
  intros A sep cmvs p Hs I. apply (proj1 (pairs_crossing A sep cmvs Hs)) in I. destruct I as (_ & Na & Nb & L). destruct p as [[ka a] [kb b]]. cbn [fst snd] in *.
  intro P. unfold parallel, cross in P. pose proof (COS_bound (sep * PI / 180)) as CB. pose proof PI_RGT_0.
  assert (Q : (inner a b) * (inner a b) = (len a * len b) * (len a * len b)).
  { unfold len. replace (sqrt (inner a a) * sqrt (inner b b) * (sqrt (inner a a) * sqrt (inner b b))) with ((sqrt (inner a a) * sqrt (inner a a)) * (sqrt (inner b b) * sqrt (inner b b))) by ring.
    rewrite !sqrt_sqrt by (unfold inner; nra). unfold inner. nra. }
  assert (0 <= len a * len b) by (apply Rmult_le_pos; apply sqrt_pos).
  assert (Rabs (inner a b) < len a * len b) by nra.
  assert (Rabs (inner a b) * Rabs (inner a b) = inner a b * inner a b) by (rewrite <- Rabs_mult; apply Rabs_pos_eq; nra).
  pose proof (Rabs_pos (inner a b)). nra.
Qed.

(* Five hours, each with 200 passing pairs and r_corr = 1, clouds at 5 m/s from different directions; the spread of the speeds was large in all but the first. *)
Definition five_run (h : nat) : result (fl * fl * windspeed nat) :=
  Ok (Fin 5, Fin (INR h), mkWind (if Nat.eqb h 0 then GOOD else TREND) [] []
        (Some (mkFit [] None None [] [] (Fin (INR h)) (Fin 5) (Some (mkJam (Fin 7) (Fin 3) (Fin (4 / 5)) [] 200 (Fin 1) (Fin 0) []))))).
Definition five_hours : list (nat * list (option R)) := map (fun h => (h, [Some (10 - INR h)])) [0; 1; 2; 3; 4]%nat.
Definition five_reports : list (nat * (fl * fl * nat * fl) * Flag) :=
  map (fun h => (h, (Fin 5, Fin (INR h), 200%nat, Fin 1), if Nat.eqb h 0 then GOOD else TREND)) [0; 1; 2; 3; 4]%nat.
Definition desc_leb {H} (p q : H * fl) : bool := (is_nan (snd q) || fleb (snd q) (snd p))%bool.

Lemma desc_total {H} (p q : H * fl) : desc_leb p q = false -> desc_leb q p = true.
Proof.
  destruct p as [h a], q as [k b]. unfold desc_leb. cbn [snd]. destruct a as [x| | |], b as [y| | |]; cbn; auto; try discriminate.
  unfold Rleb. destruct (Rle_dec y x); [discriminate|]. intros _. destruct (Rle_dec x y); auto. lra.
Qed.
Lemma desc_trans {H} (p q r : H * fl) : desc_leb p q = true -> desc_leb q r = true -> desc_leb p r = true.
Proof.
  destruct p as [h a], q as [k b], r as [m c]. unfold desc_leb. cbn [snd]. destruct a as [x| | |], b as [y| | |], c as [z| | |]; cbn; auto; try discriminate.
  unfold Rleb. destruct (Rle_dec y x), (Rle_dec z y), (Rle_dec z x); auto; lra.
Qed.
Lemma stable_desc {H} : sorts_desc (H := H) (sort_by desc_leb).
Proof.
  intro l. split; [apply sort_by_perm|].
  assert (S : StronglySorted (fun p q => desc_leb p q = true) (sort_by desc_leb l)) by (apply sort_by_sorted; [intros a b; destruct (desc_leb a b) eqn:E; [now left|right; now apply desc_total]|intros a b c; apply desc_trans]).
  induction S as [|x t S IH F]; constructor; auto. eapply Forall_impl; [|exact F]. intros y E. unfold desc_leb in E. now apply orb_true_iff in E.
Qed.

Lemma five_sorted : variable_hours (sort_by desc_leb) five_hours 20 = [0; 1; 2; 3; 4]%nat.
Proof.
  unfold variable_hours, five_hours. cbn [map fst snd].
  assert (M : forall x, hour_score [Some x] = Fin x).
  { intro x. reflexivity. }
  rewrite !M. unfold sort_by. cbn [fold_right insert_by]. unfold desc_leb. cbn [is_nan orb fleb fst snd INR].
  repeat (rewrite Rleb_true by lra; cbn [insert_by is_nan orb fleb fst snd]). reflexivity.
Qed.

Lemma five_reported : Forall2 (hour_report five_run) (variable_hours (sort_by desc_leb) five_hours 20) five_reports.
Proof. rewrite five_sorted. repeat (constructor; [do 5 eexists; repeat split; reflexivity|]). constructor. Qed.
Lemma five_picked : picks (sound_row 200 0.85) (map fst five_reports) (map fst five_reports).
Proof.
  unfold five_reports. cbn [map fst]. repeat (constructor; [split; [cbn; lia|cbn [snd fltb]; rewrite Rltb_false by lra; discriminate]|]). constructor.
Qed.
Lemma five_kept lsa shgo : lsa_correct lsa -> exists chosen, auto_select (sort_by desc_leb) five_run lsa shgo 20 200 0.85 5 five_hours = Ok (map fst five_reports, chosen).
Proof.
  intro Hl. apply (auto_success nat nat (sort_by desc_leb) five_run lsa shgo 20 200 0.85 5 five_hours (hd (0%nat, (Nan, Nan, 0%nat, Nan), GOOD) five_reports) (tl five_reports) _ Hl); try reflexivity; auto.
  - exact five_reported.
  - exact five_picked.
  - cbn. intros r Hr. repeat destruct Hr as [<-|Hr]; try destruct Hr; do 2 eexists; repeat split; try reflexivity; lra.
Qed.

(*@ C109 With the demo's settings an hour flagged TREND can pass the filter and be chosen: five hours, of which only the first is GOOD, are all kept
    and all chosen. *)
Lemma auto_flag_refuted : exists (run : nat -> result (fl * fl * windspeed nat)) sv vs h, sorts_desc sv /\ 
  (exists s t w, run h = Ok (s, t, w) /\ w_flag w <> GOOD) /\
  forall lsa shgo, lsa_correct lsa -> exists kept chosen, auto_select sv run lsa shgo 20 200 0.85 5 vs = Ok (kept, chosen) /\ In h (map fst kept) /\ In h (map fst chosen).
Proof.
  exists five_run, (sort_by desc_leb), five_hours, 3%nat. split; [apply stable_desc|]. split; [do 3 eexists; split; [reflexivity|]; discriminate|].
  intros lsa shgo Hl. destruct (five_kept lsa shgo Hl) as (chosen & E). exists (map fst five_reports), chosen. split; [exact E|]. split; [cbn; auto|].
  destruct (auto_chosen nat nat _ _ _ _ _ _ _ _ _ _ _ Hl E) as (L & (rest & P) & _); [cbn; lia|].
  assert (rest = []) as ->. { apply Permutation_length in P. rewrite app_length, L in P. cbn in P. destruct rest; [reflexivity|cbn in P; lia]. }
  rewrite app_nil_r in P. apply (Permutation_in 3%nat (Permutation_map fst P)). cbn. auto.
Qed.

(*@ex C109 The five hours meet the conditions above. *)
Lemma auto_example : sorts_desc (sort_by (desc_leb (H := nat))) /\ lsa_correct lsa_brute /\
  Forall2 (hour_report five_run) (variable_hours (sort_by desc_leb) five_hours 20) five_reports /\
  (exists x rest, five_reports = x :: rest /\ snd x = GOOD) /\ picks (sound_row 200 0.85) (map fst five_reports) (map fst five_reports) /\
  (forall r, In r (map fst five_reports) -> exists s t, fst (fst (fst (snd r))) = Fin s /\ s <> 0 /\ snd (fst (fst (snd r))) = Fin t) /\
  In ((0%nat, (10, 0)), (1%nat, (0, 5))) (cmv_pairs 45 [(0%nat, (10, 0)); (1%nat, (0, 5)); (2%nat, (0, 0)); (3%nat, (1, 0))]).
Proof.
  split; [apply stable_desc|]. split; [apply lsa_brute_correct|]. split; [exact five_reported|]. split; [do 2 eexists; split; reflexivity|]. split; [exact five_picked|]. split.
  - cbn. intros r Hr. repeat destruct Hr as [<-|Hr]; try destruct Hr; do 2 eexists; repeat split; try reflexivity; lra.
  - apply pairs_crossing; [lra|]. split; [exists 0%nat, 1%nat; repeat split; lia|]. cbn [fst snd].
    split; [intro F; injection F; lra|]. split; [intro F; injection F; lra|].
    unfold inner. cbn [fst snd]. replace (10 * 0 + 0 * 5) with 0 by ring. rewrite Rabs_R0. apply Rmult_lt_0_compat.
    + apply cos_gt_0; pose proof PI_RGT_0; lra.
    + apply Rmult_lt_0_compat; unfold len, inner; cbn [fst snd]; apply sqrt_lt_R0; lra.
Qed.
