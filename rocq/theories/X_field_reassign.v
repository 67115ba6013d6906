(** Final forms: reassignment of the combiners of one inverter in three rounds. *)
From Coq Require Import String Permutation Sorted Lia Lra.
From Verif Require Import Prelude PreludeFacts RealBase Fl M_spatial Spec_spatial M_cmv M_field_remap Spec_field P_field_remap P_field_assign P_field_lsa
  M_field_pos Spec_field_pos X_field_pos Spec_field_mislabel X_field_mislabel M_field_loop Spec_field_loop P_field_loop X_field_loop M_field_reassign Spec_field_reassign.
Local Open Scope nat_scope.

(*@ C116 The combiners chosen are exactly those whose inverter is named, in plan order; other inverters are not mixed in, whatever their names. *)
Lemma refs_chosen : forall (K : Type) (HK : Label K) inv_of (ids : list K) invs,
  picks (fun k => In (inv_of k) invs) ids (inverter_refs inv_of ids invs).
Proof.
  intros K HK inv_of ids invs. apply picks_filter. intro k. rewrite existsb_exists. split.
  - intros (x & Hx & E). apply String.eqb_eq in E. now subst x.
  - intro Hk. exists (inv_of k). split; auto. apply String.eqb_refl.
Qed.

Section Rounds.
  Context {K : Type} `{HK : Label K}.
  Variable lsa : nat -> list (list R) -> list nat * list nat.
  Hypothesis Hlsa : lsa_correct lsa.
  Variable predict : table K string R -> K -> result (option R * option R).
  Variable plan : table K string R.
  Variable refs : list K.
  Hypothesis W : wf_table plan.
  Hypothesis Lp : all_located plan.
  Hypothesis NR : NoDup refs.
  Hypothesis IR : forall k, In k refs -> In k (t_index plan).

  Lemma move_refs (T : table K string R) a : wf_table T -> all_located T -> t_index T = t_index plan -> one_to_one refs a ->
    exists L, remap_positions T a None = Ok L /\ wf_table L /\ all_located L /\ t_index L = t_index plan /\ only_refs T refs a L.
  Proof using NR IR.
    intros WT LT IT O. destruct (one_to_one_keys refs a NR O) as [N1 N2].
    assert (Ha : forall p, In p a -> In (fst p) (t_index T) /\ In (snd p) (t_index T)).
    { intros p Hp. rewrite IT. split; apply IR; [apply (Permutation_in _ (proj1 O))|apply (Permutation_in _ (proj2 O))]; now apply in_map. }
    destruct (remap_rearranged T a WT N1 Ha) as (L & E & WL & RL). pose proof RL as (CL & IL & DL).
    destruct (remap_all_ok T a WT Ha) as (L0 & E0 & _ & _ & _ & Cl). assert (L0 = L) by congruence. subst L0.
    assert (Out : forall k, ~ In k refs -> dget (t_rows L) k = dget (t_rows T) k).
    { intros k Hk. destruct (lab_mem_spec k (t_index T)) as [Hi|Hi].
      - apply rows_of_cells; auto; [now rewrite IL|]. intro c. rewrite Cl. now rewrite (one_to_one_outside refs a k O Hk).
      - destruct (dget (t_rows L) k) as [row|] eqn:ER.
        + exfalso. apply dget_Some_key in ER. apply Hi. rewrite <- IL. exact ER.
        + symmetry. destruct (dget (t_rows T) k) as [row|] eqn:ET; auto. apply dget_Some_key in ET. contradiction. }
    exists L. split; auto. split; auto. split; [|split; [congruence|split; auto]].
    intros k Hk. rewrite IL in Hk. destruct (lab_mem_spec k refs) as [Hr|Hr].
    - destruct (one_to_one_source refs a k NR O Hr) as (s & Es & Hs). apply listed_source_In in Es.
      rewrite (position_dget L T k s) by auto. apply LT. rewrite IT. auto.
    - rewrite (position_dget L T k k) by auto. auto.
  Qed.

  Lemma total_dist_rows (L1 L P : table K string R) t : one_to_one refs t -> (forall k, In k refs -> dget (t_rows L1) k = dget (t_rows L) k) ->
    total_dist L1 P t = total_dist L P t.
  Proof using.
    intros O D. unfold total_dist. f_equal. apply map_ext_in. intros [k l] Hp. cbn [fst snd].
    rewrite (position_dget L1 L l l); auto. apply D. apply (Permutation_in _ (proj2 O)). now apply (in_map snd) in Hp.
  Qed.

  Lemma assign_refs_ok (L : table K string R) : wf_table L -> all_located L -> t_index L = t_index plan ->
    (forall k, In k refs -> exists x, predict L k = Ok x) ->
    exists P b, assign_refs lsa predict refs L = Ok (P, b) /\ predicted_by predict refs L P /\ best_for refs L P b /\
      (no_nan P -> by_entity b).
  Proof using Hlsa NR IR.
    intros WL LL IL Hp. destruct (all_preds_ok predict refs L NR Hp) as (P & EP & WP & CP & IP & DP).
    destruct (t_loc_ok L refs WL NR) as (L1 & EL & WL1 & IL1 & CL1 & DL1); [intros k Hk; rewrite IL; auto|].
    assert (LL1 : all_located L1).
    { intros k Hk. rewrite IL1 in Hk. rewrite (position_dget L1 L k k) by auto. apply LL. rewrite IL. auto. }
    destruct (group_assign lsa Hlsa L1 P) as (r & out & E & O & NN & Opt); auto; [now rewrite CP|congruence|]. rewrite IL1 in *.
    unfold assign_refs. rewrite EP. cbn [rbind]. rewrite EL. cbn [rbind]. rewrite E. cbn [rbind].
    exists P, r. split; [reflexivity|]. split; [split; auto|]. split.
    - split; [split; auto|]. intros t [Ot Nt]. rewrite <- !(total_dist_rows L1 L) by auto. now apply Opt.
    - intros Hn. unfold assign_positions in E. pose proof WP as (_ & NDP & _). rewrite (no_nan_rows P NDP Hn) in E.
      unfold assign_good in E. destruct (_ || _); [discriminate|]. destruct (cost_matrix _ _) as [M|]; [|discriminate]. cbn [rbind] in E.
      destruct (all_some _) as [MR|]; [|discriminate]. destruct (lsa _ MR) as [ri ci].
      destruct (take_pos _ ci) as [ks|]; [|discriminate]. cbn [rbind] in E. destruct (take_pos _ ri) as [vs|]; [|discriminate]. cbn [rbind] in E.
      destruct (remap_positions _ _ None) as [o|]; [|discriminate]. cbn [rbind] in E. injection E as <- _. apply sort_by_entity.
  Qed.

  Lemma cascade_followed a b : one_to_one refs a -> one_to_one refs b ->
    exists c, cascade_remap a b = Ok c /\ one_to_one refs c /\ by_entity c /\ followed_by a b c.
  Proof using NR.
    intros Oa Ob. destruct (cascade_perm refs a b NR Oa Ob) as (c & E & O & B & L). exists c. split; auto. split; auto. split; auto.
    intros k s. rewrite L. unfold composed. split.
    - destruct (listed_source b k) as [m|]; [|discriminate]. eauto.
    - intros (m & -> & Es). exact Es.
  Qed.

  Lemma one_to_one_same a b : one_to_one refs a -> one_to_one refs b -> by_entity a -> by_entity b -> same_map a b -> a = b.
  Proof using NR.
    intros Oa Ob Ba Bb S. destruct (one_to_one_keys refs a NR Oa), (one_to_one_keys refs b NR Ob). now apply remap_ext.
  Qed.

  Lemma followed_layout a b c L L' : one_to_one refs a -> one_to_one refs b -> one_to_one refs c -> followed_by a b c -> only_refs plan refs a L -> only_refs plan refs c L' ->
    only_refs L refs b L'.
  Proof using NR.
    intros Oa Ob Oc F [(C1 & I1 & D1) X1] [(C2 & I2 & D2) X2]. split.
    - split; [congruence|]. split; [congruence|]. intros k m Hkm. destruct (one_to_one_keys refs b NR Ob) as [Nb _].
      destruct (one_to_one_keys refs c NR Oc) as [Nc _].
      assert (Em : listed_source b k = Some m) by (rewrite listed_source_NoDup by auto; now apply dget_NoDup).
      assert (Hm : In m refs) by (apply (Permutation_in _ (proj2 Ob)); now apply (in_map snd) in Hkm).
      destruct (one_to_one_source refs a m NR Oa Hm) as (s & Es & Hs).
      assert (Ec : listed_source c k = Some s) by (apply F; eauto). apply listed_source_In in Ec. apply listed_source_In in Es.
      rewrite (D2 k s Ec). symmetry. now apply D1.
    - intros k Hk. rewrite X2, X1 by auto. reflexivity.
  Qed.
End Rounds.

(*@ C116 The demo in full. If the predictions can be computed, it returns three remaps of the chosen combiners among themselves, each
    one-to-one; combiners of other inverters stay in place in every layout. The first remap is a best reassignment of the plan; each later one
    is a best reassignment of the layout of the round before, expressed in terms of the original plan: moving the plan by it is the same as moving the
    previous layout by the new reassignment. The second answer is Yes exactly when the third remap equals the second; a Yes to the
    first question is right, and a No is right if no prediction was missing in the first round. *)
Lemma reassign_sound : forall (K : Type) (HK : Label K) lsa predict (plan : table K string R) refs,
  lsa_correct lsa -> wf_table plan -> all_located plan -> NoDup refs -> (forall k, In k refs -> In k (t_index plan)) ->
  (forall L k, wf_table L -> t_index L = t_index plan -> all_located L -> In k refs -> exists x, predict L k = Ok x) ->
  exists P0 P1 P2 a0 a1 a2 L1 L2 same1 same2,
    reassign_demo lsa predict plan refs = Ok (mkReassigned (P0, P1, P2) (a0, a1, a2) (L1, L2) (same1, same2)) /\
    predicted_by predict refs plan P0 /\ best_for refs plan P0 a0 /\ only_refs plan refs a0 L1 /\
    predicted_by predict refs L1 P1 /\ only_refs plan refs a1 L2 /\ predicted_by predict refs L2 P2 /\
    one_to_one refs a1 /\ one_to_one refs a2 /\
    (exists b1, best_for refs L1 P1 b1 /\ followed_by a0 b1 a1 /\ only_refs L1 refs b1 L2) /\
    (exists b2, best_for refs L2 P2 b2 /\ followed_by a1 b2 a2) /\
    (same2 = true <-> same_map a2 a1) /\ (same1 = true -> same_map a1 a0) /\ (no_nan P0 -> same_map a1 a0 -> same1 = true).
Proof.
  intros K HK lsa predict plan refs Hlsa W Lp NR IR Tot. unfold reassign_demo.
  destruct (assign_refs_ok lsa Hlsa predict plan refs NR IR plan W Lp eq_refl) as (P0 & a0 & E0 & Q0 & B0 & S0); [intros; now apply Tot|].
  rewrite E0. cbn [rbind]. pose proof B0 as [[O0 _] _].
  destruct (move_refs plan refs NR IR plan a0 W Lp eq_refl O0) as (L1 & EL1 & WL1 & LL1 & IL1 & R1). rewrite EL1. cbn [rbind].
  destruct (assign_refs_ok lsa Hlsa predict plan refs NR IR L1 WL1 LL1 IL1) as (P1 & b1 & E1 & Q1 & B1 & _); [intros; now apply Tot|].
  rewrite E1. cbn [rbind]. pose proof B1 as [[Ob1 _] _].
  destruct (cascade_followed refs NR a0 b1 O0 Ob1) as (a1 & EC1 & O1 & S1 & F1). rewrite EC1. cbn [rbind].
  destruct (move_refs plan refs NR IR plan a1 W Lp eq_refl O1) as (L2 & EL2 & WL2 & LL2 & IL2 & R2). rewrite EL2. cbn [rbind].
  destruct (assign_refs_ok lsa Hlsa predict plan refs NR IR L2 WL2 LL2 IL2) as (P2 & b2 & E2 & Q2 & B2 & _); [intros; now apply Tot|].
  rewrite E2. cbn [rbind]. pose proof B2 as [[Ob2 _] _].
  destruct (cascade_followed refs NR a1 b2 O1 Ob2) as (a2 & EC2 & O2 & S2 & F2). rewrite EC2. cbn [rbind].
  exists P0, P1, P2, a0, a1, a2, L1, L2, (remap_eqb a1 a0), (remap_eqb a2 a1). split; [reflexivity|].
  do 8 (split; [assumption|]). split.
  { exists b1. split; auto. split; auto. now apply (followed_layout plan refs NR a0 b1 a1). }
  split; [eauto|]. rewrite !remap_eqb_eq. split; [|split].
  - split; [intros ->; intro; reflexivity|]. now apply (one_to_one_same refs NR).
  - intros ->. intro. reflexivity.
  - intros Hn Hs. apply (one_to_one_same refs NR); auto.
Qed.

(*@ C116 "Now we've converged": when the second answer is Yes, the last layout is the one the final remap describes, and any number of further rounds
    changes neither the remap nor the layout nor the predictions. *)
Lemma reassign_converged : forall (K : Type) (HK : Label K) lsa predict (plan : table K string R) refs P0 P1 P2 a0 a1 a2 L1 L2 same1,
  reassign_demo lsa predict plan refs = Ok (mkReassigned (P0, P1, P2) (a0, a1, a2) (L1, L2) (same1, true)) ->
  a2 = a1 /\ remap_positions plan a2 None = Ok L2 /\
  forall a L, more_rounds lsa predict plan refs (a2, L2) (a, L) -> a = a2 /\ L = L2 /\
    next_round lsa predict plan refs (a, L) (a2, L2) P2 /\ forall a' L' P, next_round lsa predict plan refs (a, L) (a', L') P -> P = P2 /\ a' = a2 /\ L' = L2.
Proof.
  intros K HK lsa predict plan refs P0 P1 P2 a0 a1 a2 L1 L2 same1 E. unfold reassign_demo in E.
  destruct (assign_refs lsa predict refs plan) as [[p0 x0]|] eqn:E0; [|discriminate]. cbn [rbind] in E.
  destruct (remap_positions plan x0 None) as [l1|] eqn:EL1; [|discriminate]. cbn [rbind] in E.
  destruct (assign_refs lsa predict refs l1) as [[p1 b1]|] eqn:E1; [|discriminate]. cbn [rbind] in E.
  destruct (cascade_remap x0 b1) as [x1|] eqn:EC1; [|discriminate]. cbn [rbind] in E.
  destruct (remap_positions plan x1 None) as [l2|] eqn:EL2; [|discriminate]. cbn [rbind] in E.
  destruct (assign_refs lsa predict refs l2) as [[p2 b2]|] eqn:E2; [|discriminate]. cbn [rbind] in E.
  destruct (cascade_remap x1 b2) as [x2|] eqn:EC2; [|discriminate]. cbn [rbind] in E.
  injection E as -> -> -> -> -> -> -> -> _ Es. apply remap_eqb_eq in Es. subst a1.
  split; auto. split; auto.
  assert (Step : forall a' L' P, next_round lsa predict plan refs (a2, L2) (a', L') P -> P = P2 /\ a' = a2 /\ L' = L2).
  { intros a' L' P (b & H1 & H2 & H3). cbn [fst snd] in *. rewrite E2 in H1. injection H1 as <- <-. rewrite EC2 in H2. injection H2 as <-. rewrite EL2 in H3. injection H3 as <-. auto. }
  assert (G : forall y, more_rounds lsa predict plan refs (a2, L2) y -> y = (a2, L2)).
  { intros y My. induction My as [|y [a' L'] P My IH Hn]; auto. subst y. destruct (Step _ _ _ Hn) as (_ & -> & ->). reflexivity. }
  intros a L M. apply G in M. injection M as -> ->. split; auto. split; auto. split; auto. exists b2. auto.
Qed.

(*@ C116 Recovery: if, for every layout the demo may try, each prediction is nearest to the combiner's true location among those of the inverter, or is
    missing while the layout has that combiner right, the demo finds the true reassignment in the first round, keeps it and answers Yes in the end. *)
Lemma reassign_recovers : forall (K : Type) (HK : Label K) lsa predict (plan : table K string R) refs s,
  lsa_correct lsa -> wf_table plan -> all_located plan -> NoDup refs -> (forall k, In k refs -> In k (t_index plan)) -> one_to_one refs s ->
  (forall r L, one_to_one refs r -> wf_table L -> only_refs plan refs r L -> forall k m, In (k, m) s ->
     (exists p, predict L k = Ok (Some (fst p), Some (snd p)) /\ nearest_ref plan refs p m) \/
     (exists x, predict L k = Ok x /\ (fst x = None \/ snd x = None) /\ In (k, m) r)) ->
  exists P0 P1 P2 a0 a1 a2 L1 L2 same1,
    reassign_demo lsa predict plan refs = Ok (mkReassigned (P0, P1, P2) (a0, a1, a2) (L1, L2) (same1, true)) /\
    same_map a0 s /\ same_map a1 s /\ same_map a2 s /\ only_refs plan refs s L1 /\ only_refs plan refs s L2.
Proof.
  intros K HK lsa predict plan refs s Hlsa W Lp NR IR Os Hm. destruct (one_to_one_keys refs s NR Os) as [Ns1 Ns2].
  (* one round from a layout described by a *)
  assert (Round : forall a L, one_to_one refs a -> wf_table L -> all_located L -> t_index L = t_index plan -> only_refs plan refs a L ->
    exists P b, assign_refs lsa predict refs L = Ok (P, b) /\ one_to_one refs b /\ followed_by a b s).
  { intros a L Oa WL LL IL RL. destruct (one_to_one_keys refs a NR Oa) as [Na1 Na2].
    assert (Sof : forall k, In k refs -> exists m, In (k, m) s /\ In m refs).
    { intros k Hk. destruct (one_to_one_source refs s k NR Os Hk) as (m & Em & Him). exists m. split; auto. now apply listed_source_In. }
    assert (Hp : forall k, In k refs -> exists p, predict L k = Ok p).
    { intros k Hk. destruct (Sof k Hk) as (m & Hkm & _). destruct (Hm a L Oa WL RL k m Hkm) as [(p & E & _)|(x & E & _)]; eauto. }
    destruct (all_preds_ok predict refs L NR Hp) as (P & EP & WP & CP & IP & DP).
    destruct (t_loc_ok L refs WL NR) as (L1 & EL & WL1 & IL1 & CL1 & DL1); [intros k Hk; rewrite IL; auto|].
    pose proof (inverse_one_to_one refs a Oa) as Oi.
    destruct (cascade_perm refs (inverse_remap a) s NR Oi Os) as (t & Et & Ot & Bt & Lt).
    destruct (one_to_one_keys refs t NR Ot) as [Nt1 Nt2].
    assert (Tin : forall k l, In (k, l) t -> exists m, In (k, m) s /\ In (l, m) a).
    { intros k l Hkl. assert (Es : listed_source t k = Some l) by (rewrite listed_source_NoDup by auto; now apply dget_NoDup).
      rewrite Lt in Es. unfold composed in Es. destruct (listed_source s k) as [m|] eqn:Em; [|discriminate]. exists m.
      split; [now apply listed_source_In|]. apply listed_source_In. now apply (inverse_source refs a l m NR Oa). }
    assert (Tids : forall k l, In (k, l) t -> In k refs /\ In l refs).
    { intros k l Hkl. split; [apply (Permutation_in _ (proj1 Ot)); now apply (in_map fst) in Hkl|apply (Permutation_in _ (proj2 Ot)); now apply (in_map snd) in Hkl]. }
    assert (Cell : forall k x, In k refs -> predict L k = Ok x -> dget (t_rows P) k = Some [fst x; snd x]).
    { intros k x Hk Ex. destruct (DP k Hk) as (x' & Ex' & Dx). congruence. }
    pose proof RL as [(_ & _ & RD) Out].
    destruct (group_recovers lsa Hlsa L1 P t) as (r & out & Er & Or & Sr); auto; try congruence.
    - rewrite CP. reflexivity.
    - intros k Hk. rewrite IL1 in Hk. rewrite (position_dget L1 L k k) by auto. apply LL. rewrite IL. auto.
    - intros k Hn. assert (Hk : In k refs).
      { rewrite <- IP. unfold nan_entity in Hn. destruct (dget (t_rows P) k) as [row|] eqn:Ed; [|discriminate]. now apply dget_Some_key in Ed. }
      destruct (Sof k Hk) as (m & Hkm & _). destruct (Hm a L Oa WL RL k m Hkm) as [(p & Ep & _)|(x & Ex & Nx & Ha)].
      + unfold nan_entity in Hn. rewrite (Cell k _ Hk Ep) in Hn. discriminate.
      + destruct (one_to_one_source refs t k NR Ot Hk) as (l & El & Hl). apply listed_source_In in El. destruct (Tin k l El) as (m' & H1 & H2).
        assert (m' = m) by (apply (NoDup_fst_inj s k); auto). subst m'.
        rewrite (NoDup_snd_inj a k l m Na2 Ha H2) at 2. exact El.
    - intros k l l' p q q' Hkl Hl' Ne Ep Eq Eq'. rewrite IL1 in Hl'. destruct (Tids k l Hkl) as [Hki Hli]. destruct (Tin k l Hkl) as (m & Hkm & Hlm).
      assert (exists m', In (l', m') a /\ In m' refs) as (m' & Hlm' & Hm'r).
      { destruct (one_to_one_source refs a l' NR Oa Hl') as (m' & Em' & Hm'r). apply listed_source_In in Em'. eauto. }
      rewrite (position_dget L1 L l l) in Eq by auto. rewrite (position_dget L plan l m) in Eq by auto.
      rewrite (position_dget L1 L l' l') in Eq' by auto. rewrite (position_dget L plan l' m') in Eq' by auto.
      destruct (Hm a L Oa WL RL k m Hkm) as [(p' & Ep' & q0 & Eq0 & Near)|(x & Ex & Nx & Ha)].
      + assert (p = p') by (unfold position in Ep; rewrite (Cell k _ Hki Ep') in Ep; injection Ep as <-; now destruct p'). subst p'.
        assert (q0 = q) by congruence. subst q0. apply (Near m' q'); auto.
        intros ->. apply Ne. now apply (NoDup_snd_inj a l' l m).
      + exfalso. unfold position in Ep. rewrite (Cell k _ Hki Ex) in Ep. destruct x as [[e|] [n|]]; cbn in *; try discriminate. destruct Nx; discriminate.
    - rewrite IL1 in Or. exists P, r. unfold assign_refs. rewrite EP. cbn [rbind]. rewrite EL. cbn [rbind]. rewrite Er. cbn [rbind]. split; [reflexivity|]. split; auto.
      intros k m. rewrite Sr, Lt. unfold composed. split.
      + intro Em. rewrite Em. assert (Hmr : In m refs).
        { apply listed_source_In in Em. apply (Permutation_in _ (proj2 Os)). now apply (in_map snd) in Em. }
        destruct (one_to_one_source refs (inverse_remap a) m NR Oi Hmr) as (l & El & _). exists l. split; auto. now apply (inverse_source refs a l m NR Oa).
      + intros (l & El & Ea). destruct (listed_source s k) as [m'|] eqn:Em'; [|discriminate]. f_equal.
        apply (inverse_source refs a l m' NR Oa) in El. congruence. }
  assert (Mv : forall L, only_refs plan refs s L -> forall a, same_map a s -> NoDup (map fst a) -> only_refs plan refs a L).
  { intros L [(C & I & D) X] a Sa Na. split; auto. split; auto. split; auto. intros k m Hk. apply D. apply listed_source_In. rewrite <- Sa. rewrite listed_source_NoDup by auto. now apply dget_NoDup. }
  assert (Mv' : forall L a, only_refs plan refs a L -> same_map a s -> only_refs plan refs s L).
  { intros L a [(C & I & D) X] Sa. split; auto. split; auto. split; auto. intros k m Hk. apply D. apply listed_source_In. rewrite Sa. rewrite listed_source_NoDup by auto. now apply dget_NoDup. }
  assert (FS : forall a b c, followed_by a b s -> followed_by a b c -> same_map c s).
  { intros a b c F F' k. destruct (listed_source c k) as [m|] eqn:E1.
    - symmetry. apply F. now apply F'.
    - destruct (listed_source s k) as [m|] eqn:E2; auto. apply F, F' in E2. congruence. }
  assert (Id : only_refs plan refs (identity_remap refs) plan).
  { split; [|auto]. split; auto. split; auto. intros k m Hk. apply in_map_iff in Hk. destruct Hk as (x & Ex & _). now injection Ex as <- <-. }
  unfold reassign_demo.
  destruct (Round (identity_remap refs) plan) as (P0 & a0 & E0 & O0 & F0); auto; [apply identity_one_to_one|]. rewrite E0. cbn [rbind].
  assert (S0 : same_map a0 s).
  { apply (FS (identity_remap refs) a0 a0 F0). intros k m. split.
    - intro Em. exists m. split; auto. rewrite identity_source. apply listed_source_In in Em.
      assert (Hmr : In m refs) by (apply (Permutation_in _ (proj2 O0)); now apply (in_map snd) in Em). now rewrite (proj2 (lab_mem_In m refs) Hmr).
    - intros (l & El & Ei). rewrite identity_source in Ei. destruct (lab_mem l refs); [|discriminate]. congruence. }
  destruct (move_refs plan refs NR IR plan a0 W Lp eq_refl O0) as (L1 & EL1 & WL1 & LL1 & IL1 & R1). rewrite EL1. cbn [rbind].
  destruct (Round a0 L1 O0 WL1 LL1 IL1 R1) as (P1 & b1 & E1 & Ob1 & F1). rewrite E1. cbn [rbind].
  destruct (cascade_followed refs NR a0 b1 O0 Ob1) as (a1 & EC1 & O1 & B1 & G1). rewrite EC1. cbn [rbind].
  pose proof (FS _ _ _ F1 G1) as S1.
  destruct (move_refs plan refs NR IR plan a1 W Lp eq_refl O1) as (L2 & EL2 & WL2 & LL2 & IL2 & R2). rewrite EL2. cbn [rbind].
  destruct (Round a1 L2 O1 WL2 LL2 IL2 R2) as (P2 & b2 & E2 & Ob2 & F2). rewrite E2. cbn [rbind].
  destruct (cascade_followed refs NR a1 b2 O1 Ob2) as (a2 & EC2 & O2 & B2 & G2). rewrite EC2. cbn [rbind].
  pose proof (FS _ _ _ F2 G2) as S2.
  assert (EQ : a2 = a1) by (apply (one_to_one_same refs NR); auto; intro k; now rewrite S1, S2).
  exists P0, P1, P2, a0, a1, a2, L1, L2, (remap_eqb a1 a0). rewrite (proj2 (remap_eqb_eq a2 a1) EQ). split; [reflexivity|].
  split; auto. split; auto. split; auto. split; eapply Mv'; eauto.
Qed.

(** Where one pair of exact delay sets puts a combiner in a layout whose locations are those of the plan in some order. *)
Lemma pair_each : forall {K : Type} {HK : Label K} dtf sv cmv dfa va dfb vb n (plan : table K string R) s r L (X : K -> R * R) k m' rp,
  sorts sv -> wf_table plan -> all_located plan -> one_to_one (t_index plan) s -> (forall k m, In (k, m) s -> position plan m = Some (X k)) ->
  ~ parallel va vb -> exact_delays dtf (t_index plan) X dfa va -> exact_delays dtf (t_index plan) X dfb vb ->
  one_to_one (t_index plan) r -> wf_table L -> rearranged plan r L -> In (k, m') r -> position plan m' = Some rp ->
  exists p s12, compute_predicted_position dtf sv cmv dfa dfb (layout_sites L) k (Some (Some va, Some vb)) "all" n = Ok (p, s12) /\
     ((inner (sub2 (X k) rp) va <> 0 /\ inner (sub2 (X k) rp) vb <> 0)%R -> p = (Fin (fst (X k)), Fin (snd (X k)))) /\
     ((inner (sub2 (X k) rp) va = 0 \/ inner (sub2 (X k) rp) vb = 0)%R -> p = (Nan, Nan)).
Proof.
  intros K HK dtf sv cmv dfa va dfb vb n plan s r L X k m' rp Hsv W Lp Os HX NP XA XB Or WL RL Em' Erp. pose proof W as (_ & ND & _).
  destruct (one_to_one_keys _ s ND Os) as [Ns1 Ns2].
  destruct RL as (CL & IL & DL). destruct (one_to_one_keys _ r ND Or) as [Nr1 Nr2].
  assert (Hk : In k (t_index plan)) by (apply (Permutation_in _ (proj1 Or)); now apply (in_map fst) in Em').
  assert (LL : all_located L).
  { intros j Hj. rewrite IL in Hj. destruct (one_to_one_source _ r j ND Or Hj) as (j' & Ej & Hj'). apply listed_source_In in Ej.
    rewrite (position_dget L plan j j') by auto. now apply Lp. }
  assert (PL : position L k = Some rp) by (rewrite (position_dget L plan k m') by auto; exact Erp).
  assert (NDL : NoDup (map fst (layout_sites L))) by (rewrite sites_fst, IL; auto).
  assert (PM : Permutation (map X (map fst (layout_sites L))) (map snd (layout_sites L))).
  { rewrite sites_fst, sites_snd, IL by (rewrite ?IL; auto). transitivity (map (XY plan) (t_index plan)).
    - apply (positions_permuted plan plan s); auto. intros j l Hj. unfold XY. now rewrite (HX j l Hj).
    - symmetry. apply (positions_permuted plan plan r); auto. intros j l Hj. unfold XY. now rewrite (position_dget L plan j l) by auto. }
  destruct (XA k Hk) as (sa & ca & Da & La & Ta). destruct (XB k Hk) as (sb & cb & Db & Lb & Tb).
  assert (Len : length (layout_sites L) = length (t_index plan)) by (rewrite <- IL, <- sites_fst, map_length; reflexivity).
  assert (Ex : exists res, compute_predicted_position dtf sv cmv dfa dfb (layout_sites L) k (Some (Some va, Some vb)) "all" n = Ok res).
  { apply sites_row in PL. eapply predicted_success; [exact Hsv|exact Da|exact Db|exact PL|exact Ta|exact Tb|..].
    - rewrite map_length. now rewrite Len.
    - now rewrite Len.
    - rewrite map_length. now rewrite Len.
    - now rewrite Len.
    - cbn. tauto. }
  destruct Ex as ([p [s1 s2]] & E).
  assert (Na : va <> (0, 0)%R) by (intros ->; apply NP; unfold parallel, cross; cbn; ring).
  assert (Nb : vb <> (0, 0)%R) by (intros ->; apply NP; unfold parallel, cross; cbn; ring).
  assert (Row : forall df v sg ch d ix ss j row, v <> (0, 0)%R -> dget df k = Some sg -> dtf (k, sg) df = Ok (map (fun j => Fin (travel_time v (X k) (X j))) (t_index plan), ch) ->
      pp_case dtf df (layout_sites L) k (Some v) = Ok d -> loc_rows d ix = Ok ss -> In (j, row) ss -> pp_delay row = Fin (travel_time v (X k) (X j))).
  { intros df v sg ch d ix ss j row Nv Dk Tk Ec El Hj. destruct (case_rows_ok _ _ _ _ _ _ _ _ Nv Ec El) as (sg' & dl & ch' & rp' & R1 & R2 & _ & R4).
    destruct (R4 j row Hj) as (i & P & N1 & N2 & _). assert (sg' = sg) by congruence. subst sg'.
    assert (dl = map (fun j => Fin (travel_time v (X k) (X j))) (t_index plan)) by congruence. subst dl.
    assert (Nj : nth_error (t_index plan) i = Some j) by (rewrite <- IL, <- sites_fst; now rewrite nth_error_map, N1).
    rewrite nth_error_map, Nj in N2. cbn in N2. congruence. }
  pose proof E as E'. apply cpp_inv in E'. destruct E' as (d1 & d2 & ix1 & ix2 & rp' & E1 & E2 & _ & E4 & E5 & _).
  exists p, (s1, s2). split; auto.
  apply (predicted_all_permuted K HK dtf sv cmv dfa dfb (layout_sites L) k va vb n p s1 s2 rp X); auto.
  - now apply sites_row.
  - intros j row Hj. eapply Row with (df := dfa); eauto.
  - intros j row Hj. eapply Row with (df := dfb); eauto.
Qed.

(** A reassignment of some entities as a reassignment of all. *)
Definition extended {K} `{Label K} (ids refs : list K) (r : list (K * K)) : list (K * K) :=
  r ++ identity_remap (filter (fun k => negb (lab_mem k refs)) ids).
Lemma NoDup_join {A} (l l' : list A) : NoDup l -> NoDup l' -> (forall x, In x l -> ~ In x l') -> NoDup (l ++ l').
Proof.
  induction l as [|x l IH]; intros N1 N2 Dj; cbn; auto. inversion N1; subst. constructor.
  - intro F. apply in_app_or in F as [F|F]; auto. apply (Dj x); auto. now left.
  - apply IH; auto. intros y Hy. apply Dj. now right.
Qed.
Lemma extended_ok {K} `{HK : Label K} (ids refs : list K) r : NoDup ids -> NoDup refs -> (forall k, In k refs -> In k ids) -> one_to_one refs r ->
  one_to_one ids (extended ids refs r).
Proof.
  intros ND NR IR [P1 P2].
  assert (PP : Permutation (refs ++ filter (fun k => negb (lab_mem k refs)) ids) ids).
  { apply NoDup_Permutation; auto.
    - assert (NF : NoDup (filter (fun k => negb (lab_mem k refs)) ids)) by now apply NoDup_filter.
      assert (Dj : forall k, In k refs -> ~ In k (filter (fun k => negb (lab_mem k refs)) ids)).
      { intros k Hk F. apply filter_In in F. destruct F as [_ F]. now rewrite (proj2 (lab_mem_In k refs) Hk) in F. }
      now apply NoDup_join.
    - intro k. rewrite in_app_iff, filter_In. split.
      + intros [Hk|[Hk _]]; auto.
      + intro Hk. destruct (lab_mem k refs) eqn:E; [left; now apply lab_mem_In|right; auto]. }
  unfold extended. split; rewrite map_app; unfold identity_remap; rewrite map_map; cbn; rewrite map_id; (etransitivity; [|exact PP]); apply Permutation_app; auto.
Qed.

(*@ C116 The whole chain with one pair of data tables: when the delays are the true travel times, the two CMVs are not parallel, any two
    locations of the inverter differ along both, combiners elsewhere are listed where they are, and mode='all' is used, the
    demo finds the true reassignment of the inverter in its first round and confirms it. *)
Lemma reassign_exact : forall (K : Type) (HK : Label K) lsa dtf sv cmv dfa va dfb vb n (plan : table K string R) refs s (X : K -> R * R),
  lsa_correct lsa -> sorts sv -> wf_table plan -> all_located plan -> NoDup refs -> (forall k, In k refs -> In k (t_index plan)) ->
  one_to_one refs s -> (forall k m, In (k, m) s -> position plan m = Some (X k)) ->
  (forall k, In k (t_index plan) -> ~ In k refs -> position plan k = Some (X k)) ->
  ~ parallel va vb -> exact_delays dtf (t_index plan) X dfa va -> exact_delays dtf (t_index plan) X dfb vb ->
  (forall m m' q q', In m refs -> In m' refs -> m <> m' -> position plan m = Some q -> position plan m' = Some q' ->
     inner (sub2 q q') va <> 0%R /\ inner (sub2 q q') vb <> 0%R) ->
  exists P0 P1 P2 a0 a1 a2 L1 L2 same1,
    reassign_demo lsa (pair_pred dtf sv cmv dfa va dfb vb "all"%string n) plan refs = Ok (mkReassigned (P0, P1, P2) (a0, a1, a2) (L1, L2) (same1, true)) /\
    same_map a0 s /\ same_map a1 s /\ same_map a2 s /\ only_refs plan refs s L1 /\ only_refs plan refs s L2.
Proof.
  intros K HK lsa dtf sv cmv dfa va dfb vb n plan refs s X Hlsa Hsv W Lp NR IR Os HX HO NP XA XB Hgen. pose proof W as (_ & ND & _).
  destruct (one_to_one_keys _ s NR Os) as [Ns1 Ns2].
  apply reassign_recovers; auto. intros r L Or WL RL k m Hkm.
  assert (Hk : In k refs) by (apply (Permutation_in _ (proj1 Os)); now apply (in_map fst) in Hkm).
  assert (Hmr : In m refs) by (apply (Permutation_in _ (proj2 Os)); now apply (in_map snd) in Hkm).
  destruct (one_to_one_source _ r k NR Or Hk) as (m' & Em' & Hm'r). apply listed_source_In in Em'.
  destruct (Lp m' (IR m' Hm'r)) as [rp Erp].
  set (ids := t_index plan) in *.
  assert (InX : forall t j l, In (j, l) (extended ids refs t) -> In (j, l) t \/ (j = l /\ In j ids /\ ~ In j refs)).
  { intros t j l Hj. apply in_app_or in Hj as [Hj|Hj]; auto. right. apply in_map_iff in Hj. destruct Hj as (x & Ex & Hx). injection Ex as -> ->.
    apply filter_In in Hx. destruct Hx as [Hx Hn]. split; auto. split; auto. intro F. now rewrite (proj2 (lab_mem_In l refs) F) in Hn. }
  destruct (pair_each dtf sv cmv dfa va dfb vb n plan (extended ids refs s) (extended ids refs r) L X k m' rp) as (p & s12 & E & A & B); auto.
  - now apply extended_ok.
  - intros j l Hj. apply InX in Hj as [Hj|(-> & Hi & Hn)]; auto.
  - now apply extended_ok.
  - destruct RL as [(C & I & D) Out]. split; auto. split; auto. intros j l Hj. apply InX in Hj as [Hj|(-> & Hi & Hn)]; auto.
  - apply in_or_app. now left.
  - unfold pair_pred. rewrite E. cbn [rbind]. destruct (lab_eqb_spec m m') as [<-|Ne].
    + right. assert (rp = X k) by (pose proof (HX k m Hkm); congruence). subst rp.
      assert (Zv : inner (sub2 (X k) (X k)) va = 0%R) by (unfold inner, sub2; cbn; ring).
      rewrite B by auto. cbn [fst snd pred_cell rbind]. eexists. split; [reflexivity|]. auto.
    + left. exists (X k). destruct (Hgen m m' (X k) rp) as [Ia Ib]; auto.
      rewrite A by auto. cbn [fst snd pred_cell rbind]. split; [reflexivity|]. exists (X k). split; auto.
      intros j q' Hj Nj Eq'. destruct (Hgen m j (X k) q') as [Ja _]; auto.
      assert (D0 : planar_dist (X k) (X k) = 0%R).
      { unfold planar_dist. replace ((fst (X k) - fst (X k)) ^ 2 + (snd (X k) - snd (X k)) ^ 2)%R with 0%R by ring. apply sqrt_0. }
      rewrite D0. destruct (Rle_lt_or_eq_dec 0 (planar_dist (X k) q')) as [|Z]; auto; [apply planar_dist_nonneg|].
      exfalso. symmetry in Z. apply planar_dist_zero in Z. subst q'. apply Ja. unfold inner, sub2. cbn. ring.
Qed.

(*@ C116 Failures. A prediction that raises ends the demo with that exception if the ones before it succeed; a combiner that is not in the plan
    raises KeyError once its prediction could be computed. *)
Lemma reassign_refused : forall (K : Type) (HK : Label K) lsa predict (plan : table K string R) refs,
  (forall l k r e, refs = l ++ k :: r -> (forall j, In j l -> exists x, predict plan j = Ok x) -> predict plan k = Err e ->
     reassign_demo lsa predict plan refs = Err e) /\
  (forall k, (forall j, In j refs -> exists x, predict plan j = Ok x) -> In k refs -> ~ In k (t_index plan) ->
     reassign_demo lsa predict plan refs = Err KeyError).
Proof.
  intros K HK lsa predict plan refs. split.
  - intros l k r e -> Hl He. unfold reassign_demo, assign_refs, all_preds.
    assert (E : mapM (fun k => let! p := predict plan k in Ok (k, [fst p; snd p])) (l ++ k :: r) = Err e).
    { induction l as [|j l IH]; cbn [app mapM]; [now rewrite He|]. destruct (Hl j (or_introl eq_refl)) as [x ->]. cbn [rbind].
      rewrite IH; auto. intros; apply Hl; now right. }
    rewrite E. reflexivity.
  - intros k Hp Hk Hn. unfold reassign_demo, assign_refs, all_preds.
    assert (E : exists rows, mapM (fun k => let! p := predict plan k in Ok (k, [fst p; snd p])) refs = Ok rows).
    { clear Hk. induction refs as [|j l IH]; cbn [mapM]; eauto. destruct (Hp j (or_introl eq_refl)) as [x ->]. cbn [rbind].
      destruct IH as [rows ->]; [intros; apply Hp; now right|]. cbn [rbind]. eauto. }
    destruct E as [rows ->]. cbn [rbind]. unfold t_loc.
    assert (E : mapM (fun k => match dget (t_rows plan) k with Some row => Ok (k, row) | None => Err KeyError end) refs = Err KeyError).
    { clear Hp. induction refs as [|j l IH]; [destruct Hk|]. cbn [mapM]. destruct (dget (t_rows plan) j) as [row|] eqn:Ej; auto. cbn [rbind].
      destruct Hk as [->|Hk]; [apply dget_Some_key in Ej; contradiction|]. now rewrite IH. }
    rewrite E. reflexivity.
Qed.

(* Two combiners of one inverter listed in the order B, A; B has no prediction, A is predicted at its place. *)
Definition ba_plan : table string string R := mkTable ["E"; "N"]%string [("X-20-B"%string, [Some 0%R; Some 0%R]); ("X-20-A"%string, [Some 3%R; Some 4%R])].
Definition ba_pred (L : table string string R) (k : string) : result (option R * option R) :=
  if String.eqb k "X-20-B" then Ok (None, None) else Ok (Some 3%R, Some 4%R).

Lemma lsa_single lsa (x : R) : lsa_correct lsa -> lsa 1 [[x]] = ([0], [0]).
Proof.
  intro Hl. destruct (Hl 1 [[x]]) as (F & (L & ND & Fa) & _); [cbn; lia|repeat constructor|].
  destruct (lsa 1 [[x]]) as [a b]. cbn [fst snd length seq] in *. subst a. f_equal.
  destruct b as [|c [|d b]]; try discriminate. inversion Fa; subst. f_equal. lia.
Qed.

(*@ C116 The first answer can be wrong: after a round with a missing prediction the remap is in plan order, the next one in order of names. Here
    nothing moves in any round, and the demo says the remap changed. *)
Lemma reassign_answer_refuted : exists (plan : table string string R) predict refs,
  wf_table plan /\ all_located plan /\ NoDup refs /\ (forall k, In k refs -> In k (t_index plan)) /\ (forall L k, exists x, predict L k = Ok x) /\
  forall lsa, lsa_correct lsa -> exists P0 P1 P2 a0 a1 a2 L1 L2,
    reassign_demo lsa predict plan refs = Ok (mkReassigned (P0, P1, P2) (a0, a1, a2) (L1, L2) (false, true)) /\
    same_map a0 (identity_remap refs) /\ same_map a1 a0 /\ same_map a2 a0 /\ L1 = plan /\ L2 = plan.
Proof.
  exists ba_plan, ba_pred, ["X-20-B"; "X-20-A"]%string.
  split; [split; [|split]; cbn; repeat constructor; cbn; intuition discriminate|].
  split; [intros k Hk; cbn in Hk; destruct Hk as [<-|[<-|[]]]; eexists; reflexivity|].
  split; [repeat constructor; cbn; intuition discriminate|]. split; [cbn; tauto|].
  split; [intros L k; unfold ba_pred; destruct (String.eqb k "X-20-B"); eauto|].
  intros lsa Hl.
  set (P := mkTable ["E"; "N"]%string [("X-20-B"%string, [None; None]); ("X-20-A"%string, [Some 3%R; Some 4%R])]).
  set (ba := [("X-20-B", "X-20-B"); ("X-20-A", "X-20-A")]%string). set (ab := [("X-20-A", "X-20-A"); ("X-20-B", "X-20-B")]%string).
  assert (E : assign_refs lsa ba_pred ["X-20-B"; "X-20-A"]%string ba_plan = Ok (P, ba)).
  { unfold assign_refs, all_preds. cbn [mapM ba_pred String.eqb Ascii.eqb Bool.eqb rbind fst snd].
    unfold t_loc. cbn -[assign_positions]. unfold assign_positions. cbn -[assign_nan remap_positions].
    unfold assign_nan. cbn -[assign_good remap_positions]. unfold assign_good.
    cbn -[sqrt pow remap_positions take_pos sort_by]. rewrite (lsa_single lsa _ Hl). reflexivity. }
  assert (M0 : remap_positions ba_plan ba None = Ok ba_plan) by reflexivity.
  assert (M1 : remap_positions ba_plan ab None = Ok ba_plan) by reflexivity.
  assert (C1 : cascade_remap ba ba = Ok ab) by reflexivity. assert (C2 : cascade_remap ab ba = Ok ab) by reflexivity.
  exists P, P, P, ba, ab, ab, ba_plan, ba_plan. unfold reassign_demo. rewrite E. cbn [rbind]. rewrite M0. cbn [rbind]. rewrite E. cbn [rbind].
  rewrite C1. cbn [rbind]. rewrite M1. cbn [rbind]. rewrite E. cbn [rbind]. rewrite C2. cbn [rbind].
  split; [reflexivity|]. split; [intro; reflexivity|].
  assert (S : same_map ab ba).
  { intro k. apply listed_source_perm; [cbn; repeat constructor; cbn; intuition discriminate|apply perm_swap]. }
  auto.
Qed.

(* The two exchanged combiners of X_field_loop and a third one elsewhere. *)
Definition ex_plan : table nat string R := mkTable ["E"; "N"]%string [(0, [Some 0%R; Some 0%R]); (1, [Some 1%R; Some 2%R]); (2, [Some 5%R; Some 7%R])].
Definition ex_truth (k : nat) : R * R := match k with 0 => (1, 2)%R | 1 => (0, 0)%R | _ => (5, 7)%R end.
Definition ex_exact (ref : nat * list (option R)) (df : list (nat * list (option R))) : result (list fl * list fl) :=
  let v := match dget df 0 with Some [_] => (1, 0)%R | _ => (0, 1)%R end in
  Ok (map (fun j => Fin (travel_time v (ex_truth (fst ref)) (ex_truth j))) [0; 1; 2], [Nan; Nan; Nan]).
(*@ex C116 *)
Lemma reassign_example :
  wf_table ex_plan /\ all_located ex_plan /\ NoDup [0; 1] /\ (forall k, In k [0; 1] -> In k (t_index ex_plan)) /\
  one_to_one [0; 1] [(0, 1); (1, 0)] /\ (forall k m, In (k, m) [(0, 1); (1, 0)] -> position ex_plan m = Some (ex_truth k)) /\
  (forall k, In k (t_index ex_plan) -> ~ In k [0; 1] -> position ex_plan k = Some (ex_truth k)) /\
  ~ parallel (1, 0)%R (0, 1)%R /\
  exact_delays ex_exact (t_index ex_plan) ex_truth [(0, [None]); (1, [None]); (2, [None])] (1, 0)%R /\
  exact_delays ex_exact (t_index ex_plan) ex_truth [(0, []); (1, []); (2, [])] (0, 1)%R /\
  (forall m m' q q', In m [0; 1] -> In m' [0; 1] -> m <> m' -> position ex_plan m = Some q -> position ex_plan m' = Some q' ->
     inner (sub2 q q') (1, 0)%R <> 0%R /\ inner (sub2 q q') (0, 1)%R <> 0%R) /\
  lsa_correct lsa_brute /\ sorts (sort_by (rank_leb (K := nat))).
Proof.
  destruct process_example as (HL & HS & _).
  split; [split; [|split]; cbn; repeat constructor; cbn; intuition discriminate|].
  split; [intros k Hk; cbn in Hk; destruct Hk as [<-|[<-|[<-|[]]]]; eexists; reflexivity|].
  split; [repeat constructor; cbn; intuition discriminate|]. split; [cbn; tauto|].
  split; [split; cbn; [reflexivity|apply perm_swap]|].
  split; [intros k m [E|[E|[]]]; injection E as <- <-; reflexivity|].
  split; [intros k Hk Hn; cbn in *; destruct Hk as [<-|[<-|[<-|[]]]]; [tauto|tauto|reflexivity]|].
  split; [unfold parallel, cross; cbn; lra|].
  split; [intros k [<-|[<-|[<-|[]]]]; eexists _, [Nan; Nan; Nan]; (split; [reflexivity|]); split; reflexivity|].
  split; [intros k [<-|[<-|[<-|[]]]]; eexists _, [Nan; Nan; Nan]; (split; [reflexivity|]); split; reflexivity|].
  split; auto.
  intros m m' q q' [<-|[<-|[]]] [<-|[<-|[]]] N [= <-] [= <-]; try congruence; unfold inner, sub2; cbn; lra.
Qed.
