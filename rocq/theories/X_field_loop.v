(** Final forms: the iterative reassignment of a whole plant. *)
From Coq Require Import String Permutation Sorted Lia Lra.
From Verif Require Import Prelude PreludeFacts RealBase Fl M_spatial Spec_spatial M_cmv M_field_remap Spec_field P_field_remap P_field_assign P_field_lsa
  M_field_pos Spec_field_pos X_field_pos Spec_field_mislabel X_field_mislabel M_field_loop Spec_field_loop P_field_loop.
Local Open Scope nat_scope.

(*@ C108 The loop ends after at most ten rounds, whatever the predictions: allowing more rounds changes nothing. *)
Lemma process_bound : forall (K : Type) (HK : Label K) inv_of lsa mean_pred (plan : table K string R) fuel,
  10 <= fuel -> rounds inv_of lsa mean_pred fuel plan (loop_start plan) = field_process inv_of lsa mean_pred plan.
Proof.
  intros K HK inv_of lsa mean_pred plan fuel Hf. unfold field_process.
  assert (G : forall f f' st, length (l_positions st) <= 10 -> 11 <= f + length (l_positions st) -> 11 <= f' + length (l_positions st) ->
    rounds inv_of lsa mean_pred f plan st = rounds inv_of lsa mean_pred f' plan st).
  { induction f as [|f IH]; intros f' st H1 H2 H3; [lia|]. destruct f' as [|f']; [lia|]. cbn [rounds].
    destruct (field_round inv_of lsa mean_pred plan (l_remap st) (l_pos_map st)) as [[[P a'] L']|]; auto. cbn [rbind].
    destruct (Nat.leb_spec 10 (length (l_positions st))) as [Hl|Hl].
    - rewrite orb_true_r. reflexivity.
    - rewrite orb_false_r. destruct (existsb _ _); auto. apply IH; cbn [l_positions]; rewrite app_length; cbn [length]; lia. }
  apply G; cbn [loop_start l_positions length]; lia.
Qed.

Lemma picks_filter {A} (Q : A -> Prop) (f : A -> bool) l : (forall x, f x = true <-> Q x) -> picks Q l (filter f l).
Proof.
  intro HQ. induction l as [|x l IH]; cbn; [constructor|]. destruct (f x) eqn:E.
  - constructor; auto. now apply HQ.
  - constructor; auto. intro F. apply HQ in F. congruence.
Qed.


Lemma t_loc_inv {K} `{Label K} (t t' : table K string R) ks : t_loc t ks = Ok t' ->
  t_cols t' = t_cols t /\ t_index t' = ks /\ forall k, In k ks -> dget (t_rows t') k = dget (t_rows t) k.
Proof.
  unfold t_loc. destruct (mapM _ ks) as [rows|] eqn:E; [|discriminate]. cbn [rbind]. intros [= <-]. cbn. split; auto.
  apply mapM_ok_iff in E. induction E as [|k row ks rows Hr F [IH1 IH2]]; cbn; [tauto|].
  destruct (dget (t_rows t) k) as [r|] eqn:Er; [|discriminate]. injection Hr as <-. cbn. split; [f_equal; exact IH1|].
  intros j Hj. destruct (lab_eqb_spec k j) as [->|N]; [now rewrite ?lab_eqb_refl|]. 
  destruct Hj as [->|Hj]; [contradiction|]. auto.
Qed.

Lemma round_inv {K} `{HK : Label K} inv_of lsa mean_pred (plan : table K string R) a L P a' L' :
  field_round inv_of lsa mean_pred plan a L = Ok (P, a', L') -> one_round inv_of lsa mean_pred plan a L P a' L'.
Proof.
  unfold field_round. destruct (all_preds mean_pred (t_index plan) L) as [P0|] eqn:EP; [|discriminate]. cbn [rbind].
  destruct (all_assignments inv_of lsa (t_index plan) L P0) as [r|] eqn:EA; [|discriminate]. cbn [rbind].
  destruct (cascade_remap a r) as [a1|] eqn:EC; [|discriminate]. cbn [rbind].
  destruct (remap_positions plan a1 None) as [L1|] eqn:EL; [|discriminate]. cbn [rbind]. intros [= <- <- <-].
  unfold all_preds in EP. destruct (mapM _ (t_index plan)) as [rows|] eqn:ER; [|discriminate]. cbn [rbind] in EP. injection EP as <-.
  unfold one_round. split; [reflexivity|]. split.
  - cbn [t_rows]. apply mapM_ok_iff in ER. revert ER. generalize (t_index plan). clear. intros ids F.
    induction F as [|k row ids rows Hr F IH]; constructor; auto. destruct (mean_pred L k) as [x|] eqn:Ex; [|discriminate]. cbn [rbind] in Hr.
    injection Hr as <-. cbn. eauto.
  - unfold all_assignments in EA. destruct (mapM _ (inverter_ids inv_of (t_index plan))) as [parts|] eqn:EM; [|discriminate]. cbn [rbind] in EA. injection EA as <-.
    exists (inverter_ids inv_of (t_index plan)), parts. split; [apply inverter_ids_NoDup|]. split.
    { unfold inverter_ids. change (@lab_leb string label_string) with String.leb. apply (sort_by_sorted String.leb); [apply String.leb_total|apply string_leb_trans]. }
    split; [apply inverter_ids_in|]. split; [|split; auto].
    apply mapM_ok_iff in EM. revert EM. apply Forall2_impl2. intros g part Eg.
    destruct (t_loc L (refsub inv_of (t_index plan) g)) as [Lg|] eqn:E1; [|discriminate]. cbn [rbind] in Eg.
    destruct (t_loc _ (refsub inv_of (t_index plan) g)) as [Pg|] eqn:E2 in Eg; [|discriminate]. cbn [rbind] in Eg.
    destruct (assign_positions lsa Lg Pg) as [[r out]|] eqn:E3; [|discriminate]. cbn [rbind] in Eg. injection Eg as <-.
    exists Lg, Pg, out. apply t_loc_inv in E1. apply t_loc_inv in E2. destruct E1 as (C1 & I1 & D1), E2 as (C2 & I2 & D2).
    unfold inverter_rows. rewrite I1, I2. split; [|split; auto].
    + split; auto. split; auto. apply picks_filter. intro. apply py_contains_iff.
    + split; auto. split; auto. apply picks_filter. intro. apply py_contains_iff.
Qed.

Lemma changed_in {K} `{HK : Label K} (b a : list (K * K)) k :
  In k (changed b a) <-> exists i s q, nth_error b i = Some (k, s) /\ nth_error a i = Some q /\ q <> (k, s).
Proof.
  unfold changed. rewrite in_map_iff. split.
  - intros ([[k' s] q] & Ek & Hin). cbn in Ek. subst k'. apply filter_In in Hin. destruct Hin as [Hin Hb]. cbn in Hb.
    apply In_nth_error in Hin. destruct Hin as [i Hi]. rewrite nth_error_combine in Hi.
    destruct (nth_error b i) as [p|] eqn:E1; [|discriminate]. destruct (nth_error a i) as [q'|] eqn:E2; [|discriminate]. injection Hi as -> ->.
    exists i, s, q. split; auto. split; auto. intros ->. cbn in Hb. now rewrite !lab_eqb_refl in Hb.
  - intros (i & s & q & E1 & E2 & N). exists ((k, s), q). split; auto. apply filter_In. split.
    + apply (nth_error_In _ i). now rewrite nth_error_combine, E1, E2.
    + cbn. destruct q as [k' s']. cbn. destruct (lab_eqb_spec k k') as [->|]; cbn; auto. destruct (lab_eqb_spec s s') as [->|]; auto; congruence.
Qed.

Lemma nth_snoc {A} (l : list A) x i y : nth_error (l ++ [x]) i = Some y <-> nth_error l i = Some y \/ (i = length l /\ x = y).
Proof.
  destruct (Nat.lt_trichotomy i (length l)) as [Hi|[->|Hi]].
  - rewrite nth_error_app1 by auto. split; auto. intros [?|[? _]]; auto. lia.
  - rewrite nth_error_app2, Nat.sub_diag by auto. cbn. split; [intros [= ->]; auto|]. intros [F|[_ ->]]; auto.
    assert (nth_error l (length l) = None) by (apply nth_error_None; lia). congruence.
  - rewrite (proj2 (nth_error_None (l ++ [x]) i)) by (rewrite app_length; cbn; lia). split; [discriminate|]. intros [F|[-> _]]; [|lia].
    assert (nth_error l i = None) by (apply nth_error_None; lia). congruence.
Qed.

Lemma Forall2_nth_both {A B} (Q : A -> B -> Prop) l l' : Forall2 Q l l' -> forall i a b, nth_error l i = Some a -> nth_error l' i = Some b -> Q a b.
Proof. induction 1; intros [|i] a b Ha Hb; try discriminate; cbn in Ha, Hb; [injection Ha as <-; injection Hb as <-; auto|eauto]. Qed.

Section Hist.
  Context {K : Type} `{HK : Label K}.
  Variable inv_of : K -> string.
  Variable lsa : nat -> list (list R) -> list nat * list nat.
  Variable mean_pred : table K string R -> K -> result (option R * option R).
  Variable plan : table K string R.

  Definition steps (st : floop) : Prop :=
    length (l_remaps st) = S (length (l_predictions st)) /\ length (l_positions st) = S (length (l_predictions st)) /\
    nth_error (l_remaps st) 0 = Some (identity_remap (t_index plan)) /\ nth_error (l_positions st) 0 = Some plan /\
    forall i P, nth_error (l_predictions st) i = Some P -> exists a L a' L',
      nth_error (l_remaps st) i = Some a /\ nth_error (l_positions st) i = Some L /\
      nth_error (l_remaps st) (S i) = Some a' /\ nth_error (l_positions st) (S i) = Some L' /\ one_round inv_of lsa mean_pred plan a L P a' L'.

  Definition running (st : floop) : Prop :=
    steps st /\ NoDup (l_remaps st) /\ length (l_predictions st) <= 9 /\
    nth_error (l_remaps st) (length (l_predictions st)) = Some (l_remap st) /\ nth_error (l_positions st) (length (l_predictions st)) = Some (l_pos_map st).

  Lemma steps_snoc st a' L' P r m : steps st -> field_round inv_of lsa mean_pred plan (l_remap st) (l_pos_map st) = Ok (P, a', L') ->
    nth_error (l_remaps st) (length (l_predictions st)) = Some (l_remap st) -> nth_error (l_positions st) (length (l_predictions st)) = Some (l_pos_map st) ->
    steps (mkFloop r m (l_remaps st ++ [a']) (l_positions st ++ [L']) (l_predictions st ++ [P])).
  Proof.
    intros (H1 & H2 & H3 & H4 & H5) E N1 N2. unfold steps. cbn [l_remaps l_positions l_predictions]. rewrite !app_length. cbn [length].
    split; [lia|]. split; [lia|]. split; [apply nth_snoc; auto|]. split; [apply nth_snoc; auto|].
    intros i P' HP. apply nth_snoc in HP as [HP|[-> <-]].
    - destruct (H5 i P' HP) as (a & L & b & M & A1 & A2 & A3 & A4 & A5). exists a, L, b, M. rewrite !nth_snoc. repeat (split; auto).
    - exists (l_remap st), (l_pos_map st), a', L'. rewrite !nth_snoc. split; auto. split; auto. split; [right; split; auto; lia|]. split; [right; split; auto; lia|].
      now apply round_inv.
  Qed.

  Lemma rounds_history fuel : forall st st' ch, running st -> rounds inv_of lsa mean_pred fuel plan st = Ok (st', ch) ->
    exists n b, 1 <= n <= 10 /\ length (l_predictions st') = n /\ steps st' /\ NoDup (firstn n (l_remaps st')) /\
      nth_error (l_remaps st') n = Some b /\ (In b (firstn n (l_remaps st')) \/ n = 10) /\
      nth_error (l_remaps st') (n - 1) = Some (l_remap st') /\ nth_error (l_positions st') (n - 1) = Some (l_pos_map st') /\ ch = changed b (l_remap st').
  Proof.
    induction fuel as [|fuel IH]; intros st st' ch Hr E; [discriminate|]. cbn [rounds] in E.
    destruct Hr as (Hs & ND & Hn & N1 & N2). pose proof Hs as (H1 & H2 & _).
    destruct (field_round inv_of lsa mean_pred plan (l_remap st) (l_pos_map st)) as [[[P a'] L']|] eqn:ER; [|discriminate]. cbn [rbind] in E.
    destruct (existsb (remap_eqb a') (l_remaps st) || Nat.leb 10 (length (l_positions st))) eqn:Es.
    - injection E as <- <-. exists (S (length (l_predictions st))), a'. cbn [l_remap l_pos_map].
      assert (FE : firstn (S (length (l_predictions st))) (l_remaps st ++ [a']) = l_remaps st).
      { rewrite <- H1, firstn_app, Nat.sub_diag, firstn_all. cbn. apply app_nil_r. }
      split; [lia|]. split; [cbn; rewrite app_length; cbn; lia|]. split; [now apply steps_snoc|]. cbn [l_remaps l_positions]. rewrite FE. split; auto.
      split; [apply nth_snoc; right; split; auto; lia|]. split.
      + apply orb_prop in Es as [Es|Es].
        * left. apply existsb_exists in Es. destruct Es as (x & Hx & Ex). apply remap_eqb_eq in Ex. now subst x.
        * right. apply Nat.leb_le in Es. lia.
      + rewrite Nat.sub_succ, Nat.sub_0_r, !nth_snoc. auto.
    - apply orb_false_elim in Es as [Es1 Es2]. apply Nat.leb_gt in Es2. apply (IH _ _ _) in E; auto.
      split; [now apply steps_snoc|]. cbn [l_remaps l_positions l_predictions l_remap l_pos_map]. rewrite app_length. cbn [length].
      split; [|split; [lia|split; apply nth_snoc; right; split; auto; lia]].
      apply (Permutation_NoDup (l := a' :: l_remaps st)); [apply Permutation_cons_append|]. constructor; auto. intro F.
      assert (existsb (remap_eqb a') (l_remaps st) = true); [|congruence]. apply existsb_exists. exists a'. split; auto. now apply remap_eqb_eq.
  Qed.
End Hist.

Lemma run0 {K} `{HK : Label K} inv_of lsa mean_pred (plan : table K string R) : running inv_of lsa mean_pred plan (loop_start plan).
Proof.
  split; [|split; [cbn; repeat constructor; auto|split; [cbn; lia|split; reflexivity]]].
    split; [reflexivity|]. split; [reflexivity|]. split; [reflexivity|]. split; [reflexivity|].
    intros i P Hp. destruct i; discriminate. 
Qed.
Lemma hist0 {K} `{HK : Label K} inv_of lsa mean_pred (plan : table K string R) st ch : field_process inv_of lsa mean_pred plan = Ok (st, ch) ->
 exists n b, 1 <= n <= 10 /\ length (l_predictions st) = n /\ steps inv_of lsa mean_pred plan st /\ NoDup (firstn n (l_remaps st)) /\
      nth_error (l_remaps st) n = Some b /\ (In b (firstn n (l_remaps st)) \/ n = 10) /\
      nth_error (l_remaps st) (n - 1) = Some (l_remap st) /\ nth_error (l_positions st) (n - 1) = Some (l_pos_map st) /\ ch = changed b (l_remap st).
Proof.
 exact (rounds_history inv_of lsa mean_pred plan 10 (loop_start plan) st ch (run0 inv_of lsa mean_pred plan)).
Qed.

(*@ C108 What the process returns: the history of at most ten rounds, each made from the remap and layout of the
    round before; all remaps but the last are different; it stopped because the last one had occurred before, or
    after ten rounds. The remap reported as final is the one before the last; "failed to converge" compares those
    two entry by entry. *)
Lemma process_history : forall (K : Type) (HK : Label K) inv_of lsa mean_pred (plan : table K string R) st ch,
  field_process inv_of lsa mean_pred plan = Ok (st, ch) ->
  exists n b, 1 <= n <= 10 /\
    length (l_predictions st) = n /\ length (l_remaps st) = S n /\ length (l_positions st) = S n /\
    nth_error (l_remaps st) 0 = Some (identity_remap (t_index plan)) /\ nth_error (l_positions st) 0 = Some plan /\
    (forall i P, nth_error (l_predictions st) i = Some P -> exists a L a' L',
       nth_error (l_remaps st) i = Some a /\ nth_error (l_positions st) i = Some L /\
       nth_error (l_remaps st) (S i) = Some a' /\ nth_error (l_positions st) (S i) = Some L' /\
       one_round inv_of lsa mean_pred plan a L P a' L') /\
    NoDup (firstn n (l_remaps st)) /\
    nth_error (l_remaps st) n = Some b /\ (In b (firstn n (l_remaps st)) \/ n = 10) /\
    nth_error (l_remaps st) (n - 1) = Some (l_remap st) /\ nth_error (l_positions st) (n - 1) = Some (l_pos_map st) /\
    (forall k, In k ch <-> exists i s q, nth_error b i = Some (k, s) /\ nth_error (l_remap st) i = Some q /\ q <> (k, s)).
Proof.
  intros K HK inv_of lsa mean_pred plan st ch E.
  destruct (hist0 inv_of lsa mean_pred plan st ch E) as (n & b & H1 & H2 & H3 & H4 & H5 & H6 & H7 & H8 & H9).
  destruct H3 as (S1 & S2 & S3 & S4 & S5). exists n, b. rewrite H2 in S1, S2. subst ch.
  split; [exact H1|]. split; [exact H2|]. split; [exact S1|]. split; [exact S2|]. split; [exact S3|]. split; [exact S4|]. split; [exact S5|].
  split; [exact H4|]. split; [exact H5|]. split; [exact H6|]. split; [exact H7|]. split; [exact H8|]. intro k. apply changed_in.
Qed.

(*@ C108 With predictions that never fail (NaN allowed) the process never fails, and each layout of the history is the
    plan rearranged by the corresponding remap, which lists every entity exactly once. If no inverter's name occurs
    inside another's, every remap is one-to-one and moves nothing across inverters: no location is lost or given
    out twice. *)
Lemma process_sound : forall (K : Type) (HK : Label K) inv_of lsa mean_pred (plan : table K string R),
  lsa_correct lsa -> wf_table plan -> all_located plan ->
  (forall L k, wf_table L -> t_index L = t_index plan -> all_located L -> In k (t_index plan) -> exists x, mean_pred L k = Ok x) ->
  exists st ch, field_process inv_of lsa mean_pred plan = Ok (st, ch) /\
    forall i a L, nth_error (l_remaps st) i = Some a -> nth_error (l_positions st) i = Some L ->
      Permutation (map fst a) (t_index plan) /\ (forall p, In p a -> In (snd p) (t_index plan)) /\ rearranged plan a L /\
      (clear_names inv_of (t_index plan) -> one_to_one (t_index plan) a /\ keeps_inverter inv_of a).
Proof.
  intros K HK inv_of lsa mean_pred plan Hlsa W Lp Tot. unfold field_process. pose proof W as (_ & ND & _).
  set (Good := fun a L => loop_inv plan a L /\ (clear_names inv_of (t_index plan) -> one_to_one (t_index plan) a /\ keeps_inverter inv_of a)).
  assert (G : forall fuel st, length (l_positions st) <= 10 -> 11 <= fuel + length (l_positions st) ->
     Forall2 Good (l_remaps st) (l_positions st) -> Good (l_remap st) (l_pos_map st) ->
     exists st' ch, rounds inv_of lsa mean_pred fuel plan st = Ok (st', ch) /\ Forall2 Good (l_remaps st') (l_positions st')).
  { induction fuel as [|fuel IH]; intros st H1 H2 F [G1 G2]; [lia|]. cbn [rounds].
    destruct (round_sound inv_of lsa Hlsa mean_pred plan (l_remap st) (l_pos_map st) W Lp G1) as (P & a' & L' & E & IN & B & OK).
    { intros k Hk. pose proof G1 as (_ & _ & WL & IL & LL & _). now apply Tot. }
    rewrite E. cbn [rbind].
    assert (Ga : Good a' L').
    { split; auto. intro C. destruct (G2 C). now apply OK. }
    assert (F' : Forall2 Good (l_remaps st ++ [a']) (l_positions st ++ [L'])) by (apply Forall2_app; auto).
    destruct (Nat.leb_spec 10 (length (l_positions st))) as [Hl|Hl].
    - rewrite orb_true_r. eauto.
    - rewrite orb_false_r. destruct (existsb _ _); eauto. apply IH; cbn [l_positions l_remaps l_remap l_pos_map]; auto; rewrite app_length; cbn; lia. }
  assert (Gs : Good (identity_remap (t_index plan)) plan).
  { split; [now apply inv_start|]. intros _. split; [apply identity_one_to_one|]. intros k s Hk. apply in_map_iff in Hk. destruct Hk as (x & Ex & _). now injection Ex as <- <-. }
  destruct (G 10 (loop_start plan)) as (st & ch & E & F); cbn [loop_start l_positions l_remaps l_remap l_pos_map length]; auto; try lia.
  exists st, ch. split; auto. intros i a L Ha HL. apply (fun H => Forall2_nth_both Good _ _ F i a L H HL) in Ha.
  destruct Ha as [(K1 & K2 & _ & _ & _ & K3 & K4) K5]. split; [|auto]. now apply NoDup_Permutation.
Qed.

Lemma rounds_stop {K} `{HK : Label K} inv_of lsa mean_pred fuel (plan : table K string R) st P a' L' :
  field_round inv_of lsa mean_pred plan (l_remap st) (l_pos_map st) = Ok (P, a', L') -> In a' (l_remaps st) ->
  rounds inv_of lsa mean_pred (S fuel) plan st =
    Ok (mkFloop (l_remap st) (l_pos_map st) (l_remaps st ++ [a']) (l_positions st ++ [L']) (l_predictions st ++ [P]), changed a' (l_remap st)).
Proof.
  intros E I. cbn [rounds]. rewrite E. cbn [rbind].
  replace (existsb (remap_eqb a') (l_remaps st)) with true; [reflexivity|]. symmetry. apply existsb_exists. exists a'. split; auto. now apply remap_eqb_eq.
Qed.

Lemma rounds_go {K} `{HK : Label K} inv_of lsa mean_pred fuel (plan : table K string R) st P a' L' :
  field_round inv_of lsa mean_pred plan (l_remap st) (l_pos_map st) = Ok (P, a', L') -> ~ In a' (l_remaps st) -> length (l_positions st) < 10 ->
  rounds inv_of lsa mean_pred (S fuel) plan st =
    rounds inv_of lsa mean_pred fuel plan (mkFloop a' L' (l_remaps st ++ [a']) (l_positions st ++ [L']) (l_predictions st ++ [P])).
Proof.
  intros E I Hl. cbn [rounds]. rewrite E. cbn [rbind].
  replace (existsb (remap_eqb a') (l_remaps st)) with false.
  - rewrite (proj2 (Nat.leb_gt 10 _) Hl). reflexivity.
  - symmetry. apply not_true_is_false. intro F. apply existsb_exists in F. destruct F as (x & Hx & Ex). apply remap_eqb_eq in Ex. now subst x.
Qed.

(*@ C108 Recovery: if, for every layout the process may try, each prediction is nearest to the entity's true location
    among the locations of its inverter (or is NaN and the layout has that entity right already), the process ends
    with the true reassignment after at most two rounds, reports it, and reports nothing as unconverged. *)
Lemma process_recovers : forall (K : Type) (HK : Label K) inv_of lsa mean_pred (plan : table K string R) s,
  lsa_correct lsa -> wf_table plan -> all_located plan -> clear_names inv_of (t_index plan) ->
  one_to_one (t_index plan) s -> keeps_inverter inv_of s ->
  (forall r L, one_to_one (t_index plan) r -> keeps_inverter inv_of r -> wf_table L -> rearranged plan r L -> forall k m, In (k, m) s ->
     (exists p, mean_pred L k = Ok (Some (fst p), Some (snd p)) /\ nearest_is inv_of plan p m) \/
     (exists x, mean_pred L k = Ok x /\ (fst x = None \/ snd x = None) /\ In (k, m) r)) ->
  exists st, field_process inv_of lsa mean_pred plan = Ok (st, []) /\ length (l_predictions st) <= 2 /\
    Permutation (l_remap st) s /\ rearranged plan s (l_pos_map st).
Proof.
  intros K HK inv_of lsa mean_pred plan s Hlsa W Lp CN Os Ks Hm. pose proof W as (_ & ND & _).
  assert (NC : forall r : list (K * K), changed r r = []).
  { intro r. unfold changed. replace (filter _ (combine r r)) with (@nil ((K * K) * (K * K))); auto.
    induction r as [|[x y] r IH]; cbn; auto. rewrite !lab_eqb_refl. cbn. exact IH. }
  assert (RP : forall r L, Permutation r s -> rearranged plan r L -> rearranged plan s L).
  { intros r L P (A & B & C). split; auto. split; auto. intros k m Hk. apply C. now apply (Permutation_in _ (Permutation_sym P)). }
  assert (I0 : loop_inv plan (identity_remap (t_index plan)) plan) by (apply inv_start; auto).
  destruct (round_recovers inv_of lsa Hlsa mean_pred plan (identity_remap (t_index plan)) plan s) as (P1 & L1 & E1 & I1); auto.
  { apply identity_one_to_one. }
  { intros k m Hk. apply in_map_iff in Hk. destruct Hk as (x & Ex & _). now injection Ex as <- <-. }
  { apply Hm; auto; [apply identity_one_to_one| |apply I0]. intros k m Hk. apply in_map_iff in Hk. destruct Hk as (x & Ex & _). now injection Ex as <- <-. }
  assert (PS : Permutation (sort_by by_key s) s) by (symmetry; apply sort_by_perm).
  assert (Oss : one_to_one (t_index plan) (sort_by by_key s)) by now apply one_to_one_sorted.
  assert (Kss : keeps_inverter inv_of (sort_by by_key s)) by (intros k m Hk; apply Ks; now apply (Permutation_in _ PS)).
  destruct (round_recovers inv_of lsa Hlsa mean_pred plan (sort_by by_key s) L1 s) as (P2 & L2 & E2 & I2); auto.
  { apply Hm; auto; apply I1. }
  change (field_process inv_of lsa mean_pred plan) with (rounds inv_of lsa mean_pred 10 plan (loop_start plan)).
  destruct (remap_eqb (sort_by by_key s) (identity_remap (t_index plan))) eqn:Eq.
  - apply remap_eqb_eq in Eq. rewrite (rounds_stop inv_of lsa mean_pred 9 plan (loop_start plan) P1 (sort_by by_key s) L1 E1) by (left; symmetry; exact Eq).
    cbn [loop_start l_remap l_pos_map l_remaps l_positions l_predictions]. fold (identity_remap (t_index plan)).
    eexists. rewrite <- Eq, NC. split; [reflexivity|]. cbn. split; [lia|]. split; auto.
    apply (RP (identity_remap (t_index plan))); [now rewrite <- Eq|apply I0].
  - rewrite (rounds_go inv_of lsa mean_pred 9 plan (loop_start plan) P1 (sort_by by_key s) L1 E1).
    + match goal with |- context [rounds _ _ _ 9 plan ?st] => rewrite (rounds_stop inv_of lsa mean_pred 8 plan st P2 (sort_by by_key s) L2 E2) by (right; left; reflexivity) end.
      cbn [l_remap l_pos_map l_remaps l_positions l_predictions]. rewrite NC. eexists. split; [reflexivity|]. cbn. split; [lia|]. split; auto.
      apply (RP (sort_by by_key s)); auto. apply I1.
    + intros [F|[]]. apply (proj2 (remap_eqb_eq _ _)) in F. fold (identity_remap (t_index plan)) in F. rewrite (proj1 (remap_eqb_eq _ _) F) in Eq.
      rewrite (proj2 (remap_eqb_eq _ _) eq_refl) in Eq. discriminate.
    + cbn. lia.
Qed.

Lemma mean_of_equal (c : R) l : (forall x, In x l -> x = Fin c \/ x = Nan) ->
  (In (Fin c) l -> series_mean l = Fin c) /\ (~ In (Fin c) l -> series_mean l = Nan).
Proof.
  intro Hl. unfold series_mean.
  assert (F : exists m, filter (fun a => negb (is_nan a)) l = repeat (Fin c) m /\ (In (Fin c) l <-> m <> 0)).
  { induction l as [|x l IH]; [exists 0; cbn; tauto|]. destruct IH as (m & E & I); [intros; apply Hl; now right|].
    destruct (Hl x (or_introl eq_refl)) as [->| ->]; cbn [filter is_nan negb].
    - exists (S m). rewrite E. split; auto. split; [lia|]. intros _. now left.
    - exists m. split; auto. rewrite <- I. cbn. intuition discriminate. }
  destruct F as (m & E & I). rewrite E. destruct m as [|m]; cbn [repeat].
  - split; auto. intro F. apply I in F. lia.
  - split; [|intro N; exfalso; apply N, I; lia]. intros _.
    change (Fin c :: repeat (Fin c) m) with (repeat (Fin c) (S m)).
    replace (repeat (Fin c) (S m)) with (map Fin (repeat c (S m))) by (clear; induction (S m); cbn; congruence).
    rewrite fsum_fin, map_length, repeat_length. rewrite fdiv_fin by (apply not_0_INR; lia). f_equal.
    assert (Sm : forall n, Rsum (repeat c n) = (INR n * c)%R).
    { induction n as [|n IH]; [cbn; ring|]. cbn [repeat]. rewrite Rsum_cons, IH, S_INR. ring. }
    rewrite Sm. field. apply not_0_INR. lia.
Qed.

Definition XY {K} `{Label K} (t : table K string R) (k : K) : R * R := match position t k with Some q => q | None => (0, 0)%R end.

Lemma sites_fst {K} `{Label K} (t : table K string R) : map fst (layout_sites t) = t_index t.
Proof. unfold layout_sites, t_index. rewrite map_map. reflexivity. Qed.

Lemma sites_row {K} `{Label K} (t : table K string R) k q : position t k = Some q -> dget (layout_sites t) k = Some q.
Proof.
  unfold position, layout_sites. induction (t_rows t) as [|[j row] rows IH]; cbn; [discriminate|].
  destruct (lab_eqb j k); auto. destruct row as [|[e|] [|[n|] row]]; try discriminate. auto.
Qed.

Lemma sites_snd {K} `{HK : Label K} (t : table K string R) : NoDup (t_index t) -> all_located t -> map snd (layout_sites t) = map (XY t) (t_index t).
Proof.
  intros ND Lt. rewrite <- sites_fst, map_map. apply map_ext_in. intros [k q] Hk. cbn.
  assert (Hki : In k (t_index t)) by (rewrite <- sites_fst; now apply (in_map fst) in Hk).
  destruct (Lt k Hki) as [q' Eq]. unfold XY. rewrite Eq. apply sites_row in Eq.
  apply dget_NoDup in Hk; [|unfold dkeys; now rewrite sites_fst]. congruence.
Qed.

Lemma positions_permuted {K} `{HK : Label K} (plan L : table K string R) r (Y : K -> R * R) :
  one_to_one (t_index plan) r -> (forall k m, In (k, m) r -> Y k = XY plan m) -> Permutation (map Y (t_index plan)) (map (XY plan) (t_index plan)).
Proof.
  intros [P1 P2] HY. rewrite <- P1 at 1. rewrite <- P2. rewrite !map_map.
  replace (map (fun x => Y (fst x)) r) with (map (fun x => XY plan (snd x)) r); auto.
  apply map_ext_in. intros [k m] Hk. cbn. symmetry. now apply HY.
Qed.

(*@ C108 The whole chain: when the delays are the true travel times, the CMVs of each pair are not parallel, any two
    locations of an inverter differ along both CMVs of some pair, and mode='all' is used, the process finds the
    true reassignment, however many labels within each inverter are wrong. *)
Lemma process_exact : forall (K : Type) (HK : Label K) inv_of lsa dtf sv cmv pairs n (plan : table K string R) s (X : K -> R * R),
  lsa_correct lsa -> sorts sv -> wf_table plan -> all_located plan -> clear_names inv_of (t_index plan) ->
  one_to_one (t_index plan) s -> keeps_inverter inv_of s -> (forall k m, In (k, m) s -> position plan m = Some (X k)) ->
  (forall dfa va dfb vb, In ((dfa, va), (dfb, vb)) pairs ->
     ~ parallel va vb /\ exact_delays dtf (t_index plan) X dfa va /\ exact_delays dtf (t_index plan) X dfb vb) ->
  (forall m m' q q', In m (t_index plan) -> In m' (t_index plan) -> inv_of m = inv_of m' -> m <> m' ->
     position plan m = Some q -> position plan m' = Some q' ->
     exists dfa va dfb vb, In ((dfa, va), (dfb, vb)) pairs /\ inner (sub2 q q') va <> 0%R /\ inner (sub2 q q') vb <> 0%R) ->
  exists st, field_process inv_of lsa (pairs_mean dtf sv cmv pairs "all"%string n) plan = Ok (st, []) /\ length (l_predictions st) <= 2 /\
    Permutation (l_remap st) s /\ rearranged plan s (l_pos_map st).
Proof.
  intros K HK inv_of lsa dtf sv cmv pairs n plan s X Hlsa Hsv W Lp CN Os Ks HX Hpairs Hgen. pose proof W as (_ & ND & _).
  destruct (one_to_one_keys _ s ND Os) as [Ns1 Ns2].
  apply process_recovers; auto. intros r L Or Kr WL RL k m Hkm.
  destruct RL as (CL & IL & DL). destruct (one_to_one_keys _ r ND Or) as [Nr1 Nr2].
  assert (Hk : In k (t_index plan)) by (apply (Permutation_in _ (proj1 Os)); now apply (in_map fst) in Hkm).
  assert (Hmi : In m (t_index plan)) by (apply (Permutation_in _ (proj2 Os)); now apply (in_map snd) in Hkm).
  destruct (one_to_one_source _ r k ND Or Hk) as (m' & Em' & Hm'i). apply listed_source_In in Em'.
  destruct (Lp m' Hm'i) as [rp Erp].
  assert (LL : all_located L).
  { intros j Hj. rewrite IL in Hj. destruct (one_to_one_source _ r j ND Or Hj) as (j' & Ej & Hj'). apply listed_source_In in Ej.
    rewrite (position_dget L plan j j') by auto. now apply Lp. }
  assert (PL : position L k = Some rp) by (rewrite (position_dget L plan k m') by auto; exact Erp).
  assert (NDL : NoDup (map fst (layout_sites L))) by (rewrite sites_fst, IL; auto).
  assert (PM : Permutation (map X (map fst (layout_sites L))) (map snd (layout_sites L))).
  { rewrite sites_fst, sites_snd, IL by (rewrite ?IL; auto). transitivity (map (XY plan) (t_index plan)).
    - apply (positions_permuted plan plan s); auto. intros j l Hj. unfold XY. now rewrite (HX j l Hj).
    - symmetry. apply (positions_permuted plan plan r); auto. intros j l Hj. unfold XY. now rewrite (position_dget L plan j l) by auto. }
  assert (Each : forall dfa va dfb vb, In ((dfa, va), (dfb, vb)) pairs -> exists p s12,
     compute_predicted_position dtf sv cmv dfa dfb (layout_sites L) k (Some (Some va, Some vb)) "all" n = Ok (p, s12) /\
     ((inner (sub2 (X k) rp) va <> 0 /\ inner (sub2 (X k) rp) vb <> 0)%R -> p = (Fin (fst (X k)), Fin (snd (X k)))) /\
     ((inner (sub2 (X k) rp) va = 0 \/ inner (sub2 (X k) rp) vb = 0)%R -> p = (Nan, Nan))).
  { intros dfa va dfb vb Hin. destruct (Hpairs _ _ _ _ Hin) as (NP & XA & XB).
    destruct (XA k Hk) as (sa & ca & Da & La & Ta). destruct (XB k Hk) as (sb & cb & Db & Lb & Tb).
    assert (Len : length (layout_sites L) = length (t_index plan)) by (rewrite <- IL, <- sites_fst, map_length; reflexivity).
    assert (Ex : exists res, compute_predicted_position dtf sv cmv dfa dfb (layout_sites L) k (Some (Some va, Some vb)) "all" n = Ok res).
    { apply sites_row in PL. eapply predicted_success; [exact Hsv|exact Da|exact Db|exact PL|exact Ta|exact Tb|..].
      - rewrite map_length. now rewrite Len.
      - now rewrite Len.
      - rewrite map_length. now rewrite Len.
      - now rewrite Len.
      - cbn. tauto. }
    destruct Ex as ([p [s1 s2]] & E).
    assert (Na : va <> (0, 0)%R) by (intros ->; apply NP; unfold parallel, cross; cbn; ring).
    assert (Nb : vb <> (0, 0)%R) by (intros ->; apply NP; unfold parallel, cross; cbn; ring).
    assert (Row : forall df v sg ch d ix ss j row, v <> (0, 0)%R -> dget df k = Some sg -> dtf (k, sg) df = Ok (map (fun j => Fin (travel_time v (X k) (X j))) (t_index plan), ch) ->
        pp_case dtf df (layout_sites L) k (Some v) = Ok d -> loc_rows d ix = Ok ss -> In (j, row) ss -> pp_delay row = Fin (travel_time v (X k) (X j))).
    { intros df v sg ch d ix ss j row Nv Dk Tk Ec El Hj. destruct (case_rows_ok _ _ _ _ _ _ _ _ Nv Ec El) as (sg' & dl & ch' & rp' & R1 & R2 & _ & R4).
      destruct (R4 j row Hj) as (i & P & N1 & N2 & _). assert (sg' = sg) by congruence. subst sg'.
      assert (dl = map (fun j => Fin (travel_time v (X k) (X j))) (t_index plan)) by congruence. subst dl.
      assert (Nj : nth_error (t_index plan) i = Some j) by (rewrite <- IL, <- sites_fst; now rewrite nth_error_map, N1).
      rewrite nth_error_map, Nj in N2. cbn in N2. congruence. }
    pose proof E as E'. apply cpp_inv in E'. destruct E' as (d1 & d2 & ix1 & ix2 & rp' & E1 & E2 & _ & E4 & E5 & _).
    exists p, (s1, s2). split; auto.
    apply (predicted_all_permuted K HK dtf sv cmv dfa dfb (layout_sites L) k va vb n p s1 s2 rp X); auto.
    - now apply sites_row.
    - intros j row Hj. eapply Row with (df := dfa); eauto.
    - intros j row Hj. eapply Row with (df := dfb); eauto. }
  assert (All : exists preds, mapM (fun pr => let '((dfa, va), (dfb, vb)) := pr in
        let! (p, _) := compute_predicted_position dtf sv cmv dfa dfb (layout_sites L) k (Some (Some va, Some vb)) "all" n in Ok p) pairs = Ok preds /\
      Forall2 (fun (pr : list (K * list (option R)) * (R * R) * (list (K * list (option R)) * (R * R))) p => let '((dfa, va), (dfb, vb)) := pr in
         ((inner (sub2 (X k) rp) va <> 0 /\ inner (sub2 (X k) rp) vb <> 0)%R -> p = (Fin (fst (X k)), Fin (snd (X k)))) /\
         ((inner (sub2 (X k) rp) va = 0 \/ inner (sub2 (X k) rp) vb = 0)%R -> p = (Nan, Nan))) pairs preds).
  { apply mapM_Forall2_ex. intros [[dfa va] [dfb vb]] Hin. destruct (Each _ _ _ _ Hin) as (p & s12 & E & A & B). rewrite E. cbn [rbind]. eauto. }
  destruct All as (preds & EP & F). unfold pairs_mean. rewrite EP. cbn [rbind].
  assert (Dich : forall p, In p preds -> p = (Fin (fst (X k)), Fin (snd (X k))) \/ p = (Nan, Nan)).
  { clear - F. induction F as [|[[dfa va] [dfb vb]] p pairs preds [A B] F IH]; intros x Hx; [destruct Hx|]. destruct Hx as [<-|Hx]; auto.
    destruct (Req_dec (inner (sub2 (X k) rp) va) 0); auto. destruct (Req_dec (inner (sub2 (X k) rp) vb) 0); auto. }
  destruct (mean_of_equal (fst (X k)) (map fst preds)) as [ME1 ME2].
  { intros x Hx. apply in_map_iff in Hx. destruct Hx as (p & <- & Hp). destruct (Dich p Hp) as [->| ->]; auto. }
  destruct (mean_of_equal (snd (X k)) (map snd preds)) as [MN1 MN2].
  { intros x Hx. apply in_map_iff in Hx. destruct Hx as (p & <- & Hp). destruct (Dich p Hp) as [->| ->]; auto. }
  destruct (lab_eqb_spec m m') as [<-|Ne].
  - right. assert (rp = X k) by (pose proof (HX k m Hkm); congruence). subst rp.
    assert (Z : forall p, In p preds -> p = (Nan, Nan)).
    { assert (Zv : forall v, inner (sub2 (X k) (X k)) v = 0%R) by (intro v; unfold inner, sub2; cbn; ring).
      clear - F Zv. induction F as [|[[dfa va] [dfb vb]] p pairs preds [A B] F IH]; intros x Hx; [destruct Hx|]. destruct Hx as [<-|Hx]; auto. }
    assert (Q : forall (f : fl * fl -> fl) c, (f (Nan, Nan) = Nan) -> ~ In (Fin c) (map f preds)).
    { intros f c Hf Hin. apply in_map_iff in Hin. destruct Hin as (p & Ep & Hp). rewrite (Z p Hp), Hf in Ep. discriminate. }
    rewrite ME2, MN2 by (apply Q; reflexivity). cbn [pred_cell rbind]. eexists. split; [reflexivity|]. auto.
  - left. exists (X k).
    assert (Hinv : inv_of m = inv_of m') by (rewrite <- (Ks k m Hkm); now apply Kr).
    destruct (Hgen m m' (X k) rp) as (dfa & va & dfb & vb & Hin & Ia & Ib); auto.
    assert (Hp : In (Fin (fst (X k)), Fin (snd (X k))) preds).
    { clear - F Hin Ia Ib. induction F as [|[[dfa' va'] [dfb' vb']] p pairs preds [A B] F IH]; [destruct Hin|]. destruct Hin as [Hin|Hin].
      - injection Hin as -> -> -> ->. left. symmetry. symmetry. apply A. auto.
      - right. auto. }
    rewrite ME1, MN1 by (eapply in_map in Hp; exact Hp). cbn [pred_cell rbind]. split; [reflexivity|].
    exists (X k). split; auto. intros j q' Hj Ij Nj Eq'.
    destruct (Hgen m j (X k) q') as (dfa' & va' & dfb' & vb' & _ & Ja & _); auto.
    assert (D0 : planar_dist (X k) (X k) = 0%R).
    { unfold planar_dist. replace ((fst (X k) - fst (X k)) ^ 2 + (snd (X k) - snd (X k)) ^ 2)%R with 0%R by ring. apply sqrt_0. }
    rewrite D0. destruct (Rle_lt_or_eq_dec 0 (planar_dist (X k) q')) as [|Z]; auto; [apply planar_dist_nonneg|].
    exfalso. symmetry in Z. apply planar_dist_zero in Z. subst q'. apply Ja. unfold inner, sub2. cbn. ring.
Qed.

(* Two combiners on inverters "1" and "12", each predicted at the other's location. *)
Definition sub_plan : table string string R := mkTable ["E"; "N"]%string [("A-1"%string, [Some 0%R; Some 0%R]); ("A-12"%string, [Some 3%R; Some 4%R])].
Definition sub_inv (k : string) : string := if String.eqb k "A-1" then "1"%string else "12"%string.
Definition sub_pred (L : table string string R) (k : string) : result (option R * option R) :=
  if String.eqb k "A-1" then Ok (Some 3%R, Some 4%R) else Ok (Some 0%R, Some 0%R).

Lemma sub_wf : wf_table sub_plan.
Proof. split; [|split]; cbn; repeat constructor; cbn; intuition discriminate. Qed.
Lemma sub_located : all_located sub_plan.
Proof. intros k Hk. cbn in Hk. destruct Hk as [<-|[<-|[]]]; eexists; reflexivity. Qed.

Lemma sub_dist : planar_dist (3, 4)%R (3, 4)%R = 0%R /\ planar_dist (0, 0)%R (0, 0)%R = 0%R /\ (0 < planar_dist (3, 4)%R (0, 0)%R)%R /\ (0 < planar_dist (0, 0)%R (3, 4)%R)%R.
Proof.
  unfold planar_dist. cbn [fst snd]. repeat split.
  - replace ((3 - 3) ^ 2 + (4 - 4) ^ 2)%R with 0%R by ring. apply sqrt_0.
  - replace ((0 - 0) ^ 2 + (0 - 0) ^ 2)%R with 0%R by ring. apply sqrt_0.
  - apply sqrt_lt_R0. lra.
  - apply sqrt_lt_R0. lra.
Qed.

(*@ C108 Inverter names that contain one another break this: with inverters "1" and "12" the first one's group takes
    in the second one's combiners, and the final map gives one location to two combiners and another to none. *)
Lemma process_names_refuted : exists (plan : table string string R) inv_of mean_pred,
  wf_table plan /\ all_located plan /\ (forall L k, exists x, mean_pred L k = Ok x) /\
  forall lsa, lsa_correct lsa -> exists st ch, field_process inv_of lsa mean_pred plan = Ok (st, ch) /\
    ~ one_to_one (t_index plan) (l_remap st) /\
    forall p, In p (l_remap st) -> snd p = "A-12"%string.
Proof.
  exists sub_plan, sub_inv, sub_pred. split; [apply sub_wf|]. split; [apply sub_located|].
  assert (Tot : forall L k, exists x, sub_pred L k = Ok x) by (intros L k; unfold sub_pred; destruct (String.eqb k "A-1"); eauto).
  split; [exact Tot|]. intros lsa Hlsa. set (b := [("A-1", "A-12"); ("A-12", "A-12")]%string).
  destruct sub_dist as (D1 & D2 & D3 & D4).
  assert (I0 : loop_inv sub_plan (identity_remap (t_index sub_plan)) sub_plan) by exact (inv_start sub_inv sub_pred sub_plan sub_wf sub_located).
  set (P := mkTable ["E"; "N"]%string [("A-1"%string, [Some 3%R; Some 4%R]); ("A-12"%string, [Some 0%R; Some 0%R])]).
  set (P2 := mkTable ["E"; "N"]%string [("A-12"%string, [Some 0%R; Some 0%R])]).
  set (L2 := mkTable ["E"; "N"]%string [("A-12"%string, [Some 3%R; Some 4%R])]).
  destruct (group_recovers lsa Hlsa sub_plan P [("A-1", "A-12"); ("A-12", "A-1")]%string) as (r1 & o1 & E1 & O1 & S1); auto; try apply sub_wf; try apply sub_located.
  { split; [|split]; cbn; repeat constructor; cbn; intuition discriminate. }
  { split; cbn; [reflexivity|apply perm_swap]. }
  { intros k Hk. exfalso. unfold nan_entity, P in Hk. cbn -[String.eqb] in Hk. destruct (String.eqb "A-1" k); [discriminate|]. destruct (String.eqb "A-12" k); discriminate. }
  { intros k l l' p q q' Hkl Hl' Ne Ep Eq Eq'. cbn in Hkl, Hl'. destruct Hkl as [F|[F|[]]]; injection F as <- <-; destruct Hl' as [<-|[<-|[]]]; try contradiction;
    cbn in Ep, Eq, Eq'; injection Ep as <-; injection Eq as <-; injection Eq' as <-; lra. }
  assert (E2 : exists r2 o2, assign_positions lsa L2 P2 = Ok (r2, o2) /\ one_to_one ["A-12"]%string r2).
  { destruct (group_assign lsa Hlsa L2 P2) as (r2 & o2 & E2 & O2 & _); eauto.
    - split; [|split]; cbn; repeat constructor; cbn; intuition discriminate.
    - split; [|split]; cbn; repeat constructor; cbn; intuition discriminate.
    - intros k Hk. cbn in Hk. destruct Hk as [<-|[]]. eexists. reflexivity. }
  destruct E2 as (r2 & o2 & E2 & O2).
  assert (Er2 : r2 = [("A-12", "A-12")]%string).
  { destruct O2 as [O2 O2']. destruct r2 as [|[x y] [|? r2]]; cbn in O2, O2'.
    - apply Permutation_length in O2. discriminate.
    - apply Permutation_length_1 in O2. apply Permutation_length_1 in O2'. congruence.
    - apply Permutation_length in O2. discriminate. }
  subst r2.
  assert (Stays : forall a L, loop_inv sub_plan a L -> (forall k s, In (k, s) a -> s = "A-12"%string) \/ (a = identity_remap (t_index sub_plan) /\ L = sub_plan) ->
     exists P' L', field_round sub_inv lsa sub_pred sub_plan a L = Ok (P', b, L') /\ loop_inv sub_plan b L').
  { intros a L IN Hc. destruct (round_sound sub_inv lsa Hlsa sub_pred sub_plan a L sub_wf sub_located IN) as (P' & a' & L' & ER & IN' & B & _); [intros; apply Tot|].
    enough (a' = b) as -> by eauto.
    assert (Ks : forall k, In k (map fst a') <-> k = "A-1"%string \/ k = "A-12"%string).
    { intro k. pose proof IN' as (KA & _). rewrite KA. cbn. intuition congruence. }
    assert (Ss : forall k s, In (k, s) a' -> s = "A-12"%string).
    { destruct Hc as [Hc|[-> ->]].
      - unfold field_round in ER. destruct (all_preds _ _ _) as [P0|] in ER; [|discriminate]. cbn [rbind] in ER.
        destruct (all_assignments _ _ _ _ _) as [r|] in ER; [|discriminate]. cbn [rbind] in ER.
        destruct (cascade_remap a r) as [a2|] eqn:EC; [|discriminate]. cbn [rbind] in ER.
        destruct (remap_positions _ a2 None); [|discriminate]. cbn [rbind] in ER. injection ER as _ <- _.
        intros k s Hks. destruct (cascade_cases a r) as [[_ F]|(_ & a3 & E3 & _ & ND3 & HS3 & Hl)]; [congruence|]. assert (a3 = a2) by congruence. subst a3.
        assert (Es : listed_source a2 k = Some s) by (rewrite listed_source_NoDup by auto; now apply dget_NoDup).
        rewrite Hl in Es. destruct (lab_mem k (map fst a)); [|discriminate]. unfold composed in Es. destruct (listed_source r k) as [m|]; [|discriminate].
        apply listed_source_In in Es. now apply Hc in Es.
      - unfold field_round in ER. change (all_preds sub_pred (t_index sub_plan) sub_plan) with (Ok P) in ER. cbn [rbind] in ER.
        unfold all_assignments in ER. change (inverter_ids sub_inv (t_index sub_plan)) with ["1"; "12"]%string in ER. cbn [mapM] in ER.
        change (refsub sub_inv (t_index sub_plan) "1") with ["A-1"; "A-12"]%string in ER. change (refsub sub_inv (t_index sub_plan) "12") with ["A-12"]%string in ER.
        change (t_loc sub_plan ["A-1"; "A-12"]%string) with (Ok sub_plan) in ER. change (t_loc P ["A-1"; "A-12"]%string) with (Ok P) in ER.
        change (t_loc sub_plan ["A-12"]%string) with (Ok L2) in ER. change (t_loc P ["A-12"]%string) with (Ok P2) in ER. cbn [rbind] in ER.
        rewrite E1 in ER. cbn [rbind] in ER. rewrite E2 in ER. cbn [rbind concat] in ER. rewrite app_nil_r in ER.
        destruct (cascade_remap _ (r1 ++ _)) as [a2|] eqn:EC; [|discriminate]. cbn [rbind] in ER.
        destruct (remap_positions _ a2 None); [|discriminate]. cbn [rbind] in ER. injection ER as _ <- _.
        intros k s Hks. destruct (cascade_cases (identity_remap (t_index sub_plan)) (r1 ++ [("A-12", "A-12")]%string)) as [[_ F]|(_ & a3 & E3 & _ & ND3 & HS3 & Hl)]; [congruence|].
        assert (a3 = a2) by congruence. subst a3.
        assert (Es : listed_source a2 k = Some s) by (rewrite listed_source_NoDup by auto; now apply dget_NoDup).
        assert (Hk : k = "A-1"%string \/ k = "A-12"%string) by (apply Ks; now apply (in_map fst) in Hks).
        rewrite Hl in Es. destruct (lab_mem k _); [|discriminate]. unfold composed in Es.
        rewrite listed_source_app in Es. destruct Hk as [->| ->].
        + cbn [listed_source] in Es. change (lab_eqb "A-12"%string "A-1"%string) with false in Es. rewrite S1 in Es. cbn in Es. congruence.
        + cbn in Es. congruence. }
    pose proof IN' as (_ & _ & _ & _ & _ & _ & NDa).
    apply remap_ext; auto.
    - apply by_entity_sorted. repeat (constructor; [|now repeat constructor]). constructor.
    - cbn. repeat constructor; cbn; intuition discriminate.
    - intro k. rewrite listed_source_NoDup by auto.
      destruct (dget a' k) as [s|] eqn:Ed.
      + assert (Hk : k = "A-1"%string \/ k = "A-12"%string) by (apply Ks; now apply dget_Some_key in Ed).
        apply dget_In in Ed. apply Ss in Ed. subst s. destruct Hk as [->| ->]; reflexivity.
      + apply dget_None in Ed. symmetry. apply listed_source_None. intro F. apply Ed. apply Ks. cbn in F. intuition congruence. }
  destruct (Stays _ _ I0) as (PA & LA & EA & IA); [now right|].
  destruct (Stays b LA IA) as (PB & LB & EB & IB); [left; intros k s [F|[F|[]]]; now injection F as <- <-|].
  change (field_process sub_inv lsa sub_pred sub_plan) with (rounds sub_inv lsa sub_pred 10 sub_plan (loop_start sub_plan)).
  rewrite (rounds_go sub_inv lsa sub_pred 9 sub_plan (loop_start sub_plan) PA b LA EA); [|intros [F|[]]; discriminate|cbn; lia].
  match goal with |- context [rounds _ _ _ 9 sub_plan ?st] => rewrite (rounds_stop sub_inv lsa sub_pred 8 sub_plan st PB b LB EB) by (right; left; reflexivity) end.
  do 2 eexists. split; [reflexivity|]. cbn [l_remap]. split.
  - intros [_ F]. cbn in F. assert (In "A-1"%string ["A-12"; "A-12"]%string) by (apply (Permutation_in _ (Permutation_sym F)); now left).
    cbn in H. intuition discriminate.
  - intros p [<-|[<-|[]]]; reflexivity.
Qed.

(* Two combiners of one inverter with exchanged labels. *)
Definition swap_plan : table nat string R := mkTable ["E"; "N"]%string [(0, [Some 0%R; Some 0%R]); (1, [Some 100%R; Some 50%R])].
Definition swap_inv (k : nat) : string := "20"%string.
Definition swap_exact (sig : nat * list (option R)) (_ : list (nat * list (option R))) : result (list fl * list fl) :=
  if Nat.eqb (fst sig) 0 then Ok ([Fin 0%R; Fin (-10)%R], [Fin 1%R; Fin 1%R]) else Ok ([Fin 10%R; Fin 0%R], [Fin 1%R; Fin 1%R]).
Definition swap_pairs := [((swap_df 1, (10, 0)%R), (swap_df 2, (0, 5)%R))].

(*@ex C108 Two combiners of inverter 20 with exchanged labels; eastward and northward clouds. *)
Lemma process_example :
  lsa_correct lsa_brute /\ sorts (sort_by (rank_leb (K := nat))) /\ wf_table swap_plan /\ all_located swap_plan /\ clear_names swap_inv (t_index swap_plan) /\
  one_to_one (t_index swap_plan) [(0, 1); (1, 0)] /\ keeps_inverter swap_inv [(0, 1); (1, 0)] /\
  (forall k m, In (k, m) [(0, 1); (1, 0)] -> position swap_plan m = Some (swap_truth k)) /\
  (forall dfa va dfb vb, In ((dfa, va), (dfb, vb)) swap_pairs ->
     ~ parallel va vb /\ exact_delays swap_exact (t_index swap_plan) swap_truth dfa va /\ exact_delays swap_exact (t_index swap_plan) swap_truth dfb vb) /\
  (forall m m' q q', In m (t_index swap_plan) -> In m' (t_index swap_plan) -> swap_inv m = swap_inv m' -> m <> m' ->
     position swap_plan m = Some q -> position swap_plan m' = Some q' ->
     exists dfa va dfb vb, In ((dfa, va), (dfb, vb)) swap_pairs /\ inner (sub2 q q') va <> 0%R /\ inner (sub2 q q') vb <> 0%R).
Proof.
  split; [apply lsa_brute_correct|]. split; [apply stable_sorts|].
  split; [split; [|split]; cbn; repeat constructor; cbn; intuition discriminate|].
  split; [intros k Hk; cbn in Hk; destruct Hk as [<-|[<-|[]]]; eexists; reflexivity|].
  split; [intros a b _ _ _; reflexivity|]. split; [split; cbn; [reflexivity|apply perm_swap]|]. split; [intros k m _; reflexivity|].
  split; [intros k m [F|[F|[]]]; injection F as <- <-; reflexivity|]. split.
  - intros dfa va dfb vb [F|[]]. injection F as <- <- <- <-. split; [unfold parallel, cross; cbn; lra|].
    assert (X : forall v : R * R, v = (10, 0)%R \/ v = (0, 5)%R -> forall n, exact_delays swap_exact (t_index swap_plan) swap_truth (swap_df n) v).
    { intros v Hv n k Hk. exists (repeat (Some 1%R) n), [Fin 1%R; Fin 1%R]. cbn in Hk. destruct Hk as [<-|[<-|[]]]; (split; [reflexivity|]); (split; [reflexivity|]);
      unfold swap_exact; cbn [fst Nat.eqb t_index swap_plan t_rows map]; do 2 f_equal; destruct Hv as [->| ->]; unfold travel_time, inner, sub2, swap_truth; cbn [fst snd]; f_equal; try f_equal; try (f_equal; field); try (f_equal; f_equal; field). }
    split; apply X; auto.
  - intros m m' q q' Hm Hm' _ Ne Eq Eq'. exists (swap_df 1), (10, 0)%R, (swap_df 2), (0, 5)%R. split; [now left|].
    cbn in Hm, Hm'. destruct Hm as [<-|[<-|[]]], Hm' as [<-|[<-|[]]]; try contradiction; cbn in Eq, Eq'; injection Eq as <-; injection Eq' as <-; unfold inner, sub2; cbn [fst snd]; split; lra.
Qed.
