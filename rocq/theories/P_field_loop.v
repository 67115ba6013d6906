(** Lemmas for the iterative reassignment loop (M_field_loop.v). *)
From Coq Require Import String Permutation Sorted.
From Verif Require Import Prelude PreludeFacts RealBase Fl M_field_remap Spec_field P_field_remap P_field_assign M_field_loop Spec_field_loop.
From Coq Require Import Lia Lra.
Local Open Scope nat_scope.

Lemma prefix_iff a b : String.prefix a b = true <-> exists q, b = (a ++ q)%string.
Proof.
  revert b. induction a as [|c a IH]; intro b.
  - destruct b; cbn; split; intros; auto; now eexists.
  - destruct b as [|d b]; cbn.
    + split; [discriminate|]. intros [q E]. discriminate.
    + destruct (Ascii.ascii_dec c d) as [->|N].
      * rewrite IH. split; intros [q E]; exists q; [now rewrite E|]. now injection E.
      * split; [discriminate|]. intros [q E]. injection E. congruence.
Qed.

Lemma py_contains_iff a b : py_contains a b = true <-> occurs_in a b.
Proof.
  unfold py_contains, occurs_in. revert a. induction b as [|c b IH]; intro a.
  - cbn. destruct a; cbn; split; auto; [intros _; now exists ""%string, ""%string|discriminate|].
    intros (p & q & E). destruct p; discriminate.
  - cbn [String.index]. destruct (String.prefix a (String c b)) eqn:E.
    + split; auto. intros _. apply prefix_iff in E. destruct E as [q E]. now exists ""%string, q.
    + specialize (IH a). destruct (String.index 0 a b) as [n|].
      * split; auto. intros _. destruct (proj1 IH eq_refl) as (p & q & E'). exists (String c p), q. cbn. now rewrite E'.
      * split; [discriminate|]. intros (p & q & E'). destruct p as [|d p].
        -- cbn in E'. assert (String.prefix a (String c b) = true) by (apply prefix_iff; eauto). congruence.
        -- cbn in E'. injection E' as -> E'. assert (false = true); [|discriminate]. apply IH. eauto.
Qed.

Lemma occurs_in_refl a : occurs_in a a.
Proof. exists ""%string, ""%string. cbn. induction a; cbn; congruence. Qed.

Lemma remap_eqb_eq {K} `{Label K} (a b : list (K * K)) : remap_eqb a b = true <-> a = b.
Proof.
  revert b. induction a as [|[x y] a IH]; intros [|[x' y'] b]; cbn; split; intro E; try easy.
  - apply andb_prop in E as [E E2]. apply andb_prop in E as [E0 E1]. apply lab_eqb_eq in E0. apply lab_eqb_eq in E1. apply IH in E2. congruence.
  - injection E as -> -> ->. rewrite !lab_eqb_refl. cbn. now apply IH.
Qed.

Section Groups.
  Context {K : Type} `{HK : Label K}.
  Variable inv_of : K -> string.

  Lemma inverter_ids_in ids g : In g (inverter_ids inv_of ids) <-> exists k, In k ids /\ inv_of k = g.
  Proof.
    unfold inverter_ids. split.
    - intro Hg. apply (Permutation_in _ (Permutation_sym (sort_by_perm _ _))) in Hg. apply nodup_In in Hg.
      apply in_map_iff in Hg. destruct Hg as (k & E & Hk). eauto.
    - intros (k & Hk & <-). apply (Permutation_in _ (sort_by_perm _ _)). apply nodup_In. now apply in_map.
  Qed.

  Lemma inverter_ids_NoDup ids : NoDup (inverter_ids inv_of ids).
  Proof. unfold inverter_ids. eapply Permutation_NoDup; [apply sort_by_perm|]. apply NoDup_nodup. Qed.

  Lemma refsub_in ids g k : In k (refsub inv_of ids g) <-> In k ids /\ occurs_in g (inv_of k).
  Proof. unfold refsub. rewrite filter_In, py_contains_iff. tauto. Qed.

  Lemma refsub_NoDup ids g : NoDup ids -> NoDup (refsub inv_of ids g).
  Proof. apply NoDup_filter. Qed.

  Lemma refsub_clear ids g k : clear_names inv_of ids -> In g (inverter_ids inv_of ids) ->
    In k (refsub inv_of ids g) <-> In k ids /\ inv_of k = g.
  Proof.
    intros C Hg. rewrite refsub_in. apply inverter_ids_in in Hg. destruct Hg as (j & Hj & <-). split.
    - intros [Hk O]. split; auto. symmetry. now apply C.
    - intros [Hk ->]. split; auto. apply occurs_in_refl.
  Qed.

  Lemma concat_NoDup {A B} (f : A -> list B) (gs : list A) : NoDup gs -> (forall g, In g gs -> NoDup (f g)) ->
    (forall g g' x, In g gs -> In g' gs -> In x (f g) -> In x (f g') -> g = g') -> NoDup (concat (map f gs)).
  Proof.
    intros ND. induction ND as [|g gs Hg ND IH]; intros N D; cbn; [constructor|].
    assert (NDapp : forall l l' : list B, NoDup l -> NoDup l' -> (forall x, In x l -> ~ In x l') -> NoDup (l ++ l')).
    { clear. induction l as [|x l IH]; intros l' N1 N2 Dj; cbn; auto. inversion N1; subst. constructor.
      - intro F. apply in_app_or in F as [F|F]; auto. apply (Dj x); auto. now left.
      - apply IH; auto. intros y Hy. apply Dj. now right. }
    apply NDapp.
    - apply N. now left.
    - apply IH; [intros; apply N; now right|]. intros a b x Ha Hb. apply D; now right.
    - intros x Hx F. apply in_concat in F. destruct F as (l & Hl & Hx'). apply in_map_iff in Hl. destruct Hl as (g' & <- & Hg').
      apply Hg. rewrite (D g g' x); auto; [now left|now right].
  Qed.

  Lemma groups_partition ids : NoDup ids -> clear_names inv_of ids ->
    Permutation (concat (map (refsub inv_of ids) (inverter_ids inv_of ids))) ids.
  Proof.
    intros ND C. apply NoDup_Permutation; auto.
    - apply concat_NoDup.
      + apply inverter_ids_NoDup.
      + intros. now apply refsub_NoDup.
      + intros g g' x Hg Hg' Hx Hx'. apply refsub_clear in Hx; auto. apply refsub_clear in Hx'; auto.
        destruct Hx as [_ <-]. now destruct Hx' as [_ <-].
    - intro x. rewrite in_concat. split.
      + intros (l & Hl & Hx). apply in_map_iff in Hl. destruct Hl as (g & <- & _). now apply refsub_in in Hx.
      + intro Hx. exists (refsub inv_of ids (inv_of x)). split.
        * apply in_map. apply inverter_ids_in. eauto.
        * apply refsub_in. split; auto. apply occurs_in_refl.
  Qed.

  Lemma one_to_one_concat (Ss : list (list K)) parts : Forall2 (fun S r => one_to_one S r) Ss parts ->
    one_to_one (concat Ss) (concat parts).
  Proof.
    induction 1 as [|S r Ss parts [P1 P2] F [Q1 Q2]]; cbn; [split; constructor|].
    split; rewrite map_app; now apply Permutation_app.
  Qed.
End Groups.

Section Loc.
  Context {K : Type} `{HK : Label K}.

  Lemma t_loc_ok (t : table K string R) ks : wf_table t -> NoDup ks -> (forall k, In k ks -> In k (t_index t)) ->
    exists t', t_loc t ks = Ok t' /\ wf_table t' /\ t_index t' = ks /\ t_cols t' = t_cols t /\
      forall k, In k ks -> dget (t_rows t') k = dget (t_rows t) k.
  Proof.
    intros W ND Hi. unfold t_loc.
    assert (Ex : exists rows, mapM (fun k => match dget (t_rows t) k with Some row => Ok (k, row) | None => Err KeyError end) ks = Ok rows /\
       map fst rows = ks /\ Forall (fun r => dget (t_rows t) (fst r) = Some (snd r)) rows).
    { clear ND. induction ks as [|k ks IH]; cbn [mapM]; [exists []; auto|].
      destruct IH as (rows & E & F & A); [intros; apply Hi; now right|].
      destruct (dget_key_Some (t_rows t) k) as [row Er]; [apply Hi; now left|].
      rewrite Er. cbn [rbind]. rewrite E. cbn [rbind]. exists ((k, row) :: rows). split; auto. split; [cbn; congruence|]. constructor; auto. }
    destruct Ex as (rows & E & F & A). rewrite E. cbn [rbind]. eexists. split; [reflexivity|].
    rewrite Forall_forall in A. split; [|split; [exact F|split; [reflexivity|]]].
    - split; [apply W|]. split; [unfold t_index; cbn; now rewrite F|]. cbn. apply Forall_forall. intros r Hr.
      apply (wf_row t (fst r)); auto.
    - cbn. intros k Hk. rewrite <- F in Hk. apply in_map_iff in Hk. destruct Hk as ([k' row] & <- & Hr). cbn.
      specialize (A _ Hr). cbn in A. rewrite A. apply dget_NoDup; auto. unfold dkeys. now rewrite F.
  Qed.

  Lemma position_dget (t t' : table K string R) k k' : dget (t_rows t) k = dget (t_rows t') k' -> position t k = position t' k'.
  Proof. unfold position. now intros ->. Qed.

  Lemma rows_of_cells (t t' : table K string R) k k' : wf_table t -> wf_table t' -> t_cols t = t_cols t' -> In k (t_index t) -> In k' (t_index t') ->
    (forall c, cell t k c = cell t' k' c) -> dget (t_rows t) k = dget (t_rows t') k'.
  Proof.
    intros W W' EC Hk Hk' Hc.
    destruct (dget_key_Some (t_rows t) k Hk) as [row Er]. destruct (dget_key_Some (t_rows t') k' Hk') as [row' Er']. rewrite Er, Er'. f_equal.
    pose proof (wf_row t k row W Er) as L. pose proof (wf_row t' k' row' W' Er') as L'. apply nth_error_ext. intro n.
    destruct (nth_error (t_cols t) n) as [c|] eqn:En.
    - specialize (Hc c). unfold cell, t_read in Hc. rewrite <- EC in Hc.
      rewrite (pos_of_NoDup _ c n (proj1 W) En), Er, Er' in Hc. destruct (nth_error row n), (nth_error row' n); congruence.
    - apply nth_error_None in En. transitivity (@None (option R)); [|symmetry]; apply nth_error_None; [lia|]. rewrite L', <- EC. lia.
  Qed.

  Lemma remap_rearranged (t : table K string R) r : wf_table t -> NoDup (map fst r) ->
    (forall p, In p r -> In (fst p) (t_index t) /\ In (snd p) (t_index t)) ->
    exists L, remap_positions t r None = Ok L /\ wf_table L /\ rearranged t r L.
  Proof.
    intros W ND Hr. destruct (remap_all_ok t r W Hr) as (L & E & WL & CL & IL & Cl). exists L. split; auto. split; auto.
    split; auto. split; auto. intros k s Hp. pose proof (Hr _ Hp) as [Hk Hs]. cbn in Hk, Hs. apply rows_of_cells; auto; [now rewrite IL|].
    intro c. rewrite Cl. rewrite listed_source_NoDup by auto. now rewrite (dget_NoDup r k s ND Hp).
  Qed.

  Lemma NoDup_snd_inj {A B} (t : list (A * B)) a a' b : NoDup (map snd t) -> In (a, b) t -> In (a', b) t -> a = a'.
  Proof.
    induction t as [|[x y] t IH]; cbn; intros N Ha Hb; [destruct Ha|]. inversion N as [|? ? Hn N']; subst.
    destruct Ha as [Ha|Ha], Hb as [Hb|Hb]; try congruence; auto.
    - injection Ha as -> ->. exfalso. apply Hn. now apply (in_map snd) in Hb.
    - injection Hb as -> ->. exfalso. apply Hn. now apply (in_map snd) in Ha.
  Qed.
  Lemma NoDup_fst_inj {A B} (t : list (A * B)) a b b' : NoDup (map fst t) -> In (a, b) t -> In (a, b') t -> b = b'.
  Proof.
    induction t as [|[x y] t IH]; cbn; intros N Ha Hb; [destruct Ha|]. inversion N as [|? ? Hn N']; subst.
    destruct Ha as [Ha|Ha], Hb as [Hb|Hb]; try congruence; auto.
    - injection Ha as -> ->. exfalso. apply Hn. now apply (in_map fst) in Hb.
    - injection Hb as -> ->. exfalso. apply Hn. now apply (in_map fst) in Ha.
  Qed.
  Lemma NoDup_map_filter {A B} (f : A -> B) (g : A -> bool) l : NoDup (map f l) -> NoDup (map f (filter g l)).
  Proof.
    induction l as [|x l IH]; cbn; intro N; [constructor|]. inversion N as [|? ? Hn N']; subst. destruct (g x); cbn; auto.
    constructor; auto. intro F. apply Hn. apply in_map_iff in F. destruct F as (y & <- & Hy). apply filter_In in Hy. now apply in_map.
  Qed.

  (** A reassignment that keeps the entities outside F in place also reassigns F one to one. *)
  Lemma restrict_one_to_one (S F : list K) t : NoDup S -> NoDup F -> (forall k, In k F -> In k S) ->
    one_to_one S t -> (forall k, In k S -> ~ In k F -> In (k, k) t) -> one_to_one F (restrict t F).
  Proof.
    intros NS NF HF O Fx. destruct (one_to_one_keys S t NS O) as [N1 N2].
    assert (Img : forall k l, In (k, l) t -> In k F -> In l F).
    { intros k l Hp Hk. destruct (lab_mem_spec l F) as [Hl|Hl]; auto. exfalso. apply Hl.
      assert (Hll : In (l, l) t).
      { apply Fx; auto. apply (Permutation_in _ (proj2 O)). now apply (in_map snd) in Hp. }
      now rewrite <- (NoDup_snd_inj t k l l N2 Hp Hll). }
    split; apply NoDup_Permutation; auto; try now apply NoDup_map_filter.
    - intro k. rewrite in_map_iff. split.
      + intros ([a b] & <- & Hp). apply filter_In in Hp. now apply lab_mem_In.
      + intro Hk. assert (Hk' : In k (map fst t)) by (apply (Permutation_in _ (Permutation_sym (proj1 O))); auto).
        apply in_map_iff in Hk'. destruct Hk' as ([a b] & E & Hp). exists (a, b). split; auto. apply filter_In. split; auto.
        cbn in *. subst a. now apply lab_mem_In.
    - intro l. rewrite in_map_iff. split.
      + intros ([a b] & <- & Hp). apply filter_In in Hp. destruct Hp as [Hp Hm]. apply lab_mem_In in Hm. now apply (Img a).
      + intro Hl. assert (Hl' : In l (map snd t)) by (apply (Permutation_in _ (Permutation_sym (proj2 O))); auto).
        apply in_map_iff in Hl'. destruct Hl' as ([a b] & E & Hp). cbn in E. subst b. exists (a, l). split; auto. apply filter_In. split; auto.
        apply lab_mem_In. cbn. destruct (lab_mem_spec a F) as [Ha|Ha]; auto.
        assert (Haa : In (a, a) t).
        { apply Fx; auto. apply (Permutation_in _ (proj1 O)). now apply (in_map fst) in Hp. }
        now rewrite <- (NoDup_fst_inj t a l a N1 Hp Haa).
  Qed.

  (** Conversely. *)
  Lemma extend_one_to_one (S F : list K) t : NoDup S -> (forall k, In k F -> In k S) ->
    Permutation (map fst t) S -> one_to_one F (restrict t F) -> (forall k, In k S -> ~ In k F -> In (k, k) t) -> one_to_one S t.
  Proof.
    intros NS HF PF [O1 O2] Fx. split; auto.
    assert (N1 : NoDup (map fst t)) by (eapply Permutation_NoDup; [symmetry; exact PF|auto]).
    assert (E : forall p, In p t -> ~ In (fst p) F -> snd p = fst p).
    { intros [a b] Hp Ha. cbn in *. apply (NoDup_fst_inj t a b a N1 Hp). apply Fx; auto. apply (Permutation_in _ PF). now apply (in_map fst) in Hp. }
    rewrite <- PF.
    assert (G : forall f : K * K -> K, Permutation (map f t) (map f (filter (fun p => lab_mem (fst p) F) t) ++ map f (filter (fun p => negb (lab_mem (fst p) F)) t))).
    { intro f. clear. induction t as [|p t IH]; cbn; auto. destruct (lab_mem (fst p) F); cbn; auto. rewrite IH at 1. now rewrite Permutation_middle. }
    rewrite (G snd), (G fst). apply Permutation_app; [unfold restrict in *; now rewrite O2|].
    replace (map snd (filter (fun p => negb (lab_mem (fst p) F)) t)) with (map fst (filter (fun p => negb (lab_mem (fst p) F)) t)); auto.
    apply map_ext_in. intros p Hp. apply filter_In in Hp. destruct Hp as [Hp Hm]. symmetry. apply E; auto. intro Hin. apply lab_mem_In in Hin. now rewrite Hin in Hm.
  Qed.

  (** One inverter's assignment, with or without missing predictions. *)
  Lemma group_assign lsa (Hlsa : lsa_correct lsa) (L P : table K string R) :
    wf_table L -> wf_table P -> length (t_cols P) = 2 -> t_index P = t_index L -> all_located L ->
    exists r out, assign_positions lsa L P = Ok (r, out) /\ one_to_one (t_index L) r /\
      (forall k, nan_entity P k = true -> In (k, k) r) /\
      (forall t, one_to_one (t_index L) t -> (forall k, nan_entity P k = true -> In (k, k) t) ->
         (total_dist L P r <= total_dist L P t)%R).
  Proof.
    intros WL WP C2 EI LL. pose proof WL as (_ & NDL & _). pose proof WP as (_ & NDP & _).
    assert (Located : forall k, In k (t_index P) -> nan_entity P k = false -> exists p, position P k = Some p).
    { intros k Hk Hn. destruct (dget_key_Some (t_rows P) k Hk) as [row Er]. unfold nan_entity in Hn. rewrite Er in Hn.
      destruct (no_nan_located row Hn) as (e & n & rest & ->); [rewrite (wf_row P k row WP Er); lia|]. unfold position. rewrite Er. eauto. }
    destruct (existsb (fun r => row_has_nan (snd r)) (t_rows P)) eqn:EN.
    - apply existsb_exists in EN. destruct EN as ([kn rown] & Hn & Hnan). cbn in Hnan.
      assert (Hkn : nan_entity P kn = true) by now rewrite (nan_entity_row P kn rown).
      destruct (assign_positions_nan lsa Hlsa L P) as (r & out & E & Fr & Nr & Or & Opt & _); auto; [lia|now rewrite EI|eauto|].
      exists r, out. split; [exact E|].
      assert (FIn : forall k, In k (finite_entities P) <-> In k (t_index L) /\ nan_entity P k = false).
      { intro k. unfold finite_entities. rewrite filter_In, EI. destruct (nan_entity P k); cbn; intuition discriminate. }
      assert (NDF : NoDup (finite_entities P)) by now apply NoDup_filter.
      assert (Fx : forall t, (forall k, nan_entity P k = true -> In (k, k) t) -> forall k, In k (t_index L) -> ~ In k (finite_entities P) -> In (k, k) t).
      { intros t Ht k Hk Hf. apply Ht. destruct (nan_entity P k) eqn:En; auto. exfalso. apply Hf. now apply FIn. }
      assert (Or' : one_to_one (t_index L) r).
      { apply (extend_one_to_one _ (finite_entities P)); auto; [now intros k Hk; apply FIn|now rewrite Fr]. }
      split; [exact Or'|]. split; [exact Nr|].
      assert (Same : forall t, total_dist L P (restrict t (finite_entities P)) = total_dist L P t).
      { intro t. unfold total_dist, restrict. induction t as [|[k l] t IH]; [reflexivity|]. cbn [filter].
        destruct (lab_mem_spec k (finite_entities P)) as [Hk|Hk]; cbn [fst snd] in *.
        - destruct (lab_mem k (finite_entities P)) eqn:Em; [|apply lab_mem_In in Hk; congruence]. cbn [map]. rewrite !Rsum_cons, IH. reflexivity.
        - destruct (lab_mem k (finite_entities P)) eqn:Em; [apply lab_mem_In in Em; contradiction|]. cbn [map]. rewrite Rsum_cons, IH. cbn [fst snd].
          assert (Ep : position P k = None).
          { unfold position. destruct (dget (t_rows P) k) as [row|] eqn:Er; auto.
            assert (Hki : In k (t_index P)) by now apply dget_Some_key in Er.
            assert (Hnk : nan_entity P k = true).
            { destruct (nan_entity P k) eqn:En; auto. exfalso. apply Hk. apply FIn. rewrite <- EI. auto. }
            unfold nan_entity in Hnk. rewrite Er in Hnk. pose proof (wf_row P k row WP Er) as Lr. rewrite C2 in Lr.
            destruct row as [|[e|] [|[n|] [|? ?]]]; cbn in *; try discriminate; auto; lia. }
          rewrite Ep. lra. }
      intros t Ot Nt. rewrite <- (Same r), <- (Same t). apply Opt.
      apply (restrict_one_to_one (t_index L)); auto. now intros k Hk; apply FIn.
    - assert (NN : no_nan P).
      { intro k. unfold nan_entity. destruct (dget (t_rows P) k) as [row|] eqn:Er; auto. destruct (existsb _ row) eqn:Ex; auto.
        assert (existsb (fun r => row_has_nan (snd r)) (t_rows P) = true); [|congruence]. apply existsb_exists. exists (k, row). split; [now apply dget_In|exact Ex]. }
      destruct (assign_positions_good lsa Hlsa L P) as (r & out & E & O & B & Opt & _); auto.
      { intros k Hk. apply Located; auto. }
      { apply (f_equal (@length K)) in EI. unfold t_index in EI. rewrite !map_length in EI. lia. }
      exists r, out. split; [exact E|]. split; [exact O|]. split.
      + intros k Hk. now rewrite NN in Hk.
      + intros t Ot _. rewrite <- EI, with_labels_self in Opt. apply Opt. now rewrite EI.
  Qed.

  Lemma Rsum_lt_one {A} (f g : A -> R) l : (forall x, In x l -> f x <= g x)%R -> (exists x, In x l /\ f x < g x)%R ->
    (Rsum (map f l) < Rsum (map g l))%R.
  Proof.
    induction l as [|a l IH]; intros Le (x & Hx & Lt); [destruct Hx|]. cbn [map]. rewrite !Rsum_cons.
    assert (LeS : (Rsum (map f l) <= Rsum (map g l))%R).
    { clear - Le. assert (forall y, In y l -> f y <= g y)%R by (intros; apply Le; now right). clear Le.
      induction l as [|b l IH]; cbn [map]; [lra|]. rewrite !Rsum_cons. pose proof (H b (or_introl eq_refl)).
      assert (Rsum (map f l) <= Rsum (map g l))%R by (apply IH; intros; apply H; now right). lra. }
    destruct Hx as [->|Hx].
    - lra.
    - pose proof (Le a (or_introl eq_refl)). assert (Rsum (map f l) < Rsum (map g l))%R; [|lra].
      apply IH; eauto. intros; apply Le; now right.
  Qed.

  Lemma Rsum_permutation l l' : Permutation l l' -> Rsum l = Rsum l'.
  Proof. induction 1; rewrite ?Rsum_cons in *; lra. Qed.

  Definition pair_dist (L P : table K string R) (k l : K) : R :=
    match position P k, position L l with Some p, Some q => planar_dist p q | _, _ => 0%R end.

  Lemma total_by_key L P (S : list K) r : NoDup S -> one_to_one S r ->
    total_dist L P r = Rsum (map (fun k => match listed_source r k with Some l => pair_dist L P k l | None => 0%R end) S).
  Proof.
    intros NS O. destruct (one_to_one_keys S r NS O) as [N1 _].
    rewrite (Rsum_permutation _ _ (Permutation_map _ (Permutation_sym (proj1 O)))). rewrite map_map.
    unfold total_dist. f_equal. apply map_ext_in. intros [k l] Hp. cbn [fst snd].
    rewrite listed_source_NoDup by auto. rewrite (dget_NoDup r k l N1 Hp). reflexivity.
  Qed.

  (** If every prediction is nearest to the location [t] gives it, the assignment is [t]. *)
  Lemma group_recovers lsa (Hlsa : lsa_correct lsa) (L P : table K string R) t :
    wf_table L -> wf_table P -> length (t_cols P) = 2 -> t_index P = t_index L -> all_located L ->
    one_to_one (t_index L) t -> (forall k, nan_entity P k = true -> In (k, k) t) ->
    (forall k l l' p q q', In (k, l) t -> In l' (t_index L) -> l' <> l -> position P k = Some p -> position L l = Some q -> position L l' = Some q' ->
       (planar_dist p q < planar_dist p q')%R) ->
    exists r out, assign_positions lsa L P = Ok (r, out) /\ one_to_one (t_index L) r /\ forall k, listed_source r k = listed_source t k.
  Proof.
    intros WL WP C2 EI LL Ot Nt Near. pose proof WL as (_ & NDL & _).
    destruct (group_assign lsa Hlsa L P WL WP C2 EI LL) as (r & out & E & Or & Nr & Opt).
    exists r, out. split; auto. split; auto.
    destruct (one_to_one_keys _ r NDL Or) as [Nr1 Nr2]. destruct (one_to_one_keys _ t NDL Ot) as [Nt1 Nt2].
    specialize (Opt t Ot Nt). rewrite (total_by_key L P _ r NDL Or), (total_by_key L P _ t NDL Ot) in Opt.
    assert (PD : forall k, In k (t_index L) -> exists l l', listed_source t k = Some l /\ listed_source r k = Some l' /\
        (l = l' \/ pair_dist L P k l < pair_dist L P k l')%R).
    { intros k Hk. destruct (one_to_one_source _ t k NDL Ot Hk) as (l & El & Hl). destruct (one_to_one_source _ r k NDL Or Hk) as (l' & El' & Hl').
      exists l, l'. split; auto. split; auto.
      destruct (nan_entity P k) eqn:En.
      - left. pose proof (Nr k En) as A. pose proof (Nt k En) as B. apply listed_source_In in El. apply listed_source_In in El'.
        rewrite (NoDup_fst_inj t k l k Nt1 El B). now rewrite (NoDup_fst_inj r k l' k Nr1 El' A).
      - destruct (lab_eqb_spec l l') as [->|Ne]; auto. right.
        assert (Hkp : In k (t_index P)) by now rewrite EI.
        assert (exists p, position P k = Some p) as [p Ep].
        { destruct (dget_key_Some (t_rows P) k Hkp) as [row Er]. unfold nan_entity in En. rewrite Er in En.
          destruct (no_nan_located row En) as (e & n & rest & ->); [rewrite (wf_row P k row WP Er); lia|]. unfold position. rewrite Er. eauto. }
        destruct (LL l Hl) as [q Eq]. destruct (LL l' Hl') as [q' Eq']. unfold pair_dist. rewrite Ep, Eq, Eq'.
        apply (Near k l l' p q q'); auto. now apply listed_source_In. }
    assert (Same : forall k, In k (t_index L) -> listed_source r k = listed_source t k).
    { intros k Hk. destruct (PD k Hk) as (l & l' & El & El' & [->|Lt]); [congruence|]. exfalso.
      match type of Opt with (?x <= ?y)%R => assert (y < x)%R; [|lra] end.
      apply Rsum_lt_one.
      - intros k0 Hk0. destruct (PD k0 Hk0) as (l0 & l0' & -> & -> & [->|]); lra.
      - exists k. split; auto. rewrite El, El'. exact Lt. }
    intro k. destruct (lab_mem_spec k (t_index L)) as [Hk|Hk]; auto.
    rewrite (one_to_one_outside _ r k Or Hk). now rewrite (one_to_one_outside _ t k Ot Hk).
  Qed.
End Loc.

Section Round.
  Context {K : Type} `{HK : Label K}.
  Variable inv_of : K -> string.
  Variable lsa : nat -> list (list R) -> list nat * list nat.
  Hypothesis Hlsa : lsa_correct lsa.
  Variable mean_pred : table K string R -> K -> result (option R * option R).

  Lemma all_preds_ok ids L : NoDup ids -> (forall k, In k ids -> exists p, mean_pred L k = Ok p) ->
    exists P, all_preds mean_pred ids L = Ok P /\ wf_table P /\ t_cols P = ["E"; "N"]%string /\ t_index P = ids /\
      forall k, In k ids -> exists p, mean_pred L k = Ok p /\ dget (t_rows P) k = Some [fst p; snd p].
  Proof.
    intros ND Hp. unfold all_preds.
    assert (Ex : exists rows, mapM (fun k => let! p := mean_pred L k in Ok (k, [fst p; snd p])) ids = Ok rows /\
       map fst rows = ids /\ Forall (fun r => exists p, mean_pred L (fst r) = Ok p /\ snd r = [fst p; snd p]) rows).
    { clear ND. induction ids as [|k ids IH]; cbn [mapM]; [exists []; auto|].
      destruct IH as (rows & E & F & A); [intros; apply Hp; now right|].
      destruct (Hp k (or_introl eq_refl)) as [p Ep]. rewrite Ep. cbn [rbind]. rewrite E. cbn [rbind].
      eexists. split; [reflexivity|]. split; [cbn; congruence|]. constructor; auto. exists p. auto. }
    destruct Ex as (rows & E & F & A). rewrite E. cbn [rbind]. eexists. split; [reflexivity|]. rewrite Forall_forall in A.
    split; [|split; [reflexivity|split; [exact F|]]].
    - split; [|split].
      + repeat constructor; cbn; intuition discriminate.
      + unfold t_index. cbn. now rewrite F.
      + cbn. apply Forall_forall. intros r Hr. destruct (A r Hr) as (p & _ & ->). reflexivity.
    - intros k Hk. cbn. rewrite <- F in Hk. apply in_map_iff in Hk. destruct Hk as ([k' row] & <- & Hr). destruct (A _ Hr) as (p & Ep & Er).
      cbn in *. exists p. split; auto. rewrite <- Er. apply dget_NoDup; auto. unfold dkeys. now rewrite F.
  Qed.

  Lemma mapM_Forall2_ex {A B} (f : A -> result B) (Q : A -> B -> Prop) l : (forall a, In a l -> exists b, f a = Ok b /\ Q a b) ->
    exists bs, mapM f l = Ok bs /\ Forall2 Q l bs.
  Proof.
    induction l as [|a l IH]; intro Hf; cbn [mapM]; [exists []; auto|].
    destruct IH as (bs & E & F); [intros; apply Hf; now right|]. destruct (Hf a (or_introl eq_refl)) as (b & Eb & Qb).
    rewrite Eb. cbn [rbind]. rewrite E. cbn [rbind]. eexists. split; [reflexivity|]. now constructor.
  Qed.

  Lemma all_assignments_ok ids (L P : table K string R) : NoDup ids -> wf_table L -> all_located L -> t_index L = ids ->
    wf_table P -> length (t_cols P) = 2 -> t_index P = ids ->
    exists parts, all_assignments inv_of lsa ids L P = Ok (concat parts) /\
      Forall2 (fun g part => one_to_one (refsub inv_of ids g) part) (inverter_ids inv_of ids) parts.
  Proof.
    intros ND WL LL IL WP C2 IP. unfold all_assignments.
    edestruct (mapM_Forall2_ex (fun inv =>
        let! orig := t_loc L (refsub inv_of ids inv) in
        let! pred := t_loc P (refsub inv_of ids inv) in
        let! (remap_inds, _) := assign_positions lsa orig pred in Ok remap_inds)
        (fun g part => one_to_one (refsub inv_of ids g) part) (inverter_ids inv_of ids)) as (parts & E & F).
    - intros g Hg. pose proof (refsub_NoDup inv_of ids g ND) as NDg.
      destruct (t_loc_ok L (refsub inv_of ids g)) as (L' & EL & WL' & IL' & CL' & DL); auto; [intros k Hk; rewrite IL; now apply refsub_in in Hk|].
      destruct (t_loc_ok P (refsub inv_of ids g)) as (P' & EP & WP' & IP' & CP' & DP); auto; [intros k Hk; rewrite IP; now apply refsub_in in Hk|].
      destruct (group_assign lsa Hlsa L' P') as (r & out & Er & Or & _); auto; try congruence.
      { intros k Hk. rewrite IL' in Hk. rewrite (position_dget L' L k k) by auto. apply LL. rewrite IL. now apply refsub_in in Hk. }
      rewrite EL. cbn [rbind]. rewrite EP. cbn [rbind]. rewrite Er. cbn [rbind]. exists r. split; auto. now rewrite <- IL'.
    - rewrite E. cbn [rbind]. eauto.
  Qed.

  Lemma assignments_keys ids parts : Forall2 (fun g part => one_to_one (refsub inv_of ids g) part) (inverter_ids inv_of ids) parts ->
    (forall k, In k (map fst (concat parts)) <-> In k ids) /\
    (forall k l, In (k, l) (concat parts) -> exists g, In g (inverter_ids inv_of ids) /\ In k (refsub inv_of ids g) /\ In l (refsub inv_of ids g)).
  Proof.
    intro F.
    assert (A : forall k l, In (k, l) (concat parts) -> exists g, In g (inverter_ids inv_of ids) /\ In k (refsub inv_of ids g) /\ In l (refsub inv_of ids g)).
    { intros k l Hp. apply in_concat in Hp. destruct Hp as (part & Hpart & Hp).
      assert (Ex : exists g, In g (inverter_ids inv_of ids) /\ one_to_one (refsub inv_of ids g) part).
      { clear Hp. induction F as [|g q gs ps Ho F IH]; [destruct Hpart|]. destruct Hpart as [->|Hpart].
        - exists g. split; auto. now left.
        - destruct (IH Hpart) as (g' & Hg' & O). exists g'. split; auto. now right. }
      destruct Ex as (g & Hg & O1 & O2). exists g. split; auto. split.
      - apply (Permutation_in _ O1). now apply (in_map fst) in Hp.
      - apply (Permutation_in _ O2). now apply (in_map snd) in Hp. }
    split; [|exact A]. intro k. split.
    - intro Hk. apply in_map_iff in Hk. destruct Hk as ([k' l] & <- & Hp). destruct (A _ _ Hp) as (g & _ & Hk & _). now apply refsub_in in Hk.
    - intro Hk. assert (Hg : In (inv_of k) (inverter_ids inv_of ids)) by (apply inverter_ids_in; eauto).
      assert (Hkg : In k (refsub inv_of ids (inv_of k))) by (apply refsub_in; split; auto; apply occurs_in_refl).
      clear A. induction F as [|g q gs ps Ho F IH]; [destruct Hg|]. cbn [concat]. rewrite map_app, in_app_iff. destruct Hg as [->|Hg]; auto.
      left. apply (Permutation_in _ (Permutation_sym (proj1 Ho))). exact Hkg.
  Qed.

  (** What holds at the start of every round. *)
  Definition loop_inv (plan : table K string R) (a : list (K * K)) (L : table K string R) : Prop :=
    (forall k, In k (map fst a) <-> In k (t_index plan)) /\ (forall p, In p a -> In (snd p) (t_index plan)) /\
    wf_table L /\ t_index L = t_index plan /\ all_located L /\ rearranged plan a L /\ NoDup (map fst a).

  Lemma inv_start plan : wf_table plan -> all_located plan -> loop_inv plan (identity_remap (t_index plan)) plan.
  Proof.
    intros W Lp. unfold loop_inv, identity_remap. rewrite map_map, map_id. split; [tauto|]. split.
    - intros p Hp. apply in_map_iff in Hp. destruct Hp as (k & <- & Hk). exact Hk.
    - split; auto. split; auto. split; auto. split; [|apply W]. split; auto. split; auto.
      intros k s Hp. apply in_map_iff in Hp. destruct Hp as (x & Ex & Hx). now injection Ex as <- <-.
  Qed.

  Lemma round_sound plan a L : wf_table plan -> all_located plan -> loop_inv plan a L ->
    (forall k, In k (t_index plan) -> exists p, mean_pred L k = Ok p) ->
    exists P a' L', field_round inv_of lsa mean_pred plan a L = Ok (P, a', L') /\ loop_inv plan a' L' /\ by_entity a' /\
      (clear_names inv_of (t_index plan) -> one_to_one (t_index plan) a -> keeps_inverter inv_of a ->
         one_to_one (t_index plan) a' /\ keeps_inverter inv_of a').
  Proof.
    intros W Lp (KA & SA & WL & IL & LL & RA & NDa) Hp. pose proof W as (_ & ND & _).
    destruct (all_preds_ok (t_index plan) L ND Hp) as (P & EP & WP & CP & IP & _).
    destruct (all_assignments_ok (t_index plan) L P) as (parts & EA & F); auto; [now rewrite CP|].
    destruct (assignments_keys _ _ F) as [Kp Gp].
    unfold field_round. rewrite EP. cbn [rbind]. rewrite EA. cbn [rbind].
    destruct (cascade_cases a (concat parts)) as [[(k & Hk & E0) _]|(Hd & a' & E & B & NDr & HS & Hl)].
    { exfalso. unfold composed in E0. destruct (listed_source (concat parts) k) as [m|] eqn:Em.
      - apply listed_source_In in Em. apply Gp in Em. destruct Em as (g & _ & _ & Hm). apply refsub_in in Hm.
        apply listed_source_None in E0. apply E0. now apply KA.
      - apply listed_source_None in Em. apply Em. apply Kp. now apply KA. }
    rewrite E. cbn [rbind].
    assert (Src : forall k s, In (k, s) a' -> exists m, In (k, m) (concat parts) /\ In (m, s) a).
    { intros k s Hks. assert (Es : listed_source a' k = Some s) by (rewrite listed_source_NoDup by auto; now apply dget_NoDup).
      rewrite Hl in Es. destruct (lab_mem k (map fst a)); [|discriminate]. unfold composed in Es.
      destruct (listed_source (concat parts) k) as [m|] eqn:Em; [|discriminate]. exists m. split; now apply listed_source_In. }
    destruct (remap_rearranged plan a') as (L' & EL & WL' & RL); auto.
    { intros [k s] Hks. cbn. split.
      - apply KA. apply HS. now apply (in_map fst) in Hks.
      - destruct (Src k s Hks) as (m & _ & Hm). now apply (SA (m, s)). }
    rewrite EL. cbn [rbind]. exists P, a', L'. split; [reflexivity|]. pose proof RL as (CL' & IL' & DL).
    split; [|split; [exact B|]].
    - unfold loop_inv. split; [intro k; rewrite HS; apply KA|]. split.
      + intros [k s] Hks. destruct (Src k s Hks) as (m & _ & Hm). now apply (SA (m, s)).
      + split; auto. split; auto. split; [|split; auto].
        intros k Hk. rewrite IL' in Hk. assert (Hk' : In k (map fst a')) by now apply HS, KA.
        apply in_map_iff in Hk'. destruct Hk' as ([k' s] & Ek & Hks). cbn in Ek. subst k'.
        rewrite (position_dget L' plan k s) by now apply DL. apply Lp. destruct (Src k s Hks) as (m & _ & Hm). now apply (SA (m, s)).
    - intros CN Oa Ka. assert (Oc : one_to_one (t_index plan) (concat parts)).
      { assert (O : one_to_one (concat (map (refsub inv_of (t_index plan)) (inverter_ids inv_of (t_index plan)))) (concat parts)).
        { apply one_to_one_concat. clear - F. induction F; cbn; constructor; auto. }
        destruct O as [O1 O2]. pose proof (groups_partition inv_of (t_index plan) ND CN) as GP. split; etransitivity; eauto. }
      destruct (cascade_perm (t_index plan) a (concat parts) ND Oa Oc) as (a2 & E2 & O2 & _). assert (a2 = a') by congruence. subst a2.
      split; auto. intros k s Hks. destruct (Src k s Hks) as (m & Hm & Hms). destruct (Gp k m Hm) as (g & Hg & Hkg & Hmg).
      apply refsub_clear in Hkg; auto. apply refsub_clear in Hmg; auto. destruct Hkg as [_ ->], Hmg as [_ <-]. now apply Ka.
  Qed.

  Lemma restrict_closed (S F : list K) t : NoDup S -> NoDup F -> (forall k, In k F -> In k S) -> one_to_one S t ->
    (forall k l, In (k, l) t -> In k F <-> In l F) -> one_to_one F (restrict t F).
  Proof.
    intros NS NF HF O Cl. destruct (one_to_one_keys S t NS O) as [N1 N2].
    split; apply NoDup_Permutation; auto; try now apply NoDup_map_filter.
    - intro k. rewrite in_map_iff. split.
      + intros ([a b] & <- & Hp). apply filter_In in Hp. now apply lab_mem_In.
      + intro Hk. assert (Hk' : In k (map fst t)) by (apply (Permutation_in _ (Permutation_sym (proj1 O))); auto).
        apply in_map_iff in Hk'. destruct Hk' as ([a b] & E & Hp). exists (a, b). split; auto. apply filter_In. split; auto.
        cbn in *. subst a. now apply lab_mem_In.
    - intro l. rewrite in_map_iff. split.
      + intros ([a b] & <- & Hp). apply filter_In in Hp. destruct Hp as [Hp Hm]. apply lab_mem_In in Hm. now apply (Cl a).
      + intro Hl. assert (Hl' : In l (map snd t)) by (apply (Permutation_in _ (Permutation_sym (proj2 O))); auto).
        apply in_map_iff in Hl'. destruct Hl' as ([a b] & E & Hp). cbn in E. subst b. exists (a, l). split; auto. apply filter_In. split; auto.
        apply lab_mem_In. cbn. now apply (Cl a l).
  Qed.

  (** A round with predictions nearest to the true locations finds the true reassignment. *)
  Lemma round_recovers plan a L s : wf_table plan -> all_located plan -> clear_names inv_of (t_index plan) ->
    one_to_one (t_index plan) s -> keeps_inverter inv_of s ->
    loop_inv plan a L -> one_to_one (t_index plan) a -> keeps_inverter inv_of a ->
    (forall k m, In (k, m) s ->
       (exists p, mean_pred L k = Ok (Some (fst p), Some (snd p)) /\ nearest_is inv_of plan p m) \/
       (exists x, mean_pred L k = Ok x /\ (fst x = None \/ snd x = None) /\ In (k, m) a)) ->
    exists P L', field_round inv_of lsa mean_pred plan a L = Ok (P, sort_by by_key s, L') /\
      loop_inv plan (sort_by by_key s) L'.
  Proof.
    intros W Lp CN Os Ks IN Oa Ka Hm. pose proof IN as (KA & SA & WL & IL & LL & RA & NDa). pose proof W as (_ & ND & _).
    set (ids := t_index plan) in *.
    assert (Sof : forall k, In k ids -> exists m, In (k, m) s /\ In m ids).
    { intros k Hk. destruct (one_to_one_source ids s k ND Os Hk) as (m & Em & Him). exists m. split; auto. now apply listed_source_In. }
    assert (Hp : forall k, In k ids -> exists p, mean_pred L k = Ok p).
    { intros k Hk. destruct (Sof k Hk) as (m & Hkm & _). destruct (Hm k m Hkm) as [(p & E & _)|(x & E & _)]; eauto. }
    destruct (round_sound plan a L W Lp IN Hp) as (P0 & a' & L' & E & IN' & B & OK). destruct (OK CN Oa Ka) as [Oa' Ka'].
    enough (a' = sort_by by_key s) as -> by eauto.
    destruct (all_preds_ok ids L ND Hp) as (P & EP & WP & CP & IP & DP).
    pose proof (inverse_one_to_one ids a Oa) as Oi.
    destruct (cascade_perm ids (inverse_remap a) s ND Oi Os) as (t & Et & Ot & Bt & Lt).
    destruct (one_to_one_keys ids t ND Ot) as [Nt1 Nt2]. destruct (one_to_one_keys ids a ND Oa) as [Na1 Na2].
    destruct (one_to_one_keys ids s ND Os) as [Ns1 Ns2].
    assert (Tin : forall k l, In (k, l) t -> exists m, In (k, m) s /\ In (l, m) a).
    { intros k l Hkl. assert (Es : listed_source t k = Some l) by (rewrite listed_source_NoDup by auto; now apply dget_NoDup).
      rewrite Lt in Es. unfold composed in Es. destruct (listed_source s k) as [m|] eqn:Em; [|discriminate]. exists m.
      split; [now apply listed_source_In|]. apply listed_source_In. now apply (inverse_source ids a l m ND Oa). }
    assert (Tk : keeps_inverter inv_of t).
    { intros k l Hkl. destruct (Tin k l Hkl) as (m & H1 & H2). rewrite (Ks k m H1). symmetry. now apply Ka. }
    assert (Tids : forall k l, In (k, l) t -> In k ids /\ In l ids).
    { intros k l Hkl. split; [apply (Permutation_in _ (proj1 Ot)); now apply (in_map fst) in Hkl|apply (Permutation_in _ (proj2 Ot)); now apply (in_map snd) in Hkl]. }
    assert (Parts : exists parts, all_assignments inv_of lsa ids L P = Ok (concat parts) /\
       Forall2 (fun g part => one_to_one (refsub inv_of ids g) part /\ forall k, listed_source part k = listed_source (restrict t (refsub inv_of ids g)) k) (inverter_ids inv_of ids) parts).
    { unfold all_assignments.
      edestruct (mapM_Forall2_ex (fun inv =>
        let! orig := t_loc L (refsub inv_of ids inv) in
        let! pred := t_loc P (refsub inv_of ids inv) in
        let! (remap_inds, _) := assign_positions lsa orig pred in Ok remap_inds)
        (fun g part => one_to_one (refsub inv_of ids g) part /\ forall k, listed_source part k = listed_source (restrict t (refsub inv_of ids g)) k) (inverter_ids inv_of ids)) as (parts & E1 & F).
      - intros g Hg. pose proof (refsub_NoDup inv_of ids g ND) as NDg.
        destruct (t_loc_ok L (refsub inv_of ids g)) as (L1 & EL & WL1 & IL1 & CL1 & DL1); auto; [intros k Hk; rewrite IL; now apply refsub_in in Hk|].
        destruct (t_loc_ok P (refsub inv_of ids g)) as (P1 & EP1 & WP1 & IP1 & CP1 & DP1); auto; [intros k Hk; rewrite IP; now apply refsub_in in Hk|].
        assert (Og : one_to_one (refsub inv_of ids g) (restrict t (refsub inv_of ids g))).
        { apply (restrict_closed ids); auto; [intros k Hk; now apply refsub_in in Hk|]. intros k l Hkl. rewrite !refsub_clear by auto.
          destruct (Tids k l Hkl). rewrite (Tk k l Hkl). tauto. }
        assert (Cell : forall k x, In k (refsub inv_of ids g) -> mean_pred L k = Ok x -> dget (t_rows P1) k = Some [fst x; snd x]).
        { intros k x Hk Ex. rewrite DP1 by auto. destruct (DP k) as (x' & Ex' & Dx); [now apply refsub_in in Hk|]. congruence. }
        destruct (group_recovers lsa Hlsa L1 P1 (restrict t (refsub inv_of ids g))) as (r & out & Er & Or & Sr); auto; try congruence.
        + rewrite CP1, CP. reflexivity.
        + intros k Hk. rewrite IL1 in Hk. rewrite (position_dget L1 L k k) by auto. apply LL. rewrite IL. now apply refsub_in in Hk.
        + intros k Hn. assert (Hk : In k (refsub inv_of ids g)).
          { rewrite <- IP1. unfold nan_entity in Hn. destruct (dget (t_rows P1) k) as [row|] eqn:Ed; [|discriminate]. now apply dget_Some_key in Ed. }
          assert (Hki : In k ids) by now apply refsub_in in Hk.
          destruct (Sof k Hki) as (m & Hkm & _). apply filter_In. split; [|now apply lab_mem_In].
          destruct (Hm k m Hkm) as [(p & Ep & _)|(x & Ex & Nx & Ha)].
          * unfold nan_entity in Hn. rewrite (Cell k _ Hk Ep) in Hn. discriminate.
          * destruct (one_to_one_source ids t k ND Ot Hki) as (l & El & Hl). apply listed_source_In in El. destruct (Tin k l El) as (m' & H1 & H2).
            assert (m' = m) by (apply (NoDup_fst_inj s k); auto). subst m'.
            rewrite (NoDup_snd_inj a k l m Na2 Ha H2) at 2. exact El.
        + intros k l l' p q q' Hkl Hl' Ne Ep Eq Eq'. apply filter_In in Hkl. destruct Hkl as [Hkl Hkg]. apply lab_mem_In in Hkg. cbn in Hkg.
          rewrite IL1 in Hl'. destruct (Tids k l Hkl) as [Hki Hli]. destruct (Tin k l Hkl) as (m & Hkm & Hlm).
          assert (Hlg : In l (refsub inv_of ids g)) by (apply refsub_clear; auto; apply refsub_clear in Hkg; auto; split; auto; rewrite <- (Tk k l Hkl); tauto).
          assert (Hl'i : In l' ids) by now apply refsub_in in Hl'.
          assert (exists m', In (l', m') a) as [m' Hlm'].
          { apply KA in Hl'i. apply in_map_iff in Hl'i. destruct Hl'i as ([x y] & Ex & Hxy). cbn in Ex. subst x. eauto. }
          destruct RA as (_ & _ & RD).
          rewrite (position_dget L1 L l l) in Eq by auto. rewrite (position_dget L plan l m) in Eq by auto.
          rewrite (position_dget L1 L l' l') in Eq' by auto. rewrite (position_dget L plan l' m') in Eq' by auto.
          destruct (Hm k m Hkm) as [(p' & Ep' & q0 & Eq0 & Near)|(x & Ex & Nx & Ha)].
          * assert (p = p') by (unfold position in Ep; rewrite (Cell k _ Hkg Ep') in Ep; injection Ep as <-; now destruct p'). subst p'.
            assert (q0 = q) by congruence. subst q0. apply (Near m' q'); auto.
            -- now apply (SA (l', m')).
            -- rewrite <- (Ka l' m' Hlm'), <- (Ka l m Hlm). apply refsub_clear in Hl'; auto. apply refsub_clear in Hlg; auto. destruct Hl' as [_ ->], Hlg as [_ ->]. reflexivity.
            -- intro F. subst m'. apply Ne. now apply (NoDup_snd_inj a l' l m).
          * exfalso. unfold position in Ep. rewrite (Cell k _ Hkg Ex) in Ep. destruct x as [[e|] [n|]]; cbn in *; destruct Nx; discriminate.
        + rewrite EL. cbn [rbind]. rewrite EP1. cbn [rbind]. rewrite Er. cbn [rbind]. exists r. split; auto. split; auto. now rewrite <- IL1.
      - rewrite E1. cbn [rbind]. eauto. }
    destruct Parts as (parts & EA & F).
    assert (F1 : Forall2 (fun g part => one_to_one (refsub inv_of ids g) part) (inverter_ids inv_of ids) parts).
    { clear - F. induction F as [|? ? ? ? []]; constructor; auto. }
    assert (Oc : one_to_one ids (concat parts)).
    { assert (O : one_to_one (concat (map (refsub inv_of ids) (inverter_ids inv_of ids))) (concat parts)).
      { apply one_to_one_concat. clear - F1. induction F1; cbn; constructor; auto. }
      destruct O as [O1 O2]. pose proof (groups_partition inv_of ids ND CN) as GP. split; etransitivity; eauto. }
    destruct (one_to_one_keys ids _ ND Oc) as [Nc1 Nc2].
    assert (Lc : forall k, In k ids -> listed_source (concat parts) k = listed_source t k).
    { intros k Hk. destruct (one_to_one_source ids t k ND Ot Hk) as (l & El & Hl). rewrite El.
      rewrite listed_source_NoDup by auto. apply dget_NoDup; auto.
      assert (Hg : In (inv_of k) (inverter_ids inv_of ids)) by (apply inverter_ids_in; eauto).
      assert (Hkg : In k (refsub inv_of ids (inv_of k))) by (apply refsub_in; split; auto; apply occurs_in_refl).
      assert (Ex : exists part, In part parts /\ (forall j, listed_source part j = listed_source (restrict t (refsub inv_of ids (inv_of k))) j)).
      { clear - F Hg. induction F as [|g q gs ps [_ Ho] F IH]; [destruct Hg|]. destruct Hg as [->|Hg].
        - exists q. split; auto. now left.
        - destruct (IH Hg) as (part & Hpart & Q). exists part. split; auto. now right. }
      destruct Ex as (part & Hpart & Q). apply in_concat. exists part. split; auto. apply listed_source_In. rewrite Q.
      rewrite listed_source_NoDup by now apply NoDup_map_filter. apply dget_NoDup; [now apply NoDup_map_filter|].
      apply filter_In. split; [now apply listed_source_In|]. now apply lab_mem_In. }
    unfold field_round in E. fold ids in E. rewrite EP in E. cbn [rbind] in E. rewrite EA in E. cbn [rbind] in E.
    destruct (cascade_perm ids a (concat parts) ND Oa Oc) as (a2 & E2 & O2 & B2 & L2). rewrite E2 in E. cbn [rbind] in E.
    destruct (remap_positions plan a2 None) as [L2'|]; [|discriminate]. cbn [rbind] in E. injection E as _ <- _.
    apply remap_ext; auto.
    - apply sort_by_entity.
    - now apply (one_to_one_keys ids a2 ND O2).
    - now apply (one_to_one_keys ids _ ND (one_to_one_sorted ids s Os)).
    - intro k. rewrite L2, (sorted_remap_source ids) by auto. unfold composed.
      destruct (lab_mem_spec k ids) as [Hk|Hk].
      + rewrite Lc by auto. rewrite Lt. unfold composed. destruct (one_to_one_source ids s k ND Os Hk) as (m & Em & Hmi). rewrite Em.
        destruct (one_to_one_source ids _ m ND Oi Hmi) as (l & El & Hl). rewrite El. now apply (inverse_source ids a l m ND Oa).
      + rewrite (one_to_one_outside ids _ k Oc Hk). now rewrite (one_to_one_outside ids s k Os Hk).
  Qed.
End Round.
