(** Proofs about assign_positions (M_field_remap.v). *)
From Coq Require Import Permutation Sorted.
From Verif Require Import Prelude PreludeFacts RealBase M_field_remap Spec_field P_field_remap.


Lemma Forall2_Rsum {A B} (f : A -> R) (g : B -> R) l l' :
  Forall2 (fun x y => f x = g y) l l' -> Rsum (map f l) = Rsum (map g l').
Proof. induction 1 as [|x y l l' E F IH]; cbn [map]; [easy|]. now rewrite !Rsum_cons, E, IH. Qed.

Lemma Forall2_impl2 {A B} (P Q : A -> B -> Prop) l l' :
  (forall x y, P x y -> Q x y) -> Forall2 P l l' -> Forall2 Q l l'.
Proof. intros HI. induction 1; constructor; auto. Qed.

Lemma Forall2_swap {A B} (P : A -> B -> Prop) l l' : Forall2 P l l' -> Forall2 (fun b a => P a b) l' l.
Proof. induction 1; constructor; auto. Qed.

Lemma Forall2_NoDup {A B} (P : A -> B -> Prop) l l' :
  (forall a b b', P a b -> P a b' -> b = b') -> Forall2 P l l' -> NoDup l' -> NoDup l.
Proof.
  intros Hf. induction 1 as [|a b l l' E F IH]; intro ND; constructor.
  - inversion ND as [|? ? Hn ND']; subst. intro Ha. apply Hn. clear IH Hn ND.
    induction F as [|x y l l' Exy F IHF]; [easy|]. destruct Ha as [->|Ha].
    + left. symmetry. now apply (Hf a).
    + right. apply IHF; auto. now inversion ND'.
  - apply IH. now inversion ND.
Qed.

Lemma nth_error_seq n i : i < n -> nth_error (seq 0 n) i = Some i.
Proof.
  intro Hi. rewrite (nth_error_nth' _ 0) by now rewrite seq_length. now rewrite seq_nth.
Qed.

Lemma Forall2_seq_nth {A} (l : list A) : Forall2 (fun i x => nth_error l i = Some x) (seq 0 (length l)) l.
Proof.
  enough (G : forall pre, Forall2 (fun i x => nth_error (pre ++ l) i = Some x) (seq (length pre) (length l)) l) by exact (G []).
  induction l as [|x l IH]; intro pre; cbn; constructor.
  - rewrite nth_error_app2 by lia. now rewrite Nat.sub_diag.
  - specialize (IH (pre ++ [x])). rewrite app_length in IH. cbn in IH. rewrite <- app_assoc in IH. cbn in IH.
    now rewrite Nat.add_1_r in IH.
Qed.

Lemma combine_fst_snd {A B} (l : list (A * B)) : combine (map fst l) (map snd l) = l.
Proof. induction l as [|[a b] l IH]; cbn; congruence. Qed.

Lemma map_fst_combine {A B} (l : list A) (l' : list B) : length l = length l' -> map fst (combine l l') = l.
Proof. revert l'. induction l as [|x l IH]; intros [|y l']; cbn; intro E; try discriminate; [easy|]. f_equal. apply IH. lia. Qed.
Lemma map_snd_combine {A B} (l : list A) (l' : list B) : length l = length l' -> map snd (combine l l') = l'.
Proof. revert l'. induction l as [|x l IH]; intros [|y l']; cbn; intro E; try discriminate; [easy|]. f_equal. apply IH. lia. Qed.

Section AssignFacts.
  Context {K C : Type} `{HK : Label K} `{HC : Label C}.
  Variable lsa : nat -> list (list R) -> list nat * list nat.
  Hypothesis Hlsa : lsa_correct lsa.
  Implicit Types (t orig pred : table K C R).

  (** Every row starts with two numbers. *)
  Definition located t : Prop := Forall (fun r => exists e n rest, snd r = Some e :: Some n :: rest) (t_rows t).

  Definition xy_of (row : list (option R)) : R * R :=
    match row with Some e :: Some n :: _ => (e, n) | _ => (0, 0)%R end.
  Definition xys t : list (R * R) := map (fun r => xy_of (snd r)) (t_rows t).

  Definition wrap (p : R * R) : option R * option R := (Some (fst p), Some (snd p)).

  Lemma located_xy t : located t -> map (fun r => row_xy (snd r)) (t_rows t) = map wrap (xys t).
  Proof.
    unfold located, xys. intro L. rewrite map_map. apply map_ext_in. intros r Hr.
    rewrite Forall_forall in L. destruct (L r Hr) as (e & n & rest & ->). reflexivity.
  Qed.

  Lemma xys_length t : length (xys t) = length (t_rows t).
  Proof. apply map_length. Qed.

  Lemma position_nth t i k : located t -> NoDup (t_index t) -> nth_error (t_index t) i = Some k ->
    position t k = Some (nth i (xys t) (0, 0)%R).
  Proof.
    intros L ND E. unfold t_index in E. rewrite nth_error_map in E.
    destruct (nth_error (t_rows t) i) as [[k' row]|] eqn:Er; [|discriminate]. cbn in E. injection E as ->.
    pose proof (nth_error_In _ _ Er) as Hin.
    unfold located in L. rewrite Forall_forall in L. destruct (L _ Hin) as (e & n & rest & Erow). cbn in Erow. subst row.
    unfold position. rewrite (dget_NoDup (t_rows t) k _ ND Hin). f_equal.
    unfold xys. symmetry. apply nth_error_nth. rewrite nth_error_map, Er. reflexivity.
  Qed.

  Definition dist_rows (n m : nat) (plan pred : list (R * R)) : list (list R) :=
    map (fun p => map (planar_dist p) (firstn n pred) ++ repeat 0%R (m - n)) plan.

  Lemma all_some_map {A B} (f : A -> B) l : all_some (map (fun x => Some (f x)) l) = Some (map f l).
  Proof. induction l as [|x l IH]; cbn; [easy|]. now rewrite IH. Qed.
  Lemma all_some_app {A} (l l' : list (option A)) a b :
    all_some l = Some a -> all_some l' = Some b -> all_some (l ++ l') = Some (a ++ b).
  Proof.
    revert a. induction l as [|[x|] l IH]; intros a Ha Hb; cbn in *; try discriminate.
    - now injection Ha as <-.
    - destruct (all_some l) as [a'|]; [|discriminate]. cbn in Ha. injection Ha as <-.
      now rewrite (IH a' eq_refl Hb).
  Qed.
  Lemma all_some_repeat {A} (x : A) n : all_some (repeat (Some x) n) = Some (repeat x n).
  Proof. induction n as [|n IH]; cbn; [easy|]. now rewrite IH. Qed.

  Lemma cost_matrix_real (plan pred : list (R * R)) : length plan <= length pred ->
    exists M, cost_matrix (map wrap plan) (map wrap pred) = Ok M /\
      all_some (map all_some M) = Some (dist_rows (length plan) (length pred) plan pred).
  Proof.
    intro Hl. unfold cost_matrix. rewrite !map_length.
    destruct (Nat.ltb_spec (length pred) (length plan)) as [|_]; [lia|].
    eexists. split; [reflexivity|]. rewrite map_map.
    unfold dist_rows. rewrite <- all_some_map. f_equal. rewrite map_map. apply map_ext. intro p.
    apply all_some_app; [|apply all_some_repeat].
    rewrite firstn_map, map_map. rewrite <- all_some_map. reflexivity.
  Qed.

  (** Rows of the table, relabelled positionally with the given labels. *)
  Definition relabel (idx : list K) t : table K C R := mkTable (t_cols t) (combine idx (map snd (t_rows t))).

  Lemma relabel_index idx t : length idx = length (t_rows t) -> t_index (relabel idx t) = idx.
  Proof. intro E. unfold relabel, t_index. cbn. apply map_fst_combine. now rewrite map_length. Qed.

  Lemma relabel_xys idx t : length idx = length (t_rows t) -> xys (relabel idx t) = xys t.
  Proof.
    intro E. unfold relabel, xys. cbn [t_rows]. rewrite <- (map_map snd xy_of (combine idx (map snd (t_rows t)))).
    rewrite map_snd_combine by (rewrite map_length; exact E). now rewrite map_map.
  Qed.

  Lemma relabel_located idx t : located t -> located (relabel idx t).
  Proof.
    unfold located, relabel. cbn. intro L. rewrite Forall_forall in *. intros [k row] Hr.
    apply in_combine_r in Hr. apply in_map_iff in Hr. destruct Hr as (r & <- & Hr). exact (L r Hr).
  Qed.

  Lemma relabel_self t : relabel (t_index t) t = t.
  Proof. destruct t as [cols rows]. unfold relabel, t_index. cbn. now rewrite combine_fst_snd. Qed.

  Lemma dist_rows_nth (plan pred : list (R * R)) i c n : length pred = n -> length plan = n -> i < n -> c < n ->
    nth c (nth i (dist_rows n n plan pred) []) 0%R = planar_dist (nth i plan (0, 0)%R) (nth c pred (0, 0)%R).
  Proof.
    intros L1 L2 Hi Hc. unfold dist_rows.
    set (f := fun p => map (planar_dist p) (firstn n pred) ++ repeat 0%R (n - n)).
    rewrite (nth_indep _ [] (f (0, 0)%R)) by (rewrite map_length; lia).
    rewrite map_nth. unfold f. rewrite Nat.sub_diag. cbn [repeat]. rewrite app_nil_r.
    rewrite <- L1 at 1. rewrite firstn_all.
    rewrite (nth_indep _ 0%R (planar_dist (nth i plan (0, 0)%R) (0, 0)%R)) by (rewrite map_length; lia).
    now rewrite map_nth.
  Qed.

  Lemma planar_dist_sym p q : planar_dist p q = planar_dist q p.
  Proof. unfold planar_dist. f_equal. lra. Qed.
  Lemma planar_dist_nonneg p q : (0 <= planar_dist p q)%R.
  Proof. apply sqrt_pos. Qed.
  Lemma planar_dist_zero p q : planar_dist p q = 0%R -> p = q.
  Proof.
    unfold planar_dist. intro E.
    pose proof (pow2_ge_0 (fst p - fst q)) as H1. pose proof (pow2_ge_0 (snd p - snd q)) as H2.
    apply sqrt_eq_0 in E; [|lra].
    destruct p as [a b], q as [c d]. cbn [fst snd] in *.
    f_equal; apply Rminus_diag_uniq, Rsqr_0_uniq; unfold Rsqr; lra.
  Qed.

  (** The cost of a column choice is the total distance of the remapping it denotes. *)
  Lemma cost_is_total orig pred idx cols ks :
    located orig -> located pred -> NoDup idx -> t_index orig = idx -> t_index pred = idx ->
    length cols = length idx ->
    Forall2 (fun c k => nth_error idx c = Some k) cols ks ->
    assign_cost (dist_rows (length idx) (length idx) (xys orig) (xys pred)) cols = total_dist orig pred (combine ks idx).
  Proof.
    intros Lo Lp ND Io Ip Lc F. unfold assign_cost, total_dist. apply Forall2_Rsum.
    rewrite Lc.
    assert (Lxo : length (xys orig) = length idx) by (rewrite xys_length, <- Io; unfold t_index; now rewrite map_length).
    assert (Lxp : length (xys pred) = length idx) by (rewrite xys_length, <- Ip; unfold t_index; now rewrite map_length).
    assert (G : Forall2 (fun x y => nth_error idx (fst x) = Some (snd y) /\ nth_error idx (snd x) = Some (fst y))
                        (combine (seq 0 (length idx)) cols) (combine ks idx)).
    { pose proof (Forall2_seq_nth idx) as F2. revert F F2 Lc. generalize (seq 0 (length idx)) as sq.
      assert (G0 : forall (sq : list nat) l, Forall2 (fun c k => nth_error idx c = Some k) cols ks ->
                   Forall2 (fun i x => nth_error idx i = Some x) sq l ->
                   Forall2 (fun x y => nth_error idx (fst x) = Some (snd y) /\ nth_error idx (snd x) = Some (fst y)) (combine sq cols) (combine ks l)).
      { intros sq l F. revert sq l. induction F as [|c k cols ks Eck F IH]; intros sq l F2.
        - destruct sq; constructor.
        - destruct F2 as [|i x sq l Eix F2]; cbn; constructor; auto. }
      intros sq F F2 _. now apply G0. }
    eapply Forall2_impl2; [|exact G]. intros [i c] [k v] [Ei Ec]. cbn in *.
    assert (Hi : i < length idx) by (apply nth_error_Some; congruence).
    assert (Hc : c < length idx) by (apply nth_error_Some; congruence).
    rewrite dist_rows_nth by lia.
    rewrite (position_nth pred c k) by (rewrite ?Ip; auto).
    rewrite (position_nth orig i v) by (rewrite ?Io; auto). apply planar_dist_sym.
  Qed.

  Lemma take_pos_ok {A} (l : list A) ix : Forall (fun i => i < length l) ix ->
    exists ys, take_pos l ix = Ok ys /\ Forall2 (fun i y => nth_error l i = Some y) ix ys.
  Proof.
    intro F. unfold take_pos. induction F as [|i ix Hi F (ys & E & F2)]; cbn; [exists []; now split|].
    destruct (nth_error l i) as [x|] eqn:Ex; [|apply nth_error_None in Ex; lia].
    cbn. rewrite E. cbn. exists (x :: ys). split; [easy|]. now constructor.
  Qed.

  Lemma take_pos_seq {A} (l : list A) : take_pos l (seq 0 (length l)) = Ok l.
  Proof.
    unfold take_pos. apply mapM_ok_iff. eapply Forall2_impl2; [|apply Forall2_seq_nth].
    cbn. intros i x ->. reflexivity.
  Qed.

  Lemma Forall2_perm_idx (idx : list K) cols ks : NoDup idx -> assignment (length idx) (length idx) cols ->
    Forall2 (fun c k => nth_error idx c = Some k) cols ks -> Permutation ks idx.
  Proof.
    intros ND (L & NDc & Hc) F.
    apply NoDup_Permutation_bis.
    - apply (Forall2_NoDup (fun k c => nth_error idx c = Some k) ks cols); [|now apply Forall2_swap|easy].
      intros k c c' E E'. assert (Lt : c < length idx) by (apply nth_error_Some; congruence).
      apply (proj1 (NoDup_nth_error idx) ND); [easy|congruence].
    - apply Forall2_len in F. lia.
    - intros k Hk. clear - F Hk. induction F as [|c k' cols ks E F IH]; [easy|].
      destruct Hk as [->|Hk]; [now apply nth_error_In in E|auto].
  Qed.

  Lemma located_wide (t : table K C R) : located t -> narrow t = false.
  Proof.
    intro L. unfold narrow. unfold located in L. induction L as [|r l (e & n & rest & E) L IH]; [reflexivity|].
    cbn [existsb]. now rewrite E, IH.
  Qed.

  (** Complete behaviour of the NaN-free branch on equally long frames. *)
  Lemma assign_good_ok orig pred : located orig -> located pred -> NoDup (t_index orig) ->
    length (t_rows orig) = length (t_rows pred) ->
    exists r, assign_good lsa orig pred = Ok r /\ one_to_one (t_index orig) r /\ by_entity r /\
      forall r', one_to_one (t_index orig) r' ->
        (total_dist orig (relabel (t_index orig) pred) r <= total_dist orig (relabel (t_index orig) pred) r')%R.
  Proof.
    intros Lo Lp ND Len. set (idx := t_index orig).
    assert (Li : length idx = length (t_rows orig)) by (unfold idx, t_index; apply map_length).
    assert (Li' : length idx = length (t_rows pred)) by lia.
    unfold assign_good. rewrite (located_wide orig Lo), (located_wide pred Lp). cbn [orb]. rewrite (located_xy orig Lo), (located_xy pred Lp).
    destruct (cost_matrix_real (xys orig) (xys pred)) as (M & EM & EA).
    { rewrite !xys_length. lia. }
    rewrite EM. cbn [rbind]. rewrite EA. rewrite map_length.
    assert (Lxo : length (xys orig) = length idx) by (rewrite xys_length; lia).
    assert (Lxp : length (xys pred) = length idx) by (rewrite xys_length; lia).
    rewrite Lxo, Lxp. set (MR := dist_rows (length idx) (length idx) (xys orig) (xys pred)).
    destruct (Hlsa (length idx) MR) as (Hrow & Has & Hopt).
    { unfold MR, dist_rows. rewrite map_length. lia. }
    { unfold MR, dist_rows. apply Forall_forall. intros row Hr. apply in_map_iff in Hr. destruct Hr as (p & <- & _).
      rewrite app_length, map_length, firstn_length, repeat_length. lia. }
    assert (LMR : length MR = length idx) by (unfold MR, dist_rows; rewrite map_length; lia).
    rewrite LMR in *. destruct (lsa (length idx) MR) as [row_ind cols] eqn:El. cbn in Hrow, Has, Hopt. subst row_ind.
    destruct (take_pos_ok idx cols) as (ks & Eks & Fks).
    { apply Has. }
    fold idx. rewrite Eks. cbn [rbind]. rewrite take_pos_seq. cbn [rbind].
    eexists. split; [reflexivity|].
    assert (Lks : length ks = length idx) by (apply Forall2_len in Fks; destruct Has as [L _]; lia).
    assert (Pks : Permutation ks idx) by now apply (Forall2_perm_idx idx cols).
    assert (O : one_to_one idx (combine ks idx)).
    { split; [now rewrite map_fst_combine|now rewrite map_snd_combine]. }
    split; [now apply one_to_one_sorted|]. split; [apply sort_by_entity|].
    intros r' O'. set (pred' := relabel idx pred).
    assert (Lp' : located pred') by now apply relabel_located.
    assert (Ip' : t_index pred' = idx) by now apply relabel_index.
    assert (Ex : xys pred' = xys pred) by now apply relabel_xys.
    assert (T : total_dist orig pred' (sort_by by_key (combine ks idx)) = assign_cost MR cols).
    { unfold MR. rewrite <- Ex.
      rewrite (cost_is_total orig pred' idx cols ks) by (auto; apply Has).
      unfold total_dist. apply Rsum_map_perm. symmetry. apply sort_by_perm. }
    change (fun p q : K * K => lab_leb (fst p) (fst q)) with (@by_key K HK). rewrite T.
    destruct O' as [P1 P2].
    destruct (Permutation_map_inv _ _ (Permutation_sym P2)) as (r'' & E2 & P3).
    assert (T' : total_dist orig pred' r' = total_dist orig pred' (combine (map fst r'') idx)).
    { rewrite E2. rewrite combine_fst_snd. unfold total_dist. now apply Rsum_map_perm. }
    rewrite T'.
    assert (Hpos : exists cols', Forall2 (fun c k => nth_error idx c = Some k) cols' (map fst r'')).
    { assert (Hin : forall k, In k (map fst r'') -> In k idx).
      { intros k Hk. apply (Permutation_in _ P1). apply (Permutation_in _ (Permutation_sym (Permutation_map fst P3))). exact Hk. }
      clear - Hin HK. induction (map fst r'') as [|k l IH]; [exists []; constructor|].
      destruct IH as (cs & F). { intros; apply Hin; now right. }
      destruct (pos_of_In idx k) as (c & E). { apply Hin. now left. }
      exists (c :: cs). constructor; [now apply pos_of_nth|easy]. }
    destruct Hpos as (cols' & F').
    assert (Lc' : length cols' = length idx).
    { apply Forall2_len in F'. rewrite F', map_length, <- (map_length snd r''), <- E2. reflexivity. }
    rewrite <- (cost_is_total orig pred' idx cols' (map fst r'')) by auto.
    rewrite Ex. apply Hopt. split; [easy|]. split.
    - apply (Forall2_NoDup (fun c k => nth_error idx c = Some k) cols' (map fst r'')); [intros; congruence|exact F'|].
      apply (Permutation_NoDup (Permutation_map fst P3)). apply (Permutation_NoDup (Permutation_sym P1)). exact ND.
    - clear - F'. induction F'; constructor; auto. apply nth_error_Some. congruence.
  Qed.

  Lemma all_located_located t : NoDup (t_index t) -> all_located t -> located t.
  Proof.
    intros ND AL. unfold located. apply Forall_forall. intros [k row] Hr.
    destruct (AL k) as (p & E). { unfold t_index. now apply (in_map fst) in Hr. }
    unfold position in E. rewrite (dget_NoDup _ _ _ ND Hr) in E. cbn.
    destruct row as [|[e|] [|[n|] rest]]; try discriminate. now exists e, n, rest.
  Qed.

  Lemma no_nan_rows t : NoDup (t_index t) -> no_nan t -> existsb (fun r => row_has_nan (snd r)) (t_rows t) = false.
  Proof.
    intros ND NN. destruct (existsb _ _) eqn:E; [|easy]. apply existsb_exists in E. destruct E as ([k row] & Hr & E).
    specialize (NN k). unfold nan_entity in NN. rewrite (dget_NoDup _ _ _ ND Hr) in NN. cbn in E. unfold row_has_nan in E. congruence.
  Qed.

  Lemma remap_one_to_one t r : wf_table t -> one_to_one (t_index t) r ->
    exists fx, remap_positions t r None = Ok fx /\ wf_table fx /\ t_cols fx = t_cols t /\ t_index fx = t_index t /\
      forall p c, In p r -> cell fx (fst p) c = cell t (snd p) c.
  Proof.
    intros W O. destruct (remap_all_ok t r W) as (fx & E & Wf & Cf & If & L).
    { intros p Hp. split; [apply (Permutation_in _ (proj1 O)); now apply in_map|apply (Permutation_in _ (proj2 O)); now apply in_map]. }
    exists fx. split; [easy|]. split; [easy|]. split; [easy|]. split; [easy|].
    intros p c Hp. rewrite L.
    assert (ND : NoDup (map fst r)) by (apply (one_to_one_keys (t_index t)); [apply W|easy]).
    rewrite listed_source_NoDup by easy. rewrite (dget_NoDup r (fst p) (snd p)); auto. now destruct p.
  Qed.

  Lemma assign_positions_good orig pred : wf_table orig -> NoDup (t_index pred) ->
    all_located orig -> all_located pred -> no_nan pred -> length (t_rows orig) = length (t_rows pred) ->
    exists r out, assign_positions lsa orig pred = Ok (r, out) /\
      one_to_one (t_index orig) r /\ by_entity r /\
      (forall r', one_to_one (t_index orig) r' ->
         (total_dist orig (with_labels (t_index orig) pred) r <= total_dist orig (with_labels (t_index orig) pred) r')%R) /\
      t_cols out = t_cols orig /\ t_index out = t_index orig /\
      (forall p c, In p r -> cell out (fst p) c = cell orig (snd p) c).
  Proof.
    intros W NDp Lo Lp NN Len. pose proof W as (_ & NDo & _).
    destruct (assign_good_ok orig pred) as (r & E & O & B & Opt); auto using all_located_located.
    destruct (remap_one_to_one orig r W O) as (out & E2 & _ & C2 & I2 & L2).
    exists r, out. split.
    - unfold assign_positions. rewrite (no_nan_rows pred NDp NN). rewrite E. cbn [rbind]. rewrite E2. reflexivity.
    - split; [easy|]. split; [easy|]. split; [exact Opt|]. now split; [|split].
  Qed.

  Lemma with_labels_self t : with_labels (t_index t) t = t.
  Proof. apply relabel_self. Qed.

  (** Without NaN the row labels of the predictions are not consulted. *)
  Lemma assign_labels_ignored orig pred idx : NoDup (t_index pred) -> no_nan pred ->
    length idx = length (t_rows pred) ->
    assign_positions lsa orig (with_labels idx pred) = assign_positions lsa orig pred.
  Proof.
    intros ND NN Li. unfold assign_positions.
    rewrite (no_nan_rows pred ND NN).
    assert (Es : map snd (combine idx (map snd (t_rows pred))) = map snd (t_rows pred)).
    { apply map_snd_combine. now rewrite map_length. }
    assert (E1 : existsb (fun r => row_has_nan (snd r)) (t_rows (with_labels idx pred)) = false).
    { rewrite <- (no_nan_rows pred ND NN). cbn [t_rows with_labels].
      assert (G : forall l : list (K * list (option R)), existsb (fun r => row_has_nan (snd r)) l = existsb row_has_nan (map snd l)).
      { induction l as [|x l IH]; cbn; [easy|]. now rewrite IH. }
      rewrite !G, Es. reflexivity. }
    rewrite E1. f_equal. unfold assign_good.
    assert (E2 : map (fun r => row_xy (snd r)) (t_rows (with_labels idx pred)) = map (fun r => row_xy (snd r)) (t_rows pred)).
    { cbn [t_rows with_labels]. rewrite <- (map_map snd row_xy), Es. now rewrite map_map. }
    assert (E3 : narrow (with_labels idx pred) = narrow pred).
    { unfold narrow. cbn [t_rows with_labels].
      assert (G : forall l : list (K * list (option R)), existsb (fun r => Nat.ltb (length (snd r)) 2) l = existsb (fun r => Nat.ltb (length r) 2) (map snd l)).
      { induction l as [|x l IH]; cbn [existsb map]; [easy|]. now rewrite IH. }
      rewrite !G, Es. reflexivity. }
    rewrite E2, E3. reflexivity.
  Qed.

  (** Recovery of a relabelled layout. *)
  Lemma total_dist_nonneg plan pred r : (0 <= total_dist (K := K) (C := C) plan pred r)%R.
  Proof.
    apply Rsum_nonneg. intros x Hx. apply in_map_iff in Hx. destruct Hx as (kl & <- & _).
    destruct (position pred (fst kl)); [|lra]. destruct (position plan (snd kl)); [|lra]. apply planar_dist_nonneg.
  Qed.

  Lemma assign_recovers orig pred s : wf_table orig -> NoDup (t_index pred) -> t_index pred = t_index orig ->
    all_located orig -> no_nan pred ->
    (forall k l p, In k (t_index orig) -> In l (t_index orig) -> position orig k = Some p -> position orig l = Some p -> k = l) ->
    one_to_one (t_index orig) s -> (forall p, In p s -> position pred (fst p) = position orig (snd p)) ->
    exists r out, assign_positions lsa orig pred = Ok (r, out) /\ Permutation r s /\ by_entity r.
  Proof.
    intros W NDp Ei Lo NN Hd Os Hs. pose proof W as (_ & NDo & _).
    assert (Hs' : forall k, In k (t_index orig) -> exists l, In (k, l) s /\ In l (t_index orig)).
    { intros k Hk. destruct (one_to_one_source _ s k NDo Os Hk) as (l & El & Hl). exists l. split; [|easy].
      now apply listed_source_In. }
    assert (Lp : all_located pred).
    { intros k Hk. rewrite Ei in Hk. destruct (Hs' k Hk) as (l & Hkl & Hl). apply Hs in Hkl. cbn in Hkl. rewrite Hkl. now apply Lo. }
    destruct (assign_positions_good orig pred) as (r & out & E & O & B & Opt & _); auto.
    { apply (f_equal (@length K)) in Ei. unfold t_index in Ei. rewrite !map_length in Ei. lia. }
    exists r, out. split; [easy|]. split; [|easy].
    rewrite <- Ei, with_labels_self in Opt. specialize (Opt s). rewrite Ei in Opt. specialize (Opt Os).
    assert (Zs : total_dist orig pred s = 0%R).
    { unfold total_dist. transitivity (Rsum (map (fun _ => 0%R) s)); [|rewrite Rsum_map_const; lra].
      apply Rsum_map_ext. intros [k l] Hp. cbn. pose proof (Hs _ Hp) as Ep. cbn in Ep. rewrite Ep.
      destruct (position orig l) as [q|]; [|easy]. unfold planar_dist.
      replace ((fst q - fst q) ^ 2 + (snd q - snd q) ^ 2)%R with 0%R by lra. apply sqrt_0. }
    assert (Zr : total_dist orig pred r = 0%R) by (pose proof (total_dist_nonneg orig pred r); lra).
    destruct (one_to_one_keys _ r NDo O) as [Nr1 Nr2]. destruct (one_to_one_keys _ s NDo Os) as [Ns1 Ns2].
    assert (Sub : forall p, In p r -> In p s).
    { intros [k l] Hp.
      assert (Hk : In k (t_index orig)) by (apply (Permutation_in _ (proj1 O)); now apply (in_map fst) in Hp).
      assert (Hl : In l (t_index orig)) by (apply (Permutation_in _ (proj2 O)); now apply (in_map snd) in Hp).
      destruct (Hs' k Hk) as (l' & Hp' & Hl').
      enough (l = l') by congruence.
      pose proof (Hs _ Hp') as Ep. cbn in Ep.
      destruct (Lo l Hl) as (q & Eq). destruct (Lo l' Hl') as (q' & Eq').
      assert (T0 : planar_dist q' q = 0%R).
      { unfold total_dist in Zr.
        apply (Rsum_zero_all _) with (x := planar_dist q' q) in Zr; auto.
        - intros x Hx. apply in_map_iff in Hx. destruct Hx as (kl & <- & _).
          destruct (position pred (fst kl)); [|lra]. destruct (position orig (snd kl)); [|lra]. apply planar_dist_nonneg.
        - apply in_map_iff. exists (k, l). cbn. split; [|easy]. rewrite Ep, Eq', Eq. reflexivity. }
      apply planar_dist_zero in T0. subst q'. now apply (Hd l l' q). }
    apply NoDup_Permutation_bis.
    - now apply (NoDup_map_inv fst).
    - rewrite <- (map_length fst s), <- (map_length fst r).
      rewrite (Permutation_length (proj1 O)), (Permutation_length (proj1 Os)). lia.
    - exact Sub.
  Qed.

  (** Fewer predictions than plan rows: IndexError. *)
  Lemma assign_short orig pred : NoDup (t_index pred) -> no_nan pred -> length (t_rows pred) < length (t_rows orig) ->
    assign_positions lsa orig pred = Err IndexError.
  Proof.
    intros ND NN Hl. unfold assign_positions. rewrite (no_nan_rows pred ND NN). unfold assign_good, cost_matrix.
    destruct (narrow orig || narrow pred); [reflexivity|]. rewrite !map_length. now destruct (Nat.ltb_spec (length (t_rows pred)) (length (t_rows orig))); [|lia].
  Qed.

  (** ** The NaN branch *)
  Lemma filter_key_single (sr : list (K * K)) k s : NoDup (map fst sr) -> In (k, s) sr ->
    filter (fun p => lab_eqb (fst p) k) sr = [(k, s)].
  Proof.
    induction sr as [|[a b] sr IH]; cbn; [easy|]. intros ND Hin. inversion ND as [|? ? Hn ND']; subst.
    destruct Hin as [[= -> ->]|Hin].
    - rewrite lab_eqb_refl. f_equal.
      assert (G : forall l : list (K * K), ~ In k (map fst l) -> filter (fun p => lab_eqb (fst p) k) l = []).
      { induction l as [|[a b] l IHl]; cbn; [easy|]. intro N. rewrite lab_eqb_neq by tauto. apply IHl. tauto. }
      now apply G.
    - rewrite lab_eqb_neq; [now apply IH|]. intros ->. apply Hn. now apply (in_map fst) in Hin.
  Qed.

  Lemma nan_entity_row t k row : NoDup (t_index t) -> In (k, row) (t_rows t) -> nan_entity t k = row_has_nan row.
  Proof. intros ND Hr. unfold nan_entity. now rewrite (dget_NoDup _ _ _ ND Hr). Qed.

  Lemma filter_index t : NoDup (t_index t) ->
    map fst (filter (fun r => negb (row_has_nan (snd r))) (t_rows t)) = finite_entities t.
  Proof.
    intro ND. unfold finite_entities, t_index.
    assert (G : forall l, (forall r, In r l -> In r (t_rows t)) ->
              map fst (filter (fun r => negb (row_has_nan (snd r))) l) = filter (fun k => negb (nan_entity t k)) (map fst l)).
    { induction l as [|[k row] l IH]; intro Hl; [easy|]. cbn [filter map fst snd].
      rewrite (nan_entity_row t k row ND) by (apply Hl; now left).
      destruct (row_has_nan row); cbn; rewrite IH; auto; intros; apply Hl; now right. }
    now apply G.
  Qed.

  Lemma no_nan_located row : row_has_nan row = false -> 2 <= length row ->
    exists e n rest, row = Some e :: Some n :: rest.
  Proof.
    destruct row as [|[e|] [|[n|] rest]]; cbn; intros E L; try lia; try discriminate. now exists e, n, rest.
  Qed.

  Lemma total_dist_ext (plan plan' pred pred' : table K C R) r :
    (forall p, In p r -> position pred (fst p) = position pred' (fst p) /\ position plan (snd p) = position plan' (snd p)) ->
    total_dist plan pred r = total_dist plan' pred' r.
  Proof.
    intro Hp. unfold total_dist. apply Rsum_map_ext. intros p Hin. destruct (Hp p Hin) as [-> ->]. reflexivity.
  Qed.

  Lemma assign_positions_nan orig pred : wf_table orig -> wf_table pred -> 2 <= length (t_cols pred) ->
    Permutation (t_index pred) (t_index orig) -> all_located orig -> (exists k, nan_entity pred k = true) ->
    exists r out, assign_positions lsa orig pred = Ok (r, out) /\
      map fst r = t_index orig /\
      (forall k, nan_entity pred k = true -> In (k, k) r) /\
      one_to_one (finite_entities pred) (restrict r (finite_entities pred)) /\
      (forall r', one_to_one (finite_entities pred) r' ->
         (total_dist orig pred (restrict r (finite_entities pred)) <= total_dist orig pred r')%R) /\
      t_cols out = t_cols orig /\ t_index out = t_index orig /\
      (forall p c, In p r -> cell out (fst p) c = cell orig (snd p) c).
  Proof.
    intros W Wp Hcols PI Lo (kn & Hkn).
    pose proof W as (_ & NDo & _). pose proof Wp as (_ & NDp & HFp).
    assert (Ex : existsb (fun r => row_has_nan (snd r)) (t_rows pred) = true).
    { unfold nan_entity in Hkn. destruct (dget (t_rows pred) kn) as [row|] eqn:E; [|discriminate].
      apply existsb_exists. exists (kn, row). split; [now apply dget_In|exact Hkn]. }
    set (F := finite_entities pred). set (sub_pred := mkTable (t_cols pred) (filter (fun r => negb (row_has_nan (snd r))) (t_rows pred))).
    assert (IF : t_index sub_pred = F) by now apply filter_index.
    assert (NDF : NoDup F) by now apply NoDup_filter.
    assert (HFin : forall k, In k F <-> In k (t_index pred) /\ nan_entity pred k = false).
    { intro k. unfold F, finite_entities. rewrite filter_In, negb_true_iff. tauto. }
    assert (Rows : exists rows, mapM (fun k => match dget (t_rows orig) k with Some row => Ok (k, row) | None => Err KeyError end) F = Ok rows
                   /\ map fst rows = F /\ forall k row, In (k, row) rows -> In (k, row) (t_rows orig)).
    { assert (HF2 : forall k, In k F -> In k (t_index orig)).
      { intros k Hk. apply (Permutation_in _ PI). now apply HFin. }
      clear - HF2. induction F as [|k F IH]; [now exists []|].
      destruct IH as (rows & E & EI & HR). { intros; apply HF2; now right. }
      destruct (dget_key_Some (t_rows orig) k) as (row & Er). { apply HF2. now left. }
      exists ((k, row) :: rows). cbn. rewrite Er. cbn. rewrite E. cbn. split; [easy|]. split; [now rewrite EI|].
      intros k' row' [[= <- <-]|Hin]; [now apply dget_In|now apply HR]. }
    destruct Rows as (rows & Er & EI & HR). set (sub_orig := mkTable (t_cols orig) rows).
    assert (IO : t_index sub_orig = F) by exact EI.
    assert (PosO : forall k, In k F -> position sub_orig k = position orig k).
    { intros k Hk. unfold position. cbn [t_rows sub_orig].
      rewrite <- EI in Hk. destruct (dget_key_Some rows k Hk) as (row & E). rewrite E.
      apply dget_In, HR in E. now rewrite (dget_NoDup _ _ _ NDo E). }
    assert (PosP : forall k, In k F -> position sub_pred k = position pred k).
    { intros k Hk. unfold position. rewrite <- IF in Hk. destruct (dget_key_Some (t_rows sub_pred) k Hk) as (row & E).
      rewrite E. apply dget_In in E. cbn in E. apply filter_In in E. now rewrite (dget_NoDup _ _ _ NDp (proj1 E)). }
    assert (LocO : located sub_orig).
    { apply all_located_located; [now rewrite IO|]. intros k Hk. rewrite IO in Hk. rewrite PosO by easy.
      apply Lo. apply (Permutation_in _ PI). now apply HFin. }
    assert (LocP : located sub_pred).
    { unfold located. apply Forall_forall. intros [k row] Hr. cbn in Hr. apply filter_In in Hr. destruct Hr as [Hr Hn].
      cbn in *. apply no_nan_located; [now apply negb_true_iff in Hn|].
      rewrite Forall_forall in HFp. apply HFp in Hr. cbn in Hr. lia. }
    destruct (assign_good_ok sub_orig sub_pred) as (sr & Es & Osr & Bsr & Opt); auto.
    { now rewrite IO. }
    { rewrite <- (map_length fst (t_rows sub_orig)), <- (map_length fst (t_rows sub_pred)).
      change (length (t_index sub_orig) = length (t_index sub_pred)). now rewrite IO, IF. }
    rewrite IO in *.
    assert (Wsub : wf_table sub_orig).
    { split; [apply W|]. split; [now rewrite IO|]. apply Forall_forall. intros [k row] Hr. apply HR in Hr.
      destruct W as (_ & _ & HFo). rewrite Forall_forall in HFo. now apply HFo in Hr. }
    destruct (remap_one_to_one sub_orig sr Wsub) as (dd & Edd & _). { now rewrite IO. }
    destruct (one_to_one_keys F sr NDF Osr) as [Nsr1 Nsr2].
    set (g := fun k => if nan_entity pred k then k else match listed_source sr k with Some s => s | None => k end).
    set (r := map (fun k => (k, g k)) (t_index orig)).
    assert (Parts : forall ks, (forall k, In k ks -> In k (t_index pred)) ->
       rbind (mapM (fun k => match dget (t_rows pred) k with
                      | None => Err KeyError
                      | Some row => if row_has_nan row then Ok [(k, k)] else Ok (filter (fun p => lab_eqb (fst p) k) sr) end) ks)
             (fun parts => Ok (concat parts)) = Ok (map (fun k => (k, g k)) ks)).
    { induction ks as [|k ks IH]; intro Hks; [easy|]. cbn [mapM].
      specialize (IH ltac:(intros; apply Hks; now right)).
      assert (Hk : In k (t_index pred)) by (apply Hks; now left).
      destruct (dget_key_Some (t_rows pred) k Hk) as (row & Erow). rewrite Erow.
      pose proof (nan_entity_row pred k row NDp (dget_In _ _ _ Erow)) as En.
      destruct (mapM _ ks) as [parts|]; [|discriminate]. cbn [rbind] in *.
      injection IH as IH.
      destruct (row_has_nan row) eqn:Hn; cbn [rbind concat map].
      - rewrite IH. cbn [app]. assert (Eg : g k = k) by (unfold g; now rewrite En). now rewrite Eg.
      - assert (HkF : In k F) by (apply HFin; now split).
        destruct (one_to_one_source F sr k NDF Osr HkF) as (s & Els & _).
        rewrite (filter_key_single sr k s) by (solve [assumption | apply listed_source_In; assumption]). rewrite IH.
        cbn [app]. assert (Eg : g k = s) by (unfold g; now rewrite En, Els). now rewrite Eg. }
    assert (Asg : assign_nan lsa orig pred = Ok r).
    { unfold assign_nan. fold sub_pred. rewrite IF, Er. cbn [rbind]. fold sub_orig. rewrite Es. cbn [rbind].
      rewrite Edd. cbn [rbind]. apply Parts. intros k Hk. now apply (Permutation_in _ (Permutation_sym PI)). }
    assert (Kr : map fst r = t_index orig) by (unfold r; rewrite map_map; cbn; apply map_id).
    assert (NDr : NoDup (map fst r)) by now rewrite Kr.
    assert (RF : Permutation (restrict r F) sr).
    { apply NoDup_Permutation.
      - apply NoDup_filter. now apply (NoDup_map_inv fst).
      - now apply (NoDup_map_inv fst).
      - intros [k s]. unfold restrict. rewrite filter_In. cbn. rewrite lab_mem_In. split.
        + intros [Hin HkF]. unfold r in Hin. apply in_map_iff in Hin. destruct Hin as (k' & [= -> <-] & Hk).
          unfold g. rewrite (proj2 (proj1 (HFin k) HkF)).
          destruct (one_to_one_source F sr k NDF Osr HkF) as (s & Els & _). rewrite Els. now apply listed_source_In.
        + intro Hin. assert (HkF : In k F) by (apply (Permutation_in _ (proj1 Osr)); now apply (in_map fst) in Hin).
          split; [|easy]. unfold r. apply in_map_iff. exists k. split.
          * f_equal. unfold g. rewrite (proj2 (proj1 (HFin k) HkF)).
            rewrite listed_source_NoDup by easy. now rewrite (dget_NoDup sr k s).
          * apply (Permutation_in _ PI). now apply HFin. }
    assert (Src : forall p, In p r -> In (fst p) (t_index orig) /\ In (snd p) (t_index orig)).
    { intros p Hp. unfold r in Hp. apply in_map_iff in Hp. destruct Hp as (k & <- & Hk). cbn. split; [easy|].
      unfold g. destruct (nan_entity pred k); [easy|]. destruct (listed_source sr k) as [s|] eqn:Els; [|easy].
      apply listed_source_In in Els. apply (in_map snd) in Els. cbn in Els. apply (Permutation_in _ (proj2 Osr)) in Els.
      apply (Permutation_in _ PI). now apply HFin. }
    destruct (remap_all_ok orig r W Src) as (out & Eo & _ & Co & Io & Lout).
    exists r, out. split.
    - unfold assign_positions. rewrite Ex, Asg. cbn [rbind]. rewrite Eo. reflexivity.
    - split; [exact Kr|]. split.
      { intros k Hn. unfold r. apply in_map_iff. exists k. split; [f_equal; unfold g; now rewrite Hn|].
        apply (Permutation_in _ PI). unfold nan_entity in Hn. destruct (dget (t_rows pred) k) eqn:E; [|discriminate].
        now apply dget_Some_key in E. }
      assert (OF : one_to_one F (restrict r F)).
      { split; (eapply perm_trans; [apply Permutation_map, RF|apply Osr]). }
      split; [exact OF|]. split.
      + intros r' O'.
        assert (TE : forall q, one_to_one F q -> total_dist orig pred q = total_dist sub_orig (relabel F sub_pred) q).
        { intros q [Q1 Q2]. rewrite <- IF at 1. rewrite relabel_self. apply total_dist_ext. intros p Hp.
          split; [symmetry; apply PosP; apply (Permutation_in _ Q1); now apply in_map|symmetry; apply PosO; apply (Permutation_in _ Q2); now apply in_map]. }
        rewrite (TE _ OF), (TE _ O').
        assert (TP : total_dist sub_orig (relabel F sub_pred) (restrict r F) = total_dist sub_orig (relabel F sub_pred) sr).
        { unfold total_dist. now apply Rsum_map_perm. }
        rewrite TP. now apply Opt.
      + split; [easy|]. split; [easy|]. intros p c Hp. rewrite Lout, listed_source_NoDup by easy.
        rewrite (dget_NoDup r (fst p) (snd p)); auto. now destruct p.
  Qed.
End AssignFacts.
