(** Windowed daily quantiles (stats.calc_quantile). *)
From Coq Require Import Permutation Sorted String.
From Verif Require Import Prelude PreludeFacts RealBase Fl RealStat M_spatial M_stats Spec_stats P_stats P_resample P_quantile.
Local Open Scope R_scope.

Lemma filter_filter {A} (f g : A -> bool) l : filter f (filter g l) = filter (fun x => g x && f x)%bool l.
Proof. induction l as [|x l IH]; [easy|]. cbn. destruct (g x); cbn; [destruct (f x)|]; cbn; now rewrite IH. Qed.

Lemma past_window rows n D t : increasing rows ->
  present (map snd (filter (fun r => (snd (fst r) =? t)%Z) (window rows (D - n) D))) = past_values rows n D t.
Proof.
  intros [_ Hp]. unfold past_values, window. rewrite filter_filter. do 2 f_equal. apply filter_ext_in.
  intros [[d u] v] I. specialize (Hp _ I). unfold stamp_leb. cbn [fst snd] in *.
  destruct (Z.eqb_spec u t) as [->|]; [|now rewrite Bool.andb_false_r]. rewrite Bool.andb_true_r. cbn [andb]. f_equal.
  - rewrite (proj2 (Z.leb_le 0 t) Hp), Bool.andb_true_r. destruct (Z.ltb_spec (D - n) d), (Z.eqb_spec (D - n) d), (Z.leb_spec (D - n) d); cbn; lia || reflexivity.
  - destruct (Z.ltb_spec d D); [easy|]. cbn [orb]. destruct (Z.eqb_spec d D); [|easy]. cbn [andb].
    destruct (Z.leb_spec t 0), (Z.eqb_spec t 0); lia || reflexivity.
Qed.

Lemma last_row (rows : list qrow) (r : qrow) : rows <> [] -> exists l, rev rows = l :: tl (rev rows) /\ In l rows.
Proof.
  intro N. destruct (rev rows) as [|l t] eqn:E.
  - apply (f_equal (@rev _)) in E. rewrite rev_involutive in E. easy.
  - exists l. split; [reflexivity|]. apply in_rev. rewrite E. now left.
Qed.
Lemma last_day rows l t r : increasing rows -> rev rows = l :: t -> In r rows -> (day_of r <= day_of l)%Z.
Proof.
  intros H E I. apply (sorted_last Z.le (map day_of rows)); [apply Z.le_refl|now apply increasing_days|now apply in_map|].
  rewrite <- map_rev, E. reflexivity.
Qed.

Definition found (out : list qrow) (st : Z * Z) : option R := match find_row out st with Some v => v | None => None end.

Lemma found_value rows n q end_day D t : increasing rows -> 0 <= q <= 1 ->
  (forall r, In r rows -> (day_of r <= end_day)%Z) -> (D <= end_day)%Z ->
  let out := flat_map (fun d => if (d + n <=? end_day)%Z then wq q (d + n) (window rows d (d + n)) else []) (uniq (map day_of rows)) in
  match found out (D, t) with
  | Some x => data_day rows (D - n) /\ is_quantile q (past_values rows n D t) x
  | None => ~ data_day rows (D - n) \/ past_values rows n D t = []
  end.
Proof.
  intros Inc Hq He HD out. pose proof (increasing_NoDup _ Inc) as N.
  assert (Fr : forall st v, In (st, v) out -> st = (D, t) ->
    data_day rows (D - n) /\ In (st, v) (wq q D (window rows (D - n) D))).
  { intros st v I ->. unfold out in I. apply in_flat_map in I. destruct I as (d & Id & I).
    destruct (Z.leb_spec (d + n) end_day); [|easy].
    assert (E : (d + n = D)%Z).
    { apply wq_In in I; [|now apply NoDup_filter_map|easy]. destruct I as [E _]. now cbn in E. }
    assert (d = D - n)%Z by lia. subst d. replace (D - n + n)%Z with D in I by lia. split; [|easy].
    apply uniq_In, in_map_iff in Id. destruct Id as (r & E' & Ir). now exists r. }
  unfold found. destruct (find_row out (D, t)) as [v|] eqn:E.
  - apply find_row_In in E. destruct (Fr _ _ E eq_refl) as [Dd Iw]. apply wq_In in Iw; [|now apply NoDup_filter_map|easy].
    destruct Iw as (_ & _ & V). cbn [snd] in V. rewrite past_window in V by easy.
    destruct v as [x|]; [now split|now right].
  - destruct (past_values rows n D t) as [|x l] eqn:Ep; [now right|]. left. intros (r0 & Ir0 & Er0).
    rewrite <- past_window in Ep by easy.
    assert (Ix : exists r, In r (window rows (D - n) D) /\ snd (fst r) = t).
    { assert (I : In x (present (map snd (filter (fun r => (snd (fst r) =? t)%Z) (window rows (D - n) D))))) by (rewrite Ep; now left).
      apply present_In, in_map_iff in I. destruct I as (r & _ & I). apply filter_In in I. exists r. split; [easy|]. now apply Z.eqb_eq. }
    destruct Ix as (r & Ir & Et). destruct (wq_total q D _ r Ir) as (v & Iv). rewrite Et in Iv.
    apply find_row_None in E. apply E. apply in_map_iff. exists ((D, t), v). split; [easy|]. unfold out. apply in_flat_map.
    exists (D - n)%Z. split; [apply uniq_In, in_map_iff; now exists r0|]. replace (D - n + n)%Z with D by lia.
    now rewrite (proj2 (Z.leb_le _ _)).
Qed.


Lemma calc_frame rows nm n q : rows <> [] ->
  calc_quantile rows nm n q =
  match nm with
  | FrameCols ([] | _ :: _ :: _) => Err ValueError
  | _ =>
    let! out := quantile_loop rows n q (day_of (hd ((0, 0)%Z, None) (rev rows))) (uniq (map day_of rows)) [] in
    let! name := quant_name nm in
    Ok (name, map (fun r => (fst r, found out (fst r))) rows)
  end.
Proof.
  intro N. unfold calc_quantile. destruct (last_row rows ((0, 0)%Z, None) N) as (l & E & _). rewrite E. cbn [hd].
  destruct nm as [s|[|c [|c' cs]]]; reflexivity.
Qed.

(*@ C39 The result: one row per input timestamp in order; each value is the quantile over the window of past days, missing when
    day D - n has no data or the window holds no value at that time. *)
Lemma quantile_value : forall rows nm n q name out, increasing rows -> rows <> [] -> 0 <= q <= 1 ->
  calc_quantile rows nm n q = Ok (name, out) ->
  map fst out = map fst rows /\
  forall D t v, In ((D, t), v) out ->
    match v with
    | Some x => data_day rows (D - n) /\ is_quantile q (past_values rows n D t) x
    | None => ~ data_day rows (D - n) \/ past_values rows n D t = []
    end.
Proof.
  intros rows nm n q name out Inc Ne Hq E. rewrite calc_frame in E by easy.
  destruct (last_row rows ((0, 0)%Z, None) Ne) as (l & El & Il). rewrite El in E. cbn [hd] in E.
  assert (Lp : quantile_loop rows n q (day_of l) (uniq (map day_of rows)) [] =
    Ok (flat_map (fun d => if (d + n <=? day_of l)%Z then wq q (d + n) (window rows d (d + n)) else []) (uniq (map day_of rows)))).
  { rewrite loop_ok; [reflexivity|easy|now apply increasing_NoDup|]. apply uniq_from_sorted. now apply increasing_days. }
  rewrite Lp in E. cbn [rbind] in E.
  assert (Eo : out = map (fun r => (fst r, found (flat_map (fun d => if (d + n <=? day_of l)%Z then wq q (d + n) (window rows d (d + n)) else []) (uniq (map day_of rows))) (fst r))) rows).
  { destruct nm as [s|[|c [|c' cs]]]; try discriminate; destruct (quant_name _); try discriminate; cbn [rbind] in E; congruence. }
  rewrite Eo. split; [rewrite map_map; reflexivity|]. intros D t v I. apply in_map_iff in I. destruct I as (r & Er & Ir).
  injection Er as E1 E2. rewrite E1 in E2. subst v. apply found_value; auto.
  - intros r' Ir'. now apply (last_day rows l (tl (rev rows))).
  - assert (D = day_of r) as -> by (unfold day_of; now rewrite E1). now apply (last_day rows l (tl (rev rows))).
Qed.

(*@ C39 It succeeds on every non-empty strictly increasing index for levels in [0, 1]; column naming. *)
Lemma quantile_total : forall rows n q s l, increasing rows -> rows <> [] -> 0 <= q <= 1 ->
  (exists out, calc_quantile rows (SeriesName (Some s)) n q = Ok ((s ++ "_quant")%string, out)) /\
  (exists out, calc_quantile rows (SeriesName None) n q = Ok ("quantile"%string, out)) /\
  (exists out, calc_quantile rows (FrameCols [Some s]) n q = Ok ((s ++ "_quant")%string, out)) /\
  calc_quantile rows (FrameCols [None]) n q = Err TypeError /\
  (length l <> 1%nat -> calc_quantile rows (FrameCols l) n q = Err ValueError) /\
  forall nm, calc_quantile [] nm n q = Err IndexError.
Proof.
  intros rows n q s l Inc Ne Hq. rewrite !calc_frame by easy. destruct (last_row rows ((0, 0)%Z, None) Ne) as (la & El & Il).
  rewrite loop_ok; [|easy|now apply increasing_NoDup|apply uniq_from_sorted; now apply increasing_days].
  cbn [rbind quant_name]. split; [eauto|]. split; [eauto|]. split; [eauto|]. split; [easy|]. split; [|reflexivity].
  intro L. destruct l as [|a [|b l]]; try reflexivity. now cbn in L.
Qed.

Lemma data_day_In rows d : data_day rows d <-> In d (uniq (map day_of rows)).
Proof. rewrite uniq_In, in_map_iff. split; intros (r & A & B); exists r; tauto. Qed.

(*@ C39 If no window fits in the data everything is missing, whatever the level; if one does, a level outside [0, 1] is refused. *)
Lemma quantile_levels : forall rows nm n q s, increasing rows -> rows <> [] -> one_column nm s ->
  (~ window_fits rows n -> calc_quantile rows nm n q = Ok ((s ++ "_quant")%string, map (fun r => (fst r, None)) rows)) /\
  (window_fits rows n -> ~ 0 <= q <= 1 -> calc_quantile rows nm n q = Err ValueError).
Proof.
  intros rows nm n q s Inc Ne Hn. rewrite calc_frame by easy. destruct (last_row rows ((0, 0)%Z, None) Ne) as (l & El & Il).
  rewrite El. cbn [hd].
  assert (Nm : forall X : result (list qrow), match nm with FrameCols ([] | _ :: _ :: _) => Err ValueError
     | _ => let! out := X in let! name := quant_name nm in Ok (name, map (fun r => (fst r, found out (fst r))) rows) end =
     (let! out := X in Ok ((s ++ "_quant")%string, map (fun r => (fst r, found out (fst r))) rows))).
  { intro X. destruct Hn as [->| ->]; reflexivity. }
  rewrite Nm. clear Nm Hn.
  pose proof (uniq_from_sorted [] _ (increasing_days rows Inc)) as Sd. change (uniq_from [] (map (fun r => fst (fst r)) rows)) with (uniq (map day_of rows)) in Sd.
  assert (Dl : data_day rows (day_of l)) by (now exists l).
  destruct (uniq (map day_of rows)) as [|d0 days] eqn:Eu.
  { exfalso. apply data_day_In in Dl. now rewrite Eu in Dl. }
  assert (D0 : data_day rows d0) by (apply data_day_In; rewrite Eu; now left).
  apply StronglySorted_inv in Sd. destruct Sd as [_ F]. rewrite Forall_forall in F.
  assert (Mn : forall d, data_day rows d -> (d0 <= d)%Z).
  { intros d Hd. apply data_day_In in Hd. rewrite Eu in Hd. destruct Hd as [->|Hd]; [lia|auto]. }
  assert (Mx : forall d, data_day rows d -> (d <= day_of l)%Z).
  { intros d (r & Ir & <-). now apply (last_day rows l (tl (rev rows))). }
  cbn [quantile_loop]. split.
  - intro NF. rewrite (proj2 (Z.ltb_lt _ _)).
    + cbn [rbind]. reflexivity.
    + destruct (Z.lt_ge_cases (day_of l) (d0 + n)); [easy|]. exfalso. apply NF. exists d0, (day_of l). repeat split; auto.
  - intros (d & la & Hd & Hla & Le) NQ. rewrite (proj2 (Z.ltb_ge _ _)).
    + unfold window_quantile, pivot. rewrite (proj2 (has_dup_false _)) by (apply NoDup_filter_map; now apply increasing_NoDup). cbn [rbind].
      destruct (Rltb_spec q 0); [reflexivity|]. destruct (Rltb_spec 1 q); [reflexivity|]. lra.
    + apply Mn in Hd. apply Mx in Hla. lia.
Qed.

Lemma wq_err q e w x : window_quantile q e w = Err x -> x = ValueError.
Proof.
  unfold window_quantile, pivot. destruct (has_dup (map fst w)); cbn [rbind]; [congruence|].
  destruct (Rltb q 0 || Rltb 1 q)%bool; congruence.
Qed.

(*@ C39 A repeated timestamp inside some window is refused. *)
Lemma quantile_duplicates : forall rows nm n q s i j D t v v', one_column nm s ->
  (forall i j a b, (i < j)%nat -> nth_error rows i = Some a -> nth_error rows j = Some b -> (day_of a <= day_of b)%Z) ->
  (i < j)%nat -> nth_error rows i = Some ((D, t), v) -> nth_error rows j = Some ((D, t), v') -> (0 <= t)%Z -> (1 <= n)%Z ->
  (exists d, data_day rows d /\ D + n <= d)%Z ->
  calc_quantile rows nm n q = Err ValueError.
Proof.
  intros rows nm n q s i j D t v v' Hn So Lij Ei Ej Ht H1 (d & Hd & Le).
  assert (Ne : rows <> []) by (intros ->; destruct i; discriminate).
  rewrite calc_frame by easy. destruct (last_row rows ((0, 0)%Z, None) Ne) as (l & El & Il). rewrite El. cbn [hd].
  assert (Ss : StronglySorted Z.le (map day_of rows)).
  { apply (sorted_map (fun a b => (day_of a <= day_of b)%Z)); [auto|]. now apply nth_error_sorted. }
  assert (Mx : (D + n <= day_of l)%Z).
  { destruct Hd as (r & Ir & Er). assert (day_of r <= day_of l)%Z; [|unfold day_of in *; lia].
    apply (sorted_last Z.le (map day_of rows)); [apply Z.le_refl|easy|now apply in_map|]. rewrite <- map_rev, El. reflexivity. }
  assert (ID : In D (uniq (map day_of rows))).
  { apply uniq_In, in_map_iff. exists ((D, t), v). split; [easy|]. eapply nth_error_In; eauto. }
  assert (Hdup : has_dup (map fst (window rows D (D + n))) = true).
  { destruct (has_dup _) eqn:E; [easy|]. exfalso. apply has_dup_false in E.
    destruct (nth_error_split _ _ Ei) as (A & B & Er & La). subst rows. unfold window in E. rewrite filter_app in E. cbn [filter] in E.
    assert (W : (stamp_leb (D, 0%Z) (fst ((D, t), v)) && stamp_leb (fst ((D, t), v)) ((D + n)%Z, 0%Z))%bool = true).
    { unfold stamp_leb. cbn [fst snd]. rewrite Z.eqb_refl, (proj2 (Z.leb_le 0 t) Ht), (proj2 (Z.ltb_lt D (D + n))) by lia. now rewrite Bool.orb_true_r. }
    rewrite W in E. rewrite map_app in E. cbn [map fst] in E. apply NoDup_remove_2 in E. apply E. apply in_or_app. right.
    apply in_map_iff. exists ((D, t), v'). split; [easy|]. apply filter_In. split; [|exact W].
    rewrite nth_error_app2 in Ej by lia. replace (j - length A)%nat with (S (j - length A - 1)) in Ej by lia. cbn in Ej. eapply nth_error_In; eauto. }
  assert (Lp : forall days out, StronglySorted Z.le days -> In D days -> quantile_loop rows n q (day_of l) days out = Err ValueError).
  { induction days as [|x days IH]; intros out S I; [easy|]. cbn [quantile_loop]. apply StronglySorted_inv in S. destruct S as [S F]. rewrite Forall_forall in F.
    assert (Lx : (x <= D)%Z) by (destruct I as [->|I]; [lia|auto]). rewrite (proj2 (Z.ltb_ge _ _)) by lia.
    destruct (window_quantile q (x + n) (window rows x (x + n))) as [p|e] eqn:E.
    - cbn [rbind]. destruct I as [->|I]; [|now apply IH]. unfold window_quantile, pivot in E. now rewrite Hdup in E.
    - cbn [rbind]. f_equal. now apply wq_err in E. }
  rewrite Lp by (easy || now apply uniq_from_sorted). destruct Hn as [->| ->]; reflexivity.
Qed.

(*@ C39 Causality: the value at (D, t) is fixed by the rows from day D - n to midnight of day D. *)
Lemma quantile_causal : forall rows rows' nm nm' n q name name' out out' D t v v', increasing rows -> increasing rows' ->
  0 <= q <= 1 -> (1 <= n)%Z ->
  (forall d u x, (D - n <= d)%Z -> (d < D \/ (d = D /\ u = 0))%Z -> (In ((d, u), x) rows <-> In ((d, u), x) rows')) ->
  calc_quantile rows nm n q = Ok (name, out) -> calc_quantile rows' nm' n q = Ok (name', out') ->
  In ((D, t), v) out -> In ((D, t), v') out' -> v = v'.
Proof.
  intros rows rows' nm nm' n q name name' out out' D t v v' I1 I2 Hq Hn Ag E1 E2 V1 V2.
  assert (N1 : rows <> []) by (intros ->; cbn in E1; discriminate).
  assert (N2 : rows' <> []) by (intros ->; cbn in E2; discriminate).
  destruct (quantile_value _ _ _ _ _ _ I1 N1 Hq E1) as [_ Q1]. destruct (quantile_value _ _ _ _ _ _ I2 N2 Hq E2) as [_ Q2].
  specialize (Q1 _ _ _ V1). specialize (Q2 _ _ _ V2).
  assert (Dd : data_day rows (D - n) <-> data_day rows' (D - n)).
  { split; intros ([[d u] x] & I & E); cbn in E; subst d; exists ((D - n, u)%Z, x); (split; [|reflexivity]).
    - apply Ag; [lia|lia|easy].
    - apply Ag; [lia|lia|easy]. }
  assert (P : Permutation (past_values rows n D t) (past_values rows' n D t)).
  { unfold past_values. unfold present. apply Permutation_flat_map, Permutation_map.
    assert (NDr : forall r, increasing r -> NoDup r).
    { intros r H. apply (NoDup_map_inv fst). now apply increasing_NoDup. }
    apply NoDup_Permutation; [apply NoDup_filter; auto|apply NoDup_filter; auto|].
    intros [[d u] x]. rewrite !filter_In. cbn [fst snd].
    assert (Q : forall b, b = true -> True) by trivial.
    destruct ((u =? t) && (D - n <=? d) && ((d <? D) || (d =? D) && (t =? 0)))%bool%Z eqn:B; [|split; intros [_ F]; discriminate].
    assert (In ((d, u), x) rows <-> In ((d, u), x) rows'); [|tauto]. apply Ag; lia. }
  assert (Pn : past_values rows n D t = [] <-> past_values rows' n D t = []).
  { split; intro E; rewrite E in P; [now apply Permutation_nil|now apply Permutation_nil, Permutation_sym]. }
  destruct v as [x|], v' as [x'|]; [| | |reflexivity].
  - f_equal. destruct Q1 as [_ Q1], Q2 as [_ Q2]. eapply is_quantile_unique; [eapply is_quantile_perm; [exact P|exact Q1]|exact Q2].
  - exfalso. destruct Q1 as [Dq (Ne & _)]. tauto.
  - exfalso. destruct Q2 as [Dq (Ne & _)]. tauto.
Qed.

(*@ex C39 *)
Lemma quantile_example : let rows := [((0, 5)%Z, Some 1); ((1, 5)%Z, Some 3); ((2, 5)%Z, None)] in
  increasing rows /\ past_values rows 2 2 5 = [1; 3] /\ is_quantile (1/2) [1; 3] 2 /\ window_fits rows 2.
Proof.
  cbv zeta. split; [split|split; [|split]].
  - intros [|[|[|i]]] [|[|[|j]]] a b L A B; try lia; cbn in A, B; try (destruct i; discriminate); try (destruct j; discriminate);
      injection A as <-; injection B as <-; unfold later; cbn; lia.
  - intros r [<-|[<-|[<-|[]]]]; cbn; lia.
  - reflexivity.
  - split; [easy|]. exists [1; 3], 0%nat, (1/2). split; [reflexivity|]. split; [|cbn; lra].
    intros [|[|i]] [|[|j]] H; cbn in *; try lra; lia.
  - exists 0%Z, 2%Z. split; [exists ((0, 5)%Z, Some 1); cbn; tauto|]. split; [exists ((2, 5)%Z, None); cbn; tauto|lia].
Qed.

