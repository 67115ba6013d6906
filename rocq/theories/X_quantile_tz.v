(** Daily quantiles on an index with a time zone. *)
From Coq Require Import Permutation Sorted String.
From Verif Require Import Prelude PreludeFacts RealBase Fl RealStat M_spatial M_stats Spec_stats P_stats P_resample P_quantile X_stats_quantile M_quantile_tz Spec_quantile_tz.
Local Open Scope R_scope.

(** ** The clock of a zone with one switch *)
Section Switch.
  Local Open Scope Z_scope.
  Lemma one_day_pos : 0 < one_day.
  Proof. reflexivity. Qed.
  Opaque one_day.
  Lemma split_unique x d t : 0 <= t < one_day -> (x / one_day, x mod one_day) = (d, t) <-> x = d * one_day + t.
  Proof.
    intro H. pose proof one_day_pos. split.
    - intro E. injection E as <- <-. rewrite (Z_div_mod_eq_full x one_day) at 1. lia.
    - intros ->. f_equal; [symmetry; apply (Z.div_unique_pos _ _ d t); lia|symmetry; apply (Z.mod_unique_pos _ _ d t); lia].
  Qed.
  Lemma div_lt_mult x d : x < d * one_day -> x / one_day < d.
  Proof. intro H. apply Z.div_lt_upper_bound; [apply one_day_pos|lia]. Qed.
  Lemma div_mono x y : x <= y -> x / one_day <= y / one_day.
  Proof. intro. apply Z.div_le_mono; [apply one_day_pos|assumption]. Qed.

  Lemma switching_clock_Z : forall a b T, (b < a -> (T + b) / one_day = (T + a - 1) / one_day) ->
    clock (switching a b T) /\ locates (switching a b T) (find_reading a b T) /\
    (a = b -> forall d t, 0 <= t < one_day -> exists i, find_reading a b T (d, t) = Some i).
  Proof.
    intros a b T C. pose proof one_day_pos as Pd.
    assert (Eq : forall i d t, 0 <= t < one_day -> switching a b T i = (d, t) <-> i + (if i <? T then a else b) = d * one_day + t) by (intros i d t H; unfold switching; now apply split_unique).
    assert (Lo : locates (switching a b T) (find_reading a b T)).
    { intros [d t] i. unfold find_reading. cbn [fst snd]. destruct (Z.leb_spec 0 t) as [H0|H0]; [destruct (Z.ltb_spec t one_day) as [H1|H1]|]; cbn [andb].
      - set (x := d * one_day + t). assert (E : forall j, switching a b T j = (d, t) <-> (j = x - a /\ j < T) \/ (j = x - b /\ T <= j)).
        { intro j. rewrite (Eq j d t (conj H0 H1)). fold x. destruct (Z.ltb_spec j T); lia. }
        destruct (Z.ltb_spec (x - a) T) as [A|A], (Z.leb_spec T (x - b)) as [B|B].
        + split; [discriminate|]. intro K. pose proof (proj1 (K (x - a)) (proj2 (E (x - a)) ltac:(lia))). pose proof (proj1 (K (x - b)) (proj2 (E (x - b)) ltac:(lia))). lia.
        + split; [intro S; injection S as <-; intro j; rewrite E; lia|]. intro K. pose proof (proj1 (K (x - a)) (proj2 (E (x - a)) ltac:(lia))). now subst.
        + split; [intro S; injection S as <-; intro j; rewrite E; lia|]. intro K. pose proof (proj1 (K (x - b)) (proj2 (E (x - b)) ltac:(lia))). now subst.
        + split; [discriminate|]. intro K. pose proof (proj1 (E _) (proj2 (K i) eq_refl)). lia.
      - split; [discriminate|]. intro K. pose proof (proj2 (K i) eq_refl) as S. unfold switching in S. injection S as _ S. pose proof (Z.mod_pos_bound (i + (if i <? T then a else b)) one_day Pd). lia.
      - split; [discriminate|]. intro K. pose proof (proj2 (K i) eq_refl) as S. unfold switching in S. injection S as _ S. pose proof (Z.mod_pos_bound (i + (if i <? T then a else b)) one_day Pd). lia. }
    split; [split; [|split]|split; [exact Lo|]].
    - intro i. unfold switching. cbn [snd]. apply Z.mod_pos_bound. exact Pd.
    - intros i j L. unfold switching. cbn [fst]. destruct (Z.ltb_spec i T), (Z.ltb_spec j T); try lia; try (apply div_mono; lia).
      destruct (Z.lt_ge_cases b a) as [D|D]; [|apply div_mono; lia]. specialize (C D).
      apply Z.le_trans with ((T + a - 1) / one_day); [apply div_mono; lia|]. rewrite <- C. apply div_mono. lia.
    - intros d m U i L. pose proof (proj2 (U m) eq_refl) as Em. rewrite (Eq m d 0) in Em by lia. unfold switching. cbn [fst].
      destruct (Z.ltb_spec i T), (Z.ltb_spec m T); try lia; try (apply div_lt_mult; lia).
      destruct (Z.lt_ge_cases b a) as [D|D]; [|apply div_lt_mult; lia]. specialize (C D).
      assert (Q : (i + a) / one_day <= (T + b) / one_day) by (rewrite C; apply div_mono; lia).
      destruct (Z.lt_ge_cases ((T + b) / one_day) d) as [K|K]; [lia|]. exfalso.
      assert (d * one_day <= T + b). { pose proof (Z.mul_div_le (T + b) one_day Pd). nia. }
      assert (m = T) by lia. subst m. assert (X : switching a b T (T + b - a) = (d, 0)) by (apply (Eq _ d 0); [lia|]; destruct (Z.ltb_spec (T + b - a) T); lia).
      apply U in X. lia.
    - intros <- d t H. unfold find_reading. cbn [fst snd]. rewrite (proj2 (Z.leb_le 0 t)), (proj2 (Z.ltb_lt t one_day)) by lia. cbn [andb].
      destruct (Z.ltb_spec (d * one_day + t - a) T), (Z.leb_spec T (d * one_day + t - a)); try lia; eauto.
  Qed.
End Switch.
(*@ C125 Zones as they occur: clocks put forward at any time, or put back within one day, obey the two rules that the other theorems ask for;
    with no switch at all every reading occurs exactly once. *)
Lemma switching_clock : forall a b T : Z, ((b < a)%Z -> ((T + b) / one_day = (T + a - 1) / one_day)%Z) ->
  clock (switching a b T) /\ locates (switching a b T) (find_reading a b T) /\
  (a = b -> forall d t : Z, (0 <= t < one_day)%Z -> exists i, find_reading a b T (d, t) = Some i).
Proof.
  exact switching_clock_Z.
Qed.

(** ** Windows *)
Section Zone.
  Variables (local : Z -> Z * Z) (locate : Z * Z -> option Z).
  Hypothesis (Lo : locates local locate) (Ck : clock local).

  Lemma window_same strict rows d0 d1 w : window_tz strict local locate rows d0 d1 = Ok w -> w = window (clock_rows local rows) d0 d1.
  Proof using Lo Ck.
    destruct Ck as (Nn & Mo & Mi). unfold window_tz, bound. destruct strict; [discriminate|].
    destruct (locate (d0, 0%Z)) as [a|] eqn:A; [|discriminate]. destruct (locate (d1, 0%Z)) as [b|] eqn:B; [|discriminate]. cbn [rbind]. intro E. injection E as <-.
    pose proof (proj1 (Lo _ _) A) as Ua. pose proof (proj1 (Lo _ _) B) as Ub. pose proof (proj2 (Ua a) eq_refl) as La. pose proof (proj2 (Ub b) eq_refl) as Lb.
    unfold window, clock_rows. induction rows as [|[i v] rows IH]; [reflexivity|]. cbn [filter map fst snd].
    assert (Q : ((a <=? i) && (i <=? b))%Z = (stamp_leb (d0, 0%Z) (local i) && stamp_leb (local i) (d1, 0%Z))%bool).
    { pose proof (Nn i) as Ni. f_equal.
      - unfold stamp_leb. cbn [fst snd]. destruct (Z.leb_spec a i) as [H|H].
        + pose proof (Mo a i H) as K. rewrite La in K. cbn [fst] in K. destruct (Z.ltb_spec d0 (fst (local i))); [reflexivity|]. destruct (Z.eqb_spec d0 (fst (local i))); [|lia].
          symmetry. apply Z.leb_le. exact Ni.
        + pose proof (Mi d0 a Ua i H) as K. destruct (Z.ltb_spec d0 (fst (local i))); [lia|]. destruct (Z.eqb_spec d0 (fst (local i))); [lia|reflexivity].
      - unfold stamp_leb. cbn [fst snd]. destruct (Z.leb_spec i b) as [H|H].
        + destruct (Z.eq_dec i b) as [->|D].
          * rewrite Lb. cbn [fst snd]. rewrite Z.eqb_refl, Z.leb_refl. now rewrite Bool.orb_true_r.
          * pose proof (Mi d1 b Ub i ltac:(lia)) as K. rewrite (proj2 (Z.ltb_lt _ _) K). reflexivity.
        + pose proof (Mo b i ltac:(lia)) as K. rewrite Lb in K. cbn [fst] in K. rewrite (proj2 (Z.ltb_ge _ _) K). cbn [orb].
          destruct (Z.eqb_spec (fst (local i)) d1) as [E|E]; [|reflexivity]. cbn [andb]. destruct (Z.leb_spec (snd (local i)) 0) as [S0|S0]; [|reflexivity].
          exfalso. assert (i = b) by (apply Ub; rewrite (surjective_pairing (local i)), E; f_equal; lia). lia. }
    rewrite Q. destruct (stamp_leb (d0, 0%Z) (local i) && stamp_leb (local i) (d1, 0%Z))%bool; cbn [map fst snd]; now rewrite IH.
  Qed.

  Lemma loop_same strict rows n q e : forall days out o, loop_tz strict local locate false rows n q e days out = Ok o ->
    quantile_loop (clock_rows local rows) n q e days out = Ok o.
  Proof using Lo Ck.
    induction days as [|d days IH]; intros out o E; [exact E|]. cbn [loop_tz quantile_loop] in *. destruct (e <? d + n)%Z; [exact E|].
    destruct (window_tz strict local locate rows d (d + n)) as [w|x] eqn:W; [|discriminate]. cbn [rbind] in E. apply window_same in W. rewrite <- W.
    destruct (window_quantile q (d + n) w) as [p|x]; [|discriminate]. cbn [rbind] in *. now apply IH.
  Qed.

  Lemma localize_found out loc i : localize locate out = Ok loc -> at_instant loc i = found out (local i).
  Proof using Lo.
    revert loc. induction out as [|[st v] out IH]; intros loc E; [injection E as <-; reflexivity|].
    unfold localize in E. cbn [mapM fst snd] in E. fold (localize locate out) in E. destruct (locate st) as [k|] eqn:K; [|discriminate]. cbn [rbind] in E.
    destruct (localize locate out) as [l|] eqn:El; [|discriminate]. cbn [rbind] in E. injection E as <-.
    pose proof (proj1 (Lo _ _) K) as U. unfold at_instant, found. rewrite find_row_cons. cbn [find fst snd].
    destruct (Z.eqb_spec k i) as [->|D].
    - rewrite (proj2 (U i) eq_refl). destruct (stamp_eqb_spec st st); [reflexivity|congruence].
    - destruct (stamp_eqb_spec st (local i)) as [S0|S0]; [exfalso; apply D; symmetry; apply U; now symmetry|]. now apply IH.
  Qed.
End Zone.

(*@ C125 Whenever a result comes back, it is the result of C39 for the clock readings, under the instants of the input. *)
Lemma quantile_tz_agrees : forall strict local locate rows nm n q name out, locates local locate -> clock local ->
  calc_quantile_tz strict local locate rows nm n q = Ok (name, out) ->
  map fst out = map fst rows /\
  calc_quantile (map (fun r => (local (fst r), snd r)) rows) nm n q = Ok (name, map (fun r => (local (fst r), snd r)) out).
Proof.
  intros strict local locate rows nm n q name out Lo Ck E. unfold calc_quantile_tz in E.
  destruct (rev rows) as [|l t] eqn:El; [discriminate|].
  assert (W : match nm with FrameCols ([] | _ :: _ :: _) => true | _ => false end = false).
  { destruct nm as [s|[|[c|] [|c' cs]]]; try reflexivity; exfalso;
    (destruct (loop_tz _ _ _ _ _ _ _ _ _ _) as [o|]; [|discriminate E]); cbn [rbind] in E; (destruct (localize locate o); [|discriminate E]); discriminate E. }
  rewrite W in E. destruct (loop_tz strict local locate false rows n q _ _ []) as [o|] eqn:L; [|discriminate]. cbn [rbind] in E.
  destruct (localize locate o) as [loc|] eqn:Lc; [|discriminate]. cbn [rbind] in E. destruct (quant_name nm) as [nn|] eqn:Nm; [|discriminate]. cbn [rbind] in E. injection E as -> <-.
  split; [rewrite map_map; reflexivity|].
  assert (Ne : map (fun r : Z * option R => (local (fst r), snd r)) rows <> []) by (destruct rows; [discriminate El|discriminate]).
  rewrite calc_frame by exact Ne. rewrite <- map_rev, El. cbn [map hd]. change (day_of (local (fst l), snd l)) with (fst (local (fst l))).
  apply (loop_same local locate Lo Ck) in L. unfold clock_rows in L.
  replace (map day_of (map (fun r : Z * option R => (local (fst r), snd r)) rows)) with (map (fun r : Z * option R => fst (local (fst r))) rows) by (rewrite map_map; reflexivity).
  rewrite L. cbn [rbind]. rewrite Nm. cbn [rbind].
  assert (Q : map (fun r => (fst r, found o (fst r))) (map (fun r : Z * option R => (local (fst r), snd r)) rows) = map (fun r => (local (fst r), snd r)) (map (fun r => (fst r, at_instant loc (fst r))) rows)).
  { rewrite !map_map. apply map_ext. intro r. cbn [fst snd]. f_equal. symmetry. now apply (localize_found local locate Lo). }
  rewrite Q. destruct nm as [s|[|[c|] [|c' cs]]]; try discriminate W; reflexivity.
Qed.

(** ** The stamps that the loop produces *)
Lemma wq_of_ok q e w p : window_quantile q e w = Ok p -> p = wq q e w.
Proof.
  unfold window_quantile, pivot. destruct (has_dup (map fst w)) eqn:H; [discriminate|]. cbn [rbind].
  destruct (Rltb q 0 || Rltb 1 q)%bool; [discriminate|]. intro E. injection E as <-. unfold wq. rewrite map_map. reflexivity.
Qed.
Lemma loop_incl rows n q e : forall days out o, quantile_loop rows n q e days out = Ok o -> incl out o.
Proof.
  induction days as [|d days IH]; intros out o E; cbn [quantile_loop] in E; [injection E as <-; apply incl_refl|].
  destruct (e <? d + n)%Z; [injection E as <-; apply incl_refl|]. destruct (window_quantile q (d + n) (window rows d (d + n))) as [p|]; [|discriminate]. cbn [rbind] in E.
  apply IH in E. intros x I. apply E, in_or_app. now left.
Qed.
Lemma loop_out rows n q e : forall days out o, quantile_loop rows n q e days out = Ok o -> forall st v, In (st, v) o ->
  In (st, v) out \/ exists d r, In d days /\ (d + n <= e)%Z /\ In r (window rows d (d + n)) /\ st = ((d + n)%Z, snd (fst r)).
Proof.
  induction days as [|d days IH]; intros out o E st v I; cbn [quantile_loop] in E; [injection E as <-; now left|].
  destruct (Z.ltb_spec e (d + n)) as [H|H]; [injection E as <-; now left|]. destruct (window_quantile q (d + n) (window rows d (d + n))) as [p|] eqn:W; [|discriminate]. cbn [rbind] in E.
  destruct (IH _ _ E st v I) as [J|(d' & r & A & B & C & D)].
  - apply in_app_or in J. destruct J as [J|J]; [now left|right]. apply wq_of_ok in W. subst p. unfold wq in J. apply in_map_iff in J. destruct J as (t & Et & It). injection Et as <- _.
    apply (Permutation_in _ (Permutation_sym (sort_by_perm _ _))) in It. apply uniq_In, in_map_iff in It. destruct It as (r & Er & Ir). exists d, r. repeat split; auto; [now left|]. now rewrite Er.
  - right. exists d', r. repeat split; auto. now right.
Qed.
Lemma loop_in rows n q e : forall days out o, StronglySorted Z.le days -> quantile_loop rows n q e days out = Ok o ->
  forall d r, In d days -> (d + n <= e)%Z -> In r (window rows d (d + n)) -> exists v, In (((d + n)%Z, snd (fst r)), v) o.
Proof.
  induction days as [|d0 days IH]; intros out o Sd E d r Id Le Ir; [destruct Id|]. cbn [quantile_loop] in E. apply StronglySorted_inv in Sd. destruct Sd as [Sd F]. rewrite Forall_forall in F.
  assert (L0 : (d0 <= d)%Z) by (destruct Id as [->|Id]; [lia|auto]). rewrite (proj2 (Z.ltb_ge e (d0 + n))) in E by lia.
  destruct (window_quantile q (d0 + n) (window rows d0 (d0 + n))) as [p|] eqn:W; [|discriminate]. cbn [rbind] in E.
  destruct Id as [->|Id]; [|eapply IH; eauto]. apply wq_of_ok in W. destruct (wq_total q (d + n)%Z _ r Ir) as (v & Iv). exists v. apply (loop_incl _ _ _ _ _ _ _ E). apply in_or_app. right. now rewrite W.
Qed.

(** ** Success *)
Lemma localize_total locate out : (forall st v, In (st, v) out -> locate st <> None) -> exists loc, localize locate out = Ok loc.
Proof.
  induction out as [|[st v] out IH]; intro H; [now exists []|]. unfold localize. cbn [mapM fst snd]. fold (localize locate out).
  destruct (locate st) as [i|] eqn:E; [|exfalso; apply (H st v); [now left|exact E]]. destruct IH as (loc & ->); [intros; apply (H st0 v0); now right|]. cbn [rbind]. eauto.
Qed.
Lemma localize_fails locate out st v : In (st, v) out -> locate st = None -> exists e, localize locate out = Err e.
Proof.
  induction out as [|[s w] out IH]; intros I N; [destruct I|]. unfold localize. cbn [mapM fst snd]. fold (localize locate out).
  destruct I as [I|I].
  - injection I as -> ->. rewrite N. cbn. eauto.
  - destruct (locate s); [|cbn; eauto]. cbn [rbind]. destruct (IH I N) as (e & ->). cbn. eauto.
Qed.
Lemma days_sorted local rows : clock local -> (forall i j a b, (i < j)%nat -> nth_error rows i = Some a -> nth_error rows j = Some b -> (fst a <= fst b)%Z) ->
  StronglySorted Z.le (map (fun r : Z * option R => fst (local (fst r))) rows).
Proof.
  intros (_ & Mo & _) Ss. apply (sorted_map (fun a b : Z * option R => (fst a <= fst b)%Z)); [intros x y H; now apply Mo|]. now apply nth_error_sorted.
Qed.
Lemma day_max local (rows : list (Z * option R)) l t d : StronglySorted Z.le (map (fun r : Z * option R => fst (local (fst r))) rows) -> rev rows = l :: t ->
  data_day (map (fun r => (local (fst r), snd r)) rows) d -> (d <= fst (local (fst l)))%Z.
Proof.
  intros Ss El (r & Ir & <-). apply in_map_iff in Ir. destruct Ir as (x & <- & Ix). cbn [fst].
  apply (sorted_last Z.le (map (fun r : Z * option R => fst (local (fst r))) rows)); [apply Z.le_refl|exact Ss|apply in_map_iff; now exists x|]. rewrite <- map_rev, El. reflexivity.
Qed.
Lemma day_uniq local (rows : list (Z * option R)) d : In d (uniq (map (fun r : Z * option R => fst (local (fst r))) rows)) <-> data_day (map (fun r => (local (fst r), snd r)) rows) d.
Proof.
  rewrite uniq_In, in_map_iff. split.
  - intros (r & <- & I). exists (local (fst r), snd r). split; [apply in_map_iff; now exists r|reflexivity].
  - intros (r & I & <-). apply in_map_iff in I. destruct I as (x & <- & I). now exists x.
Qed.

(*@ C125 With an earlier pandas: if the midnights of the windows and the readings to be given out occur exactly once, the call does what it does
    for the clock readings without a time zone, errors included. *)
Lemma quantile_tz_total : forall local locate rows nm n q, locates local locate -> clock local ->
  (forall i j a b, (i < j)%nat -> nth_error rows i = Some a -> nth_error rows j = Some b -> (fst a <= fst b)%Z) ->
  (forall d e, data_day (map (fun r => (local (fst r), snd r)) rows) d -> data_day (map (fun r => (local (fst r), snd r)) rows) e -> (d + n <= e)%Z ->
     locate (d, 0%Z) <> None /\ locate ((d + n)%Z, 0%Z) <> None /\
     forall r, In r rows -> (d <= fst (local (fst r)) <= d + n)%Z -> locate ((d + n)%Z, snd (local (fst r))) <> None) ->
  calc_quantile_tz false local locate rows nm n q =
  rmap (fun p => (fst p, combine (map fst rows) (map snd (snd p)))) (calc_quantile (map (fun r => (local (fst r), snd r)) rows) nm n q).
Proof.
  intros local locate rows nm n q Lo Ck Ss H. pose proof (days_sorted local rows Ck Ss) as Sd.
  set (crows := map (fun r => (local (fst r), snd r)) rows) in *.
  destruct (rev rows) as [|l t] eqn:El.
  { assert (rows = []) as -> by (rewrite <- (rev_involutive rows), El; reflexivity). reflexivity. }
  assert (Ne : crows <> []) by (unfold crows; destruct rows; [discriminate El|discriminate]).
  assert (Dl : data_day crows (fst (local (fst l)))).
  { apply day_uniq, uniq_In, in_map_iff. exists l. split; [reflexivity|]. apply in_rev. rewrite El. now left. }
  set (e := fst (local (fst l))) in *.
  assert (Win : forall d, data_day crows d -> (d + n <= e)%Z -> window_tz false local locate rows d (d + n) = Ok (window crows d (d + n))).
  { intros d Dd Le. destruct (H d e Dd Dl Le) as (A & B & _). destruct (window_tz false local locate rows d (d + n)) as [w|x] eqn:W.
    - f_equal. now apply (window_same local locate Lo Ck) in W.
    - exfalso. unfold window_tz, bound in W. destruct (locate (d, 0%Z)); [|congruence]. destruct (locate ((d + n)%Z, 0%Z)); [|congruence]. discriminate W. }
  assert (Lp : forall days out, (forall d, In d days -> data_day crows d) -> loop_tz false local locate false rows n q e days out = quantile_loop crows n q e days out).
  { induction days as [|d days IH]; intros out Dd; [reflexivity|]. cbn [loop_tz quantile_loop]. destruct (Z.ltb_spec e (d + n)) as [K|K]; [reflexivity|].
    rewrite (Win d (Dd d (or_introl eq_refl)) K). cbn [rbind]. destruct (window_quantile q (d + n) (window crows d (d + n))); [|reflexivity]. cbn [rbind]. apply IH. intros; apply Dd; now right. }
  unfold calc_quantile_tz. rewrite El. fold e. rewrite calc_frame by exact Ne.
  match goal with |- context [hd ?x ?y] => replace (hd x y) with (local (fst l), snd l) by (unfold crows; rewrite <- map_rev, El; reflexivity) end. change (day_of (local (fst l), snd l)) with e.
  assert (Du : map day_of crows = map (fun r : Z * option R => fst (local (fst r))) rows) by (unfold crows; rewrite map_map; reflexivity). rewrite Du.
  set (days := uniq (map (fun r : Z * option R => fst (local (fst r))) rows)) in *.
  assert (Dd : forall d, In d days -> data_day crows d) by (intros d I; now apply day_uniq).
  assert (Wide : forall X : result (string * list (Z * option R)), quant_name nm = Err ValueError -> match nm with FrameCols ([] | _ :: _ :: _) => true | _ => false end = true ->
    (let! out := loop_tz false local locate true rows n q e days [] in let! loc := localize locate out in let! name := quant_name nm in Ok (name, map (fun r => (fst r, at_instant loc (fst r))) rows)) = Err ValueError).
  { intros _ Qn _. assert (K : loop_tz false local locate true rows n q e days [] = Ok [] \/ loop_tz false local locate true rows n q e days [] = Err ValueError).
    { destruct days as [|d ds]; [now left|]. cbn [loop_tz]. destruct (Z.ltb_spec e (d + n)) as [K|K]; [now left|right]. rewrite (Win d (Dd d (or_introl eq_refl)) K). reflexivity. }
    destruct K as [-> | ->]; [|reflexivity]. cbn [rbind localize mapM]. rewrite Qn. reflexivity. }
  assert (Main : (let! out := loop_tz false local locate false rows n q e days [] in let! loc := localize locate out in let! name := quant_name nm in Ok (name, map (fun r => (fst r, at_instant loc (fst r))) rows)) =
    rmap (fun p => (fst p, combine (map fst rows) (map snd (snd p)))) (let! out := quantile_loop crows n q e days [] in let! name := quant_name nm in Ok (name, map (fun r => (fst r, found out (fst r))) crows))).
  { rewrite Lp by exact Dd. destruct (quantile_loop crows n q e days []) as [o|] eqn:Eo; [|reflexivity]. cbn [rbind].
    destruct (localize_total locate o) as (loc & Lc).
    { intros st v I. destruct (loop_out _ _ _ _ _ _ _ Eo st v I) as [[]|(d & r & Id & Le & Ir & ->)].
      destruct (H d e (Dd d Id) Dl Le) as (_ & _ & K). unfold window in Ir. apply filter_In in Ir. destruct Ir as [Ir B]. unfold crows in Ir. apply in_map_iff in Ir. destruct Ir as (x & <- & Ix). cbn [fst snd] in *.
      apply (K x Ix). apply andb_prop in B. destruct B as [B1 B2]. unfold stamp_leb in B1, B2. cbn [fst snd] in *. lia. }
    rewrite Lc. cbn [rbind]. destruct (quant_name nm); [|reflexivity]. cbn [rbind rmap fst snd]. do 2 f_equal. unfold crows. rewrite !map_map. cbn [snd]. clear -Lo Lc.
    induction rows as [|r rows IH]; [reflexivity|]. cbn [map combine fst]. f_equal; [f_equal; now apply (localize_found local locate Lo)|exact IH]. }
  destruct nm as [s|[|[c|] [|c' cs]]]; first [exact Main|exact (Wide (Err ValueError) eq_refl eq_refl)].
Qed.

(*@ C125 With a present pandas a time zone makes the call fail as soon as one window fits; if none does, everything is missing, with
    either pandas. *)
Lemma quantile_tz_strict : forall strict local locate rows nm n q s, locates local locate -> clock local -> rows <> [] -> one_column nm s ->
  (forall i j a b, (i < j)%nat -> nth_error rows i = Some a -> nth_error rows j = Some b -> (fst a <= fst b)%Z) ->
  (window_fits (map (fun r => (local (fst r), snd r)) rows) n -> calc_quantile_tz true local locate rows nm n q = Err TypeError) /\
  (~ window_fits (map (fun r => (local (fst r), snd r)) rows) n ->
     calc_quantile_tz strict local locate rows nm n q = Ok ((s ++ "_quant")%string, map (fun r => (fst r, None)) rows)).
Proof.
  intros strict local locate rows nm n q s Lo Ck Ne Hn Ss. pose proof (days_sorted local rows Ck Ss) as Sd.
  set (crows := map (fun r => (local (fst r), snd r)) rows) in *.
  destruct (rev rows) as [|l t] eqn:El; [exfalso; apply Ne; rewrite <- (rev_involutive rows), El; reflexivity|].
  assert (Dl : data_day crows (fst (local (fst l)))).
  { apply day_uniq, uniq_In, in_map_iff. exists l. split; [reflexivity|]. apply in_rev. rewrite El. now left. }
  assert (W : match nm with FrameCols ([] | _ :: _ :: _) => true | _ => false end = false) by (destruct Hn as [->| ->]; reflexivity).
  assert (Nm : quant_name nm = Ok (s ++ "_quant")%string) by (destruct Hn as [->| ->]; reflexivity).
  pose proof (uniq_from_sorted [] _ Sd) as Su. unfold calc_quantile_tz. rewrite El, W. cbv zeta.
  change (uniq_from [] (map (fun r : Z * option R => fst (local (fst r))) rows)) with (uniq (map (fun r : Z * option R => fst (local (fst r))) rows)) in Su.
  destruct (uniq (map (fun r : Z * option R => fst (local (fst r))) rows)) as [|d0 ds] eqn:Eu.
  { exfalso. apply day_uniq in Dl. rewrite Eu in Dl. destruct Dl. }
  assert (D0 : data_day crows d0) by (apply day_uniq; rewrite Eu; now left).
  apply StronglySorted_inv in Su. destruct Su as [_ F]. rewrite Forall_forall in F. cbn [loop_tz]. split.
  - intros (d & la & Hd & Hla & Le). apply (day_max local rows l t la Sd El) in Hla. apply day_uniq in Hd. rewrite Eu in Hd.
    assert (d0 <= d)%Z by (destruct Hd as [->|Hd]; [lia|auto]). rewrite (proj2 (Z.ltb_ge _ _)) by lia. reflexivity.
  - intro NF. rewrite (proj2 (Z.ltb_lt _ _)).
    + cbn [rbind localize mapM]. rewrite Nm. reflexivity.
    + destruct (Z.lt_ge_cases (fst (local (fst l))) (d0 + n)); [assumption|]. exfalso. apply NF. exists d0, (fst (local (fst l))). repeat split; auto.
Qed.

(*@ C125 Clocks put back: two rows with one reading in a window make the call fail. Clocks put forward or back: a reading that would have to be
    given out for the last day of a window, and which that day does not have exactly once, makes the call fail. *)
Lemma quantile_tz_change : forall strict local locate rows nm n q s, locates local locate -> clock local -> one_column nm s -> (1 <= n)%Z ->
  (forall i j a b, (i < j)%nat -> nth_error rows i = Some a -> nth_error rows j = Some b -> (fst a <= fst b)%Z) ->
  (forall i j a b e, (i < j)%nat -> nth_error rows i = Some a -> nth_error rows j = Some b -> local (fst a) = local (fst b) ->
     data_day (map (fun r => (local (fst r), snd r)) rows) e -> (fst (local (fst a)) + n <= e)%Z ->
     exists x, calc_quantile_tz strict local locate rows nm n q = Err x) /\
  (forall r d e, In r rows -> data_day (map (fun r => (local (fst r), snd r)) rows) d -> data_day (map (fun r => (local (fst r), snd r)) rows) e ->
     (d + n <= e)%Z -> (d <= fst (local (fst r)) < d + n)%Z -> locate ((d + n)%Z, snd (local (fst r))) = None ->
     exists x, calc_quantile_tz strict local locate rows nm n q = Err x).
Proof.
  intros strict local locate rows nm n q s Lo Ck Hn H1 Ss. pose proof (days_sorted local rows Ck Ss) as Sd. split.
  - intros i j a b e Lij Ha Hb Eab De Le. destruct (calc_quantile_tz strict local locate rows nm n q) as [[name out]|x] eqn:E; [exfalso|eauto].
    apply (quantile_tz_agrees strict local locate rows nm n q name out Lo Ck) in E. destruct E as [_ E].
    rewrite (quantile_duplicates _ nm n q s i j (fst (local (fst a))) (snd (local (fst a))) (snd a) (snd b) Hn) in E; [discriminate E| |exact Lij|..].
    + intros i' j' a' b' L' Ha' Hb'. rewrite nth_error_map in Ha', Hb'. destruct (nth_error rows i') as [x|] eqn:X; [|discriminate]. destruct (nth_error rows j') as [y|] eqn:Y; [|discriminate].
      injection Ha' as <-. injection Hb' as <-. unfold day_of. cbn [fst]. destruct Ck as (_ & Mo & _). apply Mo. eapply Ss; eauto.
    + rewrite (map_nth_error _ _ _ Ha). now rewrite <- surjective_pairing.
    + rewrite (map_nth_error _ _ _ Hb). rewrite Eab. now rewrite <- surjective_pairing.
    + apply Ck.
    + exact H1.
    + exists e. split; assumption.
  - intros r d e Ir Dd De Le Bd N. unfold calc_quantile_tz. destruct (rev rows) as [|l t] eqn:El; [eauto|].
    assert (W : match nm with FrameCols ([] | _ :: _ :: _) => true | _ => false end = false) by (destruct Hn as [->| ->]; reflexivity). rewrite W. cbv zeta.
    destruct (loop_tz strict local locate false rows n q _ _ []) as [o|x] eqn:L; [|cbn; eauto]. cbn [rbind]. apply (loop_same local locate Lo Ck) in L. unfold clock_rows in L.
    apply (day_max local rows l t e Sd El) in De.
    destruct (loop_in _ _ _ _ _ _ _ (uniq_from_sorted [] _ Sd) L d (local (fst r), snd r)) as (v & Iv); [now apply day_uniq|lia| |].
    + unfold window. apply filter_In. split; [apply in_map_iff; now exists r|]. unfold stamp_leb. cbn [fst snd]. pose proof (proj1 Ck (fst r)) as K.
      rewrite (proj2 (Z.ltb_lt (fst (local (fst r))) (d + n))) by lia. cbn [orb]. rewrite Bool.andb_true_r. destruct (Z.ltb_spec d (fst (local (fst r)))); [reflexivity|]. destruct (Z.eqb_spec d (fst (local (fst r)))); [|lia]. now apply Z.leb_le.
    + cbn [fst snd] in Iv. destruct (localize_fails locate o _ _ Iv N) as (x & ->). cbn. eauto.
Qed.

(** The clock of a place five hours behind, put forward by an hour at two o'clock on day 3. *)
Definition hour : Z := (3600 * 1000000000)%Z.
Definition spring : Z -> Z * Z := switching (- (5 * hour)) (- (4 * hour)) (3 * one_day + 7 * hour).
Definition spring_find : Z * Z -> option Z := find_reading (- (5 * hour)) (- (4 * hour)) (3 * one_day + 7 * hour).
Lemma spring_rules : locates spring spring_find /\ clock spring.
Proof. destruct (switching_clock (- (5 * hour)) (- (4 * hour)) (3 * one_day + 7 * hour)) as (A & B & _); [unfold hour; lia|]. split; [exact B|exact A]. Qed.
(** One row a day at noon, and one at half past two in the night (half past three on day 3). *)
Definition noons : list (Z * option R) := [(17 * hour, Some 1%R); (one_day + 17 * hour, Some 3%R); (2 * one_day + 17 * hour, Some 5%R); (3 * one_day + 16 * hour, None)]%Z.
Definition nights : list (Z * option R) := [(15 * (hour / 2), Some 1%R); (one_day + 15 * (hour / 2), Some 3%R); (2 * one_day + 15 * (hour / 2), Some 5%R); (3 * one_day + 15 * (hour / 2), None)]%Z.
Lemma noons_clock : map (fun r => (spring (fst r), snd r)) noons = [((0, 12 * hour), Some 1%R); ((1, 12 * hour), Some 3%R); ((2, 12 * hour), Some 5%R); ((3, 12 * hour), None)]%Z.
Proof. reflexivity. Qed.
Lemma nights_clock : map (fun r => (spring (fst r), snd r)) nights = [((0, 5 * (hour / 2)), Some 1%R); ((1, 5 * (hour / 2)), Some 3%R); ((2, 5 * (hour / 2)), Some 5%R); ((3, 7 * (hour / 2)), None)]%Z.
Proof. reflexivity. Qed.
Lemma four_sorted (a b c d : Z * option R) : (fst a <= fst b)%Z -> (fst b <= fst c)%Z -> (fst c <= fst d)%Z ->
  forall i j x y, (i < j)%nat -> nth_error [a; b; c; d] i = Some x -> nth_error [a; b; c; d] j = Some y -> (fst x <= fst y)%Z.
Proof.
  intros A B C i j x y L X Y. destruct i as [|[|[|[|i]]]], j as [|[|[|[|j]]]]; cbn in X, Y; try lia; try (destruct i; discriminate X); try (destruct j; discriminate Y);
    injection X as <-; injection Y as <-; lia.
Qed.
(*@ex C125 Noon values pass the change of the clocks with an earlier pandas; night values do not; a present pandas refuses both. *)
Lemma spring_example :
  (locates spring spring_find /\ clock spring) /\
  (exists out, calc_quantile_tz false spring spring_find noons (SeriesName (Some "ghi"%string)) 2 (1/2) = Ok ("ghi_quant"%string, out) /\ map fst out = map fst noons) /\
  (exists e, calc_quantile_tz false spring spring_find nights (SeriesName (Some "ghi"%string)) 2 (1/2) = Err e) /\
  calc_quantile_tz true spring spring_find noons (SeriesName (Some "ghi"%string)) 2 (1/2) = Err TypeError.
Proof.
  pose proof spring_rules as [Lo Ck]. split; [now split|].
  assert (S1 : forall i j a b, (i < j)%nat -> nth_error noons i = Some a -> nth_error noons j = Some b -> (fst a <= fst b)%Z) by (apply four_sorted; vm_compute; discriminate).
  assert (S2 : forall i j a b, (i < j)%nat -> nth_error nights i = Some a -> nth_error nights j = Some b -> (fst a <= fst b)%Z) by (apply four_sorted; vm_compute; discriminate).
  assert (Days : forall d, data_day (map (fun r => (spring (fst r), snd r)) noons) d -> (d = 0 \/ d = 1 \/ d = 2 \/ d = 3)%Z).
  { rewrite noons_clock. intros d (r & [<-|[<-|[<-|[<-|[]]]]] & <-); cbn; lia. }
  assert (Inc : increasing (map (fun r => (spring (fst r), snd r)) noons)).
  { rewrite noons_clock. split.
    - intros i j a b L A B. destruct i as [|[|[|[|i]]]], j as [|[|[|[|j]]]]; cbn in A, B; try lia; try (destruct i; discriminate A); try (destruct j; discriminate B);
        injection A as <-; injection B as <-; left; cbn; lia.
    - intros r [<-|[<-|[<-|[<-|[]]]]]; vm_compute; discriminate. }
  split; [|split].
  - pose proof (quantile_tz_total spring spring_find noons (SeriesName (Some "ghi"%string)) 2 (1/2) Lo Ck S1) as K.
    destruct (quantile_total _ 2 (1/2) "ghi" [] Inc ltac:(discriminate) ltac:(lra)) as ((o & Eo) & _). rewrite Eo in K. cbn [rmap fst snd] in K.
    destruct (calc_quantile_tz false spring spring_find noons (SeriesName (Some "ghi"%string)) 2 (1/2)) as [[nm out]|e] eqn:E.
    + destruct (quantile_tz_agrees _ _ _ _ _ _ _ _ _ Lo Ck E) as [F G]. rewrite Eo in G. injection G as <- _. eauto.
    + exfalso. assert (Err e = @Ok (string * list (Z * option R)) ("ghi_quant"%string, combine (map fst noons) (map snd o))) as X; [|discriminate X]. apply K.
      intros d x Dd Dx Le. apply Days in Dd. apply Days in Dx. assert (d = 0 \/ d = 1)%Z as [-> | ->] by lia; (split; [vm_compute; discriminate|split; [vm_compute; discriminate|]]);
        intros r [<-|[<-|[<-|[<-|[]]]]] _; vm_compute; discriminate.
  - destruct (quantile_tz_change false spring spring_find nights (SeriesName (Some "ghi"%string)) 2 (1/2) "ghi" Lo Ck (or_introl eq_refl) ltac:(lia) S2) as [_ K].
    apply (K (one_day + 15 * (hour / 2), Some 3%R)%Z 1%Z 3%Z); [right; now left| | |lia| |vm_compute; reflexivity].
    + rewrite nights_clock. eexists. split; [right; left; reflexivity|reflexivity].
    + rewrite nights_clock. eexists. split; [right; right; right; left; reflexivity|reflexivity].
    + assert (spring (fst (one_day + 15 * (hour / 2), Some 3%R)%Z) = (1, 5 * (hour / 2))%Z) as -> by reflexivity. cbn; lia.
  - destruct (quantile_tz_strict true spring spring_find noons (SeriesName (Some "ghi"%string)) 2 (1/2) "ghi" Lo Ck ltac:(discriminate) (or_introl eq_refl) S1) as [K _]. apply K.
    exists 0%Z, 3%Z. rewrite noons_clock. split; [eexists; split; [left; reflexivity|reflexivity]|]. split; [eexists; split; [right; right; right; left; reflexivity|reflexivity]|lia].
Qed.
