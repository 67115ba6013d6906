(** Proof lemmas for calc_quantile. *)
From Coq Require Import Permutation Sorted String.
From Verif Require Import Prelude PreludeFacts RealBase Fl RealStat M_spatial M_stats Spec_stats P_stats P_resample.
Local Open Scope R_scope.

Lemma sorted_perm_eq (s : list R) : forall s', Permutation s s' -> StronglySorted Rle s -> StronglySorted Rle s' -> s = s'.
Proof.
  induction s as [|x s IH]; intros s' P S S'.
  - now apply Permutation_nil in P.
  - destruct s' as [|y s']; [apply Permutation_sym, Permutation_nil in P; discriminate|].
    apply StronglySorted_inv in S. apply StronglySorted_inv in S'. destruct S as [S F], S' as [S' F'].
    rewrite Forall_forall in F, F'.
    assert (x = y).
    { apply Rle_antisym.
      - assert (I : In y (x :: s)) by (eapply Permutation_in; [symmetry; exact P|now left]). destruct I as [->|I]; [lra|auto].
      - assert (I : In x (y :: s')) by (eapply Permutation_in; [exact P|now left]). destruct I as [->|I]; [lra|auto]. }
    subst y. f_equal. apply IH; auto. now apply Permutation_cons_inv in P.
Qed.
Lemma nth_sorted (s : list R) : (forall i j, (i <= j < length s)%nat -> nth i s 0 <= nth j s 0) -> StronglySorted Rle s.
Proof.
  induction s as [|x s IH]; intro H; constructor.
  - apply IH. intros i j L. apply (H (S i) (S j)). cbn. lia.
  - apply Forall_forall. intros y Hy. destruct (In_nth _ _ 0 Hy) as (j & L & <-). apply (H 0%nat (S j)). cbn. lia.
Qed.

Lemma is_quantile_unique q l v v' : is_quantile q l v -> is_quantile q l v' -> v = v'.
Proof.
  intros (_ & s & k & f & P & So & E & F & V) (_ & s' & k' & f' & P' & So' & E' & F' & V').
  assert (s = s').
  { apply sorted_perm_eq; try now apply nth_sorted. transitivity l; [now symmetry|easy]. }
  subst s'. assert (k = k').
  { assert (INR k < INR (S k')) by (rewrite S_INR; lra). assert (INR k' < INR (S k)) by (rewrite S_INR; lra).
    apply INR_lt in H, H0. lia. }
  subst k'. assert (f = f') by lra. subst. reflexivity.
Qed.
Lemma is_quantile_perm q l l' v : Permutation l l' -> is_quantile q l v -> is_quantile q l' v.
Proof.
  intros P (N & s & k & f & Ps & S & E & F & V). split.
  - intros ->. apply N. now apply Permutation_sym, Permutation_nil in P.
  - exists s, k, f. rewrite <- (Permutation_length P). split; [|easy]. transitivity l; [now symmetry|easy].
Qed.

Lemma quantile_is q l : 0 <= q <= 1 -> l <> [] -> is_quantile q l (quantile q l).
Proof.
  intros Hq N. split; [easy|]. pose proof (INR_length_pos l N) as L. 
  assert (L0 : (0 < length l)%nat) by (destruct l; [easy|cbn; lia]).
  assert (L1 : INR (length l - 1) = INR (length l) - 1) by (rewrite minus_INR by lia; reflexivity).
  assert (Hh : 0 <= q * INR (length l - 1)) by (apply Rmult_le_pos; [lra|apply pos_INR]).
  pose proof (Rfloor_spec _ Hh) as Fl. pose proof (quantile_index q _ Hq L0) as Qi.
  exists (rsort l), (Rfloor (q * INR (length l - 1))), (q * INR (length l - 1) - INR (Rfloor (q * INR (length l - 1)))).
  split; [apply rsort_perm|]. split; [intros i j Hij; apply rsort_nth_le; rewrite ?rsort_length in *; lia|].
  split; [rewrite <- L1; ring|]. split; [lra|].
  unfold quantile. cbv zeta. set (h := q * INR (length l - 1)) in *.
  destruct (Nat.le_gt_cases (Rfloor h + 1) (length l - 1)) as [H|H].
  - rewrite Nat.min_l by easy. now rewrite Nat.add_1_r.
  - assert (E : h - INR (Rfloor h) = 0).
    { assert (h <= INR (length l - 1)).
      { unfold h. pose proof (pos_INR (length l - 1)). nra. }
      assert (INR (length l - 1) <= INR (Rfloor h)) by (apply le_INR; lia). lra. }
    rewrite E. ring.
Qed.

(** ** Days and times *)
Lemma uniq_from_In seen l x : In x (uniq_from seen l) <-> In x l /\ ~ In x seen.
Proof.
  revert seen. induction l as [|y l IH]; intro seen; cbn [uniq_from]; [cbn; tauto|].
  destruct (lab_mem y seen) eqn:E.
  - apply lab_mem_In in E. rewrite IH. cbn. split; [tauto|]. intros [[->|I] N]; tauto.
  - assert (NE : ~ In y seen) by (rewrite <- lab_mem_In; congruence). cbn. rewrite IH. cbn.
    split; [intros [->|[I N]]; tauto|]. intros [[->|I] N]; [now left|]. destruct (Z.eq_dec y x); [now left|right; tauto].
Qed.
Lemma uniq_In l x : In x (uniq l) <-> In x l.
Proof. unfold uniq. rewrite uniq_from_In. cbn. tauto. Qed.
Lemma uniq_from_NoDup seen l : NoDup (uniq_from seen l).
Proof.
  revert seen. induction l as [|y l IH]; intro seen; cbn [uniq_from]; [constructor|].
  destruct (lab_mem y seen); [easy|]. constructor; [|easy]. rewrite uniq_from_In. cbn. tauto.
Qed.
Lemma uniq_from_sorted seen l : StronglySorted Z.le l -> StronglySorted Z.le (uniq_from seen l).
Proof.
  revert seen. induction l as [|y l IH]; intros seen S; cbn [uniq_from]; [constructor|].
  apply StronglySorted_inv in S. destruct S as [S F]. destruct (lab_mem y seen); [auto|]. constructor; [auto|].
  rewrite Forall_forall in *. intros z Hz. apply uniq_from_In in Hz. now apply F.
Qed.

Lemma stamp_eqb_spec a b : reflect (a = b) (stamp_eqb a b).
Proof.
  unfold stamp_eqb. destruct a as [a1 a2], b as [b1 b2]. cbn.
  destruct (Z.eqb_spec a1 b1), (Z.eqb_spec a2 b2); cbn; constructor; congruence.
Qed.
Lemma has_dup_false l : has_dup l = false <-> NoDup l.
Proof.
  induction l as [|x l IH]; cbn; [split; [constructor|easy]|]. rewrite Bool.orb_false_iff, IH. split.
  - intros [E N]. constructor; [|easy]. intro I. assert (existsb (stamp_eqb x) l = true); [|congruence].
    apply existsb_exists. exists x. split; [easy|]. now destruct (stamp_eqb_spec x x).
  - inversion 1 as [|? ? NI N]; subst. split; [|easy]. destruct (existsb (stamp_eqb x) l) eqn:E; [|easy].
    apply existsb_exists in E. destruct E as (y & I & E). destruct (stamp_eqb_spec x y); [subst; easy|discriminate].
Qed.
Lemma NoDup_filter_map {A B} (g : A -> B) f l : NoDup (map g l) -> NoDup (map g (filter f l)).
Proof.
  induction l as [|x l IH]; cbn; [easy|]. inversion 1 as [|? ? NI N]; subst. destruct (f x); cbn; auto. constructor; [|auto].
  intro I. apply NI. apply in_map_iff in I. destruct I as (y & E & I). apply filter_In in I. apply in_map_iff. exists y. tauto.
Qed.

Lemma increasing_NoDup rows : increasing rows -> NoDup (map fst rows).
Proof.
  intros [H _]. apply NoDup_nth_error. intros i j L E. rewrite map_length in L. rewrite !nth_error_map in E. unfold qrow in *.
  destruct (nth_error rows i) as [a|] eqn:Ei; [|exfalso; apply nth_error_None in Ei; exact (Nat.lt_irrefl _ (Nat.lt_le_trans _ _ _ L Ei))].
  destruct (nth_error rows j) as [b|] eqn:Ej; [|discriminate]. injection E as E.
  destruct (Nat.lt_trichotomy i j) as [Q|[Q|Q]]; [|easy|].
  - pose proof (H _ _ _ _ Q Ei Ej) as W. rewrite E in W. unfold later in W. lia.
  - pose proof (H _ _ _ _ Q Ej Ei) as W. rewrite E in W. unfold later in W. lia.
Qed.
Lemma nth_error_sorted {A} (R : A -> A -> Prop) l :
  (forall i j a b, (i < j)%nat -> nth_error l i = Some a -> nth_error l j = Some b -> R a b) -> StronglySorted R l.
Proof.
  induction l as [|x l IH]; intro H; constructor.
  - apply IH. intros i j a b L A0 B0. apply (H (S i) (S j)); auto. lia.
  - apply Forall_forall. intros y Hy. apply In_nth_error in Hy. destruct Hy as [j Hj]. apply (H 0%nat (S j)); auto. lia.
Qed.
Lemma sorted_map {A B} (R : A -> A -> Prop) (Q : B -> B -> Prop) (f : A -> B) l :
  (forall a b, R a b -> Q (f a) (f b)) -> StronglySorted R l -> StronglySorted Q (map f l).
Proof. intros H. induction 1 as [|x l S IH F]; cbn; constructor; auto. rewrite Forall_forall in *. intros y Hy. apply in_map_iff in Hy. destruct Hy as (z & <- & Hz). auto. Qed.
Lemma increasing_days rows : increasing rows -> StronglySorted Z.le (map (fun r => fst (fst r)) rows).
Proof.
  intros [H _]. apply (sorted_map (fun a b : qrow => later (fst a) (fst b))).
  - intros a b W. unfold later in W. lia.
  - apply nth_error_sorted. intros. eauto.
Qed.
Lemma sorted_last {A} (R : A -> A -> Prop) l x : (forall a, R a a) -> StronglySorted R l -> In x l ->
  forall y, hd_error (rev l) = Some y -> R x y.
Proof.
  intros Rf S. induction S as [|a l S IH F]; [easy|]. intros I y E. cbn [rev] in E.
  destruct l as [|b l]; [cbn in *; destruct I as [<-|[]]; injection E as <-; apply Rf|].
  assert (E' : hd_error (rev (b :: l)) = Some y).
  { cbn [rev] in *. destruct (rev l ++ [b]) eqn:Q; [now destruct (rev l)|]. exact E. }
  destruct I as [<-|I]; [|now apply IH]. rewrite Forall_forall in F. apply F. apply in_rev. destruct (rev (b :: l)); [easy|]. cbn in E'. injection E' as ->. now left.
Qed.

(** ** Windows *)
Lemma find_row_filter f rows st : (forall r, In r rows -> fst r = st -> f r = true) ->
  find_row (filter f rows) st = find_row rows st.
Proof.
  unfold find_row. induction rows as [|r rows IH]; intro H; [easy|]. cbn [filter find].
  destruct (stamp_eqb_spec (fst r) st) as [E|E].
  - rewrite (H r) by (now left || easy). cbn [find]. now destruct (stamp_eqb_spec (fst r) st).
  - destruct (f r); cbn [find]; [destruct (stamp_eqb_spec (fst r) st); [easy|]|]; apply IH; intros; apply H; auto; now right.
Qed.
Lemma find_row_None rows st : find_row rows st = None <-> ~ In st (map fst rows).
Proof.
  unfold find_row. destruct (find (fun r => stamp_eqb (fst r) st) rows) as [r|] eqn:E; cbn.
  - apply find_some in E. destruct E as [I E]. destruct (stamp_eqb_spec (fst r) st); [|discriminate]. split; [discriminate|].
    intro N. exfalso. apply N. apply in_map_iff. eauto.
  - split; [|easy]. intros _ I. apply in_map_iff in I. destruct I as (r & Er & I). pose proof (find_none _ _ E r I) as Q. cbn in Q.
    destruct (stamp_eqb_spec (fst r) st); [discriminate|easy].
Qed.
Lemma find_row_In rows st v : find_row rows st = Some v -> In (st, v) rows.
Proof.
  unfold find_row. destruct (find (fun r => stamp_eqb (fst r) st) rows) as [r|] eqn:E; [|discriminate]. cbn. intro Q. injection Q as <-.
  apply find_some in E. destruct E as [I E]. destruct (stamp_eqb_spec (fst r) st) as [<-|]; [|discriminate]. now destruct r.
Qed.
Lemma find_row_cons r rows st : find_row (r :: rows) st = if stamp_eqb (fst r) st then Some (snd r) else find_row rows st.
Proof. unfold find_row. cbn. destruct (stamp_eqb (fst r) st); reflexivity. Qed.

Definition cell (w : list qrow) (t d : Z) : option R := match find_row w (d, t) with Some v => v | None => None end.

(** Reading one time row of the pivot gives exactly the values at that time. *)
Lemma pivot_row (w : list qrow) t : forall dates, (forall r, In r w -> snd (fst r) = t) -> NoDup (map fst w) -> NoDup dates ->
  (forall r, In r w -> In (fst (fst r)) dates) ->
  Permutation (present (map (cell w t) dates)) (present (map snd w)).
Proof.
  induction w as [|r w IH]; intros dates Ht Nw Nd Hd.
  - rewrite present_none; [constructor|]. intros x Hx. apply in_map_iff in Hx. now destruct Hx as (d & <- & _).
  - inversion Nw as [|? ? NI Nw']; subst.
    assert (Id : In (fst (fst r)) dates) by (apply Hd; now left). destruct (in_split _ _ Id) as (A & B & ->).
    assert (Pd : Permutation (A ++ fst (fst r) :: B) (fst (fst r) :: A ++ B)) by (symmetry; apply Permutation_middle).
    assert (Nd' : NoDup (fst (fst r) :: A ++ B)) by (eapply Permutation_NoDup; eauto). inversion Nd' as [|? ? NIa Nab]; subst.
    assert (PP : forall X Y : list (option R), Permutation X Y -> Permutation (present X) (present Y)).
    { intros X Y Q. unfold present. now apply Permutation_flat_map. }
    etransitivity; [apply PP, Permutation_map, Pd|]. cbn [map].
    assert (Tr : snd (fst r) = t) by (apply Ht; now left).
    assert (Er : fst r = (fst (fst r), t)) by (rewrite <- Tr; now destruct (fst r)).
    assert (E0 : cell (r :: w) t (fst (fst r)) = snd r).
    { unfold cell. rewrite find_row_cons. rewrite <- Er. now destruct (stamp_eqb_spec (fst r) (fst r)). }
    rewrite E0.
    assert (E1 : map (cell (r :: w) t) (A ++ B) = map (cell w t) (A ++ B)).
    { apply map_ext_in. intros d Hdd. unfold cell. rewrite find_row_cons. destruct (stamp_eqb_spec (fst r) (d, t)) as [E|]; [|easy].
      rewrite E in NIa. now cbn in NIa. }
    rewrite E1.
    assert (E2 : Permutation (present (map (cell w t) (A ++ B))) (present (map snd w))).
    { apply IH; auto.
      - intros x Hx. apply Ht. now right.
      - intros x Hx. assert (I2 : In (fst (fst x)) (fst (fst r) :: A ++ B)) by (eapply Permutation_in; [exact Pd|apply Hd; now right]).
        destruct I2 as [E|I2]; [|easy]. exfalso. apply NI. apply in_map_iff. exists x. split; [|easy].
        rewrite Er, E. rewrite <- (Ht x) by now right. now destruct (fst x). }
    change (snd r :: map snd w) with ([snd r] ++ map snd w). change (snd r :: map (cell w t) (A ++ B)) with ([snd r] ++ map (cell w t) (A ++ B)).
    rewrite !present_app. now apply Permutation_app_head.
Qed.

(** What one window contributes. *)
Definition wq (q : R) (e : Z) (w : list qrow) : list qrow :=
  map (fun t => ((e, t), match present (map (cell w t) (sort_by Z.leb (uniq (map (fun r => fst (fst r)) w)))) with [] => None | l => Some (quantile q l) end))
      (sort_by Z.leb (uniq (map (fun r => snd (fst r)) w))).
Lemma window_quantile_ok q e w : 0 <= q <= 1 -> NoDup (map fst w) -> window_quantile q e w = Ok (wq q e w).
Proof.
  intros Hq N. unfold window_quantile, pivot. rewrite (proj2 (has_dup_false _) N). cbn [rbind].
  rewrite !Rltb_false by lra. cbn [orb]. unfold wq. rewrite map_map. reflexivity.
Qed.
Lemma wq_In q e w st v : In (st, v) (wq q e w) -> NoDup (map fst w) -> 0 <= q <= 1 ->
  fst st = e /\ (exists r, In r w /\ snd (fst r) = snd st) /\
  let l := present (map snd (filter (fun r => (snd (fst r) =? snd st)%Z) w)) in
  match v with Some x => is_quantile q l x | None => l = [] end.
Proof.
  intros I N Hq. unfold wq in I. apply in_map_iff in I. destruct I as (t & E & It). injection E as <- Ev. cbn [fst snd]. split; [easy|].
  assert (It' : In t (uniq (map (fun r => snd (fst r)) w))) by (eapply Permutation_in; [symmetry; apply sort_by_perm|exact It]).
  apply uniq_In, in_map_iff in It'. destruct It' as (r & Er & Ir). split; [now exists r|]. cbv zeta.
  set (ds := sort_by Z.leb (uniq (map (fun r => fst (fst r)) w))) in *.
  assert (P : Permutation (present (map (cell w t) ds)) (present (map snd (filter (fun r => (snd (fst r) =? t)%Z) w)))).
  { assert (Ec : map (cell w t) ds = map (cell (filter (fun r => (snd (fst r) =? t)%Z) w) t) ds).
    { apply map_ext. intro d. unfold cell. rewrite find_row_filter; [easy|]. intros x _ Ex. rewrite Ex. apply Z.eqb_refl. }
    rewrite Ec. apply pivot_row.
    - intros x Hx. apply filter_In in Hx. now apply Z.eqb_eq.
    - now apply NoDup_filter_map.
    - unfold ds. eapply Permutation_NoDup; [apply sort_by_perm|]. apply uniq_from_NoDup.
    - intros x Hx. apply filter_In in Hx. unfold ds. eapply Permutation_in; [apply sort_by_perm|]. apply uniq_In, in_map_iff. exists x. tauto. }
  destruct (present (map (cell w t) ds)) as [|x l] eqn:El; subst v.
  - now apply Permutation_nil in P.
  - eapply is_quantile_perm; [exact P|]. now apply quantile_is.
Qed.
Lemma wq_total q e w r : In r w -> exists v, In ((e, snd (fst r)), v) (wq q e w).
Proof.
  intro I. unfold wq. eexists. apply in_map_iff. eexists. split; [reflexivity|]. eapply Permutation_in; [apply sort_by_perm|].
  apply uniq_In, in_map_iff. now exists r.
Qed.

(** The loop over sorted days. *)
Lemma loop_ok rows n q end_day : 0 <= q <= 1 -> NoDup (map fst rows) -> forall days out, StronglySorted Z.le days ->
  quantile_loop rows n q end_day days out =
  Ok (out ++ flat_map (fun d => if (d + n <=? end_day)%Z then wq q (d + n) (window rows d (d + n)) else []) days).
Proof.
  intros Hq N. induction days as [|d days IH]; intros out S; cbn [quantile_loop flat_map]; [now rewrite app_nil_r|].
  apply StronglySorted_inv in S. destruct S as [S F]. rewrite Forall_forall in F. destruct (Z.ltb_spec end_day (d + n)) as [H|H].
  - rewrite (proj2 (Z.leb_gt _ _)) by easy. cbn [app].
    assert (E : flat_map (fun d => if (d + n <=? end_day)%Z then wq q (d + n) (window rows d (d + n)) else []) days = []).
    { clear -F H. induction days as [|x days IH]; [easy|]. cbn. rewrite (proj2 (Z.leb_gt _ _)); [apply IH; intros; apply F; now right|].
      pose proof (F x (or_introl eq_refl)). lia. }
    now rewrite E, app_nil_r.
  - rewrite (proj2 (Z.leb_le _ _)) by easy. rewrite window_quantile_ok by (easy || now apply NoDup_filter_map). cbn [rbind].
    rewrite IH by easy. now rewrite app_assoc.
Qed.
