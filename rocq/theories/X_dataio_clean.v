(** Cleaning of the HOPE data: flags, sentinel values and gaps. *)
From Coq Require Import String Reals Lra.
From Verif Require Import Prelude PreludeFacts P_list RealBase M_hope Spec_dataio.

Lemma map2_len {A B D} (f : A -> B -> D) a b : length (map2 f a b) = Nat.min (length a) (length b).
Proof. unfold map2. now rewrite map_length, combine_length. Qed.
Lemma map_entry {A B} (f : A -> B) t i j : entry (map (map f) t) i j = option_map f (entry t i j).
Proof. unfold entry. rewrite nth_error_map. destruct (nth_error t i) as [r|]; [|reflexivity]. cbn. apply nth_error_map. Qed.
Lemma map2_entry {A B D} (f : A -> B -> D) t u i j :
  entry (map2 (map2 f) t u) i j = match entry t i j, entry u i j with Some a, Some b => Some (f a b) | _, _ => None end.
Proof.
  unfold entry. rewrite nth_error_map2. destruct (nth_error t i) as [r|]; [|reflexivity]. destruct (nth_error u i) as [s|]; [apply nth_error_map2|].
  destruct (nth_error r j); reflexivity.
Qed.
Lemma map2_shape {A B D} (f : A -> B -> D) t u : same_shape t u -> same_shape (map2 (map2 f) t u) t.
Proof.
  unfold same_shape. revert u. induction t as [|r t IH]; intros [|s u] E; cbn in E |- *; try discriminate; [reflexivity|].
  injection E as E1 E2. f_equal; [|now apply IH]. clear IH E2. revert s E1. induction r as [|a r IH]; intros [|b s] E; cbn in E |- *; try discriminate; [reflexivity|].
  f_equal. apply IH. congruence.
Qed.

(*@ C78 flag_qc blanks exactly the samples whose flag is at least the level (a missing flag never is) and keeps every other sample. *)
Lemma flag_value : forall data flag level, same_shape data flag ->
  same_shape (flag_qc data flag level) data /\
  forall i j v f, entry data i j = Some v -> entry flag i j = Some f ->
    ((exists x, f = Some x /\ (level <= x)%R) -> entry (flag_qc data flag level) i j = Some None) /\
    (~ (exists x, f = Some x /\ (level <= x)%R) -> entry (flag_qc data flag level) i j = Some v).
Proof.
  intros data flag level HS. split; [now apply map2_shape|]. intros i j v f ED EF. unfold flag_qc. rewrite map2_entry, ED, EF. split.
  - intros (x & -> & L). unfold Rleb. destruct (Rle_dec level x); [reflexivity|contradiction].
  - intros N. destruct f as [x|]; [|reflexivity]. unfold Rleb. destruct (Rle_dec level x); [|reflexivity]. exfalso. apply N. eauto.
Qed.
(*@ C78 null_qc blanks exactly the samples below -100 and keeps every other sample. *)
Lemma null_value : forall data, same_shape (null_qc data) data /\
  forall i j v, entry data i j = Some v ->
    ((exists x, v = Some x /\ (x < -100)%R) -> entry (null_qc data) i j = Some None) /\
    (~ (exists x, v = Some x /\ (x < -100)%R) -> entry (null_qc data) i j = Some v).
Proof.
  intros data. split.
  - unfold same_shape, null_qc. rewrite map_map. apply map_ext. intro r. apply map_length.
  - intros i j v E. unfold null_qc. rewrite map_entry, E. cbn [option_map]. split.
    + intros (x & -> & L). unfold Rltb. destruct (Rlt_dec x (-100)); [reflexivity|contradiction].
    + intros N. destruct v as [x|]; [|reflexivity]. unfold Rltb. destruct (Rlt_dec x (-100)); [|reflexivity]. exfalso. apply N. eauto.
Qed.
Lemma entry_ext {A} (t u : list (list A)) : same_shape t u -> (forall i j, entry t i j = entry u i j) -> t = u.
Proof.
  intros HS HE. apply nth_error_ext. intro i. assert (Q : nth_error (map (@length A) t) i = nth_error (map (@length A) u) i) by now rewrite HS.
  rewrite !nth_error_map in Q. destruct (nth_error t i) as [r|] eqn:E1, (nth_error u i) as [s|] eqn:E2; cbn in Q; try discriminate; [|reflexivity].
  f_equal. apply nth_error_ext. intro j. specialize (HE i j). unfold entry in HE. now rewrite E1, E2 in HE.
Qed.
(*@ C78 Both are idempotent, and their order does not matter. *)
Lemma qc_laws : forall data flag level, same_shape data flag ->
  null_qc (null_qc data) = null_qc data /\
  flag_qc (flag_qc data flag level) flag level = flag_qc data flag level /\
  null_qc (flag_qc data flag level) = flag_qc (null_qc data) flag level.
Proof.
  intros data flag level HS.
  assert (N : forall d, same_shape (null_qc d) d) by (intro d; apply null_value).
  assert (F : forall d, same_shape d flag -> same_shape (flag_qc d flag level) d) by (intros d Q; now apply flag_value).
  assert (T : forall (a b c : table), same_shape a b -> same_shape b c -> same_shape a c) by (unfold same_shape; congruence).
  assert (T' : forall (a b c : table), same_shape a b -> same_shape c b -> same_shape a c) by (unfold same_shape; congruence).
  split; [|split].
  - apply entry_ext; [apply N|]. intros i j. unfold null_qc. rewrite !map_entry. destruct (entry data i j) as [[x|]|]; cbn; try reflexivity.
    unfold Rltb. destruct (Rlt_dec x (-100)) eqn:E; cbn; [reflexivity|]. now rewrite E.
  - apply entry_ext; [apply F; apply (T _ data); auto|]. intros i j. unfold flag_qc. rewrite !map2_entry.
    destruct (entry data i j) as [v|], (entry flag i j) as [[x|]|]; cbn; try reflexivity.
    destruct (Rleb level x); reflexivity.
  - apply entry_ext.
    + apply (T' _ data).
      * apply (T _ (flag_qc data flag level)); [apply N|now apply F].
      * apply (T _ (null_qc data)); [|apply N]. apply F. apply (T _ data); auto.
    + intros i j. unfold null_qc, flag_qc. rewrite map2_entry, !map_entry, map2_entry.
      destruct (entry data i j) as [[v|]|], (entry flag i j) as [[x|]|]; cbn; try reflexivity.
      * destruct (Rleb level x); cbn [blank]; [destruct (Rltb v (-100)); reflexivity|]. destruct (Rltb v (-100)); reflexivity.
      * destruct (Rleb level x); reflexivity.
Qed.
(*@ex C78 *)
Lemma qc_ex : same_shape [[Some 5; Some (-999)]; [Some 7; None]]%R [[Some 1; Some 4]; [None; Some 1]]%R /\
  flag_qc [[Some 5; Some (-999)]; [Some 7; None]]%R [[Some 3; Some 1]; [None; Some 1]]%R 2 = [[None; Some (-999)]; [Some 7; None]]%R /\
  null_qc [[Some 5; Some (-999)]; [Some 7; None]]%R = [[Some 5; None]; [Some 7; None]]%R.
Proof.
  split; [reflexivity|]. unfold flag_qc, null_qc, Rleb, Rltb. cbn.
  destruct (Rle_dec 2 3); [|exfalso; lra]. destruct (Rle_dec 2 1); [exfalso; lra|]. cbn.
  destruct (Rlt_dec 5 (-100)); [exfalso; lra|]. destruct (Rlt_dec (-999) (-100)); [|exfalso; lra]. destruct (Rlt_dec 7 (-100)); [exfalso; lra|]. split; reflexivity.
Qed.

(** ** Gaps *)
Lemma nth_cases (l : list (option R)) i : i < length l -> (exists v, present l i v) \/ missing l i.
Proof.
  intro L. unfold present, missing. destruct (nth_error l i) as [[v|]|] eqn:E; [left; eauto|now right|]. apply nth_error_None in E. lia.
Qed.
Lemma prev_spec l i : i < length l ->
  match prev_valid l i with
  | Some (p, v) => p <= i /\ present l p v /\ forall j, p < j <= i -> missing l j
  | None => forall j, j <= i -> missing l j
  end.
Proof.
  induction i as [|i IH]; intro L.
  - cbn [prev_valid]. destruct (nth_cases l 0 L) as [[v V]|M].
    + unfold present in V. rewrite V. repeat split; [lia|exact V|lia].
    + unfold missing in M. rewrite M. intros j J. now replace j with 0 by lia.
  - cbn [prev_valid]. destruct (nth_cases l (S i) L) as [[v V]|M].
    + unfold present in V. rewrite V. repeat split; [lia|exact V|lia].
    + pose proof M as M'. unfold missing in M'. rewrite M'. specialize (IH ltac:(lia)). destruct (prev_valid l i) as [[p v]|].
      * destruct IH as (A & V & Q). repeat split; [lia|exact V|]. intros j J. destruct (Nat.eq_dec j (S i)) as [->|]; [exact M|]. apply Q. lia.
      * intros j J. destruct (Nat.eq_dec j (S i)) as [->|]; [exact M|]. apply IH. lia.
Qed.
Lemma next_from_spec r k l : (forall j, nth_error r j = nth_error l (k + j)) ->
  match next_valid_from r k with
  | Some (q, v) => k <= q /\ present l q v /\ forall j, k <= j < q -> missing l j
  | None => forall j, k <= j < length l -> missing l j
  end.
Proof.
  revert k. induction r as [|x r IH]; intros k HR; cbn [next_valid_from].
  - intros j J. specialize (HR 0). cbn in HR. rewrite Nat.add_0_r in HR. symmetry in HR. apply nth_error_None in HR. lia.
  - pose proof (HR 0) as H0. cbn in H0. rewrite Nat.add_0_r in H0. destruct x as [v|].
    + repeat split; [lia|now symmetry|lia].
    + assert (HR' : forall j, nth_error r j = nth_error l (S k + j)).
      { intro j. specialize (HR (S j)). cbn in HR. rewrite HR. f_equal. lia. }
      specialize (IH (S k) HR'). destruct (next_valid_from r (S k)) as [[q v]|].
      * destruct IH as (A & V & Q). repeat split; [lia|exact V|]. intros j J. destruct (Nat.eq_dec j k) as [->|]; [now symmetry|]. apply Q. lia.
      * intros j J. destruct (Nat.eq_dec j k) as [->|]; [now symmetry|]. apply IH. lia.
Qed.
Lemma next_spec l i :
  match next_valid l i with
  | Some (q, v) => i <= q /\ present l q v /\ forall j, i <= j < q -> missing l j
  | None => forall j, i <= j < length l -> missing l j
  end.
Proof. unfold next_valid. apply next_from_spec. intro j. apply nth_error_skipn. Qed.
Lemma present_not_missing l i v : present l i v -> missing l i -> False.
Proof. unfold present, missing. congruence. Qed.
Lemma present_lt l i v : present l i v -> i < length l.
Proof. intro V. apply nth_error_Some. unfold present in V. congruence. Qed.

Lemma interpolate_length L l : length (interpolate L l) = length l.
Proof. unfold interpolate. now rewrite map_length, seq_length. Qed.
Lemma nth_interpolate L l i : i < length l -> nth_error (interpolate L l) i =
  Some (match nth_error l i with
         | Some (Some v) => Some v
         | _ => match prev_valid l i, next_valid l i with
                | Some (p, a), Some (q, b) =>
                    if (i - p <=? L) then Some (a + (b - a) * (INR (i - p) / INR (q - p)))%R else None
                | _, _ => None
                end
         end).
Proof. intro H. unfold interpolate. rewrite nth_error_map, nth_error_seq by exact H. reflexivity. Qed.
Lemma interp_present L l i v : present l i v -> present (interpolate L l) i v.
Proof. intro V. unfold present. rewrite nth_interpolate by (eapply present_lt; eassumption). unfold present in V. now rewrite V. Qed.
Lemma gap_unique l p q p' q' i : in_gap l p q i -> in_gap l p' q' i -> p = p' /\ q = q'.
Proof.
  intros (A & (a & PA) & (b & PB) & M) (A' & (a' & PA') & (b' & PB') & M').
  split.
  - destruct (Nat.lt_trichotomy p p') as [C|[C|C]]; [|exact C|].
    + exfalso. apply (present_not_missing l p' a' PA'). apply M. lia.
    + exfalso. apply (present_not_missing l p a PA). apply M'. lia.
  - destruct (Nat.lt_trichotomy q q') as [C|[C|C]]; [|exact C|].
    + exfalso. apply (present_not_missing l q b PB). apply M'. lia.
    + exfalso. apply (present_not_missing l q' b' PB'). apply M. lia.
Qed.
Lemma where_missing l i : missing l i ->
  match prev_valid l i, next_valid l i with
  | Some (p, a), Some (q, b) => in_gap l p q i /\ present l p a /\ present l q b
  | None, _ => in_lead l i
  | _, None => in_tail l i
  end.
Proof.
  intro M. assert (L : i < length l) by (apply nth_error_Some; unfold missing in M; congruence).
  pose proof (prev_spec l i L) as P. pose proof (next_spec l i) as N. destruct (prev_valid l i) as [[p a]|].
  - destruct P as (A & PA & MA). destruct (next_valid l i) as [[q b]|].
    + destruct N as (C & PB & MB). assert (p <> i) by (intros ->; exact (present_not_missing _ _ _ PA M)).
      assert (q <> i) by (intros ->; exact (present_not_missing _ _ _ PB M)). split; [|auto]. split; [lia|]. split; [eauto|]. split; [eauto|].
      intros j J. destruct (Nat.le_gt_cases j i); [apply MA|apply MB]; lia.
    + split; [exact L|exact N].
  - split; [exact L|exact P].
Qed.
Lemma gap_not_lead l p q i : in_gap l p q i -> ~ in_lead l i.
Proof. intros (A & (a & PA) & _) [_ Q]. apply (present_not_missing l p a PA). apply Q. lia. Qed.
Lemma gap_not_tail l p q i : in_gap l p q i -> ~ in_tail l i.
Proof. intros (A & _ & (b & PB) & _) [_ Q]. apply (present_not_missing l q b PB). apply Q. apply present_lt in PB. lia. Qed.
Lemma gap_missing l p q i : in_gap l p q i -> missing l i.
Proof. intros (A & _ & _ & M). now apply M. Qed.
Lemma interp_gap L l p q i a b : in_gap l p q i -> present l p a -> present l q b -> i <= p + L ->
  present (interpolate L l) i (on_line p q a b i).
Proof.
  intros G PA PB HL. pose proof (gap_missing _ _ _ _ G) as M. pose proof (where_missing l i M) as W.
  assert (LI : i < length l) by (apply nth_error_Some; unfold missing in M; congruence).
  unfold present. rewrite nth_interpolate by exact LI. unfold missing in M. rewrite M.
  destruct (prev_valid l i) as [[p' a']|]; [|exfalso; now apply (gap_not_lead _ _ _ _ G)].
  destruct (next_valid l i) as [[q' b']|]; [|exfalso; now apply (gap_not_tail _ _ _ _ G)].
  destruct W as (G' & PA' & PB'). destruct (gap_unique _ _ _ _ _ _ G G') as [<- <-].
  assert (a' = a) by (unfold present in *; congruence). assert (b' = b) by (unfold present in *; congruence). subst.
  destruct (Nat.leb_spec (i - p) L); [|lia]. destruct G as [HI _]. unfold on_line. rewrite !minus_INR by lia. reflexivity.
Qed.
Lemma interp_open L l i : left_open L l i -> missing (interpolate L l) i.
Proof.
  intro LO. assert (M : missing l i).
  { destruct LO as [[_ Q]|[[QL Q]|(p & q & G & _)]]; [apply Q; lia|apply Q; lia|now apply (gap_missing l p q)]. }
  assert (LI : i < length l) by (apply nth_error_Some; unfold missing in M; congruence).
  unfold missing. rewrite nth_interpolate by exact LI. pose proof (where_missing l i M) as W. pose proof M as M'. unfold missing in M'. rewrite M'.
  destruct (prev_valid l i) as [[p' a']|]; [|reflexivity]. destruct (next_valid l i) as [[q' b']|]; [|reflexivity].
  destruct W as (G' & PA' & PB'). destruct LO as [Q|[Q|(p & q & G & HL)]].
  - exfalso. now apply (gap_not_lead _ _ _ _ G').
  - exfalso. now apply (gap_not_tail _ _ _ _ G').
  - destruct (gap_unique _ _ _ _ _ _ G G') as [<- <-]. destruct (Nat.leb_spec (i - p) L); [lia|reflexivity].
Qed.
Lemma interp_cases L l i : i < length l -> (exists v, present l i v) \/ left_open L l i \/
  exists p q a b, in_gap l p q i /\ present l p a /\ present l q b /\ i <= p + L.
Proof.
  intro H. destruct (nth_cases l i H) as [V|M]; [now left|]. right. pose proof (where_missing l i M) as W.
  destruct (prev_valid l i) as [[p a]|]; [|left; now left]. destruct (next_valid l i) as [[q b]|]; [|left; right; now left].
  destruct W as (G & PA & PB). destruct (Nat.le_gt_cases i (p + L)) as [C|C].
  - right. exists p, q, a, b. auto.
  - left. right. right. exists p, q. auto.
Qed.
Lemma interp_missing_iff L l i : missing (interpolate L l) i <-> left_open L l i.
Proof.
  split; [|apply interp_open]. intro M. assert (LI : i < length l).
  { rewrite <- (interpolate_length L). apply nth_error_Some. unfold missing in M. congruence. }
  destruct (interp_cases L l i LI) as [[v V]|[Q|(p & q & a & b & G & PA & PB & HL)]]; [|exact Q|].
  - exfalso. eapply present_not_missing; [apply interp_present; exact V|exact M].
  - exfalso. eapply present_not_missing; [apply (interp_gap L l p q i a b); auto|exact M].
Qed.
Lemma filter_length_all {A} (f : A -> bool) l : length (filter f l) = length l <-> forall x, In x l -> f x = true.
Proof.
  induction l as [|x l IH]; cbn; [split; [intros _ ? []|reflexivity]|]. pose proof (filter_le_length f l) as B. destruct (f x) eqn:E; cbn.
  - split.
    + intros H y [<-|Q]; [exact E|]. apply IH; [lia|exact Q].
    + intro H. f_equal. apply IH. auto.
  - split; [lia|]. intro H. rewrite (H x (or_introl eq_refl)) in E. discriminate.
Qed.
Lemma ratio_one L m w : 0 < L -> 0 < w -> w <= L -> m <= w -> Rltb (INR (L - 1) / INR L) (INR m / INR w) = true <-> m = w.
Proof.
  intros HL HW HWL HM. unfold Rltb.
  assert (PL : (0 < INR L)%R) by (now apply lt_0_INR). assert (PW : (0 < INR w)%R) by (now apply lt_0_INR).
  assert (EL : (INR (L - 1) / INR L = 1 - / INR L)%R). { rewrite minus_INR by lia. cbn [INR]. field. lra. }
  rewrite EL. split.
  - intro H. destruct (Rlt_dec (1 - / INR L) (INR m / INR w)) as [C|]; [|discriminate].
    destruct (Nat.eq_dec m w) as [|N]; [assumption|]. exfalso.
    assert (M1 : (INR m <= INR w - 1)%R). { assert (K : (INR (S m) <= INR w)%R) by (apply le_INR; lia). rewrite S_INR in K. lra. }
    assert (D : (INR m / INR w <= (INR w - 1) / INR w)%R). { unfold Rdiv. apply Rmult_le_compat_r; [left; now apply Rinv_0_lt_compat|exact M1]. }
    assert (F : ((INR w - 1) / INR w = 1 - / INR w)%R) by (field; lra).
    assert (G : (/ INR L <= / INR w)%R). { apply Rinv_le_contravar; [exact PW|]. now apply le_INR. }
    lra.
  - intros ->. destruct (Rlt_dec (1 - / INR L) (INR w / INR w)) as [|C]; [reflexivity|]. exfalso. apply C.
    assert (INR w / INR w = 1)%R by (field; lra). pose proof (Rinv_0_lt_compat _ PL). lra.
Qed.
Lemma rolling_length L l : length (rolling_blank L l) = length l.
Proof. unfold rolling_blank. now rewrite map_length, seq_length. Qed.
Lemma window_nth {A} (l : list A) i L k : i < length l -> nth_error (skipn (S i - L) (firstn (S i) l)) k =
  if (S i - L + k <? S i) then nth_error l (S i - L + k) else None.
Proof.
  intro H. rewrite nth_error_skipn. destruct (Nat.ltb_spec (S i - L + k) (S i)) as [C|C].
  - now apply nth_error_firstn.
  - apply nth_error_None. rewrite firstn_length. lia.
Qed.
Lemma rolling_spec L l i : 0 < L -> i < length l ->
  nth_error (rolling_blank L l) i = Some true <-> forall j, j <= i -> i < j + L -> missing l j.
Proof.
  intros HL HI. unfold rolling_blank. rewrite nth_error_map, nth_error_seq by exact HI. cbn [option_map].
  set (w := skipn (S i - L) (firstn (S i) l)). set (f := fun v : option R => match v with None => true | Some _ => false end).
  assert (WL : length w = S i - (S i - L)) by (unfold w; rewrite skipn_length, firstn_length; lia).
  assert (E : Rltb (INR (L - 1) / INR L) (INR (length (filter f w)) / INR (length w)) = true <-> length (filter f w) = length w).
  { apply ratio_one; try lia. apply filter_le_length. }
  assert (Q : Some (Rltb (INR (L - 1) / INR L) (INR (length (filter f w)) / INR (length w))) = Some true <-> length (filter f w) = length w).
  { rewrite <- E. split; congruence. }
  rewrite Q, filter_length_all. split.
  - intros H j J1 J2. assert (N : nth_error w (j - (S i - L)) = nth_error l j).
    { unfold w. rewrite window_nth by exact HI. replace (S i - L + (j - (S i - L))) with j by lia. destruct (Nat.ltb_spec j (S i)); [reflexivity|lia]. }
    unfold missing. rewrite <- N. destruct (nth_error w (j - (S i - L))) as [x|] eqn:EX.
    + specialize (H x (nth_error_In _ _ EX)). destruct x; [discriminate|reflexivity].
    + apply nth_error_None in EX. lia.
  - intros H x X. apply In_nth_error in X. destruct X as [k X]. unfold w in X. rewrite window_nth in X by exact HI.
    destruct (Nat.ltb_spec (S i - L + k) (S i)); [|discriminate]. specialize (H (S i - L + k) ltac:(lia) ltac:(lia)). unfold missing in H.
    assert (x = None) by congruence. subst. reflexivity.
Qed.
Lemma blank_spec L l i : 0 < L -> i < length l ->
  nth_error (rolling_blank L (interpolate L l)) i = Some true <-> long_open L l i.
Proof.
  intros HL HI. rewrite rolling_spec by (rewrite ?interpolate_length; auto). unfold long_open. split.
  - intro H. split; [exact HI|]. intros j J1 J2. apply interp_missing_iff. auto.
  - intros [_ H] j J1 J2. apply interp_missing_iff. auto.
Qed.
Lemma mask_spec L l j : 0 < L -> 2 * L <= length l -> j < length l ->
  let blanks := rolling_blank L (interpolate L l) in
  nth_error (repeat false L ++ map2 orb (firstn (length blanks - 2 * L) blanks) (skipn (2 * L) blanks) ++ repeat false L) j = Some true
  <-> erased L l j.
Proof.
  intros HL HN HJ. cbv zeta. set (blanks := rolling_blank L (interpolate L l)).
  assert (BL : length blanks = length l) by (unfold blanks; rewrite rolling_length; apply interpolate_length). rewrite BL.
  assert (ML : length (map2 orb (firstn (length l - 2 * L) blanks) (skipn (2 * L) blanks)) = length l - 2 * L).
  { rewrite map2_len, firstn_length, skipn_length, BL. lia. }
  assert (RF : forall n k, nth_error (repeat false n) k <> Some true).
  { intros n k Q. apply nth_error_In, repeat_spec in Q. discriminate. }
  unfold erased. destruct (Nat.lt_ge_cases j L) as [C|C].
  { rewrite nth_error_app1 by (rewrite repeat_length; exact C). split; [intro Q; now apply RF in Q|lia]. }
  rewrite nth_error_app2 by (rewrite repeat_length; exact C). rewrite repeat_length.
  destruct (Nat.lt_ge_cases (j - L) (length l - 2 * L)) as [D|D].
  - rewrite nth_error_app1 by (rewrite ML; exact D). rewrite nth_error_map2, nth_error_firstn, nth_error_skipn by lia.
    replace (2 * L + (j - L)) with (j + L) by lia.
    pose proof (blank_spec L l (j - L) HL ltac:(lia)) as B1. pose proof (blank_spec L l (j + L) HL ltac:(lia)) as B2. fold blanks in B1, B2.
    destruct (nth_error blanks (j - L)) as [x|] eqn:E1; [|apply nth_error_None in E1; lia].
    destruct (nth_error blanks (j + L)) as [y|] eqn:E2; [|apply nth_error_None in E2; lia].
    rewrite <- B1, <- B2. split.
    + intro Q. split; [exact C|]. split; [lia|]. destruct x; [now left|]. destruct y; [now right|discriminate].
    + intros (_ & _ & [Q|Q]); assert (true = true) by reflexivity; [assert (x = true) by congruence; subst; reflexivity|assert (y = true) by congruence; subst; destruct x; reflexivity].
  - rewrite nth_error_app2 by (rewrite ML; exact D). split; [intro Q; now apply RF in Q|lia].
Qed.
Lemma column_ok L l : (exists out, interp_column L l = Ok out) <-> 0 < L /\ 2 * L <= length l.
Proof.
  unfold interp_column. destruct (Nat.eqb_spec L 0) as [->|N]; [split; [intros [? ?]; discriminate|lia]|].
  rewrite !app_length, !repeat_length, map2_len, firstn_length, skipn_length, !rolling_length, !interpolate_length.
  destruct (Nat.eqb_spec (L + (Nat.min (Nat.min (length l - 2 * L) (length l)) (length l - 2 * L) + L)) (length l)) as [E|E].
  - split; [lia|]. eauto.
  - split; [intros [? ?]; discriminate|lia].
Qed.
Lemma column_err L l e : interp_column L l = Err e -> e = ValueError.
Proof. unfold interp_column. destruct (L =? 0); [congruence|]. match goal with |- context [if ?c then _ else _] => destruct c end; congruence. Qed.
Lemma column_value L l out : interp_column L l = Ok out ->
  length out = length l /\ forall j, j < length l ->
    (erased L l j -> missing out j) /\
    (~ erased L l j ->
      (forall v, present l j v -> present out j v) /\
      (left_open L l j -> missing out j) /\
      (forall p q a b, in_gap l p q j -> present l p a -> present l q b -> j <= p + L -> present out j (on_line p q a b j))).
Proof.
  intro E. assert (HC : 0 < L /\ 2 * L <= length l) by (apply column_ok; eauto). destruct HC as [HL HN]. revert E.
  unfold interp_column. destruct (Nat.eqb_spec L 0) as [->|N]; [discriminate|].
  set (d := interpolate L l). set (blanks := rolling_blank L d).
  set (mask := repeat false L ++ map2 orb (firstn (length blanks - 2 * L) blanks) (skipn (2 * L) blanks) ++ repeat false L).
  destruct (Nat.eqb_spec (length mask) (length l)) as [EM|]; [|discriminate]. intro E. assert (EO : out = map2 (fun b v => blank b v) mask d) by congruence. subst out.
  split. { rewrite map2_len, EM. unfold d. rewrite interpolate_length. lia. }
  intros j HJ. pose proof (mask_spec L l j HL HN HJ) as MS. cbv zeta in MS. change (interpolate L l) with d in MS.
  change (rolling_blank L d) with blanks in MS. change (nth_error mask j = Some true <-> erased L l j) in MS.
  destruct (nth_error mask j) as [b|] eqn:EB; [|apply nth_error_None in EB; lia].
  unfold present, missing. rewrite !nth_error_map2, EB.
  destruct (nth_error d j) as [v|] eqn:ED; [|apply nth_error_None in ED; unfold d in ED; rewrite interpolate_length in ED; lia].
  split.
  - intro Q. apply MS in Q. assert (b = true) by congruence. subst. reflexivity.
  - intro Q. assert (b = false) by (destruct b; [exfalso; apply Q; now apply MS|reflexivity]). subst b. cbn [blank]. repeat split.
    + intros x V. pose proof (interp_present L l j x V) as X. unfold present in X. fold d in X. congruence.
    + intro LO. pose proof (interp_open L l j LO) as X. unfold missing in X. fold d in X. congruence.
    + intros p q a c G PA PB HP. pose proof (interp_gap L l p q j a c G PA PB HP) as X. unfold present in X. fold d in X. congruence.
Qed.
Lemma in_combine_F2 {A B} (P : A -> B -> Prop) l l' a b : Forall2 P l l' -> In (a, b) (combine l l') -> P a b.
Proof. induction 1 as [|x y l l' HP HF IH]; cbn; [intros []|]. intros [Q|Q]; [|auto]. assert (x = a) by congruence. assert (y = b) by congruence. now subst. Qed.
Lemma nan_columns cols L outs l out : interp_nan cols L = Ok outs -> In (l, out) (combine cols outs) -> interp_column L l = Ok out.
Proof. intros E I. unfold interp_nan in E. apply mapM_ok_iff in E. eapply (in_combine_F2 (fun x y => interp_column L x = Ok y)); eassumption. Qed.

(*@ C79 interp_nan succeeds exactly when the limit is positive and every column has at least twice as many samples; otherwise it
    raises ValueError. *)
Lemma gaps_ok : forall cols limit,
  ((exists outs, interp_nan cols limit = Ok outs) <-> forall l, In l cols -> 0 < limit /\ 2 * limit <= length l) /\
  forall e, interp_nan cols limit = Err e -> e = ValueError.
Proof.
  intros cols L. unfold interp_nan. split.
  - induction cols as [|c cols IH]; cbn [mapM]; [split; [intros _ l []|eauto]|]. split.
    + intros [outs E]. destruct (interp_column L c) as [o|] eqn:EC; [|discriminate]. cbn [rbind] in E.
      destruct (mapM (interp_column L) cols) as [os|] eqn:EM; [|discriminate]. intros l [<-|Q]; [apply column_ok; eauto|]. apply IH; eauto.
    + intro H. destruct (proj2 (column_ok L c) (H c (or_introl eq_refl))) as [o ->]. cbn [rbind].
      destruct (proj2 IH) as [os ->]; [intros; apply H; now right|]. cbn [rbind]. eauto.
  - intro e. induction cols as [|c cols IH]; cbn [mapM]; [discriminate|].
    destruct (interp_column L c) as [o|x] eqn:EC; cbn [rbind].
    + destruct (mapM (interp_column L) cols); cbn [rbind]; [discriminate|auto].
    + intro Q. assert (x = e) by congruence. subst. now apply column_err in EC.
Qed.
(*@ C79 Every sample of every column: blanked ones are missing; otherwise observed samples are unchanged, samples at most [limit] steps
    into a gap between observations lie on the straight line between its two neighbours, and all other gaps stay missing. *)
Lemma gaps_value : forall cols limit outs, interp_nan cols limit = Ok outs ->
  length outs = length cols /\ forall l out, In (l, out) (combine cols outs) ->
  length out = length l /\ forall j, j < length l ->
    (erased limit l j -> missing out j) /\
    (~ erased limit l j ->
      (forall v, present l j v -> present out j v) /\
      (left_open limit l j -> missing out j) /\
      (forall p q a b, in_gap l p q j -> present l p a -> present l q b -> j <= p + limit -> present out j (on_line p q a b j))).
Proof.
  intros cols L outs E. split; [unfold interp_nan in E; now apply mapM_length in E|]. intros l out I. apply column_value. now apply (nan_columns cols L outs).
Qed.
(*@ C79 Each sample falls under exactly one of these cases. *)
Lemma gaps_cases : forall limit l j, j < length l ->
  let seen := exists v, present l j v in
  let open := left_open limit l j in
  let filled := exists p q a b, in_gap l p q j /\ present l p a /\ present l q b /\ j <= p + limit in
  (seen \/ open \/ filled) /\ ~ (seen /\ open) /\ ~ (seen /\ filled) /\ ~ (open /\ filled).
Proof.
  intros L l j H. cbv zeta. split; [now apply interp_cases|].
  assert (OM : left_open L l j -> missing l j).
  { intros [[_ Q]|[[QL Q]|(p & q & G & _)]]; [apply Q; lia|apply Q; lia|now apply (gap_missing l p q)]. }
  repeat split.
  - intros [[v V] Q]. exact (present_not_missing _ _ _ V (OM Q)).
  - intros [[v V] (p & q & a & b & G & _)]. exact (present_not_missing _ _ _ V (gap_missing _ _ _ _ G)).
  - intros [[Q|[Q|(p' & q' & G' & HL)]] (p & q & a & b & G & _ & _ & HP)].
    + now apply (gap_not_lead _ _ _ _ G).
    + now apply (gap_not_tail _ _ _ _ G).
    + destruct (gap_unique _ _ _ _ _ _ G G'). subst. lia.
Qed.
(*@ C79 Nothing is blanked when the column starts with an observation, every gap is shorter than twice the limit and fewer than
    [limit] samples are missing at the end: all observations survive, and gaps of at most [limit] samples are filled completely. *)
Lemma gaps_short : forall cols limit outs l out,
  interp_nan cols limit = Ok outs -> In (l, out) (combine cols outs) ->
  (exists v, present l 0 v) ->
  (forall p q i, in_gap l p q i -> q - p - 1 < 2 * limit) ->
  (forall i, in_tail l i -> length l < i + limit) ->
  (forall j v, present l j v -> present out j v) /\
  (forall p q j a b, in_gap l p q j -> q - p - 1 <= limit -> present l p a -> present l q b -> present out j (on_line p q a b j)).
Proof.
  intros cols L outs l out E I [v0 V0] HG HT. pose proof (nan_columns cols L outs l out E I) as EC.
  assert (HC : 0 < L /\ 2 * L <= length l) by (apply column_ok; eauto). destruct HC as [HL HN].
  destruct (column_value L l out EC) as [_ CV].
  assert (NL : forall i, ~ long_open L l i).
  { intros i [LI Q]. assert (LO : left_open L l i) by (apply Q; lia).
    destruct LO as [[_ M]|[T|(p & q & G & HP)]].
    - apply (present_not_missing l 0 v0 V0). apply M. lia.
    - pose proof (HT i T) as HTi. destruct T as [_ T].
      (* the first sample of the window *)
      assert (LO : left_open L l (i - (L - 1))) by (apply Q; lia).
      destruct LO as [[_ M]|[T'|(p & q & G & HP)]].
      + apply (present_not_missing l 0 v0 V0). apply M. lia.
      + apply HT in T'. lia.
      + destruct (interp_cases L l (i - (L - 1))) as [[v V]|_]; [lia|exact (present_not_missing _ _ _ V (gap_missing _ _ _ _ G))|].
        (* the gap would end inside the window, at an observation *)
        destruct G as (G1 & G2 & (b & G3) & G4). destruct (Nat.le_gt_cases q i) as [C|C].
        * assert (LQ : left_open L l q) by (apply Q; lia). apply (present_not_missing l q b G3).
          destruct LQ as [[_ M]|[[ML M]|(p' & q' & G' & _)]]; [apply M; lia|apply M; lia|now apply (gap_missing l p' q')].
        * apply (present_not_missing l q b G3). apply T. apply present_lt in G3. lia.
    - (* a gap of at least 2 limit samples *)
      pose proof (HG p q i G) as HS. destruct G as (G1 & (a & G2) & (b & G3) & G4).
      assert (LO : left_open L l (i - (L - 1))) by (apply Q; lia).
      destruct (Nat.le_gt_cases (i - (L - 1)) p) as [C|C].
      + assert (LP : left_open L l p) by (apply Q; lia). apply (present_not_missing l p a G2).
        destruct LP as [[_ M]|[[ML M]|(p' & q' & G' & _)]]; [apply M; lia|apply M; lia|now apply (gap_missing l p' q')].
      + destruct LO as [[_ M]|[[_ M]|(p' & q' & G' & HP')]].
        * apply (present_not_missing l p a G2). apply M. lia.
        * apply (present_not_missing l q b G3). apply M. apply present_lt in G3. lia.
        * assert (GG : in_gap l p q (i - (L - 1))) by (split; [lia|]; split; [eauto|]; split; [eauto|exact G4]).
          destruct (gap_unique _ _ _ _ _ _ G' GG). subst. lia. }
  assert (NE : forall j, ~ erased L l j) by (intros j (_ & _ & [Q|Q]); now apply NL in Q).
  split.
  - intros j v V. destruct (CV j (present_lt _ _ _ V)) as [_ C]. now apply C.
  - intros p q j a b G HS PA PB. pose proof (gap_missing _ _ _ _ G) as M.
    destruct (CV j) as [_ C]; [apply nth_error_Some; unfold missing in M; congruence|]. destruct (C (NE j)) as (_ & _ & C3).
    apply C3; auto. destruct G as [G _]. lia.
Qed.
(*@ C79 An observation is lost after any gap at the start, even of one sample: the sample [limit] steps from the start is blanked. *)
Lemma gaps_leading_loss : forall cols limit outs l out,
  interp_nan cols limit = Ok outs -> In (l, out) (combine cols outs) -> missing l 0 -> 2 * limit < length l -> missing out limit.
Proof.
  intros cols L outs l out E I M HN. pose proof (nan_columns cols L outs l out E I) as EC.
  assert (HC : 0 < L /\ 2 * L <= length l) by (apply column_ok; eauto). destruct HC as [HL _].
  destruct (column_value L l out EC) as [_ CV]. destruct (CV L) as [C _]; [lia|]. apply C.
  split; [lia|]. split; [lia|]. left. rewrite Nat.sub_diag. split; [lia|]. intros j J _. replace j with 0 by lia. left. split; [lia|]. intros k K. now replace k with 0 by lia.
Qed.
(*@ C79 A gap of at least twice the limit also erases observations behind it, and the last value filled at its start. *)
Lemma gaps_long_loss : forall cols limit outs l out p q i,
  interp_nan cols limit = Ok outs -> In (l, out) (combine cols outs) -> in_gap l p q i -> 2 * limit <= q - p - 1 ->
  missing out (p + limit) /\
  forall j, q <= j < q + limit -> p + 3 * limit <= j -> j + limit < length l -> missing out j.
Proof.
  intros cols L outs l out p q i E I G HS. pose proof (nan_columns cols L outs l out E I) as EC.
  assert (HC : 0 < L /\ 2 * L <= length l) by (apply column_ok; eauto). destruct HC as [HL _].
  destruct (column_value L l out EC) as [_ CV]. destruct G as (G1 & G2 & G3 & G4). assert (LQ : q < length l) by (destruct G3 as [b G3]; now apply present_lt in G3).
  assert (LO : forall k, p + 2 * L <= k < q -> long_open L l k).
  { intros k K. split; [lia|]. intros j J1 J2. right. right. exists p, q. split; [|lia]. split; [lia|]. auto. }
  split.
  - destruct (CV (p + L)) as [C _]; [lia|]. destruct (Nat.lt_ge_cases (p + L + L) (length l)) as [D|D]; [|lia].
    apply C. split; [lia|]. split; [exact D|]. right. apply LO. lia.
  - intros j J1 J2 J3. destruct (CV j) as [C _]; [lia|]. apply C. split; [lia|]. split; [exact J3|]. left. apply LO. lia.
Qed.
(*@ C79 The documented rule is false: a gap longer than the limit does not stay missing; its first samples are filled. *)
Lemma gaps_rule_refuted : exists l out,
  interp_nan [l] 2 = Ok [out] /\ (forall j, 1 <= j <= 3 -> missing l j) /\ in_gap l 0 4 1 /\ present out 1 (11 / 4)%R /\ present out 2 (7 / 2)%R /\ missing out 3.
Proof.
  set (l := [Some 2; None; None; None; Some 5]%R).
  destruct (proj2 (column_ok 2 l)) as [out E]; [cbn; lia|].
  exists l, out. assert (EN : interp_nan [l] 2 = Ok [out]) by (unfold interp_nan; cbn [mapM]; now rewrite E). split; [exact EN|].
  assert (M : forall j, 1 <= j <= 3 -> missing l j) by (intros [|[|[|[|j]]]] J; try lia; reflexivity). split; [exact M|].
  assert (G : forall i, 1 <= i <= 3 -> in_gap l 0 4 i).
  { intros i HI. split; [lia|]. split; [exists 2%R; reflexivity|]. split; [exists 5%R; reflexivity|]. intros j J. apply M. lia. }
  split; [apply G; lia|]. destruct (column_value 2 l out E) as [_ CV].
  assert (NE : forall j, j < 5 -> ~ erased 2 l j).
  { intros j J (A & B & D). cbn [length l] in B. assert (j = 2) by lia. subst. cbn [Nat.sub Nat.add] in D. destruct D as [[_ D]|[_ D]].
    - specialize (D 0 ltac:(lia) ltac:(lia)). destruct D as [[_ D]|[[_ D]|(p & q & GG & _)]]; [specialize (D 0 ltac:(lia))|specialize (D 0 ltac:(cbn; lia))|apply gap_missing in GG]; discriminate.
    - specialize (D 4 ltac:(lia) ltac:(lia)). destruct D as [[_ D]|[[_ D]|(p & q & GG & _)]]; [specialize (D 4 ltac:(lia))|specialize (D 4 ltac:(cbn; lia))|apply gap_missing in GG]; discriminate. }
  repeat split.
  - destruct (CV 1) as [_ C]; [cbn; lia|]. destruct (C (NE 1 ltac:(lia))) as (_ & _ & C3).
    specialize (C3 0 4 2%R 5%R (G 1 ltac:(lia)) eq_refl eq_refl ltac:(lia)). replace (11/4)%R with (on_line 0 4 2 5 1); [exact C3|]. unfold on_line. cbn. field.
  - destruct (CV 2) as [_ C]; [cbn; lia|]. destruct (C (NE 2 ltac:(lia))) as (_ & _ & C3).
    specialize (C3 0 4 2%R 5%R (G 2 ltac:(lia)) eq_refl eq_refl ltac:(lia)). replace (7/2)%R with (on_line 0 4 2 5 2); [exact C3|]. unfold on_line. cbn. field.
  - destruct (CV 3) as [_ C]; [cbn; lia|]. destruct (C (NE 3 ltac:(lia))) as (_ & C2 & _). apply C2. right. right. exists 0, 4. split; [apply G; lia|lia].
Qed.
(*@ex C79 *)
Lemma gaps_ex : let l := [Some 1; None; Some 3; Some 5]%R in
  (exists outs, interp_nan [l] 1 = Ok outs) /\ in_gap l 0 2 1 /\ (exists v, present l 0 v) /\
  (forall p q i, in_gap l p q i -> q - p - 1 < 2 * 1) /\ (forall i, in_tail l i -> length l < i + 1).
Proof.
  cbv zeta. split; [apply gaps_ok; intros l [<-|[]]; cbn; lia|]. split.
  { split; [lia|]. split; [exists 1%R; reflexivity|]. split; [exists 3%R; reflexivity|]. intros j J. replace j with 1 by lia. reflexivity. }
  split; [exists 1%R; reflexivity|]. split.
  - intros p q i (A & _ & _ & M). destruct (Nat.le_gt_cases (q - p - 1) 1) as [|C]; [lia|]. exfalso.
    assert (M1 : missing [Some 1; None; Some 3; Some 5]%R (S p)) by (apply M; lia).
    assert (M2 : missing [Some 1; None; Some 3; Some 5]%R (S (S p))) by (apply M; lia).
    destruct p as [|[|[|[|p]]]]; discriminate.
  - intros i [A M]. exfalso. cbn in A. specialize (M 3 ltac:(cbn; lia)). discriminate.
Qed.
