(** Cleaning of the HOPE data: flags by label, gaps on arbitrary time stamps. *)
From Coq Require Import String Reals Lra Permutation.
From Verif Require Import Prelude PreludeFacts P_list RealBase M_hope M_field_remap M_clean Spec_dataio Spec_field Spec_clean X_dataio_clean.

Lemma never_down_spec times : never_down times = true <-> rising times.
Proof.
  unfold rising. induction times as [|a [|b r] IH].
  - split; [cbn; lia|reflexivity].
  - split; [|reflexivity]. intros _ i j J. cbn in J. assert (i = 0) by lia. assert (j = 0) by lia. subst. lia.
  - cbn [never_down]. change (match r with [] => true | b0 :: _ => (b <=? b0)%Z && never_down r end) with (never_down (b :: r)) in *.
    rewrite Bool.andb_true_iff, Z.leb_le, IH. split.
    + intros [A B] i j J. destruct i as [|i].
      * destruct j as [|j]; [cbn; lia|]. specialize (B 0 j). cbn [length] in *. specialize (B ltac:(lia)). cbn [nth] in *. lia.
      * destruct j as [|j]; [lia|]. apply (B i j). cbn [length] in *. lia.
    + intro B. split; [apply (B 0 1); cbn; lia|]. intros i j J. apply (B (S i) (S j)). cbn [length] in *. lia.
Qed.
Lemma nth_opp times i : nth i (map Z.opp times) 0%Z = (- nth i times 0)%Z.
Proof. change 0%Z with (Z.opp 0%Z) at 1. apply map_nth. Qed.
Lemma falling_spec times : never_down (map Z.opp times) = true <-> falling times.
Proof.
  rewrite never_down_spec. unfold rising, falling. rewrite map_length. split; intros H i j J; specialize (H i j J); rewrite ?nth_opp in *; lia.
Qed.
Lemma within_opp L times i j : within L (map Z.opp times) i j <-> within L times i j.
Proof. unfold within. rewrite !nth_opp. split; intros [A B]; split; lia. Qed.
Lemma mostly_opp L times l i : mostly_open L (map Z.opp times) l i <-> mostly_open L times l i.
Proof.
  unfold mostly_open. split; intros (W & K & NW & NK & HW & HK & C); exists W, K; (split; [exact NW|]); (split; [exact NK|]).
  - split; [intro j; rewrite HW; apply within_opp|]. split; [intro j; rewrite HK, within_opp; tauto|exact C].
  - split; [intro j; rewrite HW; now rewrite within_opp|]. split; [intro j; rewrite HK, within_opp; tauto|exact C].
Qed.

Lemma combine_firstn (times : list Z) (d : list (option R)) i : i < length d -> length times = length d ->
  firstn (S i) (combine times d) = map (fun j => (nth j times 0%Z, nth j d None)) (seq 0 (S i)).
Proof.
  intros HI HL. apply nth_error_ext. intro k. rewrite nth_error_map.
  destruct (Nat.lt_ge_cases k (S i)) as [C|C].
  - rewrite nth_error_firstn by exact C. rewrite nth_error_seq by exact C. cbn [option_map Nat.add].
    assert (KL : k < length (combine times d)) by (rewrite combine_length; lia).
    rewrite (nth_error_nth' _ (0%Z, None) KL). f_equal. now apply combine_nth.
  - replace (nth_error (seq 0 (S i)) k) with (@None nat) by (symmetry; apply nth_error_None; rewrite seq_length; exact C).
    apply nth_error_None. rewrite firstn_length. lia.
Qed.
Lemma filter_map_len {A B} (f : A -> B) (p : B -> bool) l : length (filter p (map f l)) = length (filter (fun x => p (f x)) l).
Proof. induction l as [|x l IH]; cbn; [reflexivity|]. destruct (p (f x)); cbn; now rewrite IH. Qed.
Lemma filter_map {A B} (f : A -> B) (p : B -> bool) l : filter p (map f l) = map f (filter (fun x => p (f x)) l).
Proof. induction l as [|x l IH]; cbn; [reflexivity|]. destruct (p (f x)); cbn; now rewrite IH. Qed.
Lemma filter_split {A} (p : A -> bool) l : length (filter p l) + length (filter (fun x => negb (p x)) l) = length l.
Proof. induction l as [|x l IH]; cbn; [reflexivity|]. destruct (p x); cbn; lia. Qed.
Lemma same_count (a b : list nat) : NoDup a -> NoDup b -> (forall j, In j a <-> In j b) -> length a = length b.
Proof. intros NA NB E. apply Permutation_length. now apply NoDup_Permutation. Qed.
Lemma ratio_few L g k : 0 < L -> 0 < g + k -> Rltb (INR (L - 1) / INR L) (INR g / INR (g + k)) = true <-> L * k < g + k.
Proof.
  intros HL HW. unfold Rltb.
  assert (PL : (0 < INR L)%R) by (now apply lt_0_INR). assert (PW : (0 < INR (g + k))%R) by (now apply lt_0_INR).
  assert (E : (INR (L - 1) / INR L < INR g / INR (g + k) <-> INR L * INR k < INR (g + k))%R).
  { assert (EL : (INR (L - 1) / INR L = 1 - / INR L)%R). { rewrite minus_INR by lia. cbn [INR]. field. lra. }
    assert (EW : (INR g / INR (g + k) = 1 - INR k / INR (g + k))%R). { rewrite plus_INR in *. field. lra. }
    rewrite EL, EW. split; intro Q.
    - assert (Q1 : (INR k / INR (g + k) < / INR L)%R) by lra.
      assert (PP : (0 < INR L * INR (g + k))%R) by now apply Rmult_lt_0_compat.
      pose proof (Rmult_lt_compat_l (INR L * INR (g + k)) _ _ PP Q1) as Q2.
      replace (INR L * INR (g + k) * (INR k / INR (g + k)))%R with (INR L * INR k)%R in Q2 by (field; lra).
      replace (INR L * INR (g + k) * / INR L)%R with (INR (g + k))%R in Q2 by (field; lra). exact Q2.
    - assert (Q1 : (INR k / INR (g + k) < / INR L)%R); [|lra].
      apply (Rmult_lt_reg_l (INR L * INR (g + k))); [now apply Rmult_lt_0_compat|].
      replace (INR L * INR (g + k) * (INR k / INR (g + k)))%R with (INR L * INR k)%R by (field; lra).
      replace (INR L * INR (g + k) * / INR L)%R with (INR (g + k))%R by (field; lra). exact Q. }
  rewrite <- mult_INR in E. destruct (Rlt_dec (INR (L - 1) / INR L) (INR g / INR (g + k))) as [C|C].
  - split; [intros _|reflexivity]. apply E in C. now apply INR_lt in C.
  - split; [discriminate|]. intro Q. exfalso. apply C, E. now apply lt_INR.
Qed.
Lemma rolling_t_length L times l : length (rolling_blank_t L times l) = length l.
Proof. unfold rolling_blank_t. now rewrite map_length, seq_length. Qed.
Lemma nth_rolling_t L times l i : i < length l -> length times = length l ->
  let inside := filter (fun j => (nth i times 0 - Z.of_nat L * ns_per_s <? nth j times 0)%Z) (seq 0 (S i)) in
  let gone := filter (fun j => match nth j l None with None => true | Some _ => false end) inside in
  nth_error (rolling_blank_t L times l) i = Some (Rltb (INR (L - 1) / INR L) (INR (length gone) / INR (length inside))).
Proof.
  intros HI HL. cbv zeta. unfold rolling_blank_t. rewrite nth_error_map, nth_error_seq by exact HI. cbn [option_map Nat.add].
  rewrite combine_firstn by auto. rewrite filter_map, filter_map_len, map_length. cbn [fst snd]. reflexivity.
Qed.
Lemma blank_t_spec L times l i : 0 < L -> rising times -> length times = length l -> i < length l ->
  nth_error (rolling_blank_t L times (interpolate L l)) i = Some true <-> mostly_open L times l i.
Proof.
  intros HL HR HT HI. set (d := interpolate L l). assert (DL : length d = length l) by apply interpolate_length.
  pose proof (nth_rolling_t L times d i ltac:(lia) ltac:(lia)) as N. cbv zeta in N. rewrite N. clear N.
  set (W := filter (fun j => (nth i times 0 - Z.of_nat L * ns_per_s <? nth j times 0)%Z) (seq 0 (S i))).
  set (isnone := fun j => match nth j d None with None => true | Some _ => false end).
  set (K := filter (fun j => negb (isnone j)) W).
  assert (HW : forall j, In j W <-> within L times i j).
  { intro j. unfold W. rewrite filter_In, in_seq, Z.ltb_lt. unfold within, ns_per_s. split; intros [A B].
    - split; [lia|]. pose proof (HR j i ltac:(lia)). lia.
    - split; [lia|]. pose proof (HR j i ltac:(lia)). lia. }
  assert (HK : forall j, In j K <-> within L times i j /\ ~ left_open L l j).
  { intro j. unfold K. rewrite filter_In, HW. split; intros [A B]; (split; [exact A|]).
    - intro Q. apply interp_open in Q. unfold missing in Q. fold d in Q. unfold isnone in B. rewrite (nth_error_nth _ _ None Q) in B. discriminate.
    - assert (JI : j < length d) by (destruct A; lia). unfold isnone. destruct (nth j d None) as [v|] eqn:E; [reflexivity|]. exfalso. apply B, interp_missing_iff.
      unfold missing. fold d. rewrite (nth_error_nth' _ None JI). now rewrite E. }
  assert (NW : NoDup W) by apply NoDup_filter, seq_NoDup. assert (NK : NoDup K) by now apply NoDup_filter.
  assert (IW : In i W). { apply HW. split; [lia|]. rewrite Z.sub_diag. cbn. lia. }
  assert (PW : 0 < length W) by (destruct W; [destruct IW|cbn; lia]).
  pose proof (filter_split isnone W) as SP. fold K in SP. rewrite <- SP at 1.
  assert (Q : Some (Rltb (INR (L - 1) / INR L) (INR (length (filter isnone W)) / INR (length (filter isnone W) + length K))) = Some true
              <-> L * length K < length W).
  { rewrite <- SP. rewrite <- (ratio_few L (length (filter isnone W)) (length K)) by lia. split; congruence. }
  rewrite Q. split.
  - intro C. exists W, K. auto.
  - intros (W' & K' & NW' & NK' & HW' & HK' & C).
    rewrite (same_count W W') by (auto; intro j; rewrite HW, HW'; tauto). rewrite (same_count K K') by (auto; intro j; rewrite HK, HK'; tauto). exact C.
Qed.
Lemma mask_t_spec L times l j : 0 < L -> 2 * L <= length l -> rising times -> length times = length l -> j < length l ->
  let blanks := rolling_blank_t L times (interpolate L l) in
  nth_error (repeat false L ++ map2 orb (firstn (length blanks - 2 * L) blanks) (skipn (2 * L) blanks) ++ repeat false L) j = Some true
  <-> erased_t L times l j.
Proof.
  intros HL HN HR HT HJ. cbv zeta. set (blanks := rolling_blank_t L times (interpolate L l)).
  assert (BL : length blanks = length l) by (unfold blanks; rewrite rolling_t_length; apply interpolate_length). rewrite BL.
  assert (ML : length (map2 orb (firstn (length l - 2 * L) blanks) (skipn (2 * L) blanks)) = length l - 2 * L).
  { rewrite map2_len, firstn_length, skipn_length, BL. lia. }
  assert (RF : forall n k, nth_error (repeat false n) k <> Some true).
  { intros n k Q. apply nth_error_In, repeat_spec in Q. discriminate. }
  unfold erased_t. destruct (Nat.lt_ge_cases j L) as [C|C].
  { rewrite nth_error_app1 by (rewrite repeat_length; exact C). split; [intro Q; now apply RF in Q|lia]. }
  rewrite nth_error_app2 by (rewrite repeat_length; exact C). rewrite repeat_length.
  destruct (Nat.lt_ge_cases (j - L) (length l - 2 * L)) as [D|D].
  - rewrite nth_error_app1 by (rewrite ML; exact D). rewrite nth_error_map2, nth_error_firstn, nth_error_skipn by lia.
    replace (2 * L + (j - L)) with (j + L) by lia.
    pose proof (blank_t_spec L times l (j - L) HL HR HT ltac:(lia)) as B1. pose proof (blank_t_spec L times l (j + L) HL HR HT ltac:(lia)) as B2. fold blanks in B1, B2.
    destruct (nth_error blanks (j - L)) as [x|] eqn:E1; [|apply nth_error_None in E1; lia].
    destruct (nth_error blanks (j + L)) as [y|] eqn:E2; [|apply nth_error_None in E2; lia].
    rewrite <- B1, <- B2. split.
    + intro Q. split; [exact C|]. split; [lia|]. destruct x; [now left|]. destruct y; [now right|discriminate].
    + intros (_ & _ & [Q|Q]); [assert (x = true) by congruence; subst; reflexivity|assert (y = true) by congruence; subst; destruct x; reflexivity].
  - rewrite nth_error_app2 by (rewrite ML; exact D). split; [intro Q; now apply RF in Q|lia].
Qed.
Lemma column_t_ok L times l : (exists out, interp_column_t L times l = Ok out) <-> 0 < L /\ 2 * L <= length l /\ (rising times \/ falling times).
Proof.
  unfold interp_column_t. destruct (Nat.eqb_spec L 0) as [->|N]; [split; [intros [? ?]; discriminate|lia]|].
  rewrite <- never_down_spec, <- falling_spec.
  assert (X : forall ts, (exists out, (let blanks := rolling_blank_t L ts (interpolate L l) in
      let front := firstn (length blanks - 2 * L) blanks in
      let back := skipn (2 * L) blanks in
      let mask := repeat false L ++ map2 orb front back ++ repeat false L in
      if length mask =? length l then Ok (map2 (fun b v => blank b v) mask (interpolate L l)) else Err ValueError) = Ok out) <-> 2 * L <= length l).
  { intro ts. cbv zeta. rewrite !app_length, !repeat_length, map2_len, firstn_length, skipn_length, !rolling_t_length, !interpolate_length.
    match goal with |- context [?a =? ?b] => destruct (Nat.eqb_spec a b) as [E|E] end.
    - split; [lia|]. eauto.
    - split; [intros [? ?]; discriminate|lia]. }
  cbv zeta in X |- *. destruct (never_down times); cbn [rbind].
  - rewrite X. intuition lia.
  - destruct (never_down (map Z.opp times)); cbn [rbind]; [rewrite X; intuition lia|]. split; [intros [? ?]; discriminate|]. intros (_ & _ & [Q|Q]); discriminate.
Qed.
Lemma column_t_err L times l e : interp_column_t L times l = Err e -> e = ValueError.
Proof.
  unfold interp_column_t. destruct (L =? 0); [congruence|]. destruct (never_down times), (never_down (map Z.opp times)); cbn [rbind]; cbv zeta; try congruence.
  all: match goal with |- context [if ?c then _ else _] => destruct c end; congruence.
Qed.
(** Running on rising stamps, or on the reversed ones. *)
Lemma column_t_rise L times l out : interp_column_t L times l = Ok out -> length times = length l ->
  exists ts, rising ts /\ length ts = length l /\ (forall j, mostly_open L ts l j <-> mostly_open L times l j) /\
    let blanks := rolling_blank_t L ts (interpolate L l) in
    let mask := repeat false L ++ map2 orb (firstn (length blanks - 2 * L) blanks) (skipn (2 * L) blanks) ++ repeat false L in
    length mask = length l /\ out = map2 (fun b v => blank b v) mask (interpolate L l).
Proof.
  intros E HT. unfold interp_column_t in E. destruct (L =? 0); [discriminate|]. cbv zeta in E |- *.
  destruct (never_down times) eqn:EU; cbn [rbind] in E.
  - exists times. apply never_down_spec in EU. split; [exact EU|]. split; [exact HT|]. split; [tauto|].
    match type of E with context [?a =? ?b] => destruct (Nat.eqb_spec a b) as [EM|EM] in E end; [|discriminate]. split; [exact EM|congruence].
  - destruct (never_down (map Z.opp times)) eqn:ED; cbn [rbind] in E; [|discriminate].
    exists (map Z.opp times). apply never_down_spec in ED. split; [exact ED|]. split; [now rewrite map_length|]. split; [intro; apply mostly_opp|].
    match type of E with context [?a =? ?b] => destruct (Nat.eqb_spec a b) as [EM|EM] in E end; [|discriminate]. split; [exact EM|congruence].
Qed.
Lemma column_t_value L times l out : interp_column_t L times l = Ok out -> length times = length l ->
  length out = length l /\ forall j, j < length l ->
    (erased_t L times l j -> missing out j) /\
    (~ erased_t L times l j ->
      (forall v, present l j v -> present out j v) /\
      (left_open L l j -> missing out j) /\
      (forall p q a b, in_gap l p q j -> present l p a -> present l q b -> j <= p + L -> present out j (on_line p q a b j))).
Proof.
  intros E HT. assert (HC : 0 < L /\ 2 * L <= length l /\ (rising times \/ falling times)) by (apply column_t_ok; eauto). destruct HC as (HL & HN & _).
  destruct (column_t_rise L times l out E HT) as (ts & HR & HT' & HM & EM & EO). clear E. cbv zeta in EM, EO.
  set (d := interpolate L l) in *. set (blanks := rolling_blank_t L ts d) in *.
  set (mask := repeat false L ++ map2 orb (firstn (length blanks - 2 * L) blanks) (skipn (2 * L) blanks) ++ repeat false L) in *. subst out.
  split. { rewrite map2_len, EM. unfold d. rewrite interpolate_length. lia. }
  intros j HJ. pose proof (mask_t_spec L ts l j HL HN HR HT' HJ) as MS. cbv zeta in MS. change (interpolate L l) with d in MS.
  change (rolling_blank_t L ts d) with blanks in MS. change (nth_error mask j = Some true <-> erased_t L ts l j) in MS.
  assert (ME : erased_t L ts l j <-> erased_t L times l j) by (unfold erased_t; rewrite !HM; tauto). rewrite ME in MS.
  destruct (nth_error mask j) as [b|] eqn:EB; [|apply nth_error_None in EB; lia].
  unfold present, missing. rewrite !nth_error_map2, EB.
  destruct (nth_error d j) as [v|] eqn:ED; [|apply nth_error_None in ED; unfold d in ED; rewrite interpolate_length in ED; lia].
  split.
  - intro Q. apply MS in Q. assert (b = true) by congruence. subst. reflexivity.
  - intro Q. assert (b = false) by (destruct b; [exfalso; apply Q; now apply MS|reflexivity]). subst b. cbn [blank]. repeat split.
    + intros x V. pose proof (interp_present L l j x V) as X. unfold present in X. fold d in X. congruence.
    + intro LO. pose proof (interp_open L l j LO) as X. unfold missing in X. fold d in X. congruence.
    + intros p q a c G PA PB HP. pose proof (interp_gap L l p q j a c G PA PB HP) as X. unfold present in X. fold d in X. congruence.
Qed.
Lemma nan_t_columns times cols L outs l out : interp_nan_t times cols L = Ok outs -> In (l, out) (combine cols outs) -> interp_column_t L times l = Ok out.
Proof. intros E I. unfold interp_nan_t in E. apply mapM_ok_iff in E. eapply (in_combine_F2 (fun x y => interp_column_t L times x = Ok y)); eassumption. Qed.

(*@ C111 interp_nan succeeds exactly when the limit is positive, every column has at least twice as many samples, and the time stamps
    never go down or never go up; otherwise it raises ValueError. *)
Lemma stamped_ok : forall times cols limit,
  ((exists outs, interp_nan_t times cols limit = Ok outs) <->
   forall l, In l cols -> 0 < limit /\ 2 * limit <= length l /\ (rising times \/ falling times)) /\
  forall e, interp_nan_t times cols limit = Err e -> e = ValueError.
Proof.
  intros times cols L. unfold interp_nan_t. split.
  - induction cols as [|c cols IH]; cbn [mapM]; [split; [intros _ l []|eauto]|]. split.
    + intros [outs E]. destruct (interp_column_t L times c) as [o|] eqn:EC; [|discriminate]. cbn [rbind] in E.
      destruct (mapM (interp_column_t L times) cols) as [os|] eqn:EM; [|discriminate]. intros l [<-|Q]; [apply column_t_ok; eauto|]. apply IH; eauto.
    + intro H. destruct (proj2 (column_t_ok L times c) (H c (or_introl eq_refl))) as [o ->]. cbn [rbind].
      destruct (proj2 IH) as [os ->]; [intros; apply H; now right|]. cbn [rbind]. eauto.
  - intro e. induction cols as [|c cols IH]; cbn [mapM]; [discriminate|].
    destruct (interp_column_t L times c) as [o|x] eqn:EC; cbn [rbind].
    + destruct (mapM (interp_column_t L times) cols); cbn [rbind]; [discriminate|auto].
    + intro Q. assert (x = e) by congruence. subst. now apply column_t_err in EC.
Qed.
(*@ C111 Every sample of every column, whatever the stamps: blanked ones are missing; otherwise observed samples are unchanged, samples
    at most [limit] positions into a gap lie on the line through its two neighbours, in position and not in time, and all other gaps
    stay missing. *)
Lemma stamped_value : forall times cols limit outs, interp_nan_t times cols limit = Ok outs ->
  length outs = length cols /\ forall l out, In (l, out) (combine cols outs) -> length times = length l ->
  length out = length l /\ forall j, j < length l ->
    (erased_t limit times l j -> missing out j) /\
    (~ erased_t limit times l j ->
      (forall v, present l j v -> present out j v) /\
      (left_open limit l j -> missing out j) /\
      (forall p q a b, in_gap l p q j -> present l p a -> present l q b -> j <= p + limit -> present out j (on_line p q a b j))).
Proof.
  intros times cols L outs E. split; [unfold interp_nan_t in E; now apply mapM_length in E|]. intros l out I. apply column_t_value. now apply (nan_t_columns times cols L outs).
Qed.
Lemma every_second_nth t0 n i : i < n -> nth i (every_second t0 n) 0%Z = (t0 + Z.of_nat i * 1000000000)%Z.
Proof.
  intro L. unfold every_second. apply nth_error_nth. rewrite nth_error_map, nth_error_seq by exact L. reflexivity.
Qed.
Lemma every_second_length t0 n : length (every_second t0 n) = n.
Proof. unfold every_second. now rewrite map_length, seq_length. Qed.
Lemma every_second_rising t0 n : rising (every_second t0 n).
Proof. intros i j J. rewrite every_second_length in J. rewrite !every_second_nth by lia. lia. Qed.
Lemma rolling_1hz L t0 l : 0 < L -> rolling_blank_t L (every_second t0 (length l)) l = rolling_blank L l.
Proof.
  intro HL. apply nth_error_ext. intro i. destruct (Nat.lt_ge_cases i (length l)) as [HI|HI].
  2:{ rewrite (proj2 (nth_error_None _ _)) by (rewrite rolling_t_length; exact HI). symmetry. apply nth_error_None. rewrite rolling_length. exact HI. }
  pose proof (rolling_spec L l i HL HI) as B.
  pose proof (nth_rolling_t L (every_second t0 (length l)) l i HI (every_second_length _ _)) as N. cbv zeta in N.
  set (W := filter (fun j => (nth i (every_second t0 (length l)) 0 - Z.of_nat L * ns_per_s <? nth j (every_second t0 (length l)) 0)%Z) (seq 0 (S i))) in *.
  set (isnone := fun j => match nth j l None with None => true | Some _ => false end) in *.
  assert (HW : forall j, In j W <-> j <= i /\ i < j + L).
  { intro j. unfold W. rewrite filter_In, in_seq, Z.ltb_lt. unfold ns_per_s. split.
    - intros [A Q]. rewrite !every_second_nth in Q by lia. lia.
    - intros [A Q]. split; [lia|]. rewrite !every_second_nth by lia. lia. }
  assert (NW : NoDup W) by apply NoDup_filter, seq_NoDup.
  assert (WL : length W <= L).
  { rewrite <- (seq_length L (S i - L)). apply NoDup_incl_length; [exact NW|]. intros j J. apply HW in J. apply in_seq. lia. }
  assert (PW : 0 < length W). { assert (IW : In i W) by (apply HW; lia). destruct W; [destruct IW|cbn; lia]. }
  assert (E : Rltb (INR (L - 1) / INR L) (INR (length (filter isnone W)) / INR (length W)) = true <-> length (filter isnone W) = length W).
  { apply ratio_one; auto. apply filter_le_length. }
  rewrite filter_length_all in E.
  assert (Q : (forall x, In x W -> isnone x = true) <-> forall j, j <= i -> i < j + L -> missing l j).
  { split.
    - intros H j J1 J2. specialize (H j (proj2 (HW j) (conj J1 J2))). unfold isnone in H. unfold missing. rewrite (nth_error_nth' _ None) by lia.
      destruct (nth j l None); [discriminate|reflexivity].
    - intros H j J. apply HW in J. specialize (H j (proj1 J) (proj2 J)). unfold missing in H. unfold isnone. now rewrite (nth_error_nth _ _ None H). }
  destruct (nth_error (rolling_blank L l) i) as [b|] eqn:EB; [|apply nth_error_None in EB; rewrite rolling_length in EB; lia].
  rewrite N. f_equal. rewrite Q in E. destruct b.
  - apply E, B. reflexivity.
  - destruct (Rltb _ _); [|reflexivity]. exfalso. assert (Some false = Some true) by (apply B, E; reflexivity). discriminate.
Qed.
(*@ C111 On stamps one second apart this is the behaviour described for 1 Hz data. *)
Lemma stamped_1hz : forall t0 n cols limit, (forall l, In l cols -> length l = n) ->
  interp_nan_t (every_second t0 n) cols limit = interp_nan cols limit.
Proof.
  intros t0 n cols L HN. unfold interp_nan_t, interp_nan. induction cols as [|c cols IH]; [reflexivity|]. cbn [mapM].
  assert (E : interp_column_t L (every_second t0 n) c = interp_column L c).
  { unfold interp_column_t, interp_column. destruct (Nat.eqb_spec L 0) as [|N]; [reflexivity|].
    rewrite (proj2 (never_down_spec _) (every_second_rising t0 n)). cbn [rbind]. cbv zeta.
    rewrite <- (HN c (or_introl eq_refl)), <- (interpolate_length L c), rolling_1hz by lia. now rewrite interpolate_length. }
  rewrite E. destruct (interp_column L c); [|reflexivity]. cbn [rbind]. rewrite IH; [reflexivity|]. intros; apply HN; now right.
Qed.
(*@ C111 Whatever the stamps, nothing is lost when a column starts and ends with an observation and no gap has more than [limit]
    samples: all observations survive and all gaps are filled. *)
Lemma stamped_short : forall times cols limit outs l out,
  interp_nan_t times cols limit = Ok outs -> In (l, out) (combine cols outs) -> length times = length l ->
  (exists v, present l 0 v) -> (exists v, present l (length l - 1) v) ->
  (forall p q i, in_gap l p q i -> q - p - 1 <= limit) ->
  (forall j v, present l j v -> present out j v) /\
  (forall p q j a b, in_gap l p q j -> present l p a -> present l q b -> present out j (on_line p q a b j)).
Proof.
  intros times cols L outs l out E I HT [v0 V0] [v1 V1] HG. pose proof (nan_t_columns times cols L outs l out E I) as EC.
  assert (HC : 0 < L /\ 2 * L <= length l /\ (rising times \/ falling times)) by (apply column_t_ok; eauto). destruct HC as (HL & HN & _).
  destruct (column_t_value L times l out EC HT) as [_ CV].
  assert (NO : forall i, ~ left_open L l i).
  { intros i [[_ M]|[[LI M]|(p & q & G & HP)]].
    - apply (present_not_missing l 0 v0 V0). apply M. lia.
    - apply (present_not_missing l (length l - 1) v1 V1). apply M. lia.
    - pose proof (HG p q i G). destruct G as [G _]. lia. }
  assert (NM : forall i, ~ mostly_open L times l i).
  { intros i (W & K & NW & NK & HW & HK & C). rewrite (same_count W K) in C; [nia|exact NW|exact NK|]. intro j. rewrite HW, HK. pose proof (NO j). tauto. }
  assert (NE : forall j, ~ erased_t L times l j) by (intros j (_ & _ & [Q|Q]); now apply NM in Q).
  split.
  - intros j v V. destruct (CV j (present_lt _ _ _ V)) as [_ C]. now apply C.
  - intros p q j a b G PA PB. pose proof (gap_missing _ _ _ _ G) as M.
    destruct (CV j) as [_ C]; [apply nth_error_Some; unfold missing in M; congruence|]. destruct (C (NE j)) as (_ & _ & C3).
    apply C3; auto. pose proof (HG p q j G). destruct G as [G _]. lia.
Qed.

(** ** Flags by label *)
Section Labels.
  Context {K C : Type} `{Label K} `{Label C}.
  Local Notation tab := (M_field_remap.table K C R).
  Lemma flag_at_cell (f : tab) k c : flag_at f k c = cell f k c.
  Proof.
    unfold flag_at, cell, t_read. destruct (pos_of c (t_cols f)) as [j|]; [|now destruct (dget (t_rows f) k)]. destruct (dget (t_rows f) k) as [row|]; [|reflexivity].
    now destruct (nth_error row j).
  Qed.
  Lemma dget_map_rows {A B} (g : K -> A -> B) (l : list (K * A)) k :
    dget (map (fun r => (fst r, g (fst r) (snd r))) l) k = match dget l k with Some v => Some (g k v) | None => None end.
  Proof.
    induction l as [|[a v] l IH]; [reflexivity|]. cbn. destruct (lab_eqb a k) eqn:E; [|exact IH]. apply lab_eqb_eq in E. now subst.
  Qed.
End Labels.
(*@ C110 flag_qc with rows and columns in any order, and labels missing on either side: the labels of the data are kept, a sample is
    blanked exactly when the flag table has a flag of at least the level under the same two labels, and kept otherwise, also where
    there is no flag at all. *)
Lemma labelled_value : forall (data flag : M_field_remap.table Z string R) level, wf_table data -> wf_table flag ->
  t_cols (flag_qc_labelled data flag level) = t_cols data /\ t_index (flag_qc_labelled data flag level) = t_index data /\
  wf_table (flag_qc_labelled data flag level) /\
  forall k c v, cell data k c = Some v ->
    ((exists x, cell flag k c = Some (Some x) /\ (level <= x)%R) -> cell (flag_qc_labelled data flag level) k c = Some None) /\
    (~ (exists x, cell flag k c = Some (Some x) /\ (level <= x)%R) -> cell (flag_qc_labelled data flag level) k c = Some v).
Proof.
  intros data flag level (NC & NI & FL) WF.
  assert (EI : t_index (flag_qc_labelled data flag level) = t_index data) by (unfold t_index, flag_qc_labelled; cbn [t_rows]; rewrite map_map; reflexivity).
  split; [reflexivity|]. split; [exact EI|]. split.
  { split; [exact NC|]. split; [now rewrite EI|]. apply Forall_forall. intros r I. unfold flag_qc_labelled in I |- *. cbn [t_rows t_cols] in *.
    apply in_map_iff in I. destruct I as (s & <- & I). cbn [snd]. rewrite Forall_forall in FL. rewrite map2_len, (FL s I). lia. }
  intros k c v V. unfold cell, t_read in V. destruct (pos_of c (t_cols data)) as [j|] eqn:EP; [|discriminate].
  destruct (dget (t_rows data) k) as [row|] eqn:ER; [|discriminate]. destruct (nth_error row j) as [w|] eqn:EJ; [|discriminate].
  assert (w = v) by congruence. subst w.
  assert (EC : cell (flag_qc_labelled data flag level) k c =
               Some (blank (match cell flag k c with Some (Some x) => Rleb level x | _ => false end) v)).
  { unfold cell at 1, t_read, flag_qc_labelled. cbn [t_rows t_cols]. rewrite EP.
    rewrite (dget_map_rows (fun k r => map2 (fun c v => blank (match flag_at flag k c with Some (Some x) => Rleb level x | _ => false end) v) (t_cols data) r)), ER.
    rewrite nth_error_map2, EJ, (pos_of_nth _ _ _ EP). now rewrite flag_at_cell. }
  rewrite EC. split.
  - intros (x & -> & L). unfold Rleb. destruct (Rle_dec level x); [reflexivity|contradiction].
  - intro N. destruct (cell flag k c) as [[x|]|]; try reflexivity. unfold Rleb. destruct (Rle_dec level x); [|reflexivity]. exfalso. apply N. eauto.
Qed.
(*@ C110 The order of the rows and columns of the flag table does not matter, nor does anything it holds under other labels. *)
Lemma labelled_order : forall (data flag flag' : M_field_remap.table Z string R) level,
  (forall k c, In k (t_index data) -> In c (t_cols data) -> cell flag k c = cell flag' k c) ->
  flag_qc_labelled data flag level = flag_qc_labelled data flag' level.
Proof.
  intros data flag flag' level E. unfold flag_qc_labelled. f_equal. apply map_ext_in. intros [k row] I. f_equal. cbn [fst snd]. unfold map2.
  apply map_ext_in. intros [c v] I'. cbn [fst snd]. rewrite !flag_at_cell, E; [reflexivity| |].
  - unfold t_index. now apply (in_map fst) in I.
  - now apply in_combine_l in I'.
Qed.
(*@ C110 On tables with the same labels in the same order this is the behaviour described for tables that line up. *)
Lemma labelled_aligned : forall (data flag : M_field_remap.table Z string R) level, wf_table data -> wf_table flag ->
  t_index data = t_index flag -> t_cols data = t_cols flag ->
  map snd (t_rows (flag_qc_labelled data flag level)) = flag_qc (map snd (t_rows data)) (map snd (t_rows flag)) level.
Proof.
  intros data flag level (NC & NI & FL) (_ & _ & FL') EI EC. unfold flag_qc_labelled, flag_qc. cbn [t_rows]. rewrite map_map.
  apply nth_error_ext. intro i. rewrite nth_error_map, nth_error_map2, !nth_error_map.
  assert (Q : nth_error (t_index data) i = nth_error (t_index flag) i) by now rewrite EI. unfold t_index in Q. rewrite !nth_error_map in Q.
  destruct (nth_error (t_rows data) i) as [[k row]|] eqn:E1; [|reflexivity]. destruct (nth_error (t_rows flag) i) as [[k' frow]|] eqn:E2; [|discriminate].
  cbn [option_map fst snd] in *. assert (k' = k) by congruence. subst k'. f_equal. rewrite Forall_forall in FL, FL'.
  pose proof (FL _ (nth_error_In _ _ E1)) as L1. pose proof (FL' _ (nth_error_In _ _ E2)) as L2. cbn [snd] in L1, L2.
  assert (DG : dget (t_rows flag) k = Some frow).
  { apply dget_NoDup; [|now apply nth_error_In in E2]. change (NoDup (t_index flag)). now rewrite <- EI. }
  apply nth_error_ext. intro j. rewrite !nth_error_map2. destruct (nth_error (t_cols data) j) as [c|] eqn:EJ.
  2:{ apply nth_error_None in EJ. rewrite (proj2 (nth_error_None row j)) by lia. reflexivity. }
  destruct (nth_error row j) as [v|] eqn:EV; [|reflexivity]. destruct (nth_error frow j) as [x|] eqn:EF.
  2:{ apply nth_error_None in EF. assert (j < length row) by (apply nth_error_Some; congruence). rewrite <- EC in L2. lia. }
  f_equal. unfold flag_at. rewrite DG, <- EC, (pos_of_NoDup _ _ _ NC EJ), EF. reflexivity.
Qed.

(*@ C110 Flags under labels the data does not have change nothing: where no label is shared, all samples are kept. *)
Lemma labelled_apart : forall (data flag : M_field_remap.table Z string R) level, wf_table data ->
  (forall k c, In k (t_index data) -> In c (t_cols data) -> ~ (In k (t_index flag) /\ In c (t_cols flag))) ->
  flag_qc_labelled data flag level = data.
Proof.
  intros [cols rws] flag level (NC & NI & FL) AP. unfold flag_qc_labelled. cbn [t_cols t_rows] in *. f_equal.
  assert (Q : forall r, In r rws -> (fst r, map2 (fun c v => blank match flag_at flag (fst r) c with Some (Some x) => Rleb level x | _ => false end v) cols (snd r)) = r).
  { intros [k row] I. cbn [fst snd]. f_equal. rewrite Forall_forall in FL. pose proof (FL _ I) as LR. cbn [snd] in LR.
    apply nth_error_ext. intro j. rewrite nth_error_map2. destruct (nth_error cols j) as [c|] eqn:EJ.
    2:{ apply nth_error_None in EJ. symmetry. apply nth_error_None. lia. }
    destruct (nth_error row j) as [v|]; [|reflexivity]. f_equal. unfold flag_at.
    destruct (dget (t_rows flag) k) as [fr|] eqn:ED; [|reflexivity]. destruct (pos_of c (t_cols flag)) as [m|] eqn:EP; [|reflexivity]. exfalso.
    apply (AP k c); [unfold t_index; now apply (in_map fst) in I|now apply nth_error_In in EJ|]. split; [now apply dget_Some_key in ED|].
    apply pos_of_nth, nth_error_In in EP. exact EP. }
  rewrite <- (map_id rws) at 2. apply map_ext_in. exact Q.
Qed.
Definition seen_demo : M_field_remap.table Z string R := mkTable ["a"; "b"]%string [(0%Z, [Some 5; Some 6]); (1%Z, [Some 7; None])]%R.
Definition flag_demo : M_field_remap.table Z string R := mkTable ["b"; "x"; "a"]%string [(1%Z, [Some 3; Some 9; Some 2]); (7%Z, [Some 9; Some 9; Some 9])]%R.
(*@ex C110 The flags list the columns in another order, one more column, and not all rows. *)
Lemma labelled_ex : wf_table seen_demo /\ wf_table flag_demo /\
  flag_qc_labelled seen_demo flag_demo 2 = mkTable ["a"; "b"]%string [(0%Z, [Some 5; Some 6]); (1%Z, [None; None])]%R /\
  flag_qc_labelled seen_demo flag_demo 3 = seen_demo.
Proof.
  assert (A : Rleb 2 2 = true) by (unfold Rleb; destruct (Rle_dec 2 2); [reflexivity|exfalso; lra]).
  assert (B : Rleb 3 2 = false) by (unfold Rleb; destruct (Rle_dec 3 2); [exfalso; lra|reflexivity]).
  split; [|split; [|split]].
  - repeat split; repeat constructor; cbn; intuition discriminate.
  - repeat split; repeat constructor; cbn; intuition discriminate.
  - unfold flag_qc_labelled, flag_at, seen_demo, flag_demo. cbn -[Rleb]. rewrite A. destruct (Rleb 2 3); reflexivity.
  - unfold flag_qc_labelled, flag_at, seen_demo, flag_demo. cbn -[Rleb]. rewrite B. destruct (Rleb 3 3); reflexivity.
Qed.

(** ** A jump in the stamps *)
Definition jump_column : list (option R) := [Some 1; Some 1; Some 1; None; None; None; Some 1; Some 8; Some 1; Some 1]%R.
(** One second apart, but ten before the third missing sample. *)
Definition jump_times : list Z := map (fun s => (s * 1000000000)%Z) [0; 1; 2; 3; 4; 14; 15; 16; 17; 18]%Z.
Lemma jump_gap : in_gap jump_column 2 6 5.
Proof.
  split; [lia|]. split; [exists 1%R; reflexivity|]. split; [exists 1%R; reflexivity|]. intros j J.
  assert (C : j = 3 \/ j = 4 \/ j = 5) by lia. destruct C as [C|C]; [|destruct C as [C|C]]; subst; reflexivity.
Qed.
Lemma jump_rising : rising jump_times.
Proof. apply never_down_spec. reflexivity. Qed.
(*@ C111 The guarantee for 1 Hz data, that a gap shorter than twice the limit costs no observation, fails when the stamps jump: here a
    gap of three samples, limit two, erases the second observation after it, which is kept on stamps one second apart. *)
Lemma stamped_jump_refuted : exists times l out out',
  interp_nan_t times [l] 2 = Ok [out] /\ interp_nan_t (every_second 0 (length l)) [l] 2 = Ok [out'] /\ length times = length l /\ rising times /\
  (exists v, present l 0 v) /\ (exists v, present l (length l - 1) v) /\ (forall p q i, in_gap l p q i -> q - p - 1 = 3) /\
  (exists v, present l 7 v /\ present out' 7 v) /\ missing out 7.
Proof.
  destruct (proj2 (column_t_ok 2 jump_times jump_column)) as [out E]; [repeat split; [lia|cbn; lia|left; exact jump_rising]|].
  destruct (proj2 (column_ok 2 jump_column)) as [out' E']; [cbn; lia|].
  assert (EN' : interp_nan [jump_column] 2 = Ok [out']) by (unfold interp_nan; cbn [mapM]; now rewrite E').
  assert (HG : forall p q i, in_gap jump_column p q i -> q - p - 1 = 3).
  { intros p q i G. pose proof (gap_missing _ _ _ _ G) as M. assert (C : i = 3 \/ i = 4 \/ i = 5).
    { unfold missing, jump_column in M. do 10 (destruct i as [|i]; [cbn in M; try discriminate; lia|]). destruct i; discriminate. }
    assert (G' : in_gap jump_column 2 6 i) by (destruct jump_gap as [_ Q]; split; [lia|exact Q]).
    destruct (gap_unique _ _ _ _ _ _ G G'). subst. reflexivity. }
  assert (EN : interp_nan_t jump_times [jump_column] 2 = Ok [out]) by (unfold interp_nan_t; cbn [mapM]; now rewrite E).
  exists jump_times, jump_column, out, out'. split; [exact EN|].
  split; [rewrite stamped_1hz by (intros l [<-|[]]; reflexivity); exact EN'|].
  split; [reflexivity|]. split; [exact jump_rising|]. split; [exists 1%R; reflexivity|]. split; [exists 1%R; reflexivity|]. split; [exact HG|]. split.
  - exists 8%R. split; [reflexivity|].
    destruct (gaps_short [jump_column] 2 [out'] jump_column out' EN') as [KV _]; [now left|exists 1%R; reflexivity| | |apply KV; reflexivity].
    + intros p q i G. rewrite (HG p q i G). lia.
    + intros i [LI M]. exfalso. specialize (M 9 ltac:(cbn in *; lia)). discriminate.
  - destruct (column_t_value 2 jump_times jump_column out E eq_refl) as [_ CV]. destruct (CV 7) as [C _]; [cbn; lia|]. apply C.
    split; [lia|]. split; [cbn; lia|]. left. exists [5], []. split; [repeat constructor; intros []|]. split; [constructor|].
    assert (W : forall j, within 2 jump_times 5 j <-> j = 5).
    { intro j. split.
      - intros [A B]. destruct j as [|[|[|[|[|[|j]]]]]]; try lia; exfalso; cbn in B; lia.
      - intros ->. split; [lia|]. cbn. lia. }
    split; [intro j; rewrite W; cbn; intuition|]. split; [|cbn; lia].
    intro j. rewrite W. split; [intros []|]. intros [-> Q]. apply Q. right. right. exists 2, 6. split; [exact jump_gap|lia].
Qed.
(*@ C111 The filled values do not take the stamps into account: here the middle of three samples is filled with the mean of its
    neighbours, although it was taken much closer to the first. *)
Lemma stamped_line_refuted : exists times l out, interp_nan_t times [l] 1 = Ok [out] /\ rising times /\ length times = length l /\
  times = map (fun s => (s * 1000000000)%Z) [0; 1; 10]%Z /\ present l 0 0%R /\ missing l 1 /\ present l 2 10%R /\ present out 1 5%R.
Proof.
  set (l := [Some 0; None; Some 10]%R). set (times := map (fun s => (s * 1000000000)%Z) [0; 1; 10]%Z).
  assert (HR : rising times) by (apply never_down_spec; reflexivity).
  destruct (proj2 (column_t_ok 1 times l)) as [out E]; [repeat split; [lia|cbn; lia|now left]|].
  assert (EN : interp_nan_t times [l] 1 = Ok [out]) by (unfold interp_nan_t; cbn [mapM]; now rewrite E).
  assert (G : in_gap l 0 2 1).
  { split; [lia|]. split; [exists 0%R; reflexivity|]. split; [exists 10%R; reflexivity|]. intros j J. replace j with 1 by lia. reflexivity. }
  exists times, l, out. split; [exact EN|]. split; [exact HR|]. repeat split.
  destruct (stamped_short times [l] 1 [out] l out EN) as [_ F]; [now left|reflexivity|exists 0%R; reflexivity|exists 10%R; reflexivity| |].
  - intros p q i GG. pose proof (gap_missing _ _ _ _ GG) as M. assert (i = 1) by (unfold missing, l in M; destruct i as [|[|[|[|i]]]]; try discriminate; reflexivity). subst i.
    destruct (gap_unique _ _ _ _ _ _ GG G). subst. lia.
  - specialize (F 0 2 1 0%R 10%R G eq_refl eq_refl). replace 5%R with (on_line 0 2 0 10 1); [exact F|]. unfold on_line. cbn. field.
Qed.
(*@ex C111 Stamps going down. *)
Lemma stamped_ex : let l := [Some 0; None; Some 10]%R in let times := map (fun s => (s * 1000000000)%Z) [10; 9; 0]%Z in
  exists out, interp_nan_t times [l] 1 = Ok [out] /\ falling times /\ ~ rising times /\ length times = length l /\ in_gap l 0 2 1 /\
  (exists v, present l 0 v) /\ (exists v, present l (length l - 1) v) /\ (forall p q i, in_gap l p q i -> q - p - 1 <= 1) /\
  (forall e, interp_nan_t (map (fun s => (s * 1000000000)%Z) [10; 0; 9]%Z) [l] 1 = Err e -> e = ValueError) /\
  ~ (exists o, interp_nan_t (map (fun s => (s * 1000000000)%Z) [10; 0; 9]%Z) [l] 1 = Ok o).
Proof.
  cbv zeta. set (l := [Some 0; None; Some 10]%R). set (times := map (fun s => (s * 1000000000)%Z) [10; 9; 0]%Z).
  assert (HF : falling times) by (apply falling_spec; reflexivity).
  destruct (proj2 (column_t_ok 1 times l)) as [out E]; [repeat split; [lia|cbn; lia|now right]|].
  exists out. split; [unfold interp_nan_t; cbn [mapM]; now rewrite E|]. split; [exact HF|].
  split; [intro Q; apply never_down_spec in Q; discriminate|]. split; [reflexivity|].
  assert (G : in_gap l 0 2 1).
  { split; [lia|]. split; [exists 0%R; reflexivity|]. split; [exists 10%R; reflexivity|]. intros j J. replace j with 1 by lia. reflexivity. }
  split; [exact G|]. split; [exists 0%R; reflexivity|]. split; [exists 10%R; reflexivity|]. split; [|split].
  - intros p q i GG. pose proof (gap_missing _ _ _ _ GG) as M. assert (i = 1) by (unfold missing, l in M; destruct i as [|[|[|[|i]]]]; try discriminate; reflexivity). subst i.
    destruct (gap_unique _ _ _ _ _ _ GG G). subst. lia.
  - apply stamped_ok.
  - intro Q. apply stamped_ok with (l := l) in Q; [|now left]. destruct Q as (_ & _ & [Q|Q]); [apply never_down_spec in Q|apply falling_spec in Q]; discriminate.
Qed.
