(** Averaging on an index with a time zone: lemmas and demonstration data. *)
From Coq Require Import Permutation.
From Verif Require Import Prelude PreludeFacts RealBase Fl RealStat M_spatial M_stats Spec_stats Spec_quantile_tz Spec_resample_tz
  X_spatial_zone X_stats_err P_stats P_resample X_stats_vs X_stats_vi X_stats_tau X_quantile_tz M_stats_tau M_resample_tz.
Local Open Scope R_scope.

Definition bins (o w : Z) (s : tser) : tser :=
  let W := (w * ns)%Z in
  let k0 := ((Zmin_of (stamps s) - o) / W)%Z in
  let k1 := ((Zmax_of (stamps s) - o) / W)%Z in
  map (fun i =>
         let left := (o + (k0 + Z.of_nat i) * W)%Z in
         let inbin := present (map snd (filter (fun r => ((left <=? fst r) && (fst r <? left + W))%Z) s)) in
         (left, match inbin with [] => None | l => Some (Rmean l) end))
      (seq 0 (Z.to_nat (k1 - k0 + 1))).

Lemma resample_naive w s : s <> [] -> resample_mean w s = if (w <=? 0)%Z then Err ZeroDivisionError else Ok (bins (day_ns * (Zmin_of (stamps s) / day_ns)) w s).
Proof. intro N. unfold resample_mean. destruct (w <=? 0)%Z; [easy|]. destruct s as [|r s]; [easy|]. reflexivity. Qed.
Lemma resample_tz local locate w s : s <> [] -> resample_mean_tz local locate w s =
  match locate (fst (local (Zmin_of (stamps s))), 0%Z) with
  | None => Err OtherError
  | Some o => if (w <=? 0)%Z then Err ZeroDivisionError else Ok (bins o w s) end.
Proof. intro N. unfold resample_mean_tz. destruct s as [|r s]; [easy|]. reflexivity. Qed.

Lemma bins_spec o w s : (0 < w)%Z -> s <> [] -> binned_from o w s (bins o w s).
Proof.
  intros Hw N. split; [easy|].
  assert (NS : stamps s <> []) by now destruct s.
  destruct (Zmin_of_spec _ NS) as [Imin Lmin]. destruct (Zmax_of_spec _ NS) as [Imax Lmax].
  unfold bins. set (first := Zmin_of (stamps s)) in *. set (last := Zmax_of (stamps s)) in *. cbv zeta.
  change (w * 1000000000)%Z with (w * ns)%Z. set (W := (w * ns)%Z). assert (HW : (0 < W)%Z) by (pose proof ns_pos; unfold W; nia).
  exists ((first - o) / W)%Z, first, last. split; [now split|]. split; [easy|]. split; [easy|].
  set (k0 := ((first - o) / W)%Z). set (k1 := ((last - o) / W)%Z). rewrite map_length, seq_length.
  assert (D0 := Z.div_mod (first - o) W ltac:(lia)). assert (M0 := Z.mod_pos_bound (first - o) W HW).
  assert (D1 := Z.div_mod (last - o) W ltac:(lia)). assert (M1 := Z.mod_pos_bound (last - o) W HW).
  fold k0 in D0. fold k1 in D1.
  assert (K : (k0 <= k1)%Z) by (apply Z.div_le_mono; [easy|]; specialize (Lmax _ Imin); lia).
  split; [nia|]. split; [nia|]. intros i Hi. eexists. split.
  - rewrite nth_error_map, (nth_error_nth' _ O) by (rewrite seq_length; lia). rewrite seq_nth by lia. reflexivity.
  - apply average_of_match. cbn [Nat.add].
    replace (o + (k0 + Z.of_nat (S i)) * W)%Z with (o + (k0 + Z.of_nat i) * W + W)%Z by nia. now destruct (present _).
Qed.

Lemma bins_mod o k w s : (0 < w)%Z -> bins (o + k * (w * ns)) w s = bins o w s.
Proof.
  intro Hw. unfold bins. cbv zeta. set (W := (w * ns)%Z). assert (HW : (0 < W)%Z) by (pose proof ns_pos; unfold W; nia).
  assert (D : forall x, ((x - (o + k * W)) / W = (x - o) / W - k)%Z).
  { intro x. replace (x - (o + k * W))%Z with (x - o + (- k) * W)%Z by ring. rewrite Z.div_add by lia. lia. }
  rewrite !D. replace (Z.to_nat _) with (Z.to_nat ((Zmax_of (stamps s) - o) / W - (Zmin_of (stamps s) - o) / W + 1)) by (f_equal; lia).
  apply map_ext. intro i.
  replace (o + k * W + ((Zmin_of (stamps s) - o) / W - k + Z.of_nat i) * W)%Z with (o + ((Zmin_of (stamps s) - o) / W + Z.of_nat i) * W)%Z by nia.
  reflexivity.
Qed.

Lemma stamps_moved a s : stamps (moved a s) = map (fun t => (t + a)%Z) (stamps s).
Proof. unfold stamps, moved. now rewrite !map_map. Qed.
Lemma values_moved a s : values (moved a s) = values s.
Proof. unfold values, moved. now rewrite map_map. Qed.
Lemma Zmin_moved a l : l <> [] -> Zmin_of (map (fun t => (t + a)%Z) l) = (Zmin_of l + a)%Z.
Proof.
  destruct l as [|x l]; [easy|]. intros _. cbn. revert x. induction l as [|y l IH]; intro x; cbn; [easy|].
  rewrite <- IH. f_equal. lia.
Qed.
Lemma Zmax_moved a l : l <> [] -> Zmax_of (map (fun t => (t + a)%Z) l) = (Zmax_of l + a)%Z.
Proof.
  destruct l as [|x l]; [easy|]. intros _. cbn. revert x. induction l as [|y l IH]; intro x; cbn; [easy|].
  rewrite <- IH. f_equal. lia.
Qed.
Lemma Zdiffs_moved a l : Zdiffs (map (fun t => (t + a)%Z) l) = Zdiffs l.
Proof.
  induction l as [|x l IH]; [easy|]. destruct l as [|y l]; [easy|]. cbn [map] in IH |- *. rewrite !Zdiffs_cons2, IH. f_equal. lia.
Qed.
Lemma step_moved a s : index_step (stamps (moved a s)) = index_step (stamps s).
Proof. unfold index_step. now rewrite stamps_moved, Zdiffs_moved. Qed.

Lemma bins_moved a o w s : s <> [] -> bins (o + a) w (moved a s) = moved a (bins o w s).
Proof.
  intro N. assert (NS : stamps s <> []) by now destruct s. unfold bins. cbv zeta. rewrite !stamps_moved, Zmin_moved, Zmax_moved by easy.
  replace (Zmin_of (stamps s) + a - (o + a))%Z with (Zmin_of (stamps s) - o)%Z by lia.
  replace (Zmax_of (stamps s) + a - (o + a))%Z with (Zmax_of (stamps s) - o)%Z by lia.
  set (k0 := ((Zmin_of (stamps s) - o) / (w * ns))%Z). 
  match goal with |- _ = moved a ?l => change (moved a l) with (map (fun r : Z * option R => ((fst r + a)%Z, snd r)) l) end.
  rewrite map_map. apply map_ext. intro i. cbn [fst snd].
  set (L := (o + (k0 + Z.of_nat i) * (w * ns))%Z). replace (o + a + (k0 + Z.of_nat i) * (w * ns))%Z with (L + a)%Z by (unfold L; ring).
  f_equal. replace (map snd (filter (fun r => ((L + a <=? fst r) && (fst r <? L + a + w * ns))%Z) (moved a s)))
    with (map snd (filter (fun r => ((L <=? fst r) && (fst r <? L + w * ns))%Z) s)); [easy|].
  clearbody L. clear. unfold moved. induction s as [|r s IH]; [easy|]. cbn [map filter fst snd].
  replace (L + a <=? fst r + a)%Z with (L <=? fst r)%Z.
  2: { destruct (Z.leb_spec L (fst r)), (Z.leb_spec (L + a) (fst r + a)); lia || easy. }
  replace (fst r + a <? L + a + w * ns)%Z with (fst r <? L + w * ns)%Z.
  2: { destruct (Z.ltb_spec (fst r) (L + w * ns)), (Z.ltb_spec (fst r + a) (L + a + w * ns)); lia || easy. }
  destruct (_ && _)%bool; cbn [map snd]; now rewrite IH.
Qed.

Lemma vi_moved a b g c norm : vi_core (moved a g) (moved b c) norm = vi_core g c norm.
Proof. unfold vi_core. now rewrite step_moved, !values_moved. Qed.

Lemma starts_min s first : starts s first -> s <> [] /\ Zmin_of (stamps s) = first.
Proof.
  intros [I L]. assert (NS : stamps s <> []) by (intro E; rewrite E in I; easy). split; [now intros ->|].
  destruct (Zmin_of_spec _ NS) as [A B]. specialize (L _ A). specialize (B _ I). lia.
Qed.

(*@ C127 What is averaged over: bins equally long in absolute time, counted from the instant at which the clock of the zone shows midnight of the day of
    the earliest sample; the metric is that of the averages without averaging. Changes of the clock after that midnight play no part. *)
Lemma tz_averages : forall local locate strict s first o dt tau w, locates local locate -> starts s first ->
  (forall j, local j = (fst (local first), 0%Z) <-> j = o) ->
  1 < tau -> median_step s dt -> (0 < w)%Z -> IZR w <= tau * dt < IZR w + 1 ->
  exists rs, binned_from o w s rs /\
    (forall pct, variability_score_tz local locate strict s tau true pct = variability_score rs 1 false pct) /\
    (forall pct, darr_tz local locate strict (Pandas s) tau true pct = darr (Pandas rs) 1 false pct) /\
    (forall cs firstc oc norm, starts cs firstc -> (forall j, local j = (fst (local firstc), 0%Z) <-> j = oc) -> exists rc, binned_from oc w cs rc /\
       variability_index_tz local locate (Pandas s) cs tau norm = variability_index (Pandas rs) rc 1 norm).
Proof.
  intros local locate strict s first o dt tau w Lo St Mid Ht M Hw B.
  assert (A : forall c fc oc, starts c fc -> (forall j, local j = (fst (local fc), 0%Z) <-> j = oc) ->
    average_tz local locate tau (index_step (stamps s)) c = Ok (bins oc w c) /\ binned_from oc w c (bins oc w c)).
  { intros c fc oc Sc Mc. destruct (starts_min _ _ Sc) as [Nc Ec]. split; [|now apply bins_spec].
    unfold average_tz. rewrite (proj1 (median_step_iff _ _) M), (py_int_eq _ w) by (easy || lia).
    rewrite resample_tz by easy. rewrite Ec. rewrite (proj2 (Lo _ oc) Mc). now rewrite (proj2 (Z.leb_gt _ _) Hw). }
  exists (bins o w s). destruct (A _ _ _ St Mid) as [E Bn]. split; [easy|].
  assert (T : Rltb 1 tau = true) by now apply Rltb_true.
  split; [|split].
  - intro pct. unfold variability_score_tz. rewrite T. cbn [andb]. now rewrite E.
  - intro pct. unfold darr_tz. rewrite T. cbn [andb]. now rewrite E.
  - intros cs fc oc norm Sc Mc. destruct (A _ _ _ Sc Mc) as [Ec Bc]. exists (bins oc w cs). split; [easy|].
    unfold variability_index_tz. rewrite T. now rewrite E, Ec.
Qed.

(*@ C127 When midnight of the first day is a reading that the zone skips or repeats, averaging fails; so does it for the clear-sky series of
    variability_index. *)
Lemma tz_no_midnight : forall local locate strict s first dt tau, locates local locate -> starts s first ->
  ~ (exists o, forall j, local j = (fst (local first), 0%Z) <-> j = o) -> 1 < tau -> median_step s dt ->
  (forall pct, variability_score_tz local locate strict s tau true pct = Err OtherError) /\
  (forall pct, darr_tz local locate strict (Pandas s) tau true pct = Err OtherError) /\
  (forall cs norm, variability_index_tz local locate (Pandas s) cs tau norm = Err OtherError) /\
  (forall g norm, exists e, variability_index_tz local locate (Pandas g) s tau norm = Err e).
Proof.
  intros local locate strict s first dt tau Lo St Mid Ht M. destruct (starts_min _ _ St) as [N E].
  assert (L : locate (fst (local first), 0%Z) = None).
  { destruct (locate _) as [o|] eqn:K; [|easy]. exfalso. apply Mid. exists o. now apply Lo. }
  assert (A : forall st, exists e, average_tz local locate tau st s = Err e /\ (st = Some dt -> e = OtherError)).
  { intros [d|]; cbn [average_tz]; [|now exists ValueError]. exists OtherError. split; [|easy]. rewrite resample_tz by easy. now rewrite E, L. }
  assert (T : Rltb 1 tau = true) by now apply Rltb_true. apply median_step_iff in M.
  assert (A1 : average_tz local locate tau (index_step (stamps s)) s = Err OtherError).
  { destruct (A (index_step (stamps s))) as (e & -> & X). now rewrite (X M). }
  repeat split.
  - intro pct. unfold variability_score_tz. rewrite T. cbn [andb]. now rewrite A1.
  - intro pct. unfold darr_tz. rewrite T. cbn [andb]. now rewrite A1.
  - intros cs norm. unfold variability_index_tz. rewrite T. now rewrite A1.
  - intros g norm. unfold variability_index_tz. rewrite T. destruct (average_tz local locate tau (index_step (stamps g)) g) as [r|e]; [|now exists e].
    cbn [rbind]. destruct (A (index_step (stamps g))) as (e & -> & _). now exists e.
Qed.

(** The averaged metrics of two series with equally long steps agree once the averages do. *)

(** The clock without a time zone. *)
Definition plain (i : Z) : Z * Z := (i / one_day, i mod one_day)%Z.
Definition plain_find (st : Z * Z) : option Z := find_reading 0 0 0 st.

Lemma average_naive tau st s : average_tz plain plain_find tau st s = average_tau tau st s.
Proof.
  destruct st as [dt|]; [|easy]. cbn [average_tz average_tau]. destruct s as [|r s]; [easy|].
  rewrite resample_tz, resample_naive by easy. unfold plain_find, find_reading. cbn [plain fst snd].
  change ((0 <=? 0) && (0 <? one_day))%Z with true. cbv iota. rewrite !Z.sub_0_r, !Z.add_0_r.
  set (x := (Zmin_of (stamps (r :: s)) / one_day * one_day)%Z).
  replace (day_ns * (Zmin_of (stamps (r :: s)) / day_ns))%Z with x by (unfold x; change day_ns with one_day; ring).
  destruct (Z.ltb_spec x 0), (Z.leb_spec 0 x); lia || easy.
Qed.
(*@ C127 Without a time zone (a clock with neither offset nor changes) this is the averaging of C35, C37, C38 and C119. *)
Lemma tz_plain : forall strict tau,
  (forall s mavg pct, variability_score_tz plain plain_find strict s tau mavg pct = variability_score_tau strict s tau mavg pct) /\
  (forall g cs norm, variability_index_tz plain plain_find g cs tau norm = variability_index_tau g cs tau norm) /\
  (forall g mavg pct, darr_tz plain plain_find strict g tau mavg pct = darr_tau strict g tau mavg pct).
Proof.
  intros strict tau. split; [|split].
  - intros s mavg pct. unfold variability_score_tz, variability_score_tau. now rewrite average_naive.
  - intros [g|] cs norm; [|easy]. unfold variability_index_tz, variability_index_tau. now rewrite !average_naive.
  - intros [g|] mavg pct; [|easy]. unfold darr_tz, darr_tau. now rewrite average_naive.
Qed.

Lemma average_shift a b T c tau st s first : starts s first ->
  (forall d, (T + b <= d * one_day -> T + a <= d * one_day)%Z) ->
  (c = a /\ first < T)%Z \/ (c = b /\ T + b <= (first + b) / one_day * one_day)%Z ->
  average_tau tau st (moved c s) = rmap (moved c) (average_tz (switching a b T) (find_reading a b T) tau st s).
Proof.
  intros St Rep C. destruct st as [dt|]; [|easy]. cbn [average_tz average_tau].
  destruct (starts_min _ _ St) as [N E].
  assert (Nm : moved c s <> []) by now destruct s.
  assert (NS : stamps s <> []) by now destruct s.
  rewrite resample_naive, resample_tz by easy. rewrite E. rewrite stamps_moved, Zmin_moved, E by easy.
  set (x := ((first + c) / one_day * one_day)%Z).
  assert (Lx : (x <= first + c)%Z).
  { unfold x. pose proof (Z.mod_pos_bound (first + c) one_day eq_refl). pose proof (Z.div_mod (first + c) one_day). lia. }
  assert (F : find_reading a b T (fst (switching a b T first), 0%Z) = Some (x - c)%Z).
  { assert (S1 : fst (switching a b T first) = ((first + c) / one_day)%Z).
    { unfold switching. cbn [fst]. destruct C as [[-> H]|[-> H]]; destruct (Z.ltb_spec first T); try easy; try lia.
      all: pose proof (Z.mod_pos_bound (first + b) one_day eq_refl); pose proof (Z.div_mod (first + b) one_day); lia. }
    rewrite S1. unfold find_reading. cbn [fst snd]. change ((0 <=? 0) && (0 <? one_day))%Z with true. cbv iota.
    rewrite Z.add_0_r. fold x. specialize (Rep ((first + c) / one_day)%Z). fold x in Rep.
    destruct C as [[-> H]|[-> H]]; destruct (Z.ltb_spec (x - a) T), (Z.leb_spec T (x - b)); try easy; fold x in H; lia. }
  rewrite F. destruct (_ <=? 0)%Z; [easy|]. cbn [rmap]. f_equal. rewrite <- bins_moved by easy. f_equal. change day_ns with one_day. unfold x. ring.
Qed.

(*@ C127 Reading the clock: in a zone whose clock changes once, the metrics are those of the clock readings without a time zone, as if the offset in
    force at midnight of the first day had stayed (a change later on does not move the bins). With no change at all they are those of the
    readings. *)
Lemma tz_readings : forall a b T c strict s first tau, starts s first -> no_second_midnight a b T -> offset_for a b T c first ->
  (forall mavg pct, variability_score_tz (switching a b T) (find_reading a b T) strict s tau mavg pct = variability_score_tau strict (moved c s) tau mavg pct) /\
  (forall mavg pct, darr_tz (switching a b T) (find_reading a b T) strict (Pandas s) tau mavg pct = darr_tau strict (Pandas (moved c s)) tau mavg pct) /\
  (forall cs firstc c' norm, starts cs firstc -> offset_for a b T c' firstc ->
     variability_index_tz (switching a b T) (find_reading a b T) (Pandas s) cs tau norm = variability_index_tau (Pandas (moved c s)) (moved c' cs) tau norm).
Proof.
  intros a b T c strict s first tau St Rep C.
  assert (A := fun st => average_shift a b T c tau st s first St Rep C).
  split; [|split].
  - intros mavg pct. unfold variability_score_tz, variability_score_tau. rewrite step_moved, values_moved, A.
    destruct (_ && _)%bool; [|easy]. destruct (average_tz _ _ _ _ _); [|easy]. cbn [rmap rbind]. now rewrite values_moved.
  - intros mavg pct. unfold darr_tz, darr_tau. rewrite step_moved, values_moved, A.
    destruct (_ && _)%bool; [|easy]. destruct (average_tz _ _ _ _ _); [|easy]. cbn [rmap rbind]. now rewrite values_moved.
  - intros cs fc c' norm Sc Cc. unfold variability_index_tz, variability_index_tau.
    assert (Ac := average_shift a b T c' tau (index_step (stamps s)) cs fc Sc Rep Cc). cbv zeta. rewrite step_moved, A, Ac, vi_moved.
    destruct (Rltb 1 tau); [|easy]. destruct (average_tz _ _ _ _ s); [|easy]. cbn [rmap rbind].
    destruct (average_tz _ _ _ _ cs); [|easy]. cbn [rmap rbind]. now rewrite vi_moved.
Qed.

(*@ C127 Independence of the zone: if in two zones every midnight is shown exactly once and falls on a whole multiple of the bin width, the metrics are the
    same in both (and the same as for the index converted to UTC, when the width divides a day). *)
Lemma tz_free : forall l1 f1 l2 f2 strict s dt tau w, locates l1 f1 -> locates l2 f2 ->
  midnights_on (w * 1000000000) l1 -> midnights_on (w * 1000000000) l2 ->
  1 < tau -> median_step s dt -> (0 < w)%Z -> IZR w <= tau * dt < IZR w + 1 ->
  (forall pct, variability_score_tz l1 f1 strict s tau true pct = variability_score_tz l2 f2 strict s tau true pct) /\
  (forall pct, darr_tz l1 f1 strict (Pandas s) tau true pct = darr_tz l2 f2 strict (Pandas s) tau true pct) /\
  (forall cs norm, variability_index_tz l1 f1 (Pandas s) cs tau norm = variability_index_tz l2 f2 (Pandas s) cs tau norm).
Proof.
  intros l1 f1 l2 f2 strict s dt tau w L1 L2 G1 G2 Ht M Hw B.
  assert (A : forall c, average_tz l1 f1 tau (index_step (stamps s)) c = average_tz l2 f2 tau (index_step (stamps s)) c).
  { intro c. unfold average_tz. rewrite (proj1 (median_step_iff _ _) M), (py_int_eq _ w) by (easy || lia).
    destruct c as [|r c]; [easy|]. rewrite !resample_tz by easy. set (m := Zmin_of _).
    destruct (G1 m) as (o1 & M1 & k1 & E1). destruct (G2 m) as (o2 & M2 & k2 & E2).
    rewrite (proj2 (L1 _ o1) M1), (proj2 (L2 _ o2) M2). destruct (w <=? 0)%Z; [easy|]. f_equal.
    replace o1 with (o2 + (k1 - k2) * (w * ns))%Z by (unfold ns; lia). now apply bins_mod. }
  split; [|split].
  - intro pct. unfold variability_score_tz. now rewrite A.
  - intro pct. unfold darr_tz. now rewrite A.
  - intros cs norm. unfold variability_index_tz. cbv zeta. now rewrite !A.
Qed.
(*@ C127 Which zones that covers: those whose offsets, like a day, are whole multiples of the width, with clocks not changed around midnight. *)
Lemma tz_grid : forall a b T W, (W | a)%Z -> (W | b)%Z -> (W | one_day)%Z -> single_midnights a b T -> midnights_on W (switching a b T).
Proof.
  intros a b T W (ka & Ea) (kb & Eb) (kd & Ed) Sg i. set (d := fst (switching a b T i)).
  assert (Rd : forall j o, (o < T -> o = d * one_day - a)%Z -> (T <= o -> o = d * one_day - b)%Z -> switching a b T j = (d, 0%Z) <->
     (j < T /\ j = d * one_day - a \/ T <= j /\ j = d * one_day - b)%Z).
  { intros j o _ _. unfold switching. split.
    - intro X. injection X as X Y.
      destruct (Z.ltb_spec j T); [left|right]; (split; [easy|]).
      + pose proof (Z.div_mod (j + a) one_day). change one_day with 86400000000000%Z in *. lia.
      + pose proof (Z.div_mod (j + b) one_day). change one_day with 86400000000000%Z in *. lia.
    - intros [[Hj ->]|[Hj ->]].
      + rewrite (proj2 (Z.ltb_lt _ _) Hj). replace (d * one_day - a + a)%Z with (d * one_day)%Z by ring.
        rewrite Z.div_mul, Z.mod_mul by easy. easy.
      + rewrite (proj2 (Z.ltb_ge _ _) Hj). replace (d * one_day - b + b)%Z with (d * one_day)%Z by ring.
        rewrite Z.div_mul, Z.mod_mul by easy. easy. }
  specialize (Sg d). destruct (Z.lt_ge_cases (d * one_day) (T + a)) as [H|H].
  - exists (d * one_day - a)%Z. split.
    + intro j. rewrite (Rd j (d * one_day - a)%Z) by lia. lia.
    + exists (d * kd - ka)%Z. rewrite Ea, Ed. ring.
  - exists (d * one_day - b)%Z. split.
    + intro j. rewrite (Rd j (d * one_day - b)%Z) by lia. lia.
    + exists (d * kd - kb)%Z. rewrite Eb, Ed. ring.
Qed.

(** Samples every half hour from midnight UTC: two low, two high, in turn. *)
Definition half_hours : tser := map (fun i => ((Z.of_nat i * (1800 * ns))%Z, Some (if Nat.eqb (Nat.modulo (i / 2) 2) 0 then 0 else 4))) (seq 0 6).
Definition hour_ns : Z := (3600 * ns)%Z.
(** Half past five ahead, all year round. *)
Definition half_zone : Z -> Z * Z := switching (11 * (hour_ns / 2)) (11 * (hour_ns / 2)) 0.
Definition half_find : Z * Z -> option Z := find_reading (11 * (hour_ns / 2)) (11 * (hour_ns / 2)) 0.
Lemma half_step : median_step half_hours 1800.
Proof.
  apply median_step_iff. apply (regular_step 0 1800); [reflexivity|cbn; lia].
Qed.

Lemma half_values o : o = 0%Z \/ o = (- 11 * (hour_ns / 2))%Z ->
  values (bins o 3600 half_hours) = if (o =? 0)%Z then [Some 0; Some 4; Some 0] else [Some 0; Some 2; Some 2; Some 0].
Proof.
  intros [-> | ->].
  - transitivity [Some (Rmean [0; 0]); Some (Rmean [4; 4]); Some (Rmean [0; 0])]; [lazy -[Rmean IZR]; reflexivity|].
    change (0 =? 0)%Z with true. cbv iota. unfold Rmean. cbn. repeat f_equal; lra.
  - transitivity [Some (Rmean [0]); Some (Rmean [0; 4]); Some (Rmean [4; 0]); Some (Rmean [0])]; [lazy -[Rmean IZR]; reflexivity|].
    change (_ =? 0)%Z with false. cbv iota. unfold Rmean. cbn. repeat f_equal; lra.
Qed.
(*@ C127 Without that condition the zone decides: half-hourly samples averaged over hours ramp by 8 in UTC, by 4 on an index five and a half
    hours ahead. *)
Lemma tz_free_refuted : exists l1 f1 l2 f2 s, locates l1 f1 /\ locates l2 f2 /\ median_step s 1800 /\
  darr_tz l1 f1 true (Pandas s) 2 true false = Ok 8 /\ darr_tz l2 f2 true (Pandas s) 2 true false = Ok 4.
Proof.
  exists (switching 0 0 0), (find_reading 0 0 0), half_zone, half_find, half_hours.
  split; [now apply switching_clock|]. split; [now apply switching_clock|]. split; [exact half_step|].
  assert (P : py_int (2 * 1800) = 3600%Z) by (apply py_int_eq; [lia|lra]).
  assert (T : Rltb 1 2 = true) by (apply Rltb_true; lra).
  unfold darr_tz, average_tz. rewrite (proj1 (median_step_iff _ _) half_step), P, T. cbn [andb].
  rewrite !resample_tz by easy.
  replace (find_reading 0 0 0 (fst (switching 0 0 0 (Zmin_of (stamps half_hours))), 0%Z)) with (Some 0%Z) by reflexivity.
  replace (half_find (fst (half_zone (Zmin_of (stamps half_hours))), 0%Z)) with (Some (- 11 * (hour_ns / 2))%Z) by reflexivity.
  change (3600 <=? 0)%Z with false. cbv iota. cbn [rbind]. unfold darr_plain. rewrite !half_values by auto.
  change (0 =? 0)%Z with true. change (- 11 * (hour_ns / 2) =? 0)%Z with false. cbv iota.
  unfold darr_core.
  change (present (sdiff 1 [Some 0; Some 4; Some 0])) with [4 - 0; 0 - 4].
  change (present (sdiff 1 [Some 0; Some 2; Some 2; Some 0])) with [2 - 0; 2 - 2; 0 - 2]. cbn. split; f_equal.
  - rewrite (Rabs_right (4 - 0)), (Rabs_left (0 - 4)) by lra. lra.
  - rewrite (Rabs_right (2 - 0)), (Rabs_left (0 - 2)) by lra. replace (2 - 2) with 0 by ring. rewrite Rabs_R0. lra.
Qed.

(** A zone one hour ahead, two from 01:00 UTC of day 0 on (summer time). *)
Definition summer : Z -> Z * Z := switching hour_ns (2 * hour_ns) hour_ns.
Definition summer_find : Z * Z -> option Z := find_reading hour_ns (2 * hour_ns) hour_ns.
(*@ex C127 A series that begins before the change and runs across it; half-hourly bins, for which the zone does not matter; and a zone that skips a
    midnight, where averaging fails. *)
Lemma tz_example : locates summer summer_find /\ single_midnights hour_ns (2 * hour_ns) hour_ns /\
  starts half_hours 0 /\ offset_for hour_ns (2 * hour_ns) hour_ns hour_ns 0 /\
  midnights_on (1800 * 1000000000) summer /\ midnights_on (1800 * 1000000000) half_zone /\
  (exists rs, binned_from (- hour_ns) 3600 half_hours rs /\ darr_tz summer summer_find true (Pandas half_hours) 2 true false = darr (Pandas rs) 1 false false) /\
  ~ (exists o, forall j, switching (-1) hour_ns 1 j = (fst (switching (-1) hour_ns 1 1), 0%Z) <-> j = o).
Proof.
  assert (L : locates summer summer_find) by (apply switching_clock; intro H; exfalso; revert H; change hour_ns with 3600000000000%Z; lia).
  assert (Sg : single_midnights hour_ns (2 * hour_ns) hour_ns).
  { intro d. change hour_ns with 3600000000000%Z. change one_day with 86400000000000%Z. lia. }
  assert (St : starts half_hours 0).
  { split; [now left|]. intros t Ht. unfold half_hours, stamps in Ht. rewrite map_map in Ht. apply in_map_iff in Ht. destruct Ht as (i & <- & _).
    cbn [fst]. unfold ns. lia. }
  split; [easy|]. split; [easy|]. split; [easy|].
  split; [left; split; [easy|reflexivity]|].
  split; [apply tz_grid; [exists 2%Z|exists 4%Z|exists 48%Z|]; easy|].
  split; [apply tz_grid; [exists 11%Z|exists 11%Z|exists 48%Z|]; easy|]. split.
  - destruct (tz_averages summer summer_find true half_hours 0 (- hour_ns) 1800 2 3600 L St) as (rs & Bn & _ & D & _).
    + apply (proj1 (L (fst (summer 0), 0%Z) (- hour_ns)%Z)). reflexivity.
    + lra.
    + exact half_step.
    + lia.
    + lra.
    + exists rs. split; [exact Bn|apply D].
  - change (fst (switching (-1) hour_ns 1 1)) with 0%Z. intros (o & Ho). pose proof (proj2 (Ho o) eq_refl) as X. unfold switching in X.
    injection X as X Y. change one_day with 86400000000000%Z in *. change hour_ns with 3600000000000%Z in *.
    destruct (Z.ltb_spec o 1).
    + pose proof (Z.div_mod (o + -1) 86400000000000). lia.
    + pose proof (Z.div_mod (o + 3600000000000) 86400000000000). lia.
Qed.
