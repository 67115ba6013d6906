(** Final forms: the table of field_demo.py and the worked steps of field_demo_detailed.ipynb. *)
From Coq Require Import String Permutation Sorted Lia Lra.
From Verif Require Import Prelude PreludeFacts P_list RealBase Fl M_spatial Spec_spatial P_plane M_cmv M_field_pos Spec_field_pos X_field_pos Spec_field_mislabel X_field_mislabel
  Spec_field_demo M_field_demo.
Local Open Scope R_scope.

Lemma mem_existsb {K} `{HK : Label K} k (l : list K) : existsb (fun j => lab_eqb j k) l = true <-> In k l.
Proof.
  rewrite existsb_exists. split; [intros (j & I & E); apply lab_eqb_eq in E; now subst|]. intro I. exists k. split; [assumption|]. now apply lab_eqb_eq.
Qed.

Section Table.
  Context {K : Type} {HK : Label K}.
  Variables (dtf : K * list (option R) -> list (K * list (option R)) -> result (list fl * list fl)) (sv : list (K * fl) -> list (K * fl))
    (cmv : list (K * list (option R)) -> list (K * (R * R)) -> result (fl * fl)) (ts_a ts_b : list (K * list (option R))) (va vb : R * R) (pos : list (K * (R * R))).
  Definition predict k := compute_predicted_position dtf sv cmv ts_a ts_b pos k (Some (Some va, Some vb)) "preavg" 8.
  Definition filled (P : K -> fl * fl) (p : K * (R * R)) : list fl := [Fin (fst (snd p)); Fin (snd (snd p)); fst (P (fst p)); snd (P (fst p))].
  Lemma turns P refs g : NoDup (map fst pos) -> (forall k, In k refs -> In k (map fst pos) /\ exists rest, predict k = Ok (P k, rest)) ->
    foldM (fun df ref => demo_turn dtf sv cmv ts_a ts_b va vb pos df ref) refs (map (fun p => (fst p, g p)) pos) =
    Ok (map (fun p => (fst p, if existsb (fun j => lab_eqb j (fst p)) refs then filled P p else g p)) pos).
  Proof.
    intro ND. revert g. induction refs as [|k refs IH]; intros g HP; [reflexivity|].
    destruct (HP k (or_introl eq_refl)) as (Ik & rest & E). unfold predict in E. cbn [foldM]. unfold demo_turn at 1. rewrite E. cbn [rbind].
    apply in_map_iff in Ik as ([k' q] & <- & Iq). cbn [fst] in *. pose proof (dget_NoDup _ _ _ ND Iq) as D. unfold lookup. rewrite D. cbn [rbind].
    assert (FS : frame_set (map (fun p => (fst p, g p)) pos) k' [Fin (fst q); Fin (snd q); fst (P k'); snd (P k')] =
                 map (fun p => (fst p, if lab_eqb k' (fst p) then filled P p else g p)) pos).
    { unfold frame_set. rewrite map_map. apply map_ext_in. intros [j r] Ij. cbn [fst]. destruct (lab_eqb k' j) eqn:Ej; [|reflexivity].
      apply lab_eqb_eq in Ej. subst j. f_equal. unfold filled. cbn [fst snd]. pose proof (dget_NoDup _ _ _ ND Ij) as D'. assert (r = q) by congruence. now subst. }
    rewrite FS, IH by (intros; apply HP; now right). f_equal. apply map_ext. intro p. cbn [existsb]. f_equal.
    destruct (lab_eqb k' (fst p)); cbn [orb]; [|reflexivity]. now destruct (existsb _ refs).
  Qed.
End Table.

Lemma slice_in {A} lo hi (l : list A) i x : nth_error l i = Some x -> (lo <= i < hi)%nat -> In x (index_slice lo hi l).
Proof.
  intros E B. unfold index_slice. apply nth_error_In with (i - lo)%nat.
  rewrite nth_error_firstn by lia. rewrite nth_error_skipn. now replace (lo + (i - lo))%nat with i by lia.
Qed.

Lemma slice_nth {A} lo hi (l : list A) x : In x (index_slice lo hi l) -> exists i, nth_error l i = Some x /\ (lo <= i < hi)%nat.
Proof.
  intro I. unfold index_slice in I. apply In_nth_error in I as (j & E).
  assert (B : (j < hi - lo)%nat).
  { assert (L : (j < length (firstn (hi - lo) (skipn lo l)))%nat) by (apply nth_error_Some; congruence). rewrite firstn_length in L. lia. }
  rewrite nth_error_firstn, nth_error_skipn in E by assumption. exists (lo + j)%nat. split; [assumption|lia].
Qed.
Lemma nth_pos {K} (pos : list (K * (R * R))) i k : nth_error (map fst pos) i = Some k -> exists q, nth_error pos i = Some (k, q).
Proof. rewrite nth_error_map. destruct (nth_error pos i) as [[k' q]|]; cbn; [|discriminate]. intros [= ->]. eauto. Qed.
Lemma foldM_app {A S} (f : S -> A -> result S) l1 : forall l2 s, foldM f (l1 ++ l2) s = (let! s' := foldM f l1 s in foldM f l2 s').
Proof. induction l1 as [|x l1 IH]; intros l2 s; [reflexivity|]. cbn [app foldM]. destruct (f s x); cbn [rbind]; [apply IH|reflexivity]. Qed.

(*@ C120 The table of the demonstration: one row per combiner in the order of the plan. The rows from lo up to, not including, hi hold the planned
    position and the predicted one, the others nothing. *)
Lemma demo_table : forall (K : Type) (HK : Label K) dtf sv cmv lo hi (ts_a ts_b : list (K * list (option R))) va vb pos (P : K -> fl * fl),
  NoDup (map fst pos) ->
  (forall i k q, nth_error pos i = Some (k, q) -> (lo <= i < hi)%nat ->
     exists rest, compute_predicted_position dtf sv cmv ts_a ts_b pos k (Some (Some va, Some vb)) "preavg" 8 = Ok (P k, rest)) ->
  exists df, field_demo dtf sv cmv lo hi ts_a ts_b va vb pos = Ok df /\ length df = length pos /\ length (red_lines df) = length pos /\
    forall i k q, nth_error pos i = Some (k, q) ->
      ((lo <= i < hi)%nat -> nth_error df i = Some (k, [Fin (fst q); Fin (snd q); fst (P k); snd (P k)]) /\
                             nth_error (red_lines df) i = Some ((Fin (fst q), Fin (snd q)), P k)) /\
      (~ (lo <= i < hi)%nat -> nth_error df i = Some (k, [Nan; Nan; Nan; Nan]) /\ nth_error (red_lines df) i = Some ((Nan, Nan), (Nan, Nan))).
Proof.
  intros K HK dtf sv cmv lo hi ts_a ts_b va vb pos P ND HP. unfold field_demo, empty_frame.
  rewrite (turns dtf sv cmv ts_a ts_b va vb pos P) with (g := fun _ => [Nan; Nan; Nan; Nan]); [|assumption|].
  - eexists. split; [reflexivity|]. unfold red_lines. split; [apply map_length|]. split; [now rewrite !map_length|]. intros i k q Hi.
    assert (M : existsb (fun j => lab_eqb j k) (index_slice lo hi (map fst pos)) = true <-> (lo <= i < hi)%nat).
    { rewrite mem_existsb. split; [|intro B; eapply slice_in; [rewrite nth_error_map, Hi; reflexivity|assumption]].
      intro I. apply slice_nth in I as (i' & E & B). apply nth_pos in E as (q' & E).
      assert (i = i'); [|now subst]. eapply (proj1 (NoDup_nth_error _) ND); [rewrite map_length; apply nth_error_Some; congruence|].
      rewrite !nth_error_map, Hi, E. reflexivity. }
    rewrite !nth_error_map, Hi. cbn [option_map fst]. split; intro B.
    + apply M in B. rewrite B. split; [reflexivity|]. cbn [option_map snd filled fst]. now destruct (P k).
    + destruct (existsb _ _); [exfalso; apply B; now apply M|]. split; reflexivity.
  - intros k I. apply slice_nth in I as (i & E & B). split; [eapply nth_error_In; exact E|]. apply nth_pos in E as (q & E). exact (HP i k q E B).
Qed.

(*@ C120 The first combiner that cannot be predicted ends the demonstration with its exception. *)
Lemma demo_fails : forall (K : Type) (HK : Label K) dtf sv cmv lo hi (ts_a ts_b : list (K * list (option R))) va vb pos (P : K -> fl * fl) i k q e,
  NoDup (map fst pos) -> nth_error pos i = Some (k, q) -> (lo <= i < hi)%nat ->
  (forall j k' q', nth_error pos j = Some (k', q') -> (lo <= j < i)%nat ->
     exists rest, compute_predicted_position dtf sv cmv ts_a ts_b pos k' (Some (Some va, Some vb)) "preavg" 8 = Ok (P k', rest)) ->
  compute_predicted_position dtf sv cmv ts_a ts_b pos k (Some (Some va, Some vb)) "preavg" 8 = Err e ->
  field_demo dtf sv cmv lo hi ts_a ts_b va vb pos = Err e.
Proof.
  intros K HK dtf sv cmv lo hi ts_a ts_b va vb pos P i k q e ND Hi B HP E. unfold field_demo.
  assert (SP : exists after, index_slice lo hi (map fst pos) = index_slice lo i (map fst pos) ++ k :: after).
  { assert (Hk : nth_error (map fst pos) i = Some k) by (rewrite nth_error_map, Hi; reflexivity).
    apply nth_error_split in Hk as (l1 & l2 & El & Ll). unfold index_slice. rewrite El. rewrite !skipn_app.
    replace (lo - length l1)%nat with 0%nat by lia. cbn [skipn]. rewrite !firstn_app. rewrite !skipn_length.
    replace (i - lo - (length l1 - lo))%nat with 0%nat by lia. cbn [firstn]. rewrite app_nil_r.
    rewrite (firstn_all2 (n := hi - lo)) by (rewrite skipn_length; lia). rewrite (firstn_all2 (n := i - lo)) by (rewrite skipn_length; lia).
    replace (hi - lo - (length l1 - lo))%nat with (S (hi - lo - (length l1 - lo) - 1)) by lia. cbn [firstn]. eauto. }
  destruct SP as (after & ->). rewrite foldM_app.
  rewrite (turns dtf sv cmv ts_a ts_b va vb pos P) with (g := fun _ => [Nan; Nan; Nan; Nan]); [|assumption|].
  - cbn [rbind foldM]. unfold demo_turn at 1. rewrite E. reflexivity.
  - intros k' I. apply slice_nth in I as (j & Ej & Bj). split; [eapply nth_error_In; exact Ej|]. apply nth_pos in Ej as (q' & Ej). exact (HP j k' q' Ej Bj).
Qed.

Lemma combine_map_r {A B} (f : A -> B) l : combine l (map f l) = map (fun a => (a, f a)) l.
Proof. induction l as [|a l IH]; cbn; [reflexivity|]. now rewrite IH. Qed.
Lemma used_ok {K} `{HK : Label K} (ids : list K) (coh : K -> R) n k used : NoDup ids -> In k ids -> (2 <= length ids)%nat -> (2 <= n)%nat ->
  (forall j, In j ids -> j <> k -> coh j < coh k) ->
  takes_below_top (filter (fun s => is_finite (snd s)) (combine ids (map (fun j => Fin (coh j)) ids))) n used ->
  used <> [] /\ (forall j, In j used -> In j ids /\ j <> k).
Proof.
  intros ND Ik L2 Ln Hc T. rewrite combine_map_r in T.
  assert (F : filter (fun s : K * fl => is_finite (snd s)) (map (fun a => (a, Fin (coh a))) ids) = map (fun a => (a, Fin (coh a))) ids).
  { clear. induction ids as [|a l IH]; cbn; [reflexivity|]. now rewrite IH. }
  rewrite F in T. destruct T as (low & mid & top & P & -> & Lt & Lm & R1 & R2). rewrite map_length in Lt, Lm.
  destruct n as [|[|n]]; [lia|lia|]. change (Nat.eqb (S (S n)) 0) with false in Lm. cbv iota in Lm.
  assert (NDP : NoDup (map fst (low ++ mid ++ top))).
  { apply (Permutation_NoDup (l := map fst (map (fun a => (a, Fin (coh a))) ids))); [now apply Permutation_map|]. rewrite map_map. cbn [fst]. now rewrite map_id. }
  destruct top as [|t [|t' top]]; cbn [length] in Lt; try lia.
  assert (It : forall x, In x (low ++ mid ++ [t]) -> exists j, In j ids /\ x = (j, Fin (coh j))).
  { intros x I. apply (Permutation_in _ (Permutation_sym P)) in I. apply in_map_iff in I as (j & <- & I). eauto. }
  destruct (It t) as (jt & Ijt & ->); [rewrite !in_app_iff; cbn; tauto|].
  assert (jt = k) as ->.
  { destruct (lab_dec jt k) as [|N]; [assumption|exfalso]. specialize (Hc jt Ijt N).
    assert (Ik' : In (k, Fin (coh k)) (low ++ mid ++ [(jt, Fin (coh jt))])) by (apply (Permutation_in _ P); apply in_map_iff; eauto).
    assert (RK : ranked (Fin (coh k)) (Fin (coh jt))).
    { rewrite !in_app_iff in Ik'. destruct Ik' as [I|[I|[I|[]]]].
      - apply (R1 _ (jt, Fin (coh jt)) I). rewrite in_app_iff. cbn. tauto.
      - apply (R2 _ (jt, Fin (coh jt)) I). cbn. tauto.
      - congruence. }
    destruct RK as [RK|RK]; [discriminate|]. cbn in RK. unfold Rleb in RK. destruct (Rle_dec (coh k) (coh jt)); [lra|discriminate]. }
  split; [intro E; apply map_eq_nil in E; subst mid; cbn [length] in Lm; lia|].
  intros j I. apply in_map_iff in I as ((j' & c) & <- & I). cbn [fst]. split.
  - destruct (It (j', c)) as (j'' & I'' & E); [rewrite !in_app_iff; tauto|]. now injection E as -> _.
  - intros ->. rewrite !map_app in NDP. apply NoDup_remove_2 with (l := map fst low ++ map fst mid) (l' := []) (a := k);
      [cbn [map fst app] in NDP; now rewrite app_assoc in NDP|].
    rewrite app_nil_r, in_app_iff. right. apply in_map_iff. exists (k, c). auto.
Qed.
Lemma no_shift {K} `{HK : Label K} (pos : list (K * (R * R))) X v used : used <> [] -> (forall k, In k used -> dget pos k = Some (X k)) -> mean_shift pos X v used = 0.
Proof.
  intros N H. unfold mean_shift, avg_of. assert (E : forall l, (forall k, In k l -> dget pos k = Some (X k)) -> Rsum (map (fun k => inner (displacement pos X k) v) l) = 0).
  { induction l as [|k l IH]; intro Hl; [reflexivity|]. cbn [map]. rewrite Rsum_cons, IH by (intros; apply Hl; now right).
    unfold displacement. rewrite (Hl k) by now left. unfold inner, sub2. cbn [fst snd]. ring. }
  rewrite E by assumption. unfold Rdiv. ring.
Qed.
Lemma two_lines (d va vb : R * R) : ~ parallel va vb -> inner d va = 0 -> inner d vb = 0 -> d = (0, 0).
Proof.
  unfold parallel, cross, inner. destruct d as [x y], va as [a b], vb as [c e]. cbn [fst snd]. intros NP H1 H2.
  assert (x * (a * e - b * c) = 0) by (transitivity ((x * a + y * b) * e - (x * c + y * e) * b); [ring|rewrite H1, H2; ring]).
  assert (y * (a * e - b * c) = 0) by (transitivity ((x * c + y * e) * a - (x * a + y * b) * c); [ring|rewrite H1, H2; ring]).
  assert (N : a * e - b * c <> 0) by lra.
  f_equal; (eapply Rmult_integral in H; destruct H as [H|H]; [|contradiction]); (eapply Rmult_integral in H0; destruct H0 as [H0|H0]; [|contradiction]); assumption.
Qed.

Lemma predict_clean {K} `{HK : Label K} dtf sv cmv (ts_a ts_b : list (K * list (option R))) va vb pos X k rp : sorts sv -> NoDup (map fst pos) -> ~ parallel va vb ->
  (2 <= length pos)%nat -> dget pos k = Some rp ->
  clean_data dtf (map fst pos) X ts_a va -> clean_data dtf (map fst pos) X ts_b vb ->
  (forall j q, j <> k -> dget pos j = Some q -> q = X j) ->
  exists p rest, compute_predicted_position dtf sv cmv ts_a ts_b pos k (Some (Some va, Some vb)) "preavg" 8 = Ok (p, rest) /\
   (inner (sub2 (X k) rp) va <> 0 -> inner (sub2 (X k) rp) vb <> 0 -> p = (Fin (fst (X k)), Fin (snd (X k)))) /\
   (inner (sub2 (X k) rp) va = 0 \/ inner (sub2 (X k) rp) vb = 0 -> p = (Nan, Nan)).
Proof.
  intros S ND NP L2 Hk C1 C2 HX.
  assert (Ik : In k (map fst pos)) by (apply dget_In in Hk; now apply (in_map fst) in Hk).
  destruct (C1 k Ik) as (sig1 & coh1 & G1 & D1 & M1). destruct (C2 k Ik) as (sig2 & coh2 & G2 & D2 & M2).
  destruct (predicted_success K HK dtf sv cmv ts_a ts_b pos k (Some va) (Some vb) "preavg" 8 _ _ _ _ _ _ rp S G1 G2 Hk D1 D2) as ([p [s1 s2]] & E);
    try (now rewrite !map_length); [cbn; tauto|].
  exists p, (s1, s2). split; [exact E|].
  pose proof (predicted_selection K HK dtf sv cmv ts_a ts_b pos k (Some va) (Some vb) "preavg" 8 p s1 s2 S E) as Sel.
  destruct Sel as (sg1 & sg2 & dl1 & dl2 & ch1 & ch2 & rp' & G1' & G2' & Hk' & D1' & D2' & Pk & _).
  rewrite G1 in G1'. injection G1' as <-. rewrite G2 in G2'. injection G2' as <-. rewrite D1 in D1'. injection D1' as <- <-. rewrite D2 in D2'. injection D2' as <- <-.
  destruct (Pk (or_intror eq_refl)) as (T1 & T2).
  destruct (used_ok (map fst pos) coh1 8 k (map fst s1) ND Ik) as (N1 & U1); [now rewrite map_length|lia|assumption|exact T1|].
  destruct (used_ok (map fst pos) coh2 8 k (map fst s2) ND Ik) as (N2 & U2); [now rewrite map_length|lia|assumption|exact T2|].
  assert (Na : va <> (0, 0)) by (intros ->; apply NP; unfold parallel, cross; cbn; ring).
  assert (Nb : vb <> (0, 0)) by (intros ->; apply NP; unfold parallel, cross; cbn; ring).
  pose proof (predicted_report K HK dtf sv cmv ts_a ts_b pos k va vb "preavg" 8 p s1 s2 Na Nb E) as Rep.
  assert (DL : forall ts v s sig coh, (ts, v, s) = (ts_a, va, s1) \/ (ts, v, s) = (ts_b, vb, s2) -> dget ts k = Some sig ->
     dtf (k, sig) ts = Ok (map (fun j => Fin (travel_time v (X k) (X j))) (map fst pos), coh) ->
     forall j r, In (j, r) s -> pp_delay r = Fin (travel_time v (X k) (X j))).
  { intros ts v s sig coh H G D j r I. destruct (Rep ts v s H) as (sg & dl & ch & rq & G' & D' & _ & Rows).
    rewrite G in G'. injection G' as <-. rewrite D in D'. injection D' as <- <-. destruct (Rows j r I) as (i & Q & Hi & Hd & _).
    rewrite !nth_error_map, Hi in Hd. cbn in Hd. now injection Hd as <-. }
  assert (s1 <> []) by (intros ->; now apply N1). assert (s2 <> []) by (intros ->; now apply N2).
  pose proof (predicted_mislabelled K HK dtf sv cmv ts_a ts_b pos k va vb "preavg" 8 p s1 s2 rp X ND NP Hk E H H0
    (DL _ _ _ _ _ (or_introl eq_refl) G1 D1) (DL _ _ _ _ _ (or_intror eq_refl) G2 D2)) as PM. cbv zeta in PM.
  assert (Z : forall v used, used <> [] -> (forall j, In j used -> In j (map fst pos) /\ j <> k) -> mean_shift pos X v used = 0).
  { intros v used N U. apply no_shift; [assumption|]. intros j I. destruct (U j I) as (I' & Nj). change (map fst pos) with (dkeys pos) in I'.
    apply in_map_iff in I' as ((j' & q) & <- & I'). cbn [fst] in *. pose proof (dget_NoDup _ _ _ ND I') as D. rewrite (HX _ _ Nj D) in D. exact D. }
  rewrite !Z in PM by assumption. destruct PM as (PM1 & PM2). split.
  - intros Ia Ib. destruct (PM1 Ia Ib) as (q & -> & Qa & Qb). assert (D : sub2 q (X k) = (0, 0)) by (apply (two_lines _ va vb); [assumption|lra|lra]).
    unfold sub2 in D. injection D as Da Db. f_equal; f_equal; lra.
  - exact PM2.
Qed.

Lemma clean_runs {K} `{HK : Label K} dtf sv cmv (ts_a ts_b : list (K * list (option R))) va vb pos X : sorts sv -> NoDup (map fst pos) ->
  clean_data dtf (map fst pos) X ts_a va -> clean_data dtf (map fst pos) X ts_b vb ->
  forall k, In k (map fst pos) -> exists r, predict dtf sv cmv ts_a ts_b va vb pos k = Ok r.
Proof.
  intros S ND C1 C2 k Ik. destruct (C1 k Ik) as (sig1 & coh1 & G1 & D1 & M1). destruct (C2 k Ik) as (sig2 & coh2 & G2 & D2 & M2).
  apply in_map_iff in Ik as ((k' & rp) & <- & Ik). pose proof (dget_NoDup _ _ _ ND Ik) as Hk. cbn [fst] in *.
  apply (predicted_success K HK dtf sv cmv ts_a ts_b pos k' (Some va) (Some vb) "preavg" 8 _ _ _ _ _ _ rp S G1 G2 Hk D1 D2);
    try (now rewrite !map_length). cbn; tauto.
Qed.

(*@ C120 With clean data the demonstration runs. If one combiner is at another place than the plan says, and the rest are right, its red line
    goes from the planned to the true place, provided the error has a part along both CMVs. *)
Lemma demo_finds : forall (K : Type) (HK : Label K) dtf sv cmv lo hi (ts_a ts_b : list (K * list (option R))) va vb pos (X : K -> R * R) i m q,
  sorts sv -> NoDup (map fst pos) -> ~ parallel va vb -> (2 <= length pos)%nat ->
  clean_data dtf (map fst pos) X ts_a va -> clean_data dtf (map fst pos) X ts_b vb ->
  (forall j p, j <> m -> dget pos j = Some p -> p = X j) ->
  nth_error pos i = Some (m, q) -> (lo <= i < hi)%nat -> inner (sub2 (X m) q) va <> 0 -> inner (sub2 (X m) q) vb <> 0 ->
  exists df, field_demo dtf sv cmv lo hi ts_a ts_b va vb pos = Ok df /\
    nth_error df i = Some (m, [Fin (fst q); Fin (snd q); Fin (fst (X m)); Fin (snd (X m))]) /\
    nth_error (red_lines df) i = Some ((Fin (fst q), Fin (snd q)), (Fin (fst (X m)), Fin (snd (X m)))).
Proof.
  intros K HK dtf sv cmv lo hi ts_a ts_b va vb pos X i m q S ND NP L2 C1 C2 HX Hi B Ia Ib.
  set (P := fun k => match predict dtf sv cmv ts_a ts_b va vb pos k with Ok (p, _) => p | Err _ => (Nan, Nan) end).
  destruct (demo_table K HK dtf sv cmv lo hi ts_a ts_b va vb pos P ND) as (df & E & _ & _ & T).
  { intros j k q' Hj _. destruct (clean_runs dtf sv cmv ts_a ts_b va vb pos X S ND C1 C2 k) as ((p & rest) & Ek).
    - apply nth_error_In in Hj. now apply (in_map fst) in Hj.
    - exists rest. unfold P. rewrite Ek. exact Ek. }
  exists df. split; [exact E|]. destruct (T i m q Hi) as (T1 & _). destruct (T1 B) as (R1 & R2).
  pose proof (dget_NoDup _ _ _ ND (nth_error_In _ _ Hi)) as Hm.
  destruct (predict_clean dtf sv cmv ts_a ts_b va vb pos X m q S ND NP L2 Hm C1 C2 HX) as (p & rest & Ep & Pp & _).
  assert (PE : P m = (Fin (fst (X m)), Fin (snd (X m)))) by (unfold P, predict; rewrite Ep; now apply Pp).
  rewrite PE in R1, R2. split; [exact R1|exact R2].
Qed.

(*@ C120 With clean data and a right plan there is nothing to draw: the predicted places are all NaN, not the planned places. *)
Lemma demo_right_plan : forall (K : Type) (HK : Label K) dtf sv cmv lo hi (ts_a ts_b : list (K * list (option R))) va vb pos (X : K -> R * R),
  sorts sv -> NoDup (map fst pos) -> ~ parallel va vb -> (2 <= length pos)%nat ->
  clean_data dtf (map fst pos) X ts_a va -> clean_data dtf (map fst pos) X ts_b vb ->
  (forall j p, dget pos j = Some p -> p = X j) ->
  exists df, field_demo dtf sv cmv lo hi ts_a ts_b va vb pos = Ok df /\
    forall i k q, nth_error pos i = Some (k, q) -> (lo <= i < hi)%nat -> nth_error df i = Some (k, [Fin (fst q); Fin (snd q); Nan; Nan]).
Proof.
  intros K HK dtf sv cmv lo hi ts_a ts_b va vb pos X S ND NP L2 C1 C2 HX.
  destruct (demo_table K HK dtf sv cmv lo hi ts_a ts_b va vb pos (fun _ => (Nan, Nan)) ND) as (df & E & _ & _ & T).
  { intros j k q Hj _. pose proof (dget_NoDup _ _ _ ND (nth_error_In _ _ Hj)) as Hk.
    destruct (predict_clean dtf sv cmv ts_a ts_b va vb pos X k q S ND NP L2 Hk C1 C2 (fun j p _ D => HX j p D)) as (p & rest & Ep & _ & Pn).
    exists rest. rewrite Ep, Pn; [reflexivity|]. left. rewrite (HX _ _ Hk). unfold inner, sub2. cbn [fst snd]. ring. }
  exists df. split; [exact E|]. intros i k q Hi B. destruct (T i k q Hi) as (T1 & _). now destruct (T1 B).
Qed.

Definition all_finite (l : list fl) : Prop := forall x, In x l -> is_finite x = true.
Lemma filter_all {A} (f : A -> bool) l : (forall x, In x l -> f x = true) -> filter f l = l.
Proof. induction l as [|a l IH]; intro Hl; [reflexivity|]. cbn. rewrite (Hl a) by now left. rewrite IH; auto. intros; apply Hl; now right. Qed.
Lemma along_cmv_eq e v : v <> (0, 0) -> along_cmv (Fin e) v = (Fin (e * fst v / len v), Fin (e * snd v / len v)).
Proof.
  intro N. pose proof (len_pos v N) as P. unfold along_cmv, unit_vec. rewrite magnitude_len.
  rewrite !fdiv_fin by lra. cbn [fmul]. f_equal; f_equal; field; lra.
Qed.
Lemma sgn_not_finite x : is_finite (sgn_inf x) = false.
Proof. unfold sgn_inf. destruct (Rltb 0 x); [reflexivity|]. now destruct (Rltb x 0). Qed.
Lemma along_cmv_bad e v : v <> (0, 0) -> is_finite e = false -> is_finite (fst (along_cmv e v)) = false \/ is_finite (snd (along_cmv e v)) = false.
Proof.
  intros N F. pose proof (len_pos v N) as P. unfold along_cmv, unit_vec. rewrite magnitude_len. rewrite !fdiv_fin by lra. cbn [fst snd].
  destruct e; try discriminate F; left; cbn; try reflexivity; apply sgn_not_finite.
Qed.
Lemma worked_end_eq rp ea eb va vb : va <> (0, 0) -> vb <> (0, 0) ->
  fst (worked_end rp (along_cmv ea va) (along_cmv eb vb)) = pp_position rp ea eb (Some va) (Some vb) /\
  (forall x y, fst (worked_end rp (along_cmv ea va) (along_cmv eb vb)) = (Fin x, Fin y) ->
     snd (worked_end rp (along_cmv ea va) (along_cmv eb vb)) = Fin (dist2 (x, y) rp)) /\
  (fst (fst (worked_end rp (along_cmv ea va) (along_cmv eb vb))) = Nan \/ snd (fst (worked_end rp (along_cmv ea va) (along_cmv eb vb))) = Nan ->
     snd (worked_end rp (along_cmv ea va) (along_cmv eb vb)) = Nan).
Proof.
  intros Na Nb. split; [|split].
  - unfold pp_position. destruct ea as [a| | |], eb as [b| | |];
      try (match goal with |- context [along_cmv ?e va] => destruct (along_cmv_bad e va Na eq_refl) as [F|F] end;
           unfold worked_end; destruct (along_cmv _ va) as [[?| | |] [?| | |]]; try discriminate F; try reflexivity;
           destruct (along_cmv _ vb) as [[?| | |] [?| | |]]; reflexivity);
      try (match goal with |- context [along_cmv ?e vb] => destruct (along_cmv_bad e vb Nb eq_refl) as [F|F] end;
           unfold worked_end; destruct (along_cmv _ vb) as [[?| | |] [?| | |]]; try discriminate F;
           destruct (along_cmv _ va) as [[?| | |] [?| | |]]; reflexivity).
    rewrite !along_cmv_eq, !pol_vec by assumption. unfold worked_end. destruct (intersection1 _ _). reflexivity.
  - intros x y. unfold worked_end. destruct (along_cmv ea va) as [[ax| | |] [ay| | |]]; try discriminate.
    destruct (along_cmv eb vb) as [[bx| | |] [by_| | |]]; try discriminate.
    destruct (intersection1 (ax, ay) (bx, by_)) as [[px| | |] [py| | |]]; cbn [fst snd fadd]; try discriminate.
    intros [= <- <-]. rewrite magnitude_len. unfold dist2. do 2 f_equal. unfold sub2. cbn [fst snd]. f_equal; ring.
  - unfold worked_end. destruct (along_cmv ea va) as [[ax| | |] [ay| | |]]; try reflexivity.
    destruct (along_cmv eb vb) as [[bx| | |] [by_| | |]]; try reflexivity.
    destruct (intersection1 (ax, ay) (bx, by_)) as [[px| | |] [py| | |]]; cbn [fst snd fadd]; intros [Q|Q]; try discriminate Q; reflexivity.
Qed.

(*@ C120 The steps of the notebook give the position that compute_predicted_position gives (mode 'coherence'), and the same exceptions, if every
    coherence is a finite number. The distance printed is the one between the planned and the predicted position, and
    NaN when a coordinate of the prediction is. *)
Lemma worked_same : forall (K : Type) (HK : Label K) dtf sv cmv (ts_a ts_b : list (K * list (option R))) pos ref va vb n,
  va <> (0, 0) -> vb <> (0, 0) ->
  (forall df sig delay coh, df = ts_a \/ df = ts_b -> dget df ref = Some sig -> dtf (ref, sig) df = Ok (delay, coh) -> all_finite coh) ->
  match compute_predicted_position dtf sv cmv ts_a ts_b pos ref (Some (Some va, Some vb)) "coherence" n with
  | Ok (p, _) => exists d, worked_steps dtf sv ts_a ts_b pos ref va vb n = Ok (p, d) /\
      (forall x y rp, p = (Fin x, Fin y) -> dget pos ref = Some rp -> d = Fin (dist2 (x, y) rp)) /\
      (fst p = Nan \/ snd p = Nan -> d = Nan)
  | Err e => worked_steps dtf sv ts_a ts_b pos ref va vb n = Err e
  end.
Proof.
  intros K HK dtf sv cmv ts_a ts_b pos ref va vb n Na Nb HF. unfold compute_predicted_position, worked_steps. cbv zeta. cbn [rbind].
  destruct (pp_case dtf ts_a pos ref (Some va)) as [d1|e] eqn:E1; cbn [rbind]; [|reflexivity].
  destruct (pp_case dtf ts_b pos ref (Some vb)) as [d2|e] eqn:E2; cbn [rbind]; [|reflexivity].
  assert (W : forall ts v d, ts = ts_a \/ ts = ts_b -> pp_case dtf ts pos ref (Some v) = Ok d ->
     filter (fun r => is_finite (snd r)) (map (fun r => (fst r, pp_coh (snd r))) d) = map (fun r => (fst r, pp_coh (snd r))) d).
  { intros ts v d Ht E. destruct (coh_pairs _ _ _ _ _ _ E) as (sig & dl & coh & G & D & C). rewrite C. apply filter_all. intros [k c] I.
    apply in_combine_r in I. exact (HF ts sig dl coh Ht G D c I). }
  unfold select_points. cbv zeta. cbn [String.eqb Ascii.eqb Bool.eqb orb]. rewrite (W _ _ _ (or_introl eq_refl) E1), (W _ _ _ (or_intror eq_refl) E2). cbn [rbind].
  fold (worked_points sv n d1). fold (worked_points sv n d2).
  destruct (loc_rows d1 (worked_points sv n d1)) as [s1|e]; cbn [rbind]; [|reflexivity].
  destruct (loc_rows d2 (worked_points sv n d2)) as [s2|e]; cbn [rbind]; [|reflexivity].
  destruct (lookup pos ref) as [rp|e] eqn:ER; cbn [rbind]; [|reflexivity].
  match goal with |- context [worked_end rp ?a ?b] => destruct (worked_end rp a b) as [p d] eqn:EW end.
  match type of EW with worked_end rp (along_cmv ?a va) (along_cmv ?b vb) = _ => destruct (worked_end_eq rp a b va vb Na Nb) as (A & B & B') end.
  rewrite EW in A, B, B'. cbn [fst snd] in A, B, B'. exists d. rewrite <- A. split; [reflexivity|]. split; [|exact B']. intros x y rp' -> G. unfold lookup in ER. rewrite G in ER. injection ER as <-.
  now apply B.
Qed.

(* The four sites of C30 and a dead sensor: no delay, no coherence. *)
Definition dead_sites : list (nat * (R * R)) := demo_sites ++ [(4%nat, (200, 0))].
Definition dead_df (n : nat) : list (nat * list (option R)) := demo_df n ++ [(4%nat, repeat None n)].
Definition dead_dtf (sig : nat * list (option R)) (df : list (nat * list (option R))) : result (list fl * list fl) :=
  let! (d, c) := demo_dtf sig df in Ok (d ++ [Nan], c ++ [Nan]).
Definition dead_rows (l : list (R * R * R * R)) (plan4 : R) : list (nat * ppdata) :=
  map (fun x => let '(i, (pl, dd, d, c)) := x in (i, mkPP (Fin pl) (Fin dd) (Fin (dd - pl)) (Fin d) (Fin c))) (combine [0; 1; 2; 3]%nat l) ++
  [(4%nat, mkPP (Fin plan4) Nan Nan Nan Nan)].
Lemma unit_east : unit_vec (10, 0) = (Fin 1, Fin 0).
Proof.
  assert (M : magnitude (10, 0) = 10) by (unfold magnitude; cbn [fst snd]; replace (10 ^ 2 + 0 ^ 2) with (10 * 10) by ring; apply sqrt_square; lra).
  unfold unit_vec. rewrite M. cbn [fst snd]. rewrite !fdiv_fin by lra. f_equal; f_equal; field.
Qed.
Lemma unit_north : unit_vec (0, 5) = (Fin 0, Fin 1).
Proof.
  assert (M : magnitude (0, 5) = 5) by (unfold magnitude; cbn [fst snd]; replace (0 ^ 2 + 5 ^ 2) with (5 * 5) by ring; apply sqrt_square; lra).
  unfold unit_vec. rewrite M. cbn [fst snd]. rewrite !fdiv_fin by lra. f_equal; f_equal; field.
Qed.
Ltac rows := repeat match goal with |- Ok _ = Ok _ => f_equal | |- _ :: _ = _ :: _ => f_equal | |- (_, _) = (_, _) => f_equal | |- mkPP _ _ _ _ _ = mkPP _ _ _ _ _ => f_equal | |- Fin _ = Fin _ => f_equal; try lra end.
Lemma dead_case1 : pp_case dead_dtf (dead_df 1) dead_sites 0%nat (Some (10, 0)) =
  Ok (dead_rows [(0, 0, 0, 1); (-100, -90, 9, 0.9); (0, 10, -1, 0.8); (-100, -90, 9, 0.7)] (-200)).
Proof.
  assert (M : magnitude (10, 0) = 10) by (unfold magnitude; cbn [fst snd]; replace (10 ^ 2 + 0 ^ 2) with (10 * 10) by ring; apply sqrt_square; lra).
  unfold pp_case. cbn [vec_magnitude project_on]. unfold project_vectors. rewrite M, unit_east.
  cbn. unfold dead_rows. cbn. rows.
Qed.

Lemma dead_case2 : pp_case dead_dtf (dead_df 2) dead_sites 0%nat (Some (0, 5)) =
  Ok (dead_rows [(0, 0, 0, 1); (0, 20, -4, 0.9); (-100, -80, 16, 0.8); (-100, -80, 16, 0.7)] 0).
Proof.
  assert (M : magnitude (0, 5) = 5) by (unfold magnitude; cbn [fst snd]; replace (0 ^ 2 + 5 ^ 2) with (5 * 5) by ring; apply sqrt_square; lra).
  unfold pp_case. cbn [vec_magnitude project_on]. unfold project_vectors. rewrite M, unit_north.
  cbn. unfold dead_rows. cbn. rows.
Qed.
Lemma dead_sorted4 : sort_by rank_leb [(0%nat, Fin 1); (1%nat, Fin 0.9); (2%nat, Fin 0.8); (3%nat, Fin 0.7)] = [(3%nat, Fin 0.7); (2%nat, Fin 0.8); (1%nat, Fin 0.9); (0%nat, Fin 1)].
Proof.
  unfold sort_by. cbn [fold_right insert_by]. unfold rank_leb. cbn [is_nan orb fleb fst snd].
  rewrite (Rleb_false 0.8 0.7) by lra. cbn [insert_by is_nan orb fleb fst snd]. rewrite (Rleb_false 0.9 0.7), (Rleb_false 0.9 0.8) by lra.
  cbn [insert_by is_nan orb fleb fst snd]. rewrite (Rleb_false 1 0.7), (Rleb_false 1 0.8), (Rleb_false 1 0.9) by lra. reflexivity.
Qed.
Lemma dead_sorted5 : sort_by rank_leb [(0%nat, Fin 1); (1%nat, Fin 0.9); (2%nat, Fin 0.8); (3%nat, Fin 0.7); (4%nat, Nan)] =
  [(3%nat, Fin 0.7); (2%nat, Fin 0.8); (1%nat, Fin 0.9); (0%nat, Fin 1); (4%nat, Nan)].
Proof.
  unfold sort_by. cbn [fold_right]. unfold rank_leb.
  repeat (cbn [insert_by is_nan orb fleb fst snd]; first [rewrite (Rleb_false 0.8 0.7) by lra|rewrite (Rleb_false 0.9 0.7) by lra|rewrite (Rleb_false 0.9 0.8) by lra|
    rewrite (Rleb_false 1 0.7) by lra|rewrite (Rleb_false 1 0.8) by lra|rewrite (Rleb_false 1 0.9) by lra]).
  reflexivity.
Qed.
Lemma mean4 a b c d : series_mean [Fin a; Fin b; Fin c; Fin d] = Fin ((a + b + c + d) / 4).
Proof. change [Fin a; Fin b; Fin c; Fin d] with (map Fin [a; b; c; d]). rewrite series_mean_fin by discriminate. f_equal. unfold Rmean. cbn [length INR]. unfold Rsum. cbn. field. Qed.
Lemma mean3 a b c : series_mean [Fin a; Fin b; Fin c] = Fin ((a + b + c) / 3).
Proof. change [Fin a; Fin b; Fin c] with (map Fin [a; b; c]). rewrite series_mean_fin by discriminate. f_equal. unfold Rmean. cbn [length INR]. unfold Rsum. cbn. field. Qed.
Lemma end_of a b : a <> 0 -> b <> 0 -> worked_end (0, 0) (along_cmv (Fin a) (10, 0)) (along_cmv (Fin b) (0, 5)) = ((Fin a, Fin b), Fin (magnitude (a, b))).
Proof.
  intros Ha Hb. unfold along_cmv. rewrite unit_east, unit_north. unfold worked_end. cbn [fmul]. unfold intersection1. cbv zeta.
  assert (a * b <> 0) by (now apply Rmult_integral_contrapositive).
  rewrite !fdiv_fin by (intro F; apply H; transitivity (- (b * 0 * (a * 0) - a * 1 * (b * 1))); [ring|rewrite F; ring]).
  cbn [fadd fst snd].
  replace (((b * 0) ^ 2 + (b * 1) ^ 2) * (a * 0) - b * 1 * ((a * 1) ^ 2 + (a * 0) ^ 2)) with (- (a * b) * a) by ring.
  replace (((a * 1) ^ 2 + (a * 0) ^ 2) * (b * 0) - a * 1 * ((b * 0) ^ 2 + (b * 1) ^ 2)) with (- (a * b) * b) by ring.
  replace (b * 0 * (a * 0) - a * 1 * (b * 1)) with (- (a * b)) by ring.
  replace (- (a * b) * a / - (a * b)) with a by (field; auto). replace (- (a * b) * b / - (a * b)) with b by (field; auto).
  f_equal. f_equal; f_equal; ring.
Qed.

(*@ C120 Not so with a dead sensor (no coherence): it is ranked above the rest, so the notebook keeps the combiner itself among the
    points it averages, and the answer is pulled towards the plan. The sensor at (10, 20) is found by the library, the notebook puts it at (7.5, 15). *)
Lemma worked_dead_sensor_refuted : exists (dtf : nat * list (option R) -> list (nat * list (option R)) -> result (list fl * list fl)) sv cmv ts_a ts_b pos va vb rest d,
  sorts sv /\ va <> (0, 0) /\ vb <> (0, 0) /\ NoDup (map fst pos) /\
  compute_predicted_position dtf sv cmv ts_a ts_b pos 0%nat (Some (Some va, Some vb)) "coherence" 8 = Ok ((Fin 10, Fin 20), rest) /\
  worked_steps dtf sv ts_a ts_b pos 0%nat va vb 8 = Ok ((Fin 7.5, Fin 15), d).
Proof.
  exists dead_dtf, (sort_by rank_leb), no_cmv, (dead_df 1), (dead_df 2), dead_sites, (10, 0), (0, 5).
  assert (Na : (10, 0) <> (0, 0)) by (intro F; injection F; lra). assert (Nb : (0, 5) <> (0, 0)) by (intro F; injection F; lra).
  eexists. eexists. split; [apply stable_sorts|]. split; [exact Na|]. split; [exact Nb|].
  split; [cbn; repeat (constructor; [cbn; lia|]); constructor|]. split.
  - unfold compute_predicted_position. cbv zeta. cbn [rbind]. rewrite dead_case1, dead_case2. cbn [rbind]. unfold select_points. cbv zeta.
    cbn [String.eqb Ascii.eqb Bool.eqb orb]. unfold dead_rows. cbn [combine map app fst snd pp_coh filter is_finite]. rewrite dead_sorted4.
    cbn -[series_mean pp_position]. rewrite !mean3.
    match goal with |- Ok (pp_position ?rp ?a ?b ?u ?w, _) = _ => destruct (worked_end_eq rp a b (10, 0) (0, 5) Na Nb) as (W & _); rewrite <- W end.
    rewrite end_of by lra. cbn [fst]. do 2 f_equal. f_equal; f_equal; lra.
  - unfold worked_steps. rewrite dead_case1, dead_case2. cbn [rbind]. unfold worked_points. unfold dead_rows. cbn [combine map app fst snd pp_coh].
    rewrite dead_sorted5. cbn -[series_mean along_cmv worked_end]. rewrite !mean4, end_of by lra. do 2 f_equal. f_equal; f_equal; lra.
Qed.

(* Three combiners; the second is listed at (100, 100) and stands at (110, 130). *)
Definition trio : list (nat * (R * R)) := [(0%nat, (0, 0)); (1%nat, (100, 100)); (2%nat, (50, 0))].
Definition trio_truth (k : nat) : R * R := match k with 1%nat => (110, 130) | 2%nat => (50, 0) | _ => (0, 0) end.
Definition trio_df (n : nat) : list (nat * list (option R)) := map (fun k => (k, repeat (Some 1) n)) [0; 1; 2]%nat.
Definition trio_dtf (sig : nat * list (option R)) (_ : list (nat * list (option R))) : result (list fl * list fl) :=
  let v := if Nat.eqb (length (snd sig)) 1 then (10, 0) else (0, 5) in
  Ok (map (fun j => Fin (travel_time v (trio_truth (fst sig)) (trio_truth j))) [0; 1; 2]%nat,
      map (fun j => Fin (if Nat.eqb j (fst sig) then 1 else / 2)) [0; 1; 2]%nat).
(*@ex C120 The demonstration on the second and third of three combiners. *)
Lemma demo_example : sorts (sort_by (rank_leb (K := nat))) /\ NoDup (map fst trio) /\ ~ parallel (10, 0) (0, 5) /\ (2 <= length trio)%nat /\
  clean_data trio_dtf (map fst trio) trio_truth (trio_df 1) (10, 0) /\ clean_data trio_dtf (map fst trio) trio_truth (trio_df 2) (0, 5) /\
  (forall j p, j <> 1%nat -> dget trio j = Some p -> p = trio_truth j) /\ nth_error trio 1 = Some (1%nat, (100, 100)) /\
  inner (sub2 (trio_truth 1) (100, 100)) (10, 0) <> 0 /\ inner (sub2 (trio_truth 1) (100, 100)) (0, 5) <> 0 /\
  exists df, field_demo trio_dtf (sort_by rank_leb) no_cmv 1 3 (trio_df 1) (trio_df 2) (10, 0) (0, 5) trio = Ok df /\
    nth_error df 0 = Some (0%nat, [Nan; Nan; Nan; Nan]) /\ nth_error df 1 = Some (1%nat, [Fin 100; Fin 100; Fin 110; Fin 130]).
Proof.
  assert (S : sorts (sort_by (rank_leb (K := nat)))) by apply stable_sorts.
  assert (ND : NoDup (map fst trio)) by (cbn; repeat (constructor; [cbn; lia|]); constructor).
  assert (NP : ~ parallel (10, 0) (0, 5)) by (unfold parallel, cross; cbn; lra).
  assert (C : forall n v, ((n = 1%nat /\ v = (10, 0)) \/ (n = 2%nat /\ v = (0, 5))) -> clean_data trio_dtf (map fst trio) trio_truth (trio_df n) v).
  { intros n v Hv k Hk. exists (repeat (Some 1) n), (fun j => if Nat.eqb j k then 1 else / 2).
    cbn [map fst trio] in Hk |- *. split; [destruct Hk as [<-|[<-|[<-|[]]]]; reflexivity|]. split.
    - unfold trio_dtf. cbn [fst snd]. rewrite repeat_length. destruct Hv as [(-> & ->)|(-> & ->)]; reflexivity.
    - intros j _ N. rewrite Nat.eqb_refl. apply Nat.eqb_neq in N. rewrite N. lra. }
  assert (C1 := C 1%nat (10, 0) (or_introl (conj eq_refl eq_refl))). assert (C2 := C 2%nat (0, 5) (or_intror (conj eq_refl eq_refl))).
  assert (HX : forall j p, j <> 1%nat -> dget trio j = Some p -> p = trio_truth j).
  { intros [|[|[|j]]] p N D; cbn in D; [injection D as <-; reflexivity|now elim N|injection D as <-; reflexivity|discriminate]. }
  assert (Ia : inner (sub2 (trio_truth 1) (100, 100)) (10, 0) <> 0) by (unfold inner, sub2; cbn; lra).
  assert (Ib : inner (sub2 (trio_truth 1) (100, 100)) (0, 5) <> 0) by (unfold inner, sub2; cbn; lra).
  repeat (split; [first [assumption|reflexivity|cbn; lia]|]).
  destruct (demo_finds nat _ trio_dtf (sort_by rank_leb) no_cmv 1 3 (trio_df 1) (trio_df 2) (10, 0) (0, 5) trio trio_truth 1 1%nat (100, 100) S ND NP) as (df & E & R1 & _);
    try assumption; try reflexivity; try (cbn; lia).
  exists df. split; [exact E|]. split; [|exact R1].
  set (P := fun k => match predict trio_dtf (sort_by rank_leb) no_cmv (trio_df 1) (trio_df 2) (10, 0) (0, 5) trio k with Ok (p, _) => p | Err _ => (Nan, Nan) end).
  destruct (demo_table nat _ trio_dtf (sort_by rank_leb) no_cmv 1 3 (trio_df 1) (trio_df 2) (10, 0) (0, 5) trio P ND) as (df' & E' & _ & _ & T).
  { intros j k q Hj _. destruct (clean_runs trio_dtf (sort_by rank_leb) no_cmv (trio_df 1) (trio_df 2) (10, 0) (0, 5) trio trio_truth S ND C1 C2 k) as ((p & rest) & Ek).
    - apply nth_error_In in Hj. now apply (in_map fst) in Hj.
    - exists rest. unfold P. rewrite Ek. exact Ek. }
  rewrite E in E'. injection E' as <-. destruct (T 0%nat 0%nat (0, 0) eq_refl) as (_ & T2). destruct T2 as (T2 & _); [lia|exact T2].
Qed.
