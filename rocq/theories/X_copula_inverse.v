(** Inverse sampling from a discretised distribution (copula._inverse_sample). *)
From Coq Require Import Permutation Sorted.
From Verif Require Import Prelude PreludeFacts RealBase Fl RealStat M_spatial Spec_spatial Spec_stats M_copula Spec_copula P_stats.
Local Open Scope R_scope.

Lemma dedup_In l x : In x (dedup l) <-> In x l.
Proof.
  induction l as [|y l IH]; [easy|]. cbn [dedup]. destruct (existsb (Reqb y) l) eqn:E.
  - rewrite IH. cbn. split; [tauto|]. intros [->|I]; [|easy]. apply existsb_exists in E. destruct E as (z & I & E). destruct (Reqb_spec x z); [now subst|discriminate].
  - cbn. now rewrite IH.
Qed.
Lemma dedup_NoDup l : NoDup (dedup l).
Proof.
  induction l as [|y l IH]; [constructor|]. cbn [dedup]. destruct (existsb (Reqb y) l) eqn:E; [easy|]. constructor; [|easy].
  rewrite dedup_In. intro I. assert (existsb (Reqb y) l = true); [|congruence]. apply existsb_exists. exists y. split; [easy|]. now apply Reqb_true.
Qed.
Definition keys (cdf : list R) : list R := rsort (dedup cdf).
Lemma keys_In cdf x : In x (keys cdf) <-> In x cdf.
Proof.
  rewrite <- (dedup_In cdf). unfold keys. split; intro H; (eapply Permutation_in; [|exact H]); [symmetry|]; apply rsort_perm.
Qed.
Lemma strict_sorted l : StronglySorted (fun a b => Rleb a b = true) l -> NoDup l -> StronglySorted Rlt l.
Proof.
  induction 1 as [|x l S IH F]; intro N; constructor; inversion N; subst; auto.
  rewrite Forall_forall in *. intros y Hy. specialize (F y Hy). destruct (Rleb_spec x y) as [L|]; [|discriminate].
  destruct (Req_dec x y); [subst; tauto|lra].
Qed.
Lemma keys_sorted cdf : StronglySorted Rlt (keys cdf).
Proof.
  apply strict_sorted; [apply rsort_sorted|]. eapply Permutation_NoDup; [apply rsort_perm|apply dedup_NoDup].
Qed.
(** Split at [r]. *)
Lemma split_at l r : StronglySorted Rlt l -> exists lo hi, l = lo ++ hi /\ (forall x, In x lo -> x <= r) /\ (forall x, In x hi -> r < x).
Proof.
  induction 1 as [|x l S IH F].
  - exists [], []. repeat split; easy.
  - rewrite Forall_forall in F. destruct (Rle_dec x r) as [L|L].
    + destruct IH as (lo & hi & -> & A & B). exists (x :: lo), hi. split; [easy|]. split; [|easy]. intros y [<-|I]; auto.
    + exists [], (x :: l). split; [easy|]. split; [easy|]. intros y [<-|I]; [lra|]. specialize (F y I). lra.
Qed.

Definition at_key (x cdf : list R) (c : R) : R := nth (first_index c cdf) x 0.
Lemma inverse_unfold x cdf r : inverse_sample x cdf r =
  np_interp r (0 :: keys cdf ++ [1]) (-2 :: map (at_key x cdf) (keys cdf) ++ [2]).
Proof. unfold inverse_sample, np_unique. rewrite !map_map. cbn [fst snd]. rewrite map_id. reflexivity. Qed.

Lemma first_index_spec c cdf : In c cdf -> nth_error cdf (first_index c cdf) = Some c /\ forall j, (j < first_index c cdf)%nat -> nth_error cdf j <> Some c.
Proof.
  induction cdf as [|y l IH]; intro I; [easy|]. cbn [first_index]. destruct (Reqb_spec y c) as [->|N].
  - split; [reflexivity|]. lia.
  - destruct I as [E|I]; [easy|]. destruct (IH I) as [A B]. split; [exact A|]. intros [|j] L; cbn; [congruence|]. apply B. lia.
Qed.
Lemma first_at_key x cdf c v : first_at x cdf c v -> In c cdf /\ at_key x cdf c = v.
Proof.
  intros (i & A & B & C). assert (I : In c cdf) by (eapply nth_error_In; eauto). split; [easy|].
  destruct (first_index_spec c cdf I) as [A' C']. assert (E : first_index c cdf = i).
  { destruct (Nat.lt_trichotomy (first_index c cdf) i) as [L|[L|L]]; [|easy|]; [now apply C in L|now apply C' in L]. }
  unfold at_key. rewrite E. now apply nth_error_nth.
Qed.
Lemma key_first_at x cdf c : length x = length cdf -> In c cdf -> first_at x cdf c (at_key x cdf c).
Proof.
  intros L I. destruct (first_index_spec c cdf I) as [A B]. exists (first_index c cdf). split; [easy|]. split; [|easy].
  unfold at_key. apply nth_error_nth'. rewrite L. apply nth_error_Some. congruence.
Qed.

(** Interpolation on a table cut into a part at or below the point and a part above it. *)
Lemma interp_cut r A c c' B A' v v' B' : length A = length A' -> (forall x, In x A -> x <= r) -> c <= r -> r < c' -> (forall x, In x B -> r < x) ->
  np_interp r (A ++ c :: c' :: B) (A' ++ v :: v' :: B') = v + (r - c) / (c' - c) * (v' - v).
Proof.
  intros L HA Hc Hc' HB. unfold np_interp.
  assert (F : filter (fun x => Rleb x r) (A ++ c :: c' :: B) = A ++ [c]).
  { rewrite filter_app. cbn [filter]. rewrite Rleb_true, Rleb_false by easy.
    rewrite (filter_all _ A) by (intros; apply Rleb_true; auto). rewrite (filter_none _ B) by (intros; apply Rleb_false; auto). reflexivity. }
  rewrite F. rewrite app_length. cbn [length]. rewrite Nat.add_1_r.
  destruct (Nat.eqb_spec (S (length A)) (length (A ++ c :: c' :: B))) as [E|_]; [rewrite app_length in E; cbn in E; lia|].
  assert (N0 : forall (T : list R) a b U n, length T = n -> nth n (T ++ a :: b :: U) 0 = a /\ nth (S n) (T ++ a :: b :: U) 0 = b).
  { intros T a b U n <-. rewrite app_nth2 by lia. rewrite app_nth2 by lia. replace (length T - length T)%nat with 0%nat by lia.
    replace (S (length T) - length T)%nat with 1%nat by lia. easy. }
  destruct (N0 A c c' B (length A) eq_refl) as [-> ->]. destruct (N0 A' v v' B' (length A) (eq_sym L)) as [-> ->].
  destruct (Reqb_spec c r) as [->|N]; [unfold Rdiv; ring|]. field. lra.
Qed.
Lemma interp_top r A c A' v : length A = length A' -> (forall x, In x A -> x <= r) -> c <= r -> np_interp r (A ++ [c]) (A' ++ [v]) = v.
Proof.
  intros L HA Hc. unfold np_interp. rewrite (filter_all _ (A ++ [c])).
  2:{ intros x Hx. apply Rleb_true. apply in_app_or in Hx. destruct Hx as [Hx|[<-|[]]]; auto. }
  rewrite app_length. cbn [length]. rewrite Nat.add_1_r, Nat.eqb_refl. rewrite L, app_nth2 by lia. now rewrite Nat.sub_diag.
Qed.
Lemma interp_low r c A fp : r < c -> (forall x, In x A -> r < x) -> np_interp r (c :: A) fp = nth 0 fp 0.
Proof. intros H HA. unfold np_interp. rewrite filter_none; [reflexivity|]. intros x [<-|I]; apply Rleb_false; auto. Qed.


Lemma last_split (l : list R) : l = [] \/ exists l' c, l = l' ++ [c].
Proof. destruct l as [|x l] using rev_ind; [now left|right; eauto]. Qed.

(** The segment holding [r]. *)
Lemma inverse_cut x cdf r : in_unit cdf -> 0 <= r < 1 ->
  exists lo hi, keys cdf = lo ++ hi /\ (forall c, In c lo -> c <= r) /\ (forall c, In c hi -> r < c) /\
  let c := last (0 :: lo) 0 in let v := last (-2 :: map (at_key x cdf) lo) 0 in
  let c' := hd 0 (hi ++ [1]) in let v' := hd 0 (map (at_key x cdf) hi ++ [2]) in
  c <= r < c' /\ inverse_sample x cdf r = v + (r - c) / (c' - c) * (v' - v).
Proof.
  intros U Hr. destruct (split_at (keys cdf) r (keys_sorted cdf)) as (lo & hi & E & Lo & Hi). exists lo, hi. split; [easy|]. split; [easy|]. split; [easy|].
  cbv zeta. rewrite inverse_unfold, E, map_app.
  assert (S1 : exists P c, 0 :: lo = P ++ [c] /\ exists P' v, -2 :: map (at_key x cdf) lo = P' ++ [v] /\ length P = length P').
  { destruct (last_split lo) as [->|(l' & c & ->)].
    - exists [], 0. split; [easy|]. exists [], (-2). easy.
    - exists (0 :: l'), c. split; [easy|]. exists (-2 :: map (at_key x cdf) l'), (at_key x cdf c). rewrite map_app. split; [easy|]. cbn. now rewrite map_length. }
  destruct S1 as (P & c & Ec & P' & v & Ev & LP). rewrite Ec, Ev, !last_last.
  assert (S2 : exists c' Q v' Q', hi ++ [1] = c' :: Q /\ map (at_key x cdf) hi ++ [2] = v' :: Q').
  { destruct hi as [|h hi]; cbn; eauto 6. }
  destruct S2 as (c' & Q & v' & Q' & Ec' & Ev'). rewrite Ec', Ev'. cbn [hd].
  assert (Hlo : forall y, In y (P ++ [c]) -> y <= r) by (rewrite <- Ec; intros y [<-|I]; [lra|auto]).
  assert (Hhi : forall y, In y (c' :: Q) -> r < y) by (rewrite <- Ec'; intros y I; apply in_app_or in I; destruct I as [I|[<-|[]]]; [auto|lra]).
  assert (Hc : c <= r) by (apply Hlo, in_or_app; right; now left). assert (Hc' : r < c') by (apply Hhi; now left).
  split; [easy|].
  replace (0 :: (lo ++ hi) ++ [1]) with (P ++ c :: c' :: Q).
  2:{ rewrite <- Ec'. change (c :: hi ++ [1]) with ([c] ++ hi ++ [1]). rewrite app_assoc, <- Ec. cbn. now rewrite app_assoc. }
  replace (-2 :: (map (at_key x cdf) lo ++ map (at_key x cdf) hi) ++ [2]) with (P' ++ v :: v' :: Q').
  2:{ rewrite <- Ev'. change (v :: map (at_key x cdf) hi ++ [2]) with ([v] ++ map (at_key x cdf) hi ++ [2]). rewrite app_assoc, <- Ev. cbn. now rewrite app_assoc. }
  apply interp_cut; auto.
  - intros y I. apply Hlo, in_or_app. now left.
  - intros y I. apply Hhi. now right.
Qed.

Lemma sorted_app_last lo hi (c : R) : StronglySorted Rlt (lo ++ hi) -> In c lo -> c <= last lo 0.
Proof.
  intros S I. destruct (last_split lo) as [->|(l' & z & ->)]; [easy|]. rewrite last_last. apply in_app_or in I. destruct I as [I|[->|[]]]; [|lra].
  rewrite <- app_assoc in S. clear -S I. induction l' as [|y l' IH]; [easy|]. cbn in S. apply StronglySorted_inv in S. destruct S as [S F]. destruct I as [->|I]; [|auto].
  rewrite Forall_forall in F. left. apply F. apply in_or_app. right. now left.
Qed.
Lemma sorted_app_hd lo hi (c : R) : StronglySorted Rlt (lo ++ hi) -> In c hi -> hd 0 hi <= c.
Proof.
  intros S I. induction lo as [|y lo IH]; [|cbn in S; apply StronglySorted_inv in S; tauto]. cbn in S. destruct hi as [|h hi]; [easy|]. cbn.
  destruct I as [->|I]; [lra|]. apply StronglySorted_inv in S. destruct S as [_ F]. rewrite Forall_forall in F. left. auto.
Qed.

(*@ C64 Between two neighbouring table values the result is linear; below the table it starts at (0, -2), above it stops at (1, 2). *)
Lemma inverse_linear : forall x cdf c c' v v' r, in_unit cdf -> lower_node x cdf c v -> upper_node x cdf c' v' ->
  0 <= c -> c <= r < c' -> c' <= 1 -> (forall d, In d cdf -> ~ c < d < c') ->
  inverse_sample x cdf r = v + (r - c) / (c' - c) * (v' - v).
Proof.
  intros x cdf c c' v v' r U Lw Up H0 Hr H1 Gap.
  destruct (inverse_cut x cdf r U ltac:(lra)) as (lo & hi & E & Lo & Hi & [Hc Hv]). cbv zeta in *. rewrite Hv. clear Hv.
  pose proof (keys_sorted cdf) as S. rewrite E in S.
  assert (K : forall d, In d cdf <-> In d lo \/ In d hi) by (intro d; rewrite <- keys_In, E; apply in_app_iff).
  assert (A : last (0 :: lo) 0 = c /\ last (-2 :: map (at_key x cdf) lo) 0 = v).
  { destruct (last_split lo) as [El|(l' & z & El)].
    - destruct Lw as [F|(-> & -> & _)]; [|rewrite El; split; reflexivity]. apply first_at_key in F. destruct F as [I _]. apply K in I. rewrite El in I. destruct I as [[]|I]. apply Hi in I. lra.
    - assert (Iz : In z lo) by (rewrite El; apply in_or_app; right; now left). assert (Cz : In z cdf) by (apply K; now left).
      assert (Lz : last (0 :: lo) 0 = z /\ last (-2 :: map (at_key x cdf) lo) 0 = at_key x cdf z).
      { rewrite El, map_app. cbn [map]. rewrite !app_comm_cons, !last_last. split; reflexivity. }
      destruct Lz as [-> ->]. pose proof (Lo z Iz) as Lz. pose proof (Gap z Cz) as G. pose proof (U z Cz) as Uz.
      destruct Lw as [F|(-> & -> & N0)].
      + apply first_at_key in F. destruct F as [I <-]. apply K in I. destruct I as [I|I]; [|apply Hi in I; lra].
        pose proof (sorted_app_last lo hi c S I) as Q. rewrite El, last_last in Q. assert (z = c) by lra. subst. easy.
      + exfalso. assert (z <> 0) by (intros ->; tauto). lra. }
  assert (B : hd 0 (hi ++ [1]) = c' /\ hd 0 (map (at_key x cdf) hi ++ [2]) = v').
  { destruct hi as [|z hi'] eqn:Eh.
    - destruct Up as [F|(-> & -> & _)]; [|easy]. apply first_at_key in F. destruct F as [I _]. apply K in I. destruct I as [I|[]]. apply Lo in I. lra.
    - cbn [map app hd]. assert (Cz : In z cdf) by (apply K; right; now left). pose proof (Hi z (or_introl eq_refl)) as Lz. pose proof (Gap z Cz) as G. pose proof (U z Cz) as Uz.
      destruct Up as [F|(-> & -> & N1)].
      + apply first_at_key in F. destruct F as [I <-]. apply K in I. destruct I as [I|I]; [apply Lo in I; lra|].
        pose proof (sorted_app_hd lo (z :: hi') c' S I) as Q. cbn in Q. assert (z = c') by lra. subst. easy.
      + exfalso. assert (z <> 1) by (intros ->; tauto). lra. }
  destruct A as [-> ->], B as [-> ->]. reflexivity.
Qed.

(*@ C64 Outside: 2 from 1 upwards, -2 below 0 (and at 0 when the table starts above 0). *)
Lemma inverse_ends : forall x cdf r, in_unit cdf ->
  (1 <= r -> inverse_sample x cdf r = 2) /\ (r < 0 -> inverse_sample x cdf r = -2) /\
  (~ In 0 cdf -> inverse_sample x cdf 0 = -2).
Proof.
  intros x cdf r U. rewrite !inverse_unfold. split; [|split].
  - intro H. rewrite !app_comm_cons. apply interp_top; [cbn; now rewrite map_length| |easy].
    intros y [<-|I]; [lra|]. rewrite keys_In in I. apply U in I. lra.
  - intro H. rewrite interp_low; [reflexivity|easy|]. intros y I. apply in_app_or in I. destruct I as [I|[<-|[]]]; [|lra]. rewrite keys_In in I. apply U in I. lra.
  - intro N. rewrite <- inverse_unfold. destruct (inverse_cut x cdf 0 U ltac:(lra)) as (lo & hi & E & Lo & Hi & [Hc ->]). cbv zeta in *.
    destruct lo as [|z lo]; [cbn [last map]; unfold Rdiv; ring|]. exfalso.
    assert (I : In z cdf) by (apply keys_In; rewrite E; now left). pose proof (U z I). pose proof (Lo z (or_introl eq_refl)). assert (z = 0) by lra. now subst.
Qed.

(*@ C64 At every table value below 1 the stored point is returned (the first one where the table repeats a value). *)
Lemma inverse_node : forall x cdf i c v, in_unit cdf -> length x = length cdf -> c < 1 ->
  nth_error cdf i = Some c -> nth_error x i = Some v -> (forall j, (j < i)%nat -> nth_error cdf j <> Some c) ->
  inverse_sample x cdf c = v.
Proof.
  intros x cdf i c v U L H1 A B C. assert (I : In c cdf) by (eapply nth_error_In; eauto).
  assert (F : first_at x cdf c v) by (exists i; auto). destruct (first_at_key _ _ _ _ F) as [_ Ek].
  destruct (inverse_cut x cdf c U ltac:(pose proof (U c I); lra)) as (lo & hi & E & Lo & Hi & [Hc ->]). cbv zeta in *.
  assert (Il : In c lo).
  { assert (I' : In c (keys cdf)) by now apply keys_In. rewrite E in I'. apply in_app_or in I'. destruct I' as [I'|I']; [easy|]. apply Hi in I'. lra. }
  assert (Lst : exists l', lo = l' ++ [c]).
  { destruct (last_split lo) as [->|(l' & z & El)]; [easy|]. exists l'. pose proof (keys_sorted cdf) as S. rewrite E in S.
    pose proof (sorted_app_last lo hi c S Il) as Q. rewrite El, last_last in Q. assert (z <= c) by (apply Lo; rewrite El; apply in_or_app; right; now left).
    assert (z = c) by lra. now subst. }
  destruct Lst as (l' & ->). rewrite map_app. cbn [map]. rewrite !app_comm_cons, !last_last, Ek. unfold Rdiv. ring.
Qed.

Lemma at_key_bound x cdf c : length x = length cdf -> In c cdf -> (forall y, In y x -> -2 <= y <= 2) -> -2 <= at_key x cdf c <= 2.
Proof. intros L I H. apply H. destruct (key_first_at x cdf c L I) as (i & _ & B & _). eapply nth_error_In; eauto. Qed.

Lemma lerp_between v v' t : 0 <= t <= 1 -> Rmin v v' <= v + t * (v' - v) <= Rmax v v'.
Proof. intro H. unfold Rmin, Rmax. destruct (Rle_dec v v'); nra. Qed.
Lemma frac_unit c r c' : c <= r < c' -> 0 <= (r - c) / (c' - c) < 1.
Proof.
  intro H. split; [apply Rmult_le_pos; [lra|]; left; apply Rinv_0_lt_compat; lra|].
  apply Rmult_lt_reg_r with (c' - c); [lra|]. field_simplify; lra.
Qed.
Lemma last_cons_in (a : R) l : In (last (a :: l) 0) (a :: l).
Proof. destruct (last_split l) as [->|(l' & z & ->)]; [now left|]. rewrite app_comm_cons, last_last. right. apply in_or_app. right. now left. Qed.
Lemma hd_app_in (a : R) l : In (hd 0 (l ++ [a])) (l ++ [a]).
Proof. destruct l; cbn; now left. Qed.

(*@ C64 The result stays within [-2, 2] whenever the points do. *)
Lemma inverse_range : forall x cdf r, in_unit cdf -> length x = length cdf -> (forall y, In y x -> -2 <= y <= 2) ->
  -2 <= inverse_sample x cdf r <= 2.
Proof.
  intros x cdf r U L H. destruct (inverse_ends x cdf r U) as (E1 & E0 & _). destruct (Rlt_le_dec r 0) as [H0|H0]; [rewrite E0; lra|].
  destruct (Rle_dec 1 r) as [H1|H1]; [rewrite E1; lra|].
  destruct (inverse_cut x cdf r U ltac:(lra)) as (lo & hi & E & Lo & Hi & [Hc ->]). cbv zeta in *.
  set (v := last (-2 :: map (at_key x cdf) lo) 0). set (v' := hd 0 (map (at_key x cdf) hi ++ [2])).
  assert (Kin : forall d, In d lo \/ In d hi -> In d cdf) by (intros d Hd; apply keys_In; rewrite E; apply in_or_app; tauto).
  assert (Bv : -2 <= v <= 2).
  { pose proof (last_cons_in (-2) (map (at_key x cdf) lo)) as I. fold v in I. destruct I as [<-|I]; [lra|]. apply in_map_iff in I. destruct I as (d & <- & I). apply at_key_bound; auto. }
  assert (Bv' : -2 <= v' <= 2).
  { pose proof (hd_app_in 2 (map (at_key x cdf) hi)) as I. fold v' in I. apply in_app_or in I. destruct I as [I|[<-|[]]]; [|lra]. apply in_map_iff in I. destruct I as (d & <- & I). apply at_key_bound; auto. }
  pose proof (frac_unit _ _ _ Hc) as F. pose proof (lerp_between v v' _ (conj (proj1 F) (Rlt_le _ _ (proj2 F)))) as B.
  assert (-2 <= Rmin v v') by (unfold Rmin; destruct (Rle_dec v v'); lra). assert (Rmax v v' <= 2) by (unfold Rmax; destruct (Rle_dec v v'); lra). lra.
Qed.

(** Non-decreasing tables. *)
Lemma rising_nth_le l : rising l -> forall i j a b, (i <= j)%nat -> nth_error l i = Some a -> nth_error l j = Some b -> a <= b.
Proof.
  intros H i j a b Hij. revert b. induction Hij as [|j Hij IH]; intros b A B; [replace b with a by congruence; lra|].
  destruct (nth_error l j) as [m|] eqn:E.
  - apply Rle_trans with m; [now apply IH|eapply H; eauto].
  - apply nth_error_None in E. assert (nth_error l (S j) <> None) by congruence. apply nth_error_Some in H0. lia.
Qed.
Lemma at_key_mono x cdf c c' : length x = length cdf -> rising x -> rising cdf -> In c cdf -> In c' cdf -> c <= c' -> at_key x cdf c <= at_key x cdf c'.
Proof.
  intros L Rx Rc I I' H. destruct (Req_dec c c') as [->|N]; [lra|].
  destruct (key_first_at x cdf c L I) as (i & A & B & _). destruct (key_first_at x cdf c' L I') as (j & A' & B' & _).
  destruct (Nat.le_gt_cases i j) as [Q|Q]; [eapply (rising_nth_le x Rx); eauto|].
  pose proof (rising_nth_le cdf Rc j i c' c ltac:(lia) A' A). lra.
Qed.

(*@ C64 For a non-decreasing table the result is non-decreasing in r, for all real r. *)
Lemma inverse_monotone : forall x cdf r r', in_unit cdf -> length x = length cdf -> (forall y, In y x -> -2 <= y <= 2) ->
  rising x -> rising cdf -> r <= r' -> inverse_sample x cdf r <= inverse_sample x cdf r'.
Proof.
  intros x cdf r r' U L Hx Rx Rc Hr. pose proof (inverse_range x cdf r U L Hx) as B. pose proof (inverse_range x cdf r' U L Hx) as B'.
  destruct (inverse_ends x cdf r U) as (_ & E0 & _). destruct (inverse_ends x cdf r' U) as (E1 & _ & _).
  destruct (Rlt_le_dec r 0) as [H0|H0]; [rewrite E0; lra|]. destruct (Rle_dec 1 r') as [H1|H1]; [rewrite E1; lra|]. clear B B' E0 E1.
  pose proof (keys_sorted cdf) as S.
  destruct (inverse_cut x cdf r U ltac:(lra)) as (lo & hi & E & Lo & Hi & [Hc Hv]). destruct (inverse_cut x cdf r' U ltac:(lra)) as (lo' & hi' & E' & Lo' & Hi' & [Hc' Hv']). cbv zeta in *.
  rewrite Hv, Hv'. clear Hv Hv'.
  assert (Kin : forall d, In d (keys cdf) -> In d cdf) by (intro d; apply keys_In).
  (* value at the left end is at most value at the right end *)
  assert (Ord : forall lo hi, keys cdf = lo ++ hi -> last (-2 :: map (at_key x cdf) lo) 0 <= hd 0 (map (at_key x cdf) hi ++ [2])).
  { clear - U L Hx Rx Rc S Kin. intros lo hi E. destruct (last_split lo) as [->|(l' & z & ->)].
    - cbn [map last]. destruct hi as [|h hi]; cbn; [lra|]. apply at_key_bound; auto. apply Kin. rewrite E. now left.
    - rewrite map_app. cbn [map]. rewrite app_comm_cons, last_last. assert (Iz : In z cdf) by (apply Kin; rewrite E; apply in_or_app; left; apply in_or_app; right; now left).
      destruct hi as [|h hi]; cbn; [apply at_key_bound; auto|]. apply at_key_mono; auto; [apply Kin; rewrite E; apply in_or_app; right; now left|].
      rewrite E in S. clear -S. rewrite <- app_assoc in S. induction l' as [|y l' IH]; cbn in S; apply StronglySorted_inv in S; destruct S as [S F]; [|auto].
      inversion F; subst. lra. }
  pose proof (Ord lo hi E) as O1. pose proof (Ord lo' hi' E') as O2. pose proof (frac_unit _ _ _ Hc) as F1. pose proof (frac_unit _ _ _ Hc') as F2.
  assert (Sub : exists m, lo' = lo ++ m /\ hi = m ++ hi').
  { rewrite E in E'. clear -E' Lo Hi Lo' Hi' Hr. revert lo' E' Lo' . induction lo as [|y lo IH]; intros lo' E' Lo'.
    - exists lo'. cbn in *. easy.
    - destruct lo' as [|y' lo'].
      + exfalso. cbn in E'. assert (r' < y) by (apply Hi'; rewrite <- E'; now left). assert (y <= r) by (apply Lo; now left). lra.
      + cbn in E'. injection E' as -> E'. destruct (IH ltac:(intros; apply Lo; now right) lo' E' ltac:(intros; apply Lo'; now right)) as (m & -> & ->). exists m. easy. }
  destruct Sub as (m & -> & ->). destruct m as [|z m].
  - rewrite app_nil_r in *. cbn [app] in *. set (c := last (0 :: lo) 0) in *. set (c' := hd 0 (hi' ++ [1])) in *.
    set (v := last (-2 :: map (at_key x cdf) lo) 0) in *. set (v' := hd 0 (map (at_key x cdf) hi' ++ [2])) in *.
    apply Rplus_le_compat_l. apply Rmult_le_compat_r; [lra|]. apply Rmult_le_compat_r; [left; apply Rinv_0_lt_compat; lra|lra].
  - set (v := last (-2 :: map (at_key x cdf) lo) 0) in *. cbn [app map hd] in *. set (v1 := at_key x cdf z) in *.
    set (v2 := last (-2 :: map (at_key x cdf) (lo ++ z :: m)) 0) in *. set (v3 := hd 0 (map (at_key x cdf) hi' ++ [2])) in *.
    assert (M : v1 <= v2).
    { unfold v2. rewrite map_app, app_comm_cons. destruct (last_split m) as [->|(m' & y & ->)].
      - cbn [map]. rewrite last_last. unfold v1. lra.
      - change (z :: m' ++ [y]) with ((z :: m') ++ [y]). rewrite map_app. cbn [map]. rewrite app_assoc, last_last. unfold v1. apply at_key_mono; auto.
        + apply Kin. rewrite E. apply in_or_app. right. now left.
        + apply Kin. rewrite E. apply in_or_app. right. right. apply in_or_app. left. apply in_or_app. right. now left.
        + rewrite E in S. clear -S. induction lo as [|w lo IH]; cbn in S; apply StronglySorted_inv in S; destruct S as [S F]; [|auto].
          rewrite Forall_forall in F. left. apply F. apply in_or_app. left. apply in_or_app. right. now left. }
    assert (v + (r - last (0 :: lo) 0) / (z - last (0 :: lo) 0) * (v1 - v) <= v1) by nra.
    match goal with |- _ <= v2 + ?t * (v3 - v2) => assert (0 <= t * (v3 - v2)) by (apply Rmult_le_pos; lra) end. lra.
Qed.

(*@ex C64 *)
Lemma inverse_example : in_unit [1/4; 1/4; 1] /\ inverse_sample [0; 1; 2] [1/4; 1/4; 1] (1/4) = 0 /\ inverse_sample [0; 1; 2] [1/4; 1/4; 1] (5/8) = 1.
Proof.
  assert (U : in_unit [1/4; 1/4; 1]) by (intros c [<-|[<-|[<-|[]]]]; lra). split; [exact U|]. split.
  - apply (inverse_node _ _ 0 (1/4) 0 U); try easy; try lra.
  - rewrite (inverse_linear _ _ (1/4) 1 0 2 (5/8) U); try lra.
    + left. exists 0%nat. split; [easy|]. split; [easy|]. intros; lia.
    + left. exists 2%nat. split; [easy|]. split; [easy|]. intros [|[|j]] Hj; try lia; cbn; intro Q; injection Q; lra.
    + intros d [<-|[<-|[<-|[]]]]; lra.
Qed.
