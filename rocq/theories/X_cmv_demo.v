(** Time lags relative to one site, as in cmv_demo.py (C115). *)
From Coq Require Import String Permutation Sorted.
From Verif Require Import Prelude PreludeFacts RealBase Fl RealStat M_spatial M_cmv Spec_spatial Spec_cmv P_cmv X_cmv_pairs M_cmv_demo.
From Coq Require Import Lra.
Local Open Scope R_scope.

Section L.
Context {K : Type} `{HK : Label K}.
Lemma ref_lags_In (ref : K) pairs lags k x : In (k, x) (ref_lags ref pairs lags) <->
  exists i a b l, nth_error pairs i = Some (a, b) /\ nth_error lags i = Some l /\
    (a = ref /\ k = b /\ x = l \/ a <> ref /\ b = ref /\ k = a /\ x = fopp l).
Proof.
  unfold ref_lags. rewrite in_flat_map. split.
  - intros ([[a b] l] & I & E). cbn [fst snd] in E. apply In_nth_error in I. destruct I as [i I].
    assert (N : nth_error pairs i = Some (a, b) /\ nth_error lags i = Some l).
    { clear E. revert lags i I. induction pairs as [|p ps IH]; intros [|l0 ls] [|i] I; try discriminate; [injection I as -> ->; auto|]. exact (IH ls i I). }
    exists i, a, b, l. destruct N as [N1 N2]. split; [exact N1|]. split; [exact N2|].
    destruct (lab_eqb ref a) eqn:Ea; cbn [orb] in E.
    + apply lab_eqb_eq in Ea. subst. destruct E as [E|[]]. injection E as <- <-. left. auto.
    + assert (a <> ref) by (intros ->; rewrite (proj2 (lab_eqb_eq ref ref) eq_refl) in Ea; discriminate).
      destruct (lab_eqb ref b) eqn:Eb; [|destruct E]. apply lab_eqb_eq in Eb. subst. destruct E as [E|[]]. injection E as <- <-. right. auto.
  - intros (i & a & b & l & N1 & N2 & C). exists ((a, b), l). split.
    + apply nth_error_In with (n := i). clear C. revert lags i N1 N2. induction pairs as [|p ps IH]; intros [|l0 ls] [|i] N1 N2; try discriminate; [cbn in *; congruence|]. exact (IH ls i N1 N2).
    + cbn [fst snd]. destruct C as [(-> & -> & ->)|(Na & -> & -> & ->)].
      * rewrite (proj2 (lab_eqb_eq ref ref) eq_refl). cbn [orb]. now left.
      * rewrite (proj2 (lab_eqb_eq ref ref) eq_refl), Bool.orb_true_r. destruct (lab_eqb ref a) eqn:Ea; [apply lab_eqb_eq in Ea; congruence|now left].
Qed.
Lemma fold_dset_keys (ws : list (K * fl)) : forall d, (forall k x, In (k, x) ws -> In k (dkeys d)) ->
  dkeys (fold_left (fun d kv => dset d (fst kv) (snd kv)) ws d) = dkeys d.
Proof.
  induction ws as [|[k x] ws IH]; intros d Hw; [reflexivity|]. cbn [fold_left fst snd]. rewrite IH.
  - apply dset_keys_in. apply (Hw k x). now left.
  - intros k' x' I. rewrite dset_keys_in by (apply (Hw k x); now left). apply (Hw k' x'). now right.
Qed.
Lemma dget_zeros (sites : list K) k : In k sites -> dget (map (fun k => (k, Fin 0)) sites) k = Some (Fin 0).
Proof.
  induction sites as [|s sites IH]; [easy|]. intros [->|I]; cbn [map dget].
  - now rewrite (proj2 (lab_eqb_eq k k) eq_refl).
  - destruct (lab_eqb s k); [reflexivity|auto].
Qed.
End L.

(*@ C115 For a pair list as compute_cmv reports it, the lag map has one row per site in table order, 0 for the reference, the pair's lag for a site paired
    second with it, the negated lag for one paired first, and 0 for a site the list does not pair with it *)
Lemma lag_map_value : forall (K : Type) (HK : Label K) dx dt ms lsq ts (pos : list (K * (R * R))) rid m o bk v t w o' fit ref,
  NoDup (map fst pos) -> compute_cmv dx dt ms lsq ts pos rid m o bk = Ok ((v, t, w), o') -> w_fit w = Some fit -> In ref (map fst pos) ->
  exists col, lag_map ref (map fst pos) w = Ok col /\ map fst col = map fst pos /\ In (ref, Fin 0) col /\
    (forall i a l, nth_error (w_allpairs w) i = Some (ref, a) -> nth_error (w_pair_lag fit) i = Some l -> a <> ref -> In (a, l) col) /\
    (forall i a l, nth_error (w_allpairs w) i = Some (a, ref) -> nth_error (w_pair_lag fit) i = Some l -> a <> ref -> In (a, fopp l) col) /\
    (forall a, In a (map fst pos) -> ~ In (ref, a) (w_allpairs w) -> ~ In (a, ref) (w_allpairs w) -> In (a, Fin 0) col).
Proof.
  intros K HK dx dt ms lsq ts pos rid m o bk v t w o' fit ref ND E Ef Ir.
  destruct (cmv_pairs K HK dx dt ms lsq ts pos rid m o bk v t w o' ND E) as (Mem & NDp & _).
  set (sites := map fst pos) in *. set (pairs := w_allpairs w) in *. set (lags := w_pair_lag fit).
  assert (Sides : forall a b, In (a, b) pairs -> In a sites /\ In b sites).
  { intros a b I. apply Mem in I. destruct I as ((i & j & _ & J1 & J2) & _). split; eapply nth_error_In; eauto. }
  assert (Anti : forall a b, In (a, b) pairs -> In (b, a) pairs -> a = b).
  { intros a b I1 I2. apply Mem in I1, I2. destruct I1 as ((i & j & L & J1 & J2) & _). destruct I2 as ((i' & j' & L' & J1' & J2') & _). cbn [fst snd] in *.
    assert (i = j'). { apply (proj1 (NoDup_nth_error sites) ND); [apply nth_error_Some; congruence|congruence]. }
    assert (j = i'). { apply (proj1 (NoDup_nth_error sites) ND); [apply nth_error_Some; congruence|congruence]. }
    assert (i = j) by lia. congruence. }
  set (ws := ref_lags ref pairs lags).
  assert (KS : forall k x, In (k, x) ws -> In k sites).
  { intros k x I. apply ref_lags_In in I. destruct I as (i & a & b & l & N1 & N2 & C). apply nth_error_In in N1. destruct (Sides _ _ N1). destruct C as [(_ & -> & _)|(_ & _ & -> & _)]; auto. }
  set (col := dset (fold_left (fun d kv => dset d (fst kv) (snd kv)) ws (map (fun k => (k, Fin 0)) sites)) ref (Fin 0)).
  assert (Z : dkeys (map (fun k : K => (k, Fin 0)) sites) = sites) by (unfold dkeys; rewrite map_map; apply map_id).
  assert (KF : dkeys (fold_left (fun d kv => dset d (fst kv) (snd kv)) ws (map (fun k => (k, Fin 0)) sites)) = sites).
  { rewrite fold_dset_keys; [exact Z|]. intros k x I. rewrite Z. eauto. }
  assert (KC : dkeys col = sites) by (unfold col; rewrite dset_keys_in; [exact KF|rewrite KF; exact Ir]).
  assert (Uniq : forall k x y, k <> ref -> In (k, x) ws -> In (k, y) ws -> x = y).
  { intros k x y Nk I1 I2. apply ref_lags_In in I1, I2.
    destruct I1 as (i & a & b & l & P1 & L1 & C1). destruct I2 as (i' & a' & b' & l' & P2 & L2 & C2).
    assert (Same : forall p, nth_error pairs i = Some p -> nth_error pairs i' = Some p -> i = i').
    { intros p Q1 Q2. apply (proj1 (NoDup_nth_error pairs) NDp); [apply nth_error_Some; congruence|congruence]. }
    destruct C1 as [(-> & -> & ->)|(Na & -> & -> & ->)]; destruct C2 as [(-> & -> & ->)|(Na' & -> & -> & ->)].
    - assert (i = i') by eauto. subst. congruence.
    - exfalso. apply Nk. symmetry. apply Anti; eapply nth_error_In; eauto.
    - exfalso. apply Nk. apply Anti; eapply nth_error_In; eauto.
    - assert (i = i') by eauto. subst. congruence. }
  assert (G : forall k, k <> ref -> dget col k = match dget (rev ws) k with Some x => Some x | None => dget (map (fun k => (k, Fin 0)) sites) k end).
  { intros k Nk. unfold col. rewrite dget_dset_other by auto. apply dget_fold. }
  assert (GI : forall k x, k <> ref -> In (k, x) ws -> In (k, x) col).
  { intros k x Nk I. apply dget_In. rewrite G by auto. destruct (dget (rev ws) k) as [y|] eqn:Ey.
    - f_equal. apply dget_In in Ey. apply in_rev in Ey. eapply Uniq; eauto.
    - exfalso. apply dget_None in Ey. apply Ey. unfold dkeys. apply in_map_iff. exists (k, x). split; [reflexivity|]. now apply in_rev in I. }
  exists col. split.
  { unfold lag_map. rewrite Ef. fold pairs lags ws. replace (forallb (fun p => lab_mem (fst p) sites) ws) with true; [reflexivity|].
    symmetry. apply forallb_forall. intros [k x] I. apply lab_mem_In. eapply KS; eauto. }
  split; [exact KC|]. split; [apply dget_In; unfold col; apply dget_dset_same|]. split; [|split].
  - intros i a l P L Na. apply GI; [exact Na|]. apply ref_lags_In. exists i, ref, a, l. split; [exact P|]. split; [exact L|]. left. auto.
  - intros i a l P L Na. apply GI; [exact Na|]. apply ref_lags_In. exists i, a, ref, l. split; [exact P|]. split; [exact L|]. right. auto.
  - intros a Ia N1 N2. assert (Na : a <> ref \/ a = ref) by (destruct (lab_eqb a ref) eqn:Eq; [right; now apply lab_eqb_eq|left; intros ->; rewrite (proj2 (lab_eqb_eq ref ref) eq_refl) in Eq; discriminate]).
    destruct Na as [Na| ->]; [|apply dget_In; unfold col; apply dget_dset_same].
    apply dget_In. rewrite G by auto. destruct (dget (rev ws) a) as [y|] eqn:Ey; [|now apply dget_zeros].
    exfalso. apply dget_In in Ey. apply in_rev in Ey. apply ref_lags_In in Ey. destruct Ey as (i & a' & b' & l & P & _ & C). apply nth_error_In in P.
    destruct C as [(-> & -> & _)|(_ & -> & -> & _)]; auto.
Qed.

(*@ C115 If the lag of every pair is the difference of the two sites' arrival times, and all pairs were analysed, the map is each site's arrival time relative
    to the reference, in whichever order the sites are listed; another reference shifts all of it by a constant *)
Lemma lag_map_arrivals : forall (K : Type) (HK : Label K) dx dt ms lsq ts (pos : list (K * (R * R))) m o bk v t w o' fit ref (arrival : K -> R),
  NoDup (map fst pos) -> compute_cmv dx dt ms lsq ts pos RefNone m o bk = Ok ((v, t, w), o') -> w_fit w = Some fit -> In ref (map fst pos) ->
  w_pair_lag fit = map (fun p => Fin (arrival (snd p) - arrival (fst p))) (w_allpairs w) ->
  lag_map ref (map fst pos) w = Ok (map (fun k => (k, Fin (arrival k - arrival ref))) (map fst pos)).
Proof.
  intros K HK dx dt ms lsq ts pos m o bk v t w o' fit ref arrival ND E Ef Ir El.
  destruct (cmv_pairs K HK dx dt ms lsq ts pos RefNone m o bk v t w o' ND E) as (Mem & _).
  destruct (lag_map_value K HK dx dt ms lsq ts pos RefNone m o bk v t w o' fit ref ND E Ef Ir) as (col & -> & Kc & C0 & C1 & C2 & _).
  f_equal. set (sites := map fst pos) in *.
  assert (V : forall a, In a sites -> In (a, Fin (arrival a - arrival ref)) col).
  { intros a Ia. assert (Na : a = ref \/ a <> ref) by (destruct (lab_eqb a ref) eqn:Eq; [left; now apply lab_eqb_eq|right; intros ->; rewrite (proj2 (lab_eqb_eq ref ref) eq_refl) in Eq; discriminate]).
    destruct Na as [->|Na]; [rewrite Rminus_diag_eq by reflexivity; exact C0|].
    destruct (In_nth_error _ _ Ia) as [i Hi]. destruct (In_nth_error _ _ Ir) as [j Hj].
    assert (Lg : forall n p, nth_error (w_allpairs w) n = Some p -> nth_error (w_pair_lag fit) n = Some (Fin (arrival (snd p) - arrival (fst p)))).
    { intros n p Hn. rewrite El, nth_error_map, Hn. reflexivity. }
    destruct (Nat.le_gt_cases i j) as [L|L].
    - assert (I : In (a, ref) (w_allpairs w)) by (apply Mem; split; [exists i, j; split; [exact L|split; assumption]|left; exact Ia]).
      apply In_nth_error in I. destruct I as [n Hn]. replace (Fin (arrival a - arrival ref)) with (fopp (Fin (arrival ref - arrival a))) by (cbn; f_equal; ring).
      apply (C2 n); auto. now rewrite (Lg _ _ Hn).
    - assert (I : In (ref, a) (w_allpairs w)) by (apply Mem; split; [exists j, i; split; [lia|split; assumption]|left; exact Ir]).
      apply In_nth_error in I. destruct I as [n Hn]. apply (C1 n); auto. now rewrite (Lg _ _ Hn). }
  clear - Kc V ND. clearbody sites. revert sites Kc V ND. induction col as [|[k x] col IH]; intros sites Kc V ND; [now rewrite <- Kc|].
  destruct sites as [|s sites]; [discriminate|]. cbn [map fst] in Kc. injection Kc as <- Kc. inversion ND as [|? ? Ns ND']. subst.
  cbn [map]. f_equal.
  - destruct (V k ltac:(now left)) as [Q|Q]; [exact Q|]. exfalso. apply Ns. apply in_map_iff. eexists. split; [|exact Q]. reflexivity.
  - apply IH; auto. intros a Ia. destruct (V a ltac:(now right)) as [Q|Q]; [|exact Q]. exfalso. injection Q as -> _. contradiction.
Qed.

(*@ C115 When compute_cmv found fewer than two usable pairs there is no lag to map (TypeError); a reference that is not a site leaves every lag 0 and appears as
    an extra row; a pair with a site missing from the table raises KeyError *)
Lemma lag_map_refused : forall (K : Type) (HK : Label K) ref (sites : list K) w,
  (w_fit w = None -> lag_map ref sites w = Err TypeError) /\
  (forall fit, w_fit w = Some fit -> ~ In ref sites -> (forall a b, In (a, b) (w_allpairs w) -> a <> ref /\ b <> ref) ->
     lag_map ref sites w = Ok (map (fun k => (k, Fin 0)) sites ++ [(ref, Fin 0)])) /\
  (forall fit i a b l, w_fit w = Some fit -> nth_error (w_allpairs w) i = Some (a, b) -> nth_error (w_pair_lag fit) i = Some l ->
     a = ref /\ ~ In b sites \/ a <> ref /\ b = ref /\ ~ In a sites -> lag_map ref sites w = Err KeyError).
Proof.
  intros K HK ref sites w. split; [intro E; unfold lag_map; now rewrite E|]. split.
  - intros fit E Nr Np. unfold lag_map. rewrite E.
    assert (W : ref_lags ref (w_allpairs w) (w_pair_lag fit) = []).
    { destruct (ref_lags ref (w_allpairs w) (w_pair_lag fit)) as [|[k x] ws] eqn:Ew; [reflexivity|]. exfalso.
      assert (I : In (k, x) (ref_lags ref (w_allpairs w) (w_pair_lag fit))) by (rewrite Ew; now left). apply ref_lags_In in I.
      destruct I as (i & a & b & l & P & _ & C). apply nth_error_In in P. destruct (Np _ _ P). destruct C as [(-> & _)|(_ & -> & _)]; contradiction. }
    rewrite W. cbn [forallb negb fold_left]. f_equal. apply dset_keys_notin. unfold dkeys. rewrite map_map. now rewrite map_id.
  - intros fit i a b l E P L C. unfold lag_map. rewrite E.
    assert (F : forallb (fun p => lab_mem (fst p) sites) (ref_lags ref (w_allpairs w) (w_pair_lag fit)) = false); [|now rewrite F].
    apply Bool.not_true_is_false. intro F. rewrite forallb_forall in F.
    destruct C as [(-> & N)|(Na & -> & N)].
    + specialize (F (b, l)). rewrite lab_mem_In in F. apply N, F, ref_lags_In. exists i, ref, b, l. split; [exact P|]. split; [exact L|]. left. auto.
    + specialize (F (a, fopp l)). rewrite lab_mem_In in F. apply N, F, ref_lags_In. exists i, a, ref, l. split; [exact P|]. split; [exact L|]. right. auto.
Qed.

Definition map_demo_pos : list (string * (R * R)) := [("a"%string, (0, 0)); ("b"%string, (10, 0)); ("c"%string, (0, 20))].
Definition map_demo_arrival (k : string) : R := if String.eqb k "b" then 5 else if String.eqb k "c" then -2 else 0.
Definition map_demo_wind : windspeed string :=
  let pairs := get_pairs (map fst map_demo_pos) None true in
  mkWind GOOD (map (fun _ => GOOD) pairs) pairs
    (Some (mkFit (map (fun p => Fin (map_demo_arrival (snd p) - map_demo_arrival (fst p))) pairs) None None [] [] (Fin 0) (Fin 1) None)).
(*@ex C115 Three sites reached at 0, 5 and -2 s: relative to b they lag by -5, 0 and -7 s, whether b comes first (b, c) or second (a, b) in its pairs *)
Lemma lag_map_example : NoDup (map fst map_demo_pos) /\ In "b"%string (map fst map_demo_pos) /\
  lag_map "b"%string (map fst map_demo_pos) map_demo_wind = Ok [("a"%string, Fin (- (5 - 0))); ("b"%string, Fin 0); ("c"%string, Fin (-2 - 5))].
Proof.
  split; [|split; [right; now left|reflexivity]].
  repeat constructor; cbn; intuition discriminate.
Qed.
