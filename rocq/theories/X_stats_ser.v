(** Error metrics on pandas Series (stats.py). *)
From Coq Require Import Permutation Sorted.
From Verif Require Import Prelude PreludeFacts RealBase Fl RealStat M_stats Spec_stats X_stats_err.
Local Open Scope R_scope.

Section S.
  Context {K : Type} `{Label K}.

  Lemma labs_eqb_eq (a b : list K) : labs_eqb a b = true <-> a = b.
  Proof.
    revert b. induction a as [|x a IH]; intros [|y b]; cbn; try (split; easy).
    rewrite andb_true_iff, IH, lab_eqb_eq. split; [intros []; congruence|intro E; inversion E; auto].
  Qed.


  Lemma ser_at_holds (s : ser K) k x : NoDup (map fst s) -> ser_at s k = Some x <-> holds s k x.
  Proof.
    intro N. unfold ser_at, holds. split.
    - destruct (dget s k) as [v|] eqn:E; [|discriminate]. intros ->. now apply dget_In.
    - intro Hx. now rewrite (dget_NoDup s k (Some x) N Hx).
  Qed.

  Lemma union_In (a b : list K) k : In k (label_union a b) <-> In k a \/ In k b.
  Proof.
    unfold label_union. rewrite sort_by_In, in_app_iff, filter_In. split; [tauto|].
    intros [Ha|Hb]; [now left|]. destruct (lab_mem_spec k a); auto.
  Qed.
  Lemma NoDup_app_intro {A} (a b : list A) : NoDup a -> NoDup b -> (forall x, In x a -> ~ In x b) -> NoDup (a ++ b).
  Proof.
    intros Na Nb D. induction a as [|x a IH]; [easy|]. inversion Na; subst. cbn. constructor.
    - rewrite in_app_iff. intros [|]; [easy|]. now apply (D x (or_introl eq_refl)).
    - apply IH; [easy|]. intros y Hy. apply D. now right.
  Qed.
  Lemma union_NoDup (a b : list K) : NoDup a -> NoDup b -> NoDup (label_union a b).
  Proof.
    intros Na Nb. unfold label_union. eapply Permutation_NoDup; [apply sort_by_perm|].
    apply NoDup_app_intro; [easy|now apply NoDup_filter|]. intros x Hx I. apply filter_In in I. destruct I as [_ E].
    destruct (lab_mem_spec x a); easy.
  Qed.

  Lemma combine_In_snd {A B} (l : list A) (l' : list B) : length l = length l' -> forall k v, In (k, v) (combine l l') <->
     exists i, nth_error l i = Some k /\ nth_error l' i = Some v.
  Proof.
    revert l'. induction l as [|a l IH]; intros [|b l'] L k v; cbn in L; try discriminate.
    - split; [easy|]. intros ([|] & E & _); discriminate.
    - cbn. rewrite IH by congruence. split.
      + intros [E|(i & E1 & E2)]; [exists 0%nat; inversion E; auto|exists (S i); auto].
      + intros ([|i] & E1 & E2); cbn in *; [left; congruence|right; eauto].
  Qed.

  Lemma sub_keys (a b : ser K) : NoDup (map fst a) -> NoDup (map fst b) -> NoDup (map fst (ser_sub a b)) /\
    forall k, In k (map fst (ser_sub a b)) <-> In k (map fst a) \/ In k (map fst b).
  Proof.
    intros Na Nb. unfold ser_sub. destruct (labs_eqb (map fst a) (map fst b)) eqn:E.
    - apply labs_eqb_eq in E. assert (L : length (map2 (opt2 Rminus) (map snd a) (map snd b)) = length (map fst a)).
      { rewrite map2_length; rewrite !map_length; [easy|]. apply (f_equal (@length K)) in E. now rewrite !map_length in *. }
      assert (F : map fst (combine (map fst a) (map2 (opt2 Rminus) (map snd a) (map snd b))) = map fst a).
      { revert L. generalize (map2 (opt2 Rminus) (map snd a) (map snd b)), (map fst a). intros l' l. revert l'.
        induction l; intros [|]; cbn; intros; try discriminate; auto. f_equal. auto. }
      rewrite F, <- E. split; [easy|tauto].
    - rewrite map_map. cbn. rewrite map_id. split; [now apply union_NoDup|]. intro k. apply union_In.
  Qed.

  Lemma sub_row (a b : ser K) k v : NoDup (map fst a) -> NoDup (map fst b) -> In (k, v) (ser_sub a b) ->
    v = opt2 Rminus (ser_at a k) (ser_at b k).
  Proof.
    intros Na Nb. unfold ser_sub. destruct (labs_eqb (map fst a) (map fst b)) eqn:E.
    - apply labs_eqb_eq in E. assert (Lab : length a = length b) by (apply (f_equal (@length K)) in E; now rewrite !map_length in *).
      rewrite combine_In_snd by (rewrite map2_length; rewrite !map_length; congruence).
      intros (i & E1 & E2). rewrite nth_error_map2, !nth_error_map in E2.
      assert (E1' : nth_error (map fst b) i = Some k) by congruence. rewrite nth_error_map in E1, E1'.
      destruct (nth_error a i) as [[k1 va]|] eqn:Ea; [|discriminate]. destruct (nth_error b i) as [[k2 vb]|] eqn:Eb; [|discriminate].
      cbn in *. assert (k1 = k) by congruence. assert (k2 = k) by congruence. subst. apply nth_error_In in Ea, Eb.
      unfold ser_at. rewrite (dget_NoDup _ _ _ Na Ea), (dget_NoDup _ _ _ Nb Eb). congruence.
    - intro I. apply in_map_iff in I. destruct I as (k' & E' & _). inversion E'. now subst.
  Qed.

  Lemma sub_some (a b : ser K) k d : NoDup (map fst a) -> NoDup (map fst b) ->
    In (k, Some d) (ser_sub a b) <-> exists x y, holds a k x /\ holds b k y /\ d = x - y.
  Proof.
    intros Na Nb. split.
    - intro I. apply sub_row in I; auto. destruct (ser_at a k) as [x|] eqn:Ea; [|discriminate].
      destruct (ser_at b k) as [y|] eqn:Eb; [|discriminate]. apply ser_at_holds in Ea, Eb; auto.
      exists x, y. cbn in I. split; [easy|]. split; [easy|]. congruence.
    - intros (x & y & Hx & Hy & ->). destruct (sub_keys a b Na Nb) as [_ KE].
      assert (I : In k (map fst (ser_sub a b))) by (apply KE; left; now apply (in_map fst) in Hx).
      apply in_map_iff in I. destruct I as ([k' v] & E & I). cbn in E. subst k'. pose proof (sub_row a b k v Na Nb I) as V.
      apply ser_at_holds in Hx, Hy; auto. rewrite Hx, Hy in V. cbn in V. now subst.
  Qed.

  Definition present_rows {V} (s : list (K * option V)) : list (K * V) :=
    flat_map (fun r => match snd r with Some d => [(fst r, d)] | None => [] end) s.
  Lemma present_rows_snd {V} (s : list (K * option V)) : present (map snd s) = map snd (present_rows s).
  Proof. induction s as [|[k [v|]] s IH]; cbn; [easy| |easy]. unfold present in IH. now rewrite IH. Qed.
  Lemma present_rows_In {V} (s : list (K * option V)) k d : In (k, d) (present_rows s) <-> In (k, Some d) s.
  Proof.
    unfold present_rows. rewrite in_flat_map. split.
    - intros ([k' [v|]] & I & J); [|easy]. destruct J as [E|[]]. inversion E; now subst.
    - intro I. exists (k, Some d). split; [easy|now left].
  Qed.
  Lemma present_rows_NoDup {V} (s : list (K * option V)) : NoDup (map fst s) -> NoDup (map fst (present_rows s)).
  Proof.
    induction s as [|[k [v|]] s IH]; cbn; intro N; [constructor| |]; inversion N as [|? ? N1 N2]; subst; auto.
    constructor; auto. intro I. apply N1. apply in_map_iff in I. destruct I as ([k' d] & E & I). cbn in E. subst.
    apply present_rows_In in I. now apply (in_map fst) in I.
  Qed.
  Lemma NoDup_of_fst {V} (s : list (K * V)) : NoDup (map fst s) -> NoDup s.
  Proof. apply NoDup_map_inv. Qed.

  Lemma bias_perm (b e : ser K) P : NoDup (map fst b) -> NoDup (map fst e) -> paired b e P ->
    Permutation (present (map snd (ser_bias_error b e))) (errs (map fst P) (map snd P)).
  Proof.
    intros Nb Ne (L & NL & -> & HL). rewrite present_rows_snd.
    assert (EE : errs (map fst (map snd L)) (map snd (map snd L)) = map snd (map (fun r => (fst r, snd (snd r) - fst (snd r))) L)).
    { clear. unfold errs. induction L as [|[k [x y]] L IH]; cbn; [easy|]. f_equal. apply IH. }
    rewrite EE. apply Permutation_map. apply NoDup_Permutation.
    - apply NoDup_of_fst, present_rows_NoDup. now apply sub_keys.
    - apply NoDup_of_fst. rewrite map_map. exact NL.
    - intros [k d]. rewrite present_rows_In. unfold ser_bias_error. rewrite sub_some by easy. rewrite in_map_iff. split.
      + intros (x & y & Hx & Hy & ->). exists (k, (y, x)). split; [easy|]. now apply HL.
      + intros ([k' [x y]] & E & I). cbn in E. inversion E; subst. apply HL in I. exists y, x. tauto.
  Qed.

  Lemma ser_map_present f (s : ser K) : present (map snd (ser_map f s)) = map f (present (map snd s)).
  Proof. unfold ser_map. induction s as [|[k [v|]] s IH]; cbn; [easy| |easy]. unfold present in IH. now rewrite IH. Qed.
  Lemma nan_reduce_perm l l' : Permutation l l' -> nan_reduce Rmean l = nan_reduce Rmean l'.
  Proof.
    intro HP. destruct l as [|x l].
    - apply Permutation_nil in HP. now subst.
    - destruct l' as [|y l']; [now apply Permutation_sym, Permutation_nil in HP|]. cbn. f_equal. now apply Rmean_perm.
  Qed.
End S.

(*@ C34 The Series metrics are the array metrics of the values paired by label. *)
Lemma series_metrics : forall (K : Type) (HK : Label K) (b e : ser K) P,
  NoDup (map fst b) -> NoDup (map fst e) -> paired b e P ->
  Ok (ser_mse b e) = mse (map fst P) (map snd P) /\ Ok (ser_rmse b e) = rmse (map fst P) (map snd P) /\
  Ok (ser_mae b e) = mae (map fst P) (map snd P) /\ Ok (ser_mbe b e) = mbe (map fst P) (map snd P).
Proof.
  intros K HK b e P Nb Ne HP. pose proof (bias_perm b e P Nb Ne HP) as PM.
  assert (L : length (map fst P) = length (map snd P)) by now rewrite !map_length.
  assert (M : Ok (ser_mse b e) = mse (map fst P) (map snd P)).
  { unfold mse, squared_error, bias_error. rewrite array_sub_errs by easy. cbn [rmap]. f_equal.
    unfold ser_mse, ser_squared_error, ser_mean, nanmean. rewrite ser_map_present. apply nan_reduce_perm. now apply Permutation_map. }
  split; [easy|]. split; [|split].
  - unfold ser_rmse, rmse. rewrite <- M. reflexivity.
  - unfold mae, absolute_error, bias_error. rewrite array_sub_errs by easy. cbn [rmap]. f_equal.
    unfold ser_mae, ser_absolute_error, ser_mean, nanmean. rewrite ser_map_present. apply nan_reduce_perm. now apply Permutation_map.
  - unfold mbe, bias_error. rewrite array_sub_errs by easy. cbn [rmap]. f_equal.
    unfold ser_mbe, ser_mean, nanmean. now apply nan_reduce_perm.
Qed.

(*@ C34 Such a pairing always exists. *)
Lemma series_pairing : forall (K : Type) (HK : Label K) (b e : ser K),
  NoDup (map fst b) -> NoDup (map fst e) -> exists P, paired b e P.
Proof.
  intros K HK b e Nb Ne.
  exists (map snd (flat_map (fun r => match snd r, ser_at e (fst r) with Some x, Some y => [(fst r, (x, y))] | _, _ => [] end) b)).
  eexists. split; [|split; [reflexivity|]].
  - clear Ne. induction b as [|[k v] b IH]; cbn; [constructor|]. inversion Nb as [|? ? N1 N2]; subst.
    assert (X : ~ In k (map fst (flat_map (fun r => match snd r, ser_at e (fst r) with Some x, Some y => [(fst r, (x, y))] | _, _ => [] end) b))).
    { intro I. apply N1. apply in_map_iff in I. destruct I as ([k' p] & E & I). cbn in E. subst k'. apply in_flat_map in I.
      destruct I as ([k'' w] & I & J). cbn in J. destruct w; [|easy]. destruct (ser_at e k''); [|easy]. destruct J as [E|[]].
      inversion E; subst. now apply (in_map fst) in I. }
    destruct v; [destruct (ser_at e k)|]; cbn; auto. constructor; auto.
  - intros k x y. rewrite in_flat_map. split.
    + intros ([k' v] & I & J). cbn in J. destruct v; [|easy]. destruct (ser_at e k') eqn:E; [|easy]. destruct J as [F|[]].
      inversion F; subst. apply ser_at_holds in E; auto.
    + intros [Hx Hy]. exists (k, Some x). split; [easy|]. cbn. apply ser_at_holds in Hy; auto. rewrite Hy. now left.
Qed.

(*@ C34 The error series have one row per label of either input: the difference where both hold a value, else missing. *)
Lemma series_rows : forall (K : Type) (HK : Label K) (b e : ser K),
  NoDup (map fst b) -> NoDup (map fst e) ->
  NoDup (map fst (ser_bias_error b e)) /\
  (forall k, In k (map fst (ser_bias_error b e)) <-> In k (map fst b) \/ In k (map fst e)) /\
  (forall k d, In (k, Some d) (ser_bias_error b e) <-> exists x y, holds b k x /\ holds e k y /\ d = y - x) /\
  (forall k v, In (k, v) (ser_squared_error b e) <-> exists w, In (k, w) (ser_bias_error b e) /\ v = option_map (fun d => d ^ 2) w) /\
  (forall k v, In (k, v) (ser_absolute_error b e) <-> exists w, In (k, w) (ser_bias_error b e) /\ v = option_map Rabs w).
Proof.
  intros K HK b e Nb Ne. destruct (sub_keys e b Ne Nb) as [A B]. split; [easy|].
  split; [intro k; unfold ser_bias_error; rewrite B; tauto|]. split; [|split].
  - intros k d. unfold ser_bias_error. rewrite sub_some by easy. split; intros (x & y & ?); exists y, x; tauto.
  - intros k v. unfold ser_squared_error, ser_map. rewrite in_map_iff. split.
    + intros ([k' w] & E & I). cbn in E. inversion E; subst. eauto.
    + intros (w & I & ->). exists (k, w). auto.
  - intros k v. unfold ser_absolute_error, ser_map. rewrite in_map_iff. split.
    + intros ([k' w] & E & I). cbn in E. inversion E; subst. eauto.
    + intros (w & I & ->). exists (k, w). auto.
Qed.

Lemma metrics_same_pairs {K} `{HK : Label K} (b e b' e' : ser K) : NoDup (map fst b) -> NoDup (map fst e) -> NoDup (map fst b') -> NoDup (map fst e') ->
  (forall k x y, holds b k x /\ holds e k y <-> holds b' k x /\ holds e' k y) ->
  ser_mse b e = ser_mse b' e' /\ ser_rmse b e = ser_rmse b' e' /\ ser_mae b e = ser_mae b' e' /\ ser_mbe b e = ser_mbe b' e'.
Proof.
  intros N1 N2 N3 N4 E. destruct (series_pairing K HK b e N1 N2) as (P & HP).
  assert (HP' : paired b' e' P).
  { destruct HP as (L & NL & EP & HL). exists L. split; [easy|]. split; [easy|]. intros. rewrite HL. apply E. }
  destruct (series_metrics K HK b e P N1 N2 HP) as (A1 & A2 & A3 & A4).
  destruct (series_metrics K HK b' e' P N3 N4 HP') as (B1 & B2 & B3 & B4).
  repeat split; congruence.
Qed.

(*@ C34 Row order does not matter. *)
Lemma series_permutation : forall (K : Type) (HK : Label K) (b e b' e' : ser K),
  NoDup (map fst b) -> NoDup (map fst e) -> Permutation b b' -> Permutation e e' ->
  ser_mse b e = ser_mse b' e' /\ ser_rmse b e = ser_rmse b' e' /\ ser_mae b e = ser_mae b' e' /\ ser_mbe b e = ser_mbe b' e'.
Proof.
  intros K HK b e b' e' Nb Ne Pb Pe. apply metrics_same_pairs; auto.
  - eapply Permutation_NoDup; [apply Permutation_map, Pb|easy].
  - eapply Permutation_NoDup; [apply Permutation_map, Pe|easy].
  - intros k x y. unfold holds. split; intros [A B]; split; eauto using Permutation_in, Permutation_sym.
Qed.

(*@ C34 Rows whose label the other series lacks, and missing rows, are ignored. *)
Lemma series_extra_rows : forall (K : Type) (HK : Label K) (b e xb xe : ser K),
  NoDup (map fst (b ++ xb)) -> NoDup (map fst (e ++ xe)) ->
  (forall k v, In (k, v) xb -> v = None \/ ~ In k (map fst (e ++ xe))) ->
  (forall k v, In (k, v) xe -> v = None \/ ~ In k (map fst (b ++ xb))) ->
  ser_mse (b ++ xb) (e ++ xe) = ser_mse b e /\ ser_rmse (b ++ xb) (e ++ xe) = ser_rmse b e /\
  ser_mae (b ++ xb) (e ++ xe) = ser_mae b e /\ ser_mbe (b ++ xb) (e ++ xe) = ser_mbe b e.
Proof.
  intros K HK b e xb xe Nb Ne Xb Xe.
  assert (D : forall A B : list K, NoDup (A ++ B) -> NoDup A).
  { induction A as [|a A IH]; intros B N; [constructor|]. inversion N; subst. constructor; [|eauto].
    rewrite in_app_iff in *. tauto. }
  apply metrics_same_pairs; auto.
  - rewrite map_app in Nb. eauto.
  - rewrite map_app in Ne. eauto.
  - intros k x y. unfold holds. rewrite !in_app_iff. split; [|tauto]. intros [[A|A] [B|B]]; auto; exfalso.
    + apply Xe in B. destruct B as [|B]; [discriminate|]. apply B. rewrite map_app, in_app_iff. left. now apply (in_map fst) in A.
    + apply Xb in A. destruct A as [|A]; [discriminate|]. apply A. rewrite map_app, in_app_iff. left. now apply (in_map fst) in B.
    + apply Xb in A. destruct A as [|A]; [discriminate|]. apply A. rewrite map_app, in_app_iff. right. now apply (in_map fst) in B.
Qed.

(*@ C34 On a common index with no missing values the Series metrics equal the array metrics. *)
Lemma series_as_arrays : forall (K : Type) (HK : Label K) (ks : list K) (xs ys : list R),
  NoDup ks -> length xs = length ks -> length ys = length ks ->
  let b := combine ks (map Some xs) in let e := combine ks (map Some ys) in
  Ok (ser_mse b e) = mse xs ys /\ Ok (ser_rmse b e) = rmse xs ys /\ Ok (ser_mae b e) = mae xs ys /\ Ok (ser_mbe b e) = mbe xs ys.
Proof.
  intros K HK ks xs ys N Lx Ly b e.
  assert (F : forall l : list R, length l = length ks -> map fst (combine ks (map Some l)) = ks).
  { clear. intros l. revert ks. induction l; intros [|]; cbn; intros; try discriminate; auto. f_equal. auto. }
  assert (HP : paired b e (combine xs ys)).
  { exists (combine ks (combine xs ys)). split; [|split].
    - replace (map fst (combine ks (combine xs ys))) with ks; [easy|]. clear -Lx Ly. revert xs ys Lx Ly.
      induction ks; intros [|] [|]; cbn; intros; try discriminate; auto. f_equal. auto.
    - clear -Lx Ly. revert xs ys Lx Ly. induction ks; intros [|] [|]; cbn; intros; try discriminate; auto. f_equal. auto.
    - intros k x y. unfold holds, b, e. rewrite !combine_In_snd by (rewrite ?map_length, ?combine_length; lia). split.
      + intros (i & E1 & E2). rewrite (nth_error_nth' _ (0, 0)) in E2.
        2:{ rewrite combine_length. assert (i < length ks)%nat by (apply nth_error_Some; congruence). lia. }
        assert (i < length ks)%nat by (apply nth_error_Some; congruence).
        rewrite combine_nth in E2 by congruence. inversion E2.
        split; exists i; (split; [easy|]); rewrite nth_error_map, (nth_error_nth' _ 0) by lia; reflexivity.
      + intros [(i & E1 & E2) (j & E3 & E4)].
        assert (i = j).
        { apply (NoDup_nth_error ks); [easy| |congruence]. apply nth_error_Some. congruence. }
        subst j. exists i. split; [easy|]. rewrite nth_error_map in E2, E4.
        destruct (nth_error xs i) eqn:Ex; [|discriminate]. destruct (nth_error ys i) eqn:Ey; [|discriminate].
        cbn in *. inversion E2; inversion E4; subst. clear -Ex Ey. revert i ys Ex Ey. induction xs as [|a xs IH]; intros [|i] [|c ys]; cbn; try discriminate.
        * congruence.
        * intros. eapply IH; eauto. }
  replace (mse xs ys) with (mse (map fst (combine xs ys)) (map snd (combine xs ys))).
  2:{ f_equal; clear -Lx Ly; assert (L : length xs = length ys) by lia; clear Lx Ly; revert ys L;
      induction xs; intros [|]; cbn; intros; try discriminate; auto; f_equal; auto. }
  replace (rmse xs ys) with (rmse (map fst (combine xs ys)) (map snd (combine xs ys))).
  2:{ f_equal; clear -Lx Ly; assert (L : length xs = length ys) by lia; clear Lx Ly; revert ys L;
      induction xs; intros [|]; cbn; intros; try discriminate; auto; f_equal; auto. }
  replace (mae xs ys) with (mae (map fst (combine xs ys)) (map snd (combine xs ys))).
  2:{ f_equal; clear -Lx Ly; assert (L : length xs = length ys) by lia; clear Lx Ly; revert ys L;
      induction xs; intros [|]; cbn; intros; try discriminate; auto; f_equal; auto. }
  replace (mbe xs ys) with (mbe (map fst (combine xs ys)) (map snd (combine xs ys))).
  2:{ f_equal; clear -Lx Ly; assert (L : length xs = length ys) by lia; clear Lx Ly; revert ys L;
      induction xs; intros [|]; cbn; intros; try discriminate; auto; f_equal; auto. }
  apply series_metrics; [unfold b; now rewrite F|unfold e; now rewrite F|easy].
Qed.

(*@ex C34 *)
Lemma series_example :
  let b := [(1%nat, Some 10); (2%nat, Some 20); (3%nat, None)] in
  let e := [(3%nat, Some 5); (2%nat, Some 26); (4%nat, Some 1); (1%nat, Some 8)] in
  NoDup (map fst b) /\ NoDup (map fst e) /\ paired b e [(10, 8); (20, 26)] /\ ser_mbe b e = Fin 2.
Proof.
  assert (HP : paired [(1%nat, Some 10); (2%nat, Some 20); (3%nat, None)] [(3%nat, Some 5); (2%nat, Some 26); (4%nat, Some 1); (1%nat, Some 8)] [(10, 8); (20, 26)]).
  { exists [(1%nat, (10, 8)); (2%nat, (20, 26))]. split; [|split].
    - repeat constructor; cbn; intuition congruence.
    - reflexivity.
    - intros k x y. unfold holds. cbn. split.
      + intros [E|[E|[]]]; inversion E; subst; tauto.
      + intros [A B]. repeat match goal with A : _ \/ _ |- _ => destruct A as [A|A] | A : False |- _ => destruct A end;
        inversion A; inversion B; subst; try discriminate; auto. }
  assert (N1 : NoDup (map fst [(1%nat, Some 10); (2%nat, Some 20); (3%nat, @None R)])) by (repeat constructor; cbn; intuition congruence).
  assert (N2 : NoDup (map fst [(3%nat, Some 5); (2%nat, Some 26); (4%nat, Some 1); (1%nat, Some 8)])) by (repeat constructor; cbn; intuition congruence).
  split; [exact N1|]. split; [exact N2|]. split; [exact HP|].
  destruct (series_metrics nat label_nat _ _ _ N1 N2 HP) as (_ & _ & _ & E).
  destruct (metric_values (map fst [(10, 8); (20, 26)]) (map snd [(10, 8); (20, 26)]) eq_refl) as (_ & _ & _ & _ & _ & _ & F); [easy|].
  rewrite F in E. match type of E with Ok ?x = Ok ?y => assert (E' : x = y) by congruence end. rewrite E'. f_equal.
  unfold errs, avg; cbn [combine map fst snd length Rsum fold_right INR]. field.
Qed.
