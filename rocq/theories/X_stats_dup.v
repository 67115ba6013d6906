(** Error metrics on Series with repeated labels. *)
From Coq Require Import Permutation.
From Verif Require Import Prelude PreludeFacts RealBase Fl RealStat M_stats Spec_stats X_stats_err X_stats_ser M_stats_dup Spec_stats_dup.
Local Open Scope R_scope.

Ltac by_eq := match goal with |- Permutation ?a ?b => cut (a = b); [intros ->; reflexivity|] end.

Section S.
  Context {K : Type} `{Label K}.

  Lemma distinct_In (l : list K) k : In k (distinct l) <-> In k l.
  Proof.
    induction l as [|a l IH]; cbn; [easy|]. destruct (lab_mem_spec a l) as [I|N]; cbn; rewrite IH; [|easy].
    split; [auto|]. intros [<-|]; auto.
  Qed.
  Lemma distinct_NoDup (l : list K) : NoDup (distinct l).
  Proof.
    induction l as [|a l IH]; cbn; [constructor|]. destruct (lab_mem_spec a l) as [I|N]; [easy|]. constructor; [|easy].
    now rewrite distinct_In.
  Qed.
  Lemma flat_map_split {A B} (f g : A -> list B) l : Permutation (flat_map (fun x => f x ++ g x) l) (flat_map f l ++ flat_map g l).
  Proof.
    induction l as [|x l IH]; cbn; [constructor|]. rewrite IH, <- !app_assoc. apply Permutation_app_head.
    rewrite !app_assoc. apply Permutation_app_tail. apply Permutation_app_comm.
  Qed.
  Lemma flat_map_one {B} (f : K -> list B) c ks : NoDup ks -> In c ks -> flat_map (fun k => if lab_eqb c k then f k else []) ks = f c.
  Proof.
    assert (Z : forall ks, ~ In c ks -> flat_map (fun k => if lab_eqb c k then f k else []) ks = []).
    { intro l. induction l as [|k l IH]; cbn; [easy|]. intro N. destruct (lab_eqb_spec c k) as [->|]; [tauto|]. apply IH. tauto. }
    induction ks as [|k ks IH]; intros ND I; [easy|]. inversion ND as [|? ? N1 N2]; subst. cbn.
    destruct (lab_eqb_spec c k) as [->|N].
    - rewrite Z by easy. apply app_nil_r.
    - destruct I as [->|I]; [easy|]. now apply IH.
  Qed.
  (** Taking the rows label by label is taking all rows. *)
  Lemma by_label {V B} (g : K -> K * V -> list B) (a : list (K * V)) ks : NoDup ks -> (forall r, In r a -> In (fst r) ks) ->
    Permutation (flat_map (fun k => flat_map (g k) (filter (fun r => lab_eqb (fst r) k) a)) ks) (flat_map (fun r => g (fst r) r) a).
  Proof.
    intros ND. induction a as [|r a IH]; intro I; cbn.
    - clear. induction ks; cbn; [constructor|easy].
    - rewrite <- (IH (fun q Q => I q (or_intror Q))). clear IH.
      rewrite <- (flat_map_one (fun k => g k r) (fst r) ks ND (I r (or_introl eq_refl))), <- flat_map_split.
      by_eq. apply flat_map_ext. intro k. now destruct (lab_eqb (fst r) k).
  Qed.
  Lemma present_flat {A} (f : A -> list (option R)) l : present (flat_map f l) = flat_map (fun x => present (f x)) l.
  Proof. induction l as [|x l IH]; cbn; [easy|]. unfold present in *. now rewrite flat_map_app, IH. Qed.
  Lemma map_flat {A B C} (f : B -> C) (g : A -> list B) l : map f (flat_map g l) = flat_map (fun x => map f (g x)) l.
  Proof. induction l as [|x l IH]; cbn; [easy|]. now rewrite map_app, IH. Qed.

  Definition diffs (x : option R) (ys : list (option R)) : list R := flat_map (fun y => map (fun p => snd p - fst p) (both y x)) ys.
  Lemma diffs_at (b : ser K) k x : present (map (fun y => opt2 Rminus x y) (all_at b k)) =
    diffs x (map snd (filter (fun r => lab_eqb (fst r) k) b)).
  Proof.
    unfold all_at, diffs. destruct (map snd (filter (fun r => lab_eqb (fst r) k) b)) as [|y l].
    - destruct x; reflexivity.
    - generalize (y :: l). clear y l. intro l. induction l as [|y l IH]; cbn; [easy|]. unfold present in IH. rewrite IH.
      destruct x, y; reflexivity.
  Qed.
  Lemma join_perm (b e : ser K) : map fst e <> map fst b ->
    Permutation (present (map snd (dup_bias_error b e))) (map (fun p => snd p - fst p) (label_pairs b e)).
  Proof.
    intro N. unfold dup_bias_error, sub_dup. destruct (labs_eqb (map fst e) (map fst b)) eqn:E; [now apply labs_eqb_eq in E|]. clear E N.
    set (ks := sort_by lab_leb (distinct (map fst e ++ map fst b))).
    assert (ND : NoDup ks) by (eapply Permutation_NoDup; [apply sort_by_perm|apply distinct_NoDup]).
    assert (I : forall r, In r e -> In (fst r) ks).
    { intros r Hr. unfold ks. rewrite sort_by_In, distinct_In, in_app_iff. left. now apply in_map. }
    rewrite map_flat, present_flat.
    transitivity (flat_map (fun k => flat_map (fun q => diffs (snd q) (map snd (filter (fun r => lab_eqb (fst r) k) b))) (filter (fun r => lab_eqb (fst r) k) e)) ks).
    - by_eq. apply flat_map_ext. intro k. rewrite map_flat, present_flat.
      transitivity (flat_map (fun x => diffs x (map snd (filter (fun r => lab_eqb (fst r) k) b))) (all_at e k)).
      + apply flat_map_ext. intro x. rewrite map_map. cbn [snd]. apply diffs_at.
      + unfold all_at. set (l := filter (fun r => lab_eqb (fst r) k) e). destruct l as [|q l]; cbn [map].
        * cbn. rewrite app_nil_r. unfold diffs. induction (map snd (filter (fun r => lab_eqb (fst r) k) b)) as [|[y|] t IH]; cbn; auto.
        * change (snd q :: map snd l) with (map snd (q :: l)). generalize (q :: l). intro t. clear. induction t as [|p t IH]; cbn; [easy|].
          now rewrite IH.
    - rewrite (by_label (fun k q => diffs (snd q) (map snd (filter (fun r => lab_eqb (fst r) k) b))) e ks ND I).
      by_eq. unfold label_pairs. rewrite map_flat. apply flat_map_ext. intro q. rewrite map_flat. unfold diffs. clear.
      induction b as [|r b IH]; cbn; [easy|]. destruct (lab_eqb (fst r) (fst q)); cbn; now rewrite IH.
  Qed.
  Lemma row_diffs (b e : ser K) : map fst e = map fst b ->
    present (map snd (dup_bias_error b e)) = map (fun p => snd p - fst p) (position_pairs b e).
  Proof.
    intro E. unfold dup_bias_error, sub_dup. rewrite (proj2 (labs_eqb_eq _ _) E). unfold position_pairs.
    revert b E. induction e as [|[k y] e IH]; intros [|[k' x] b] E; try discriminate; [easy|]. injection E as _ E. specialize (IH b E). unfold present in *.
    cbn [map map2 combine flat_map fst snd]. rewrite map_app, <- IH. destruct x, y; reflexivity.
  Qed.
  Lemma dup_metrics (b e : ser K) P : Permutation (present (map snd (dup_bias_error b e))) (map (fun p => snd p - fst p) P) ->
    Ok (dup_mse b e) = mse (map fst P) (map snd P) /\ Ok (dup_rmse b e) = rmse (map fst P) (map snd P) /\
    Ok (dup_mae b e) = mae (map fst P) (map snd P) /\ Ok (dup_mbe b e) = mbe (map fst P) (map snd P).
  Proof.
    intro PM. assert (L : length (map fst P) = length (map snd P)) by now rewrite !map_length.
    assert (EE : map (fun p => snd p - fst p) P = errs (map fst P) (map snd P)).
    { clear. unfold errs. induction P as [|[x y] P IH]; cbn; [easy|]. f_equal. apply IH. }
    rewrite EE in PM.
    assert (M : Ok (dup_mse b e) = mse (map fst P) (map snd P)).
    { unfold mse, squared_error, bias_error. rewrite array_sub_errs by easy. cbn [rmap]. f_equal.
      unfold dup_mse, ser_mean, nanmean. rewrite ser_map_present. apply nan_reduce_perm. now apply Permutation_map. }
    split; [easy|]. split; [|split].
    - unfold dup_rmse, rmse. rewrite <- M. reflexivity.
    - unfold mae, absolute_error, bias_error. rewrite array_sub_errs by easy. cbn [rmap]. f_equal.
      unfold dup_mae, ser_mean, nanmean. rewrite ser_map_present. apply nan_reduce_perm. now apply Permutation_map.
    - unfold mbe, bias_error. rewrite array_sub_errs by easy. cbn [rmap]. f_equal.
      unfold dup_mbe, ser_mean, nanmean. now apply nan_reduce_perm.
  Qed.
End S.

(*@ C128 On identical indexes, repeated labels or not, rows are paired by position: the metrics are the array metrics of the pairs that both hold a value. *)
Lemma repeated_same_index : forall (K : Type) (HK : Label K) (b e : ser K), map fst b = map fst e ->
  let P := position_pairs b e in
  Ok (dup_mse b e) = mse (map fst P) (map snd P) /\ Ok (dup_rmse b e) = rmse (map fst P) (map snd P) /\
  Ok (dup_mae b e) = mae (map fst P) (map snd P) /\ Ok (dup_mbe b e) = mbe (map fst P) (map snd P).
Proof. intros K HK b e E P. apply dup_metrics. rewrite row_diffs by easy. reflexivity. Qed.
(*@ C128 On any other indexes, every row is paired with every row of the other series under the same label. *)
Lemma repeated_product : forall (K : Type) (HK : Label K) (b e : ser K), map fst b <> map fst e ->
  let P := label_pairs b e in
  Ok (dup_mse b e) = mse (map fst P) (map snd P) /\ Ok (dup_rmse b e) = rmse (map fst P) (map snd P) /\
  Ok (dup_mae b e) = mae (map fst P) (map snd P) /\ Ok (dup_mbe b e) = mbe (map fst P) (map snd P).
Proof. intros K HK b e E P. apply dup_metrics. apply join_perm. congruence. Qed.
(*@ C128 With unique labels these are the metrics of C34. *)
Lemma repeated_unique : forall (K : Type) (HK : Label K) (b e : ser K), NoDup (map fst b) -> NoDup (map fst e) ->
  dup_mse b e = ser_mse b e /\ dup_rmse b e = ser_rmse b e /\ dup_mae b e = ser_mae b e /\ dup_mbe b e = ser_mbe b e.
Proof.
  intros K HK b e Nb Ne.
  assert (PM : Permutation (present (map snd (dup_bias_error b e))) (present (map snd (ser_bias_error b e)))).
  { unfold dup_bias_error, ser_bias_error, sub_dup, ser_sub. destruct (labs_eqb (map fst e) (map fst b)); [reflexivity|].
    assert (At : forall (s : ser K) k, NoDup (map fst s) -> all_at s k = [ser_at s k]).
    { clear. intros s k N. unfold all_at, ser_at. induction s as [|[k' v] s IH]; [easy|]. inversion N as [|? ? N1 N2]; subst.
      cbn [filter fst]. unfold dget. cbn [find fst]. fold (dget s k). cbn.
      destruct (lab_eqb_spec k' k) as [->|D]; [|now apply IH].
      replace (filter (fun r => lab_eqb (fst r) k) s) with (@nil (K * option R)); [reflexivity|].
      clear - N1. induction s as [|[k'' w] s IH]; [easy|]. cbn. destruct (lab_eqb_spec k'' k) as [->|]; [cbn in N1; tauto|]. apply IH. cbn in N1. tauto. }
    rewrite (flat_map_ext _ (fun k => [(k, opt2 Rminus (ser_at e k) (ser_at b k))])).
    2: { intro k. rewrite !At by easy. reflexivity. }
    assert (FM : forall (f : K -> K * option R) l, flat_map (fun k => [f k]) l = map f l).
    { intros f l. induction l as [|x l IH]; cbn; [easy|]. now rewrite IH. }
    rewrite (FM (fun k => (k, opt2 Rminus (ser_at e k) (ser_at b k)))).
    assert (PS : forall A B (f : A -> option B) l l', Permutation l l' -> Permutation (present (map f l)) (present (map f l'))).
    { intros A B f l l' HP. unfold present. induction HP as [|x l l' HP IH|x y l|l l' l'' H1 I1 H2 I2]; cbn.
      - constructor.
      - now apply Permutation_app_head.
      - rewrite !app_assoc. apply Permutation_app_tail, Permutation_app_comm.
      - now transitivity (flat_map (fun o => match o with Some v => [v] | None => [] end) (map f l')). }
    rewrite !map_map. apply PS. unfold label_union. rewrite <- !sort_by_perm. apply NoDup_Permutation.
    - apply distinct_NoDup.
    - eapply Permutation_NoDup; [symmetry; apply (sort_by_perm lab_leb)|]. now apply union_NoDup.
    - intro k. rewrite distinct_In. rewrite <- (sort_by_In lab_leb (_ ++ filter _ _)). fold (label_union (map fst e) (map fst b)).
      rewrite union_In. apply in_app_iff. }
  assert (M : dup_mse b e = ser_mse b e).
  { unfold dup_mse, ser_mse, ser_squared_error, ser_mean, nanmean. rewrite !ser_map_present. apply nan_reduce_perm. now apply Permutation_map. }
  split; [easy|]. split; [|split].
  - unfold dup_rmse, ser_rmse. now rewrite M.
  - unfold dup_mae, ser_mae, ser_absolute_error, ser_mean, nanmean. rewrite !ser_map_present. apply nan_reduce_perm. now apply Permutation_map.
  - unfold dup_mbe, ser_mbe, ser_mean, nanmean. now apply nan_reduce_perm.
Qed.

(** Two rows under one label and one under another. *)
Definition twice : ser nat := [(1%nat, Some 10); (1%nat, Some 20); (2%nat, Some 30)].
Definition twice_turned : ser nat := [(2%nat, Some 30); (1%nat, Some 10); (1%nat, Some 20)].
(*@ C128 Row order, which does not matter with unique labels (C34), does with repeated ones: a series compared with itself has no error, compared
    with its own rows in another order it has. *)
Lemma repeated_order_refuted : exists b e : ser nat, Permutation b e /\ dup_mse b b = Fin 0 /\ dup_mse b e = Fin 40.
Proof.
  exists twice, twice_turned. split; [|split].
  - apply (Permutation_app_comm [(1%nat, Some 10); (1%nat, Some 20)] [(2%nat, Some 30)]).
  - unfold dup_mse, ser_mean, nanmean. rewrite ser_map_present, row_diffs by reflexivity. cbn. unfold Rmean. cbn. f_equal. lra.
  - destruct (repeated_product nat _ twice twice_turned) as [E _]; [discriminate|]. cbv zeta in E. revert E. generalize (dup_mse twice twice_turned). intros D E.
    change (label_pairs twice twice_turned) with [(30, 30); (10, 10); (20, 10); (10, 20); (20, 20)] in E. cbn in E. unfold Rmean in E. cbn in E.
    injection E as E. rewrite E. f_equal. lra.
Qed.
(*@ex C128 Repeated labels and a gap, on the same index and on another one. *)
Lemma repeated_example : ~ NoDup (map fst twice) /\ map fst twice <> map fst twice_turned /\
  position_pairs twice [(1%nat, Some 11); (1%nat, None); (2%nat, Some 33)] = [(10, 11); (30, 33)] /\
  dup_mbe twice [(1%nat, Some 11); (1%nat, None); (2%nat, Some 33)] = Fin 2 /\
  label_pairs twice [(1%nat, Some 11); (3%nat, Some 5)] = [(10, 11); (20, 11)] /\
  dup_mbe twice [(1%nat, Some 11); (3%nat, Some 5)] = Fin (-4).
Proof.
  split; [intro N; inversion N as [|? ? N1 N2]; subst; apply N1; now left|]. split; [discriminate|]. split; [reflexivity|]. split; [|split; [reflexivity|]].
  - unfold dup_mbe, ser_mean, nanmean. rewrite row_diffs by reflexivity. cbn. unfold Rmean. cbn. f_equal. lra.
  - destruct (repeated_product nat _ twice [(1%nat, Some 11); (3%nat, Some 5)]) as (_ & _ & _ & E); [discriminate|]. cbv zeta in E. revert E. generalize (dup_mbe twice [(1%nat, Some 11); (3%nat, Some 5)]). intros D E.
    change (label_pairs twice _) with [(10, 11); (20, 11)] in E. cbn in E. unfold Rmean in E. cbn in E. injection E as E. rewrite E. f_equal. lra.
Qed.
