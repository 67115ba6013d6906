(** A concrete optimal assignment solver (exhaustive search). It shows that the
    hypothesis [lsa_correct] used for scipy's linear_sum_assignment is satisfiable. *)
From Coq Require Import Permutation Sorted.
From Verif Require Import Prelude PreludeFacts RealBase M_field_remap Spec_field P_field_remap P_field_assign.

Fixpoint injs (n : nat) (avail : list nat) : list (list nat) :=
  match n with
  | 0 => [[]]
  | S n' => flat_map (fun x => map (cons x) (injs n' (remove Nat.eq_dec x avail))) avail
  end.

Lemma injs_iff n : forall avail cols,
  In cols (injs n avail) <-> length cols = n /\ NoDup cols /\ incl cols avail.
Proof.
  induction n as [|n IH]; intros avail cols; cbn [injs].
  - split.
    + intros [<-|[]]. repeat split; [constructor|easy].
    + intros (L & _ & _). destruct cols; [now left|discriminate].
  - rewrite in_flat_map. split.
    + intros (x & Hx & Hc). apply in_map_iff in Hc. destruct Hc as (cs & <- & Hcs). apply IH in Hcs.
      destruct Hcs as (L & ND & Hi). split; [cbn; lia|]. split.
      * constructor; [|easy]. intro F. apply Hi, in_remove in F. easy.
      * intros y [<-|Hy]; [easy|]. apply Hi, in_remove in Hy. easy.
    + intros (L & ND & Hi). destruct cols as [|x cs]; [discriminate|].
      inversion ND as [|? ? Hn ND']; subst. exists x. split; [apply Hi; now left|].
      apply in_map. apply IH. split; [cbn in L; lia|]. split; [easy|].
      intros y Hy. apply in_in_remove; [intros ->; contradiction|]. apply Hi. now right.
Qed.

Fixpoint argmin {A} (f : A -> R) (d : A) (l : list A) : A :=
  match l with
  | [] => d
  | x :: xs => if Rleb (f d) (f x) then argmin f d xs else argmin f x xs
  end.

Lemma argmin_spec {A} (f : A -> R) l : forall d,
  In (argmin f d l) (d :: l) /\ forall x, In x (d :: l) -> (f (argmin f d l) <= f x)%R.
Proof.
  induction l as [|y l IH]; intro d; cbn [argmin].
  - split; [now left|]. intros x [<-|[]]. lra.
  - destruct (Rleb_spec (f d) (f y)) as [Hle|Hlt].
    + destruct (IH d) as [Hin Hm]. split.
      * destruct Hin as [E|]; [now left|right; now right].
      * intros x [<-|[<-|Hx]].
        -- apply Hm. now left.
        -- eapply Rle_trans; [apply Hm; now left|easy].
        -- apply Hm. now right.
    + destruct (IH y) as [Hin Hm]. split; [now right|].
      intros x [<-|Hx]; [|now apply Hm].
      eapply Rle_trans; [apply Hm; now left|lra].
Qed.

Definition lsa_brute (m : nat) (M : list (list R)) : list nat * list nat :=
  (seq 0 (length M), argmin (assign_cost M) (seq 0 (length M)) (injs (length M) (seq 0 m))).

Lemma lsa_brute_correct : lsa_correct lsa_brute.
Proof.
  intros m M Hl _. unfold lsa_brute. cbn [fst snd]. split; [easy|].
  destruct (argmin_spec (assign_cost M) (injs (length M) (seq 0 m)) (seq 0 (length M))) as [Hin Hm].
  assert (Hd : In (seq 0 (length M)) (injs (length M) (seq 0 m))).
  { apply injs_iff. split; [apply seq_length|]. split; [apply seq_NoDup|].
    intros i Hi. rewrite in_seq in *. lia. }
  split.
  - assert (Hin' : In (argmin (assign_cost M) (seq 0 (length M)) (injs (length M) (seq 0 m))) (injs (length M) (seq 0 m))).
    { destruct Hin as [E|]; [now rewrite <- E|easy]. }
    apply injs_iff in Hin'. destruct Hin' as (L & ND & Hi). split; [easy|]. split; [easy|].
    apply Forall_forall. intros c Hc. apply Hi, in_seq in Hc. lia.
  - intros cols (L & ND & Hc). apply Hm. right. apply injs_iff. split; [easy|]. split; [easy|].
    intros c Hin'. rewrite Forall_forall in Hc. apply in_seq. specialize (Hc c Hin'). lia.
Qed.

Section MorePredictions.
  Context {K C : Type} `{HK : Label K} `{HC : Label C}.
  Variable lsa : nat -> list (list R) -> list nat * list nat.
  Hypothesis Hlsa : lsa_correct lsa.
  Implicit Types (orig pred : table K C R).

  Lemma take_pos_err {A} (l : list A) ix i : In i ix -> length l <= i -> take_pos l ix = Err IndexError.
  Proof.
    intros Hi Hl. unfold take_pos. induction ix as [|j ix IH]; [easy|]. cbn [mapM].
    destruct (nth_error l j) as [x|] eqn:E; cbn [rbind]; [|easy].
    destruct Hi as [->|Hi].
    - assert (nth_error l i <> None) by congruence. apply nth_error_Some in H. lia.
    - now rewrite (IH Hi).
  Qed.

  Lemma planar_dist_pos p q : p <> q -> (0 < planar_dist p q)%R.
  Proof.
    intro N. destruct (planar_dist_nonneg p q) as [|E]; [easy|]. exfalso. apply N, planar_dist_zero. now symmetry.
  Qed.

  Lemma assign_long orig pred : NoDup (t_index orig) -> NoDup (t_index pred) -> all_located orig -> all_located pred ->
    no_nan pred -> t_rows orig <> [] -> length (t_rows orig) < length (t_rows pred) ->
    (forall k l, In k (t_index orig) -> In l (t_index pred) -> position orig k <> position pred l) ->
    assign_positions lsa orig pred = Err IndexError.
  Proof.
    intros NDo NDp Lo Lp NN Ne Hl Hd. unfold assign_positions. rewrite (no_nan_rows pred NDp NN).
    assert (LO : located orig) by now apply all_located_located. assert (LP : located pred) by now apply all_located_located.
    unfold assign_good. rewrite (located_wide orig LO), (located_wide pred LP). cbn [orb]. rewrite (located_xy orig LO), (located_xy pred LP).
    set (n := length (t_rows orig)) in *. set (m := length (t_rows pred)) in *.
    assert (Lxo : length (xys orig) = n) by apply xys_length.
    assert (Lxp : length (xys pred) = m) by apply xys_length.
    destruct (cost_matrix_real (xys orig) (xys pred)) as (M & EM & EA); [lia|].
    rewrite EM. cbn [rbind]. rewrite EA. rewrite map_length, Lxo, Lxp.
    set (MR := dist_rows n m (xys orig) (xys pred)).
    assert (LMR : length MR = n) by (unfold MR, dist_rows; now rewrite map_length).
    destruct (Hlsa m MR) as (_ & Has & Hopt).
    { lia. }
    { unfold MR, dist_rows. apply Forall_forall. intros row Hr. apply in_map_iff in Hr. destruct Hr as (p & <- & _).
      rewrite app_length, map_length, firstn_length, repeat_length. lia. }
    destruct (lsa m MR) as [row_ind cols]. cbn [fst snd] in *. rewrite LMR in *.
    enough (Hbig : exists c, In c cols /\ n <= c).
    { destruct Hbig as (c & Hc & Hn). rewrite (take_pos_err (t_index orig) cols c Hc); [easy|].
      unfold t_index. rewrite map_length. exact Hn. }
    destruct (existsb (fun c => Nat.leb n c) cols) eqn:Ex.
    { apply existsb_exists in Ex. destruct Ex as (c & Hc & E). apply Nat.leb_le in E. eauto. }
    exfalso.
    assert (Hlt : forall c, In c cols -> c < n).
    { intros c Hc. destruct (Nat.lt_ge_cases c n) as [|Hge]; [easy|].
      assert (existsb (fun c => Nat.leb n c) cols = true) by (apply existsb_exists; exists c; split; [easy|now apply Nat.leb_le]). congruence. }
    destruct Has as (Lc & NDc & _).
    assert (Hn : 0 < n) by (unfold n; destruct (t_rows orig); [easy|cbn; lia]).
    destruct cols as [|c0 cs]; [cbn in Lc; lia|].
    assert (A' : assignment n m (n :: cs)).
    { split; [exact Lc|]. split.
      - inversion NDc; subst. constructor; [|easy]. intro F. assert (n < n) by (apply Hlt; now right). lia.
      - apply Forall_forall. intros c [<-|Hc]; [lia|]. assert (c < n) by (apply Hlt; now right). lia. }
    specialize (Hopt _ A'). unfold assign_cost in Hopt. cbn [length seq combine map] in Hopt. rewrite !Rsum_cons in Hopt.
    cbn [fst snd] in Hopt.
    destruct (xys orig) as [|p0 ps] eqn:Exo; [cbn in Lxo; lia|].
    assert (R0 : nth 0 MR [] = map (planar_dist p0) (firstn n (xys pred)) ++ repeat 0%R (m - n)) by reflexivity.
    rewrite R0 in Hopt.
    assert (Lf : length (map (planar_dist p0) (firstn n (xys pred))) = n) by (rewrite map_length, firstn_length; lia).
    assert (E1 : nth n (map (planar_dist p0) (firstn n (xys pred)) ++ repeat 0%R (m - n)) 0%R = 0%R).
    { rewrite app_nth2 by lia. rewrite Lf, Nat.sub_diag. now destruct (m - n). }
    rewrite E1 in Hopt.
    assert (Hc0 : c0 < n) by (apply Hlt; now left).
    assert (E2 : nth c0 (map (planar_dist p0) (firstn n (xys pred)) ++ repeat 0%R (m - n)) 0%R
                 = planar_dist p0 (nth c0 (firstn n (xys pred)) (0, 0)%R)).
    { rewrite app_nth1 by lia. rewrite (nth_indep _ 0%R (planar_dist p0 (0, 0)%R)) by lia. now rewrite map_nth. }
    rewrite E2 in Hopt.
    assert (Hpos : (0 < planar_dist p0 (nth c0 (firstn n (xys pred)) (0, 0)%R))%R).
    { apply planar_dist_pos. intro Ep.
      assert (Hk : exists k, nth_error (t_index orig) 0 = Some k).
      { unfold t_index. destruct (t_rows orig) as [|r rs]; [easy|]. cbn. eauto. }
      destruct Hk as (k & Ek). pose proof (position_nth orig 0 k LO NDo Ek) as Pk. rewrite Exo in Pk. cbn in Pk.
      assert (Hl2 : exists l, nth_error (t_index pred) c0 = Some l).
      { destruct (nth_error (t_index pred) c0) eqn:E; [eauto|]. apply nth_error_None in E. unfold t_index in E.
        rewrite map_length in E. fold m in E. lia. }
      destruct Hl2 as (l & El). pose proof (position_nth pred c0 l LP NDp El) as Pl.
      apply (Hd k l); [now apply nth_error_In in Ek|now apply nth_error_In in El|].
      rewrite Pk, Pl. f_equal. rewrite Ep.
      rewrite <- (firstn_skipn n (xys pred)) at 2. rewrite app_nth1; [easy|]. rewrite firstn_length. lia. }
    lra.
  Qed.
End MorePredictions.
