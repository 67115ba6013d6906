(** cmv.py _get_pairs and the pair list of compute_cmv. *)
From Coq Require Import String Permutation Sorted.
From Verif Require Import Prelude PreludeFacts RealBase Fl RealStat M_spatial M_cmv Spec_spatial Spec_cmv P_cmv.
Local Open Scope nat_scope.

Lemma in_map_pair {K} (x a b : K) l : In (a, b) (map (fun y => (x, y)) l) <-> a = x /\ In b l.
Proof.
  rewrite in_map_iff. split.
  - intros (y & E & I). now inversion E; subst.
  - intros (-> & I). now exists b.
Qed.

Lemma combinations_wr_joins {K} (l : list K) p : In p (combinations_wr l) <-> exists i j, i <= j /\ joins l p i j.
Proof.
  destruct p as [a b]. unfold joins. cbn [fst snd]. induction l as [|x r IH].
  - split; [easy|]. intros (i & j & _ & N & _). now destruct i.
  - change (combinations_wr (x :: r)) with (map (fun y => (x, y)) (x :: r) ++ combinations_wr r).
    rewrite in_app_iff, in_map_pair, IH. split.
    + intros [(-> & I)|(i & j & L & A & B)].
      * apply In_nth_error in I. destruct I as [j Hj]. exists 0, j. repeat split; auto; lia.
      * exists (S i), (S j). repeat split; auto; lia.
    + intros (i & j & L & A & B). destruct i as [|i].
      * left. cbn in A. injection A as <-. split; auto. now apply nth_error_In in B.
      * destruct j as [|j]; [lia|]. right. exists i, j. repeat split; auto; lia.
Qed.

Lemma combinations_joins {K} (l : list K) p : In p (combinations l) <-> exists i j, i < j /\ joins l p i j.
Proof.
  destruct p as [a b]. unfold joins. cbn [fst snd]. induction l as [|x r IH].
  - split; [easy|]. intros (i & j & _ & N & _). now destruct i.
  - cbn [combinations]. rewrite in_app_iff, in_map_pair, IH. split.
    + intros [(-> & I)|(i & j & L & A & B)].
      * apply In_nth_error in I. destruct I as [j Hj]. exists 0, (S j). repeat split; auto; lia.
      * exists (S i), (S j). repeat split; auto; lia.
    + intros (i & j & L & A & B). destruct j as [|j]; [lia|]. destruct i as [|i].
      * left. cbn in A. injection A as <-. split; auto. cbn in B. now apply nth_error_In in B.
      * right. exists i, j. repeat split; auto; lia.
Qed.

Lemma sorted_app {A} (R : A -> A -> Prop) l l' :
  StronglySorted R l -> StronglySorted R l' -> (forall a b, In a l -> In b l' -> R a b) -> StronglySorted R (l ++ l').
Proof.
  induction 1 as [|a l S IH F]; intros S' C; cbn; auto. constructor.
  - apply IH; auto. intros; apply C; auto. now right.
  - apply Forall_app. split; auto. apply Forall_forall. intros b Hb. apply C; auto. now left.
Qed.

Lemma sorted_impl {A} (R R' : A -> A -> Prop) l : (forall a b, R a b -> R' a b) -> StronglySorted R l -> StronglySorted R' l.
Proof. intro I. induction 1; constructor; auto. eapply Forall_impl; [|eassumption]. intros; now apply I. Qed.

Lemma sorted_filter {A} (R : A -> A -> Prop) f l : StronglySorted R l -> StronglySorted R (filter f l).
Proof.
  induction 1 as [|a l S IH F]; cbn; [constructor|]. destruct (f a); auto. constructor; auto.
  apply Forall_forall. intros b Hb. apply filter_In in Hb. rewrite Forall_forall in F. now apply F.
Qed.

Lemma listed_before_cons {K} (x : K) r p q : listed_before r p q -> listed_before (x :: r) p q.
Proof.
  intros (i & j & i' & j' & (A & B) & (C & D) & L). exists (S i), (S j), (S i'), (S j').
  split; [split; auto|]. split; [split; auto|]. lia.
Qed.

Lemma row_sorted {K} (x : K) r : StronglySorted (listed_before (x :: r)) (map (fun y => (x, y)) r).
Proof.
  assert (G : forall pre r', r = pre ++ r' -> StronglySorted (listed_before (x :: r)) (map (fun y => (x, y)) r')).
  { intros pre r'. revert pre. induction r' as [|y ys IH]; intros pre E; cbn; constructor.
    - apply (IH (pre ++ [y])). now rewrite <- app_assoc.
    - apply Forall_forall. intros q Hq. apply in_map_iff in Hq. destruct Hq as (z & <- & Hz).
      apply In_nth_error in Hz. destruct Hz as [k Hk].
      exists 0, (S (length pre)), 0, (S (length pre + S k)). unfold joins. cbn [fst snd nth_error].
      rewrite E. split; [|split]; try (split; [reflexivity|]).
      + rewrite nth_error_app2, Nat.sub_diag; [reflexivity|lia].
      + rewrite nth_error_app2 by lia. now replace (length pre + S k - length pre) with (S k) by lia.
      + right. lia. }
  now apply (G []).
Qed.

Lemma combinations_sorted {K} (l : list K) : StronglySorted (listed_before l) (combinations l).
Proof.
  induction l as [|x r IH]; [constructor|]. cbn [combinations]. apply sorted_app.
  - apply row_sorted.
  - eapply sorted_impl; [|exact IH]. apply listed_before_cons.
  - intros [a b] q Ha Hq. apply in_map_pair in Ha. destruct Ha as [-> Ib]. apply combinations_joins in Hq.
    destruct Hq as (i & j & L & A & B). apply In_nth_error in Ib. destruct Ib as [k Hk].
    exists 0, (S k), (S i), (S j). repeat split; auto. lia.
Qed.

Lemma combinations_wr_sorted {K} (l : list K) : StronglySorted (listed_before l) (combinations_wr l).
Proof.
  induction l as [|x r IH]; [constructor|].
  change (combinations_wr (x :: r)) with (map (fun y => (x, y)) (x :: r) ++ combinations_wr r). apply sorted_app.
  - cbn [map]. constructor; [apply row_sorted|]. apply Forall_forall. intros q Hq. apply in_map_iff in Hq.
    destruct Hq as (z & <- & Hz). apply In_nth_error in Hz. destruct Hz as [k Hk].
    exists 0, 0, 0, (S k). repeat split; auto. lia.
  - eapply sorted_impl; [|exact IH]. apply listed_before_cons.
  - intros [a b] q Ha Hq. apply in_map_pair in Ha. destruct Ha as [-> Ib]. apply combinations_wr_joins in Hq.
    destruct Hq as (i & j & L & A & B). apply In_nth_error in Ib. destruct Ib as [k Hk].
    exists 0, k, (S i), (S j). repeat split; auto. lia.
Qed.

Lemma NoDup_pos {A} (l : list A) i j x : NoDup l -> nth_error l i = Some x -> nth_error l j = Some x -> i = j.
Proof. intros ND Hi Hj. apply (proj1 (NoDup_nth_error l) ND); [apply nth_error_Some|]; congruence. Qed.

Lemma listed_before_irrefl {K} (l : list K) p : NoDup l -> ~ listed_before l p p.
Proof.
  intros ND (i & j & i' & j' & (A & B) & (C & D) & L).
  pose proof (NoDup_pos _ _ _ _ ND A C). pose proof (NoDup_pos _ _ _ _ ND B D). lia.
Qed.

Lemma sorted_NoDup {A} (R : A -> A -> Prop) l : (forall a, ~ R a a) -> StronglySorted R l -> NoDup l.
Proof.
  intro I. induction 1 as [|a l S IH F]; constructor; auto. intro Ha. rewrite Forall_forall in F. now apply (I a), F.
Qed.

Lemma combinations_wr_length {K} (l : list K) : 2 * length (combinations_wr l) = length l * (length l + 1).
Proof.
  induction l as [|x r IH]; [reflexivity|].
  change (combinations_wr (x :: r)) with (map (fun y => (x, y)) (x :: r) ++ combinations_wr r).
  rewrite app_length, map_length. cbn [length]. nia.
Qed.
Lemma combinations_length {K} (l : list K) : 2 * length (combinations l) + length l = length l * length l.
Proof. induction l as [|x r IH]; [reflexivity|]. cbn [combinations]. rewrite app_length, map_length. cbn [length]. nia. Qed.

Lemma filter_id {A} (f : A -> bool) l : (forall x, In x l -> f x = true) -> filter f l = l.
Proof. induction l as [|x xs IH]; cbn; intro E; [easy|]. rewrite E by auto. f_equal. apply IH. auto. Qed.

Lemma get_pairs_In {K} `{Label K} (sites : list K) refs rep p :
  In p (get_pairs sites refs rep) <-> has_reference refs p /\ In p (if rep then combinations_wr sites else combinations sites).
Proof.
  unfold get_pairs, has_reference. destruct refs as [rs|]; [|tauto]. rewrite filter_In, Bool.orb_true_iff, !lab_mem_In. tauto.
Qed.

(*@ C14 Members: with replacement the positions satisfy i <= j, without i < j; with references, only pairs having one. *)
Lemma pairs_members : forall (K : Type) (HK : Label K) (sites : list K) (refs : option (list K)) (rep : bool) (p : K * K),
  In p (get_pairs sites refs rep) <->
  has_reference refs p /\ exists i j, joins sites p i j /\ (if rep then i <= j else i < j).
Proof.
  intros. rewrite get_pairs_In. destruct rep; [rewrite combinations_wr_joins|rewrite combinations_joins];
  (split; intros (R & i & j & A & B); (split; [exact R|]); now exists i, j).
Qed.

(*@ C14 Listed once each and in list order. *)
Lemma pairs_ordered : forall (K : Type) (HK : Label K) (sites : list K) (refs : option (list K)) (rep : bool),
  NoDup sites ->
  NoDup (get_pairs sites refs rep) /\ StronglySorted (listed_before sites) (get_pairs sites refs rep).
Proof.
  intros K HK sites refs rep ND.
  assert (S : StronglySorted (listed_before sites) (get_pairs sites refs rep)).
  { unfold get_pairs. destruct rep, refs; try apply sorted_filter; (apply combinations_wr_sorted || apply combinations_sorted). }
  split; auto. eapply sorted_NoDup; [|exact S]. intro p. now apply listed_before_irrefl.
Qed.

(*@ C14 Counts: n(n+1)/2 pairs with replacement, n(n-1)/2 without. *)
Lemma pairs_count : forall (K : Type) (HK : Label K) (sites : list K),
  2 * length (get_pairs sites None true) = length sites * (length sites + 1) /\
  2 * length (get_pairs sites None false) = length sites * (length sites - 1).
Proof.
  intros. cbn [get_pairs]. split; [apply combinations_wr_length|]. pose proof (combinations_length sites).
  rewrite Nat.mul_sub_distr_l. lia.
Qed.

Lemma finish_pairs {K} ms lsq j qc ov fl (pairs : list (K * K)) vecs d v t w :
  finish_cmv ms lsq j qc ov fl pairs vecs d = (v, t, w) -> w_allpairs w = pairs /\ w_pair_flag w = fl.
Proof.
  unfold finish_cmv. destruct (Nat.leb _ _).
  - intro E. inversion E. now split.
  - destruct (if j then _ else _) as [[[a b] c] e]. destruct (normalise_cmv a b). intro E. inversion E. now split.
Qed.

(*@ C14 compute_cmv reports exactly the unordered pairs (identity pairs included) of its sites that contain a reference site, once each and in list order. *)
Lemma cmv_pairs : forall (K : Type) (HK : Label K) dx dt ms lsq ts (pos : list (K * (R * R))) ref m o bk v t w o',
  NoDup (map fst pos) ->
  compute_cmv dx dt ms lsq ts pos ref m o bk = Ok ((v, t, w), o') ->
  (forall p, In p (w_allpairs w) <->
     (exists i j, i <= j /\ joins (map fst pos) p i j) /\
     (In (fst p) (reference_sites (map fst pos) ref) \/ In (snd p) (reference_sites (map fst pos) ref))) /\
  NoDup (w_allpairs w) /\ StronglySorted (listed_before (map fst pos)) (w_allpairs w).
Proof.
  intros K HK dx dt ms lsq ts pos ref m o bk v t w o' ND E. apply compute_cmv_inv in E.
  destruct E as (A & B & d & Pb & Pa & f0 & ov & fl & E). cbv zeta in E.
  destruct E as (_ & _ & _ & _ & _ & _ & _ & _ & _ & _ & _ & E). apply finish_pairs in E. destruct E as [-> _].
  split; [|now apply pairs_ordered].
  intro p. rewrite pairs_members. unfold has_reference. replace (ref_ids (map fst pos) ref) with (reference_sites (map fst pos) ref) by (now destruct ref).
  split.
  - intros (R & i & j & J & L). split; [now exists i, j|exact R].
  - intros ((i & j & L & J) & R). split; [exact R|now exists i, j].
Qed.

(*@ C14 With no reference argument all n(n+1)/2 pairs are analysed. *)
Lemma cmv_pair_count : forall (K : Type) (HK : Label K) dx dt ms lsq ts (pos : list (K * (R * R))) m o bk v t w o',
  compute_cmv dx dt ms lsq ts pos RefNone m o bk = Ok ((v, t, w), o') ->
  2 * length (w_allpairs w) = length pos * (length pos + 1).
Proof.
  intros K HK dx dt ms lsq ts pos m o bk v t w o' E. apply compute_cmv_inv in E.
  destruct E as (A & B & d & Pb & Pa & f0 & ov & fl & E). cbv zeta in E.
  destruct E as (_ & _ & _ & _ & _ & _ & _ & _ & _ & _ & _ & E). apply finish_pairs in E. destruct E as [-> _].
  rewrite <- (map_length fst pos). rewrite <- combinations_wr_length. do 2 f_equal.
  unfold get_pairs, ref_ids. apply filter_id. intros p Hp.
  apply Bool.orb_true_iff. left. apply lab_mem_In. apply combinations_wr_joins in Hp. destruct Hp as (i & j & _ & J & _).
  now apply nth_error_In in J.
Qed.

(*@ex C14 *)
Lemma pairs_example :
  NoDup ["a"; "b"; "c"]%string /\
  get_pairs ["a"; "b"; "c"]%string (Some ["b"]%string) true = [("a", "b"); ("b", "b"); ("b", "c")]%string /\
  get_pairs ["a"; "b"; "c"]%string None false = [("a", "b"); ("a", "c"); ("b", "c")]%string.
Proof.
  split; [|now split]. repeat constructor; cbn; intuition discriminate.
Qed.
