(** field.py compute_predicted_position: the columns of the layout table. *)
From Coq Require Import String.
From Verif Require Import Prelude PreludeFacts RealBase Fl RealStat M_spatial Spec_spatial P_plane M_cmv M_field_pos X_field_pos M_field_cols Spec_field_cols.
Local Open Scope R_scope.

Lemma by_name_en {K} (sites : list (K * (R * R))) : by_name (east_north sites) = Ok sites.
Proof.
  unfold by_name, east_north. cbn. f_equal. rewrite map_map. cbn. rewrite <- (map_id sites) at 2. apply map_ext. now intros [k [a b]].
Qed.
Lemma by_name_ne {K} (sites : list (K * (R * R))) : by_name (north_east sites) = Ok sites.
Proof.
  unfold by_name, north_east. cbn. f_equal. rewrite map_map. cbn. rewrite <- (map_id sites) at 2. apply map_ext. now intros [k [a b]].
Qed.
Lemma by_name_more {K} more extra (sites : list (K * (R * R))) : by_name (with_columns more extra sites) = Ok sites.
Proof.
  unfold by_name, with_columns. cbn. f_equal. rewrite map_map. cbn. rewrite <- (map_id sites) at 2. apply map_ext. now intros [k [a b]].
Qed.
Lemma by_place_en {K} (sites : list (K * (R * R))) : by_place (east_north sites) = sites.
Proof. unfold by_place, east_north. cbn. rewrite map_map. cbn. rewrite <- (map_id sites) at 2. apply map_ext. now intros [k [a b]]. Qed.
Lemma by_place_more {K} more extra (sites : list (K * (R * R))) : by_place (with_columns more extra sites) = sites.
Proof. unfold by_place, with_columns. cbn. rewrite map_map. cbn. rewrite <- (map_id sites) at 2. apply map_ext. now intros [k [a b]]. Qed.
Definition swap (p : R * R) : R * R := (snd p, fst p).
Lemma by_place_ne {K} (sites : list (K * (R * R))) : by_place (north_east sites) = map (fun s => (fst s, swap (snd s))) sites.
Proof. unfold by_place, north_east. cbn. rewrite map_map. reflexivity. Qed.

Lemma lookup_map {K} `{Label K} {V W} (f : K -> V -> W) (d : list (K * V)) k :
  lookup (map (fun s => (fst s, f (fst s) (snd s))) d) k = rmap (f k) (lookup d k).
Proof.
  unfold lookup. induction d as [|[c v] d IH]; [reflexivity|]. cbn [map dget fst snd].
  destruct (lab_eqb c k) eqn:E; [|exact IH]. apply lab_eqb_eq in E. now subst.
Qed.

Lemma rows_en {K} `{Label K} (sites : list (K * (R * R))) ref :
  lookup (l_rows (east_north sites)) ref = rmap (fun p => [fst p; snd p]) (lookup sites ref).
Proof. exact (lookup_map (fun _ p => [fst p; snd p]) sites ref). Qed.
Lemma rows_ne {K} `{Label K} (sites : list (K * (R * R))) ref :
  lookup (l_rows (north_east sites)) ref = rmap (fun p => [snd p; fst p]) (lookup sites ref).
Proof. exact (lookup_map (fun _ p => [snd p; fst p]) sites ref). Qed.
Lemma rows_more {K} `{Label K} more extra (sites : list (K * (R * R))) ref :
  lookup (l_rows (with_columns more extra sites)) ref = rmap (fun p => fst p :: snd p :: extra ref) (lookup sites ref).
Proof. exact (lookup_map (fun k p => fst p :: snd p :: extra k) sites ref). Qed.

Lemma magnitude_swap a b : magnitude (a, b) = magnitude (b, a).
Proof. unfold magnitude. cbn [fst snd]. f_equal. ring. Qed.

(** Selecting points by separation does not see the order of the columns. *)
Lemma select_swap {K} `{Label K} sv (sites : list (K * (R * R))) ref mode n d1 d2 :
  select_points sv (map (fun s => (fst s, swap (snd s))) sites) ref mode n d1 d2 = select_points sv sites ref mode n d1 d2.
Proof.
  unfold select_points. cbv zeta.
  destruct (String.eqb mode "coherence" || String.eqb mode "preavg"); [reflexivity|].
  destruct (String.eqb mode "global_coherence"); [reflexivity|].
  rewrite (lookup_map (fun _ p => swap p)).
  destruct (String.eqb mode "distance").
  - destruct (lookup sites ref) as [rp|]; [|reflexivity]. cbn [rmap rbind].
    assert (S : map (fun p => (fst p, Fin (magnitude (fst (snd p) - fst (swap rp), snd (snd p) - snd (swap rp)))))
                  (map (fun s : K * (R * R) => (fst s, swap (snd s))) sites) =
                map (fun p => (fst p, Fin (magnitude (fst (snd p) - fst rp, snd (snd p) - snd rp)))) sites).
    { rewrite map_map. apply map_ext. intros [k [a b]]. unfold swap. cbn [fst snd]. now rewrite magnitude_swap. }
    rewrite S. reflexivity.
  - rewrite map_map. reflexivity.
Qed.

(*@ C135 A table with exactly the columns E and N, in this order, is what the model of the method assumes: every theorem on
    the predicted position holds for it. *)
Lemma columns_en : forall (K : Type) (HK : Label K) dtf sv cmv (df1 df2 : list (K * list (option R))) sites ref vecs mode n,
  predicted_cols dtf sv cmv df1 df2 (east_north sites) ref vecs mode n =
  compute_predicted_position dtf sv (fun df s => cmv df (east_north s)) df1 df2 sites ref vecs mode n.
Proof.
  intros. unfold predicted_cols, compute_predicted_position, pp_case_cols. rewrite by_name_en, by_place_en. cbv zeta.
  rewrite rows_en.
  match goal with |- rbind ?X _ = rbind ?X _ => destruct X as [[va vb]|]; [|reflexivity] end. cbn [rbind].
  destruct (pp_case dtf df1 sites ref va); [|reflexivity]. cbn [rbind].
  destruct (pp_case dtf df2 sites ref vb); [|reflexivity]. cbn [rbind].
  match goal with |- rbind ?X _ = rbind ?X _ => destruct X as [[ix1 ix2]|]; [|reflexivity] end. cbn [rbind].
  match goal with |- rbind ?X _ = rbind ?X _ => destruct X as [s1|]; [|reflexivity] end. cbn [rbind].
  match goal with |- rbind ?X _ = rbind ?X _ => destruct X as [s2|]; [|reflexivity] end. cbn [rbind].
  destruct (lookup sites ref) as [[rx ry]|]; reflexivity.
Qed.

(*@ C135 A table with a further column after E and N: wherever the table without it gives an answer, this one raises
    ValueError, in every mode and for every column and cell. *)
Lemma columns_more : forall (K : Type) (HK : Label K) dtf sv cmv (df1 df2 : list (K * list (option R))) sites ref vecs mode n more extra r,
  more <> [] -> (forall k, length (extra k) = length more) ->
  compute_predicted_position dtf sv cmv df1 df2 sites ref (Some vecs) mode n = Ok r ->
  forall cmv', predicted_cols dtf sv cmv' df1 df2 (with_columns more extra sites) ref (Some vecs) mode n = Err ValueError.
Proof.
  intros K HK dtf sv cmv df1 df2 sites ref [va vb] mode n more extra [p [s1 s2]] M X E cmv'.
  apply cpp_inv in E. destruct E as (d1 & d2 & ix1 & ix2 & rp & E1 & E2 & E3 & E4 & E5 & E6 & _).
  unfold predicted_cols, pp_case_cols. cbv zeta. rewrite by_name_more, by_place_more. cbn [rbind].
  rewrite E1. cbn [rbind]. rewrite E2. cbn [rbind]. rewrite E3. cbn [rbind]. rewrite E4. cbn [rbind]. rewrite E5. cbn [rbind].
  rewrite rows_more. apply lookup_ok in E6. rewrite E6. cbn [rmap rbind].
  specialize (X ref). destruct (extra ref) as [|v l]; [destruct more; [easy|discriminate]|]. reflexivity.
Qed.

(*@ C135 Without a column E or without a column N the call never succeeds. *)
Lemma columns_missing : forall (K : Type) (HK : Label K) dtf sv cmv (df1 df2 : list (K * list (option R))) p ref vecs mode n,
  ~ In "E"%string (l_cols p) \/ ~ In "N"%string (l_cols p) ->
  exists e, predicted_cols dtf sv cmv df1 df2 p ref vecs mode n = Err e.
Proof.
  intros K HK dtf sv cmv df1 df2 p ref vecs mode n M.
  assert (P : forall c cols, ~ In c cols -> col_place c cols = Err KeyError).
  { intros c cols. induction cols as [|d cols IH]; [reflexivity|]. intro I. cbn. destruct (String.eqb_spec d c) as [->|]; [now destruct I; left|].
    rewrite IH; [reflexivity|]. intro J. apply I. now right. }
  assert (B : by_name p = Err KeyError).
  { unfold by_name. destruct M as [M|M].
    - now rewrite (P _ _ M).
    - rewrite (P _ _ M). destruct (col_place "E" (l_cols p)) as [e|e] eqn:Q; [reflexivity|]. cbn.
      revert Q. clear. generalize (l_cols p). intro l. revert e. induction l as [|d l IH]; intro e; cbn; [congruence|].
      destruct (String.eqb d "E"); [discriminate|]. destruct (col_place "E" l); [discriminate|]. cbn. intro Q. specialize (IH _ eq_refl). congruence. }
  unfold predicted_cols, pp_case_cols. rewrite B. cbv zeta.
  match goal with |- exists e, rbind ?X _ = _ => destruct X as [[va vb]|]; [|cbn [rbind]; eauto] end. cbn [rbind].
  destruct (lookup df1 ref) as [sig|]; [|cbn [rbind]; eauto]. cbn [rbind].
  destruct (dtf (ref, sig) df1); cbn [rbind]; eauto.
Qed.

Lemma position_moved rp q ea eb va vb :
  pp_position (fst rp + fst q, snd rp + snd q) ea eb va vb = moved (pp_position rp ea eb va vb) q.
Proof.
  unfold pp_position, moved. destruct ea as [ea| | |], eb as [eb| | |], va as [va|], vb as [vb|]; try reflexivity.
  destruct (intersection1 _ _) as [px py]. cbn [fst snd].
  destruct px as [px| | |], py as [py| | |]; cbn [fadd]; try reflexivity; f_equal; try (f_equal; ring); reflexivity.
Qed.

(*@ C135 The same two columns in the other order: the method runs as before, selects the same points and reports the same
    delays, but its answer is off by (N - E, E - N) of the reference. *)
Lemma columns_swapped : forall (K : Type) (HK : Label K) dtf sv cmv (df1 df2 : list (K * list (option R))) sites ref vecs mode n p s rp,
  compute_predicted_position dtf sv cmv df1 df2 sites ref (Some vecs) mode n = Ok (p, s) -> dget sites ref = Some rp ->
  forall cmv', predicted_cols dtf sv cmv' df1 df2 (north_east sites) ref (Some vecs) mode n =
    Ok (moved p (snd rp - fst rp, fst rp - snd rp), s).
Proof.
  intros K HK dtf sv cmv df1 df2 sites ref [va vb] mode n p [s1 s2] rp E RP cmv'.
  apply cpp_inv in E. destruct E as (d1 & d2 & ix1 & ix2 & rp' & E1 & E2 & E3 & E4 & E5 & E6 & ->).
  rewrite RP in E6. injection E6 as <-.
  unfold predicted_cols, pp_case_cols. cbv zeta. rewrite by_name_ne, by_place_ne. cbn [rbind].
  rewrite E1. cbn [rbind]. rewrite E2. cbn [rbind]. rewrite select_swap, E3. cbn [rbind]. rewrite E4. cbn [rbind]. rewrite E5. cbn [rbind].
  rewrite rows_ne. apply lookup_ok in RP. rewrite RP. cbn [rmap rbind shift_by_row].
  rewrite <- position_moved. cbn [fst snd]. do 4 f_equal; ring.
Qed.

(** ** One combiner at (100, 0), seen to lag by one second under a wind of 10 along E and one of 5 along N *)
Definition one_site : list (nat * (R * R)) := [(0%nat, (100, 0))].
Definition one_df : list (nat * list (option R)) := [(0%nat, [Some 1])].
Definition one_dtf (_ : nat * list (option R)) (_ : list (nat * list (option R))) : result (list fl * list fl) := Ok ([Fin 1], [Fin 1]).
Definition one_cmv {L} (_ : list (nat * list (option R))) (_ : L) : result (fl * fl) := Err ValueError.

Lemma len_1000 : len (10, 0) = 10.
Proof. unfold len, inner. cbn [fst snd]. replace (10 * 10 + 0 * 0) with (10 * 10) by ring. apply sqrt_square. lra. Qed.
Lemma len_05 : len (0, 5) = 5.
Proof. unfold len, inner. cbn [fst snd]. replace (0 * 0 + 5 * 5) with (5 * 5) by ring. apply sqrt_square. lra. Qed.

Lemma one_case v : v <> (0, 0) -> pp_case one_dtf one_df one_site 0%nat (Some v) =
  Ok [(0%nat, mkPP (Fin 0) (Fin (- len v)) (Fin (- len v)) (Fin 1) (Fin 1))].
Proof.
  intro N. unfold pp_case, one_dtf, one_df, one_site. cbn -[project_vectors magnitude fmul fopp fsub].
  rewrite project_fin by exact N. cbn -[magnitude inner]. rewrite magnitude_len. unfold inner. cbn [fst snd].
  pose proof (len_pos v N). do 4 f_equal; try (f_equal; field; lra).
Qed.

Lemma one_predicted : exists s,
  compute_predicted_position one_dtf (fun l => l) one_cmv one_df one_df one_site 0%nat (Some (Some (10, 0), Some (0, 5))) "all" 8
    = Ok ((Fin 90, Fin (-5)), s).
Proof.
  assert (Na : (10, 0) <> (0, 0)) by (intro F; injection F; lra). assert (Nb : (0, 5) <> (0, 0)) by (intro F; injection F; lra).
  unfold compute_predicted_position. cbv zeta. cbn [rbind]. rewrite (one_case _ Na), (one_case _ Nb), len_1000, len_05. cbn [rbind].
  eexists. cbn -[pp_position series_mean]. f_equal. f_equal.
  assert (M : forall x, series_mean [Fin x] = Fin x).
  { intro x. etransitivity; [apply (series_mean_fin [x]); easy|]. unfold Rmean, Rsum. cbn. f_equal. field. }
  rewrite !M. unfold pp_position. rewrite (pol_vec _ _ Na), (pol_vec _ _ Nb), len_1000, len_05. unfold intersection1. cbn [fst snd].
  replace (- (10) * 10 / 10) with (Ropp 10) by field. replace (- (10) * 0 / 10) with 0 by field.
  replace (- (5) * 0 / 5) with 0 by field. replace (- (5) * 5 / 5) with (Ropp 5) by field.
  unfold fdiv. rewrite (Reqb_false _ 0) by lra.
  cbn [fadd]. f_equal; f_equal; field.
Qed.

(*@ C135 Refuted: "the order of the columns of the layout does not matter". *)
Lemma column_order_refuted : exists dtf sv cmv (df : list (nat * list (option R))) sites vecs p q s,
  predicted_cols dtf sv cmv df df (east_north sites) 0%nat (Some vecs) "all" 8 = Ok (p, s) /\
  predicted_cols dtf sv cmv df df (north_east sites) 0%nat (Some vecs) "all" 8 = Ok (q, s) /\
  p = (Fin 90, Fin (-5)) /\ q = (Fin (-10), Fin 95).
Proof.
  destruct one_predicted as (s & E).
  exists one_dtf, (fun l => l), one_cmv, one_df, one_site, (Some (10, 0), Some (0, 5)), (Fin 90, Fin (-5)), (Fin (-10), Fin 95), s.
  split; [rewrite columns_en; exact E|]. split; [|split; reflexivity].
  rewrite (columns_swapped _ _ _ _ _ _ _ _ _ _ _ _ _ _ (100, 0) E eq_refl). unfold moved. cbn [fst snd fadd]. do 3 f_equal; f_equal; lra.
Qed.

(*@ex C135 One combiner at (100, 0): the table with columns E and N gives (90, -5); with a third column the call raises. *)
Lemma columns_example : exists s,
  predicted_cols one_dtf (fun l => l) one_cmv one_df one_df (east_north one_site) 0%nat (Some (Some (10, 0), Some (0, 5))) "all" 8
    = Ok ((Fin 90, Fin (-5)), s) /\
  predicted_cols one_dtf (fun l => l) one_cmv one_df one_df (with_columns ["zone"%string] (fun _ => [13]) one_site) 0%nat
    (Some (Some (10, 0), Some (0, 5))) "all" 8 = Err ValueError.
Proof.
  destruct one_predicted as (s & E). exists s. split; [rewrite columns_en; exact E|].
  eapply columns_more; [|intro; reflexivity|exact E]. discriminate.
Qed.
