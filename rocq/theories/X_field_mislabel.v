(** field.py compute_predicted_position when the other sensors may be mislabelled too. *)
From Coq Require Import String Permutation Lia Lra.
From Verif Require Import Prelude PreludeFacts RealBase Fl RealStat M_spatial Spec_spatial P_plane M_cmv M_field_pos Spec_field_pos Spec_field_mislabel X_field_pos.
Local Open Scope R_scope.

Lemma mislabelled_error v (xr xk rp P : R * R) r : v <> (0, 0) ->
  pp_plan r = Fin (along v P rp) -> pp_delay_dist r = fmul (fopp (pp_delay r)) (Fin (len v)) -> pp_error r = fsub (pp_delay_dist r) (pp_plan r) ->
  pp_delay r = Fin (travel_time v xr xk) -> pp_error r = Fin ((inner (sub2 xr rp) v - inner (sub2 xk P) v) / len v).
Proof.
  intros N A B C D. pose proof (len_pos v N). pose proof (len_sq v) as Q. rewrite C, B, A, D. cbn [fopp fmul fsub fadd]. f_equal.
  unfold travel_time, along. rewrite <- Q. unfold inner, sub2. cbn [fst snd]. field. lra.
Qed.

Lemma position_zero rp va vb ea eb : va <> (0, 0) -> vb <> (0, 0) -> ea = 0 \/ eb = 0 ->
  pp_position rp (Fin ea) (Fin eb) (Some va) (Some vb) = (Nan, Nan).
Proof.
  intros Na Nb Hz. unfold pp_position. rewrite !pol_vec by auto.
  destruct Hz as [-> | ->]; unfold intersection1; cbv zeta.
  - replace (0 * fst va / len va) with 0 by (unfold Rdiv; ring). replace (0 * snd va / len va) with 0 by (unfold Rdiv; ring).
    match goal with |- (fadd (fdiv (Fin ?a) (Fin ?c)) _, fadd (fdiv (Fin ?b) _) _) = _ => replace c with 0 by ring; replace a with 0 by ring; replace b with 0 by ring end.
    rewrite !fdiv_zero. now rewrite sgn_inf_0.
  - replace (0 * fst vb / len vb) with 0 by (unfold Rdiv; ring). replace (0 * snd vb / len vb) with 0 by (unfold Rdiv; ring).
    match goal with |- (fadd (fdiv (Fin ?a) (Fin ?c)) _, fadd (fdiv (Fin ?b) _) _) = _ => replace c with 0 by ring; replace a with 0 by ring; replace b with 0 by ring end.
    rewrite !fdiv_zero. now rewrite sgn_inf_0.
Qed.

(* The vector with given components along two non-parallel ones. *)
Lemma with_components va vb a b : ~ parallel va vb -> exists d, inner d va = a /\ inner d vb = b.
Proof.
  intro NP. destruct va as [ax ay], vb as [bx by_]. unfold parallel, cross in NP. cbn [fst snd] in NP.
  exists ((a * by_ - b * ay) / (ax * by_ - ay * bx), (b * ax - a * bx) / (ax * by_ - ay * bx)).
  unfold inner. cbn [fst snd]. split; field; lra.
Qed.

Lemma mean_error {K} `{Label K} dtf (df : list (K * list (option R))) pos ref v d ix s X rp : NoDup (map fst pos) -> v <> (0, 0) ->
  pp_case dtf df pos ref (Some v) = Ok d -> loc_rows d ix = Ok s -> s <> [] -> dget pos ref = Some rp ->
  (forall k r, In (k, r) s -> pp_delay r = Fin (travel_time v (X ref) (X k))) ->
  series_mean (map (fun r => pp_error (snd r)) s) = Fin ((inner (sub2 (X ref) rp) v - mean_shift pos X v (map fst s)) / len v).
Proof.
  intros ND Nv Ec El Ne Hrp Fz. destruct (case_rows_ok _ _ _ _ _ _ _ _ Nv Ec El) as (sig & dl & coh & rp' & _ & _ & R1 & R2).
  assert (rp' = rp) by congruence. subst rp'.
  set (c := inner (sub2 (X ref) rp) v).
  assert (EM : map (fun r : K * ppdata => pp_error (snd r)) s = map Fin (map (fun k => (c - inner (displacement pos X k) v) / len v) (map fst s))).
  { rewrite !map_map. apply map_ext_in. intros [k r] Hr. cbn [snd fst]. destruct (R2 k r Hr) as (i & P & Q1 & _ & _ & Q4 & Q5 & Q6).
    assert (EP : dget pos k = Some P) by (apply dget_NoDup; [exact ND|]; now apply nth_error_In in Q1).
    unfold displacement. rewrite EP. apply (mislabelled_error v (X ref) (X k) rp P r); auto. }
  rewrite EM. rewrite series_mean_fin by (destruct s; [contradiction|discriminate]). f_equal.
  assert (Nl : INR (length (map fst s)) <> 0) by (apply not_0_INR; destruct s; [contradiction|cbn; lia]).
  unfold mean_shift, avg_of, Rmean. rewrite map_length. pose proof (len_pos v Nv) as Pl.
  assert (S : forall l, Rsum (map (fun k => (c - inner (displacement pos X k) v) / len v) l)
              = (INR (length l) * c - Rsum (map (fun k => inner (displacement pos X k) v) l)) / len v).
  { clear -Pl. induction l as [|a l IH]; [cbn; field; lra|]. cbn [map]. rewrite !Rsum_cons, IH. cbn [length]. rewrite S_INR. field. lra. }
  rewrite S, !map_length. rewrite map_length in Nl. field. split; lra.
Qed.

(*@ C107 With every used delay the true travel time of the pattern between the sensors' true positions X, the
    prediction is displaced from the sensor's true position by minus the mean displacement of the used points: exactly
    that along each of the two CMVs. It is not a number exactly when the sensor's own displacement along a CMV
    equals that mean. *)
Lemma predicted_mislabelled : forall (K : Type) (HK : Label K) dtf sv cmv (df1 df2 : list (K * list (option R))) pos ref va vb mode n p s1 s2 rp (X : K -> R * R),
  NoDup (map fst pos) -> ~ parallel va vb -> dget pos ref = Some rp ->
  compute_predicted_position dtf sv cmv df1 df2 pos ref (Some (Some va, Some vb)) mode n = Ok (p, (s1, s2)) ->
  s1 <> [] -> s2 <> [] ->
  (forall k r, In (k, r) s1 -> pp_delay r = Fin (travel_time va (X ref) (X k))) ->
  (forall k r, In (k, r) s2 -> pp_delay r = Fin (travel_time vb (X ref) (X k))) ->
  let ma := mean_shift pos X va (map fst s1) in let mb := mean_shift pos X vb (map fst s2) in
  (inner (sub2 (X ref) rp) va <> ma -> inner (sub2 (X ref) rp) vb <> mb ->
     exists q, p = (Fin (fst q), Fin (snd q)) /\ inner (sub2 q (X ref)) va = - ma /\ inner (sub2 q (X ref)) vb = - mb) /\
  (inner (sub2 (X ref) rp) va = ma \/ inner (sub2 (X ref) rp) vb = mb -> p = (Nan, Nan)).
Proof.
  intros K HK dtf sv cmv df1 df2 pos ref va vb mode n p s1 s2 rp X ND NP Hrp E N1 N2 F1 F2. cbv zeta.
  assert (Na : va <> (0, 0)) by (intros ->; apply NP; unfold parallel, cross; cbn; ring).
  assert (Nb : vb <> (0, 0)) by (intros ->; apply NP; unfold parallel, cross; cbn; ring).
  apply cpp_inv in E. destruct E as (d1 & d2 & ix1 & ix2 & rp' & E1 & E2 & _ & E4 & E5 & E6 & ->).
  assert (rp' = rp) by congruence. subst rp'.
  rewrite (mean_error dtf df1 pos ref va d1 ix1 s1 X rp) by auto. rewrite (mean_error dtf df2 pos ref vb d2 ix2 s2 X rp) by auto.
  set (ma := mean_shift pos X va (map fst s1)). set (mb := mean_shift pos X vb (map fst s2)). split.
  - intros Za Zb.
    destruct (with_components va vb (inner (sub2 (X ref) rp) va - ma) (inner (sub2 (X ref) rp) vb - mb) NP) as (d & Ea & Eb).
    rewrite <- Ea, <- Eb. rewrite position_of_components; [|exact NP|rewrite Ea; lra|rewrite Eb; lra].
    exists (fst d + fst rp, snd d + snd rp). split; [reflexivity|].
    unfold inner, sub2 in *. cbn [fst snd] in *. split; lra.
  - intro Z. apply position_zero; auto. destruct Z as [-> | ->]; [left|right]; unfold Rdiv; ring.
Qed.

Lemma Rsum_perm l l' : Permutation l l' -> Rsum l = Rsum l'.
Proof. induction 1; rewrite ?Rsum_cons in *; lra. Qed.

Lemma shift_of_permutation {K} `{Label K} pos (X : K -> R * R) v : NoDup (map fst pos) ->
  Permutation (map X (map fst pos)) (map snd pos) -> mean_shift pos X v (map fst pos) = 0.
Proof.
  intros ND PM. unfold mean_shift, avg_of.
  assert (S : Rsum (map (fun k => inner (displacement pos X k) v) (map fst pos)) = 0).
  { apply (Permutation_map (fun q => inner q v)) in PM. apply Rsum_perm in PM.
    transitivity (Rsum (map (fun q => inner q v) (map X (map fst pos))) - Rsum (map (fun q => inner q v) (map snd pos))); [|lra].
    clear PM. rewrite !map_map.
    assert (G : forall l, (forall a, In a l -> dget pos (fst a) = Some (snd a)) ->
      Rsum (map (fun x => inner (displacement pos X (fst x)) v) l) =
      Rsum (map (fun x => inner (X (fst x)) v) l) - Rsum (map (fun x : K * (R * R) => inner (snd x) v) l)).
    { induction l as [|a l IH]; intro G; [cbn; ring|]. cbn [map]. rewrite !Rsum_cons, IH by (intros; apply G; now right).
      unfold displacement at 1. rewrite (G a (or_introl eq_refl)). unfold inner, sub2. cbn [fst snd]. ring. }
    apply G. intros [k P] Hk. cbn [fst snd]. now apply dget_NoDup. }
  rewrite S. unfold Rdiv. ring.
Qed.

(*@ C107 However many labels are wrong: if the true positions are the listed positions in another order, mode 'all'
    returns exactly the true position of the sensor, or NaN when the sensor stands right along one of the CMVs. *)
Lemma predicted_all_permuted : forall (K : Type) (HK : Label K) dtf sv cmv (df1 df2 : list (K * list (option R))) pos ref va vb n p s1 s2 rp (X : K -> R * R),
  NoDup (map fst pos) -> ~ parallel va vb -> dget pos ref = Some rp ->
  compute_predicted_position dtf sv cmv df1 df2 pos ref (Some (Some va, Some vb)) "all" n = Ok (p, (s1, s2)) ->
  Permutation (map X (map fst pos)) (map snd pos) ->
  (forall k r, In (k, r) s1 -> pp_delay r = Fin (travel_time va (X ref) (X k))) ->
  (forall k r, In (k, r) s2 -> pp_delay r = Fin (travel_time vb (X ref) (X k))) ->
  (inner (sub2 (X ref) rp) va <> 0 /\ inner (sub2 (X ref) rp) vb <> 0 -> p = (Fin (fst (X ref)), Fin (snd (X ref)))) /\
  (inner (sub2 (X ref) rp) va = 0 \/ inner (sub2 (X ref) rp) vb = 0 -> p = (Nan, Nan)).
Proof.
  intros K HK dtf sv cmv df1 df2 pos ref va vb n p s1 s2 rp X ND NP Hrp E PM F1 F2.
  assert (KS : map fst s1 = map fst pos /\ map fst s2 = map fst pos).
  { pose proof E as E'. apply cpp_inv in E'. destruct E' as (d1 & d2 & ix1 & ix2 & rp' & E1 & E2 & E3 & E4 & E5 & _).
    unfold select_points in E3. cbn in E3. injection E3 as <- <-. apply loc_rows_fst in E4. apply loc_rows_fst in E5. auto. }
  destruct KS as [K1 K2].
  assert (Ne : pos <> []) by (intros ->; discriminate).
  assert (N1 : s1 <> []) by (intros ->; destruct pos; [contradiction|discriminate]).
  assert (N2 : s2 <> []) by (intros ->; destruct pos; [contradiction|discriminate]).
  destruct (predicted_mislabelled K HK dtf sv cmv df1 df2 pos ref va vb "all" n p s1 s2 rp X ND NP Hrp E N1 N2 F1 F2) as [A B].
  rewrite K1, K2 in A, B. rewrite !shift_of_permutation in A, B by auto. split; [|exact B].
  intros [Za Zb]. destruct (A Za Zb) as (q & -> & Qa & Qb).
  assert (D : sub2 q (X ref) = (0, 0)).
  { destruct (sub2 q (X ref)) as [dx dy], va as [ax ay], vb as [bx by_]. unfold parallel, cross, inner in *. cbn [fst snd] in *.
    assert (Zx : dx * (ax * by_ - ay * bx) = 0).
    { transitivity ((dx * ax + dy * ay) * by_ - (dx * bx + dy * by_) * ay); [ring|]. rewrite Qa, Qb. ring. }
    assert (Zy : dy * (ax * by_ - ay * bx) = 0).
    { transitivity ((dx * bx + dy * by_) * ax - (dx * ax + dy * ay) * bx); [ring|]. rewrite Qa, Qb. ring. }
    apply Rmult_integral in Zx. apply Rmult_integral in Zy. f_equal; [destruct Zx|destruct Zy]; auto; contradiction. }
  destruct q as [qx qy], (X ref) as [x y]. unfold sub2 in D. cbn [fst snd] in *. injection D. intros. f_equal; f_equal; lra.
Qed.

(* Two sensors with exchanged labels. *)
Definition swap_sites : list (nat * (R * R)) := [(0%nat, (0, 0)); (1%nat, (100, 50))].
Definition swap_truth (k : nat) : R * R := match k with 0%nat => (100, 50) | _ => (0, 0) end.
Definition swap_df (n : nat) : list (nat * list (option R)) := map (fun k => (k, repeat (Some 1) n)) [0; 1]%nat.
Definition swap_dtf (sig : nat * list (option R)) (_ : list (nat * list (option R))) : result (list fl * list fl) :=
  if Nat.eqb (length (snd sig)) 1 then Ok ([Fin 0; Fin (-10)], [Fin 1; Fin 1]) else Ok ([Fin 0; Fin (-10)], [Fin 1; Fin 1]).

(*@ex C107 Two sensors with exchanged labels, eastward clouds at 10 m/s and northward clouds at 5 m/s. *)
Lemma predicted_all_example : exists p s1 s2,
  NoDup (map fst swap_sites) /\ ~ parallel (10, 0) (0, 5) /\ dget swap_sites 0%nat = Some (0, 0) /\
  compute_predicted_position swap_dtf (sort_by rank_leb) no_cmv (swap_df 1) (swap_df 2) swap_sites 0%nat (Some (Some (10, 0), Some (0, 5))) "all" 8
    = Ok (p, (s1, s2)) /\
  Permutation (map swap_truth (map fst swap_sites)) (map snd swap_sites) /\
  (forall k r, In (k, r) s1 -> pp_delay r = Fin (travel_time (10, 0) (swap_truth 0) (swap_truth k))) /\
  (forall k r, In (k, r) s2 -> pp_delay r = Fin (travel_time (0, 5) (swap_truth 0) (swap_truth k))) /\
  inner (sub2 (swap_truth 0) (0, 0)) (10, 0) <> 0 /\ inner (sub2 (swap_truth 0) (0, 0)) (0, 5) <> 0.
Proof.
  assert (S0 : exists res, compute_predicted_position swap_dtf (sort_by rank_leb) no_cmv (swap_df 1) (swap_df 2) swap_sites 0%nat (Some (Some (10, 0), Some (0, 5))) "all" 8 = Ok res).
  { apply (predicted_success nat _ swap_dtf (sort_by rank_leb) no_cmv (swap_df 1) (swap_df 2) swap_sites 0%nat (Some (10, 0)) (Some (0, 5)) "all"%string 8%nat
      [Some 1] [Some 1; Some 1] [Fin 0; Fin (-10)] [Fin 0; Fin (-10)] [Fin 1; Fin 1] [Fin 1; Fin 1] (0, 0)); try reflexivity; [apply stable_sorts|cbn; tauto]. }
  destruct S0 as ([p [s1 s2]] & E).
  exists p, s1, s2.
  assert (ND : NoDup (map fst swap_sites)) by (cbn; repeat constructor; cbn; intuition; discriminate).
  assert (NP : ~ parallel (10, 0) (0, 5)) by (unfold parallel, cross; cbn; lra).
  split; [exact ND|]. split; [exact NP|]. split; [reflexivity|]. split; [exact E|]. split; [cbn; apply perm_swap|].
  assert (Na : (10, 0) <> (0, 0)) by (intro Z; injection Z; lra). assert (Nb : (0, 5) <> (0, 0)) by (intro Z; injection Z; lra).
  assert (T : forall (v : R * R) df s k r, case_rows swap_dtf df swap_sites 0%nat v s -> In (k, r) s -> 
     (k = 0%nat /\ pp_delay r = Fin 0) \/ (k = 1%nat /\ pp_delay r = Fin (-10))).
  { intros v df s k r (sig & dl & coh & rp & A & B & C & D) Hr. destruct (D k r Hr) as (i & P & H1 & H2 & _).
    assert (dl = [Fin 0; Fin (-10)]) as -> by (unfold swap_dtf in B; destruct (Nat.eqb _ _); now injection B as <- <-).
    destruct i as [|[|i]]; cbn [nth_error swap_sites] in H1, H2; [left|right|destruct i; discriminate]; injection H1 as <- _; injection H2 as <-; auto. }
  apply cpp_inv in E. destruct E as (d1 & d2 & ix1 & ix2 & rp' & E1 & E2 & _ & E4 & E5 & _).
  split; [|split].
  - intros k r Hr. destruct (T _ _ _ _ _ (case_rows_ok _ _ _ _ _ _ _ _ Na E1 E4) Hr) as [[-> ->]|[-> ->]]; f_equal; unfold travel_time, inner, sub2; cbn; field.
  - intros k r Hr. destruct (T _ _ _ _ _ (case_rows_ok _ _ _ _ _ _ _ _ Nb E2 E5) Hr) as [[-> ->]|[-> ->]]; f_equal; unfold travel_time, inner, sub2; cbn; field.
  - unfold inner, sub2. cbn. split; lra.
Qed.
