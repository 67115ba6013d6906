(** field.py compute_predicted_position. *)
From Coq Require Import String Permutation Sorted.
From Verif Require Import Prelude PreludeFacts RealBase Fl RealStat M_spatial Spec_spatial P_plane M_cmv M_field_pos Spec_field_pos.
Local Open Scope R_scope.

Lemma lookup_ok {K} `{Label K} {V} (d : list (K * V)) k v : lookup d k = Ok v <-> dget d k = Some v.
Proof. unfold lookup. destruct (dget d k); split; congruence. Qed.

Lemma nth_error_combine {A B} (l : list A) (l' : list B) i :
  nth_error (combine l l') i = match nth_error l i, nth_error l' i with Some a, Some b => Some (a, b) | _, _ => None end.
Proof.
  revert l' i. induction l as [|a l IH]; intros [|b l'] [|i]; cbn; auto. all: try (destruct (nth_error l i); auto).
Qed.

Lemma project_on_length vs v : length (project_on vs v) = length vs.
Proof. destruct v as [v|]; cbn; [|apply map_length]. unfold project_vectors. destruct (unit_vec v). apply map_length. Qed.

Lemma project_on_nth vs v i p x : nth_error vs i = Some p -> nth_error (project_on vs v) i = Some x -> project_on [p] v = [x].
Proof.
  intros Hp. destruct v as [v|]; cbn [project_on].
  - unfold project_vectors. destruct (unit_vec v) as [ux uy]. rewrite nth_error_map, Hp. cbn [option_map map]. congruence.
  - rewrite nth_error_map, Hp. cbn [option_map map]. congruence.
Qed.

Lemma map_fst_combine {A B} (l : list A) (l' : list B) : length l = length l' -> map fst (combine l l') = l.
Proof. revert l'. induction l; intros [|]; cbn; intros; try discriminate; auto. f_equal. auto. Qed.


Section Case.
  Context {K : Type} `{Label K}.
  Variable delays_tf : K * list (option R) -> list (K * list (option R)) -> result (list fl * list fl).

  Lemma pp_case_inv df pos ref v d : pp_case delays_tf df pos ref v = Ok d ->
    exists sig delay coh rp, dget df ref = Some sig /\ delays_tf (ref, sig) df = Ok (delay, coh) /\ dget pos ref = Some rp /\
      length delay = length pos /\ length coh = length pos /\ map fst d = map fst pos /\ length d = length pos /\
      map (fun r => pp_coh (snd r)) d = coh /\
      forall i k r, nth_error d i = Some (k, r) -> exists P,
        nth_error pos i = Some (k, P) /\ nth_error delay i = Some (pp_delay r) /\ nth_error coh i = Some (pp_coh r) /\
        project_on [sub2 rp P] v = [pp_plan r] /\
        pp_delay_dist r = fmul (fopp (pp_delay r)) (vec_magnitude v) /\ pp_error r = fsub (pp_delay_dist r) (pp_plan r).
  Proof.
    unfold pp_case. destruct (lookup df ref) as [sig|] eqn:E1; [|discriminate]. apply lookup_ok in E1. cbn [rbind].
    destruct (delays_tf (ref, sig) df) as [[delay coh]|] eqn:E2; [|discriminate]. cbn [rbind].
    destruct (lookup pos ref) as [rp|] eqn:E3; [|discriminate]. apply lookup_ok in E3. cbn [rbind compute_vectors].
    set (vecs := map _ (combine _ _)). set (plan := project_on _ v).
    assert (LV : length plan = length pos).
    { unfold plan, vecs. rewrite project_on_length, !map_length, combine_length, !map_length. lia. }
    rewrite map_length, LV.
    destruct (Nat.eqb_spec (length delay) (length pos)) as [L1|]; [|discriminate].
    destruct (Nat.eqb_spec (length coh) (length pos)) as [L2|]; [|discriminate]. cbn [andb negb].
    set (cc := combine _ coh). assert (LC : length cc = length pos) by (unfold cc; rewrite !combine_length, map_length; lia).
    intro E. match type of E with Ok ?x = Ok d => assert (ED : x = d) by congruence end. subst d. clear E.
    exists sig, delay, coh, rp. split; auto. split; auto. split; auto. split; auto. split; auto.
    split; [apply map_fst_combine; now rewrite !map_length|].
    split; [rewrite combine_length, !map_length; lia|]. split.
    - apply nth_error_ext. intro i. rewrite nth_error_map, nth_error_combine, nth_error_map, nth_error_map. unfold cc.
      rewrite !nth_error_combine, nth_error_map. destruct (nth_error pos i) as [p|] eqn:Ep; cbn [option_map].
      + assert (Hi : (i < length pos)%nat) by (apply nth_error_Some; congruence).
        destruct (nth_error plan i) eqn:X1; [|apply nth_error_None in X1; lia].
        destruct (nth_error delay i) eqn:X2; [|apply nth_error_None in X2; lia].
        destruct (nth_error coh i) eqn:X3; [reflexivity|apply nth_error_None in X3; lia].
      + apply nth_error_None in Ep. symmetry. apply nth_error_None. lia.
    - intros i k r. rewrite nth_error_combine, nth_error_map, nth_error_map. unfold cc. rewrite !nth_error_combine, nth_error_map.
      destruct (nth_error pos i) as [p|] eqn:Ep; cbn [option_map]; [|discriminate].
      destruct (nth_error plan i) as [pl|] eqn:X1; [|discriminate]. destruct (nth_error delay i) as [dl|] eqn:X2; [|discriminate]. cbn [option_map].
      destruct (nth_error coh i) as [c|] eqn:X3; [|discriminate]. cbn [option_map]. intros [= <- <-]. cbn [pp_delay pp_coh pp_plan pp_delay_dist pp_error].
      exists (snd p). split; [now destruct p|]. split; auto. split; auto. split; [|auto].
      apply project_on_nth with (i := i) (vs := map (fun v : R * R => (- fst v, - snd v)) vecs); auto.
      unfold vecs. rewrite !nth_error_map, nth_error_combine, !nth_error_map, Ep. cbn [option_map]. f_equal. unfold sub2. cbn [fst snd]. f_equal; ring.
  Qed.
End Case.

Lemma cpp_inv {K} `{Label K} dtf sv cmv (df1 df2 : list (K * list (option R))) pos ref va vb mode n p s1 s2 :
  compute_predicted_position dtf sv cmv df1 df2 pos ref (Some (va, vb)) mode n = Ok (p, (s1, s2)) ->
  exists d1 d2 ix1 ix2 rp, pp_case dtf df1 pos ref va = Ok d1 /\ pp_case dtf df2 pos ref vb = Ok d2 /\
    select_points sv pos ref mode n d1 d2 = Ok (ix1, ix2) /\ loc_rows d1 ix1 = Ok s1 /\ loc_rows d2 ix2 = Ok s2 /\
    dget pos ref = Some rp /\
    p = pp_position rp (series_mean (map (fun r => pp_error (snd r)) s1)) (series_mean (map (fun r => pp_error (snd r)) s2)) va vb.
Proof.
  unfold compute_predicted_position. cbv zeta. cbn [rbind].
  destruct (pp_case dtf df1 pos ref va) as [d1|] eqn:E1; [|discriminate]. cbn [rbind].
  destruct (pp_case dtf df2 pos ref vb) as [d2|] eqn:E2; [|discriminate]. cbn [rbind].
  destruct (select_points sv pos ref mode n d1 d2) as [[ix1 ix2]|] eqn:E3; [|discriminate]. cbn [rbind].
  destruct (loc_rows d1 ix1) as [t1|] eqn:E4; [|discriminate]. cbn [rbind].
  destruct (loc_rows d2 ix2) as [t2|] eqn:E5; [|discriminate]. cbn [rbind].
  destruct (lookup pos ref) as [rp|] eqn:E6; [|discriminate]. apply lookup_ok in E6. cbn [rbind]. intro E.
  assert (A : t1 = s1) by congruence. assert (B : t2 = s2) by congruence. subst t1 t2.
  exists d1, d2, ix1, ix2, rp. repeat split; auto. congruence.
Qed.

Lemma loc_rows_fst {K} `{Label K} (d : list (K * ppdata)) ix s : loc_rows d ix = Ok s -> map fst s = ix.
Proof.
  unfold loc_rows. revert s. induction ix as [|k ix IH]; cbn [mapM]; intro s; [intros [= <-]; auto|].
  destruct (lookup d k) as [r|]; [|discriminate]. cbn [rbind]. destruct (mapM _ ix) as [l|]; [|discriminate]. cbn [rbind].
  intros [= <-]. cbn. f_equal. now apply IH.
Qed.

Lemma loc_rows_in {K} `{Label K} (d : list (K * ppdata)) ix s k r : loc_rows d ix = Ok s -> In (k, r) s -> In (k, r) d.
Proof.
  unfold loc_rows. revert s. induction ix as [|k0 ix IH]; cbn [mapM]; intro s; [intros [= <-] []|].
  destruct (lookup d k0) as [r0|] eqn:E; [|discriminate]. cbn [rbind]. destruct (mapM _ ix) as [l|]; [|discriminate]. cbn [rbind].
  intros [= <-] [F|F]; [|now apply (IH l)]. injection F as <- <-. apply lookup_ok in E. now apply dget_In.
Qed.

Definition case_rows {K} `{Label K} dtf (df : list (K * list (option R))) pos ref (v : R * R) (s : list (K * ppdata)) : Prop :=
  exists sig delay coh rp, dget df ref = Some sig /\ dtf (ref, sig) df = Ok (delay, coh) /\ dget pos ref = Some rp /\
   forall k r, In (k, r) s -> exists i P, nth_error pos i = Some (k, P) /\
     nth_error delay i = Some (pp_delay r) /\ nth_error coh i = Some (pp_coh r) /\
     pp_plan r = Fin (along v P rp) /\ pp_delay_dist r = fmul (fopp (pp_delay r)) (Fin (len v)) /\
     pp_error r = fsub (pp_delay_dist r) (pp_plan r).

Lemma case_rows_ok {K} `{Label K} dtf (df : list (K * list (option R))) pos ref v d ix s : v <> (0, 0) ->
  pp_case dtf df pos ref (Some v) = Ok d -> loc_rows d ix = Ok s -> case_rows dtf df pos ref v s.
Proof.
  intros N E L. apply pp_case_inv in E. destruct E as (sig & delay & coh & rp & A & B & C & _ & _ & _ & _ & _ & D).
  exists sig, delay, coh, rp. split; auto. split; auto. split; auto. intros k r Hr.
  apply (loc_rows_in _ _ _ _ _ L) in Hr. apply In_nth_error in Hr. destruct Hr as (i & Hi). destruct (D i k r Hi) as (P & D1 & D2 & D3 & D4 & D5 & D6).
  exists i, P. split; auto. split; auto. split; auto. cbn [project_on] in D4. rewrite project_fin in D4 by auto. cbn [map] in D4.
  split; [unfold along; congruence|]. split; auto. rewrite D5. cbn [vec_magnitude]. now rewrite magnitude_len.
Qed.

(*@ C30 The report: every used point carries its signed planned distance to the reference along the CMV, the
    distance implied by its delay, their difference, and the delay and coherence found at the same position
    among the data columns as the point has among the listed positions. *)
Lemma predicted_report : forall (K : Type) (HK : Label K) dtf sv cmv (df1 df2 : list (K * list (option R))) pos ref va vb mode n p s1 s2,
  va <> (0, 0) -> vb <> (0, 0) ->
  compute_predicted_position dtf sv cmv df1 df2 pos ref (Some (Some va, Some vb)) mode n = Ok (p, (s1, s2)) ->
  forall df v s, (df, v, s) = (df1, va, s1) \/ (df, v, s) = (df2, vb, s2) ->
  exists sig delay coh rp, dget df ref = Some sig /\ dtf (ref, sig) df = Ok (delay, coh) /\ dget pos ref = Some rp /\
   forall k r, In (k, r) s -> exists i P, nth_error pos i = Some (k, P) /\
     nth_error delay i = Some (pp_delay r) /\ nth_error coh i = Some (pp_coh r) /\
     pp_plan r = Fin (along v P rp) /\ pp_delay_dist r = fmul (fopp (pp_delay r)) (Fin (len v)) /\
     pp_error r = fsub (pp_delay_dist r) (pp_plan r).
Proof.
  intros K HK dtf sv cmv df1 df2 pos ref va vb mode n p s1 s2 Na Nb E df v s Hs.
  apply cpp_inv in E. destruct E as (d1 & d2 & ix1 & ix2 & rp & E1 & E2 & _ & E4 & E5 & _).
  destruct Hs as [[= -> -> ->]|[= -> -> ->]]; eapply case_rows_ok; eauto.
Qed.

Lemma fsum_fin l : fsum (map Fin l) = Fin (Rsum l).
Proof. induction l as [|x l IH]; [reflexivity|]. cbn [map]. change (fsum (Fin x :: map Fin l)) with (fadd (Fin x) (fsum (map Fin l))). now rewrite IH. Qed.

Lemma series_mean_fin l : l <> [] -> series_mean (map Fin l) = Fin (Rmean l).
Proof.
  intro N. unfold series_mean. cbv zeta.
  replace (filter (fun a => negb (is_nan a)) (map Fin l)) with (map Fin l) by (clear; induction l; cbn; congruence).
  destruct l as [|x l]; [contradiction|]. cbn [map]. change (Fin x :: map Fin l) with (map Fin (x :: l)).
  rewrite fsum_fin, map_length, fdiv_fin by (apply not_0_INR; cbn; lia). reflexivity.
Qed.

Lemma pol_vec e v : v <> (0, 0) -> pol2rect e (snd (rect2pol (fst v) (snd v))) = (e * fst v / len v, e * snd v / len v).
Proof.
  intro N. pose proof (len_pos v N) as P. unfold rect2pol, pol2rect. cbn [snd].
  destruct (cos_sin_atan2 (fst v) (snd v)) as [Ec Es]; [now rewrite <- surjective_pairing|].
  rewrite <- surjective_pairing in Ec, Es. f_equal.
  - apply Rmult_eq_reg_l with (len v); [|lra]. transitivity (e * (len v * cos (arctan2 (snd v) (fst v)))); [ring|]. rewrite Ec. field. lra.
  - apply Rmult_eq_reg_l with (len v); [|lra]. transitivity (e * (len v * sin (arctan2 (snd v) (fst v)))); [ring|]. rewrite Es. field. lra.
Qed.

(* The intersection for error components (d.va)/|va|, (d.vb)/|vb| is d. *)
Lemma position_of_components rp va vb d : ~ parallel va vb -> inner d va <> 0 -> inner d vb <> 0 ->
  pp_position rp (Fin (inner d va / len va)) (Fin (inner d vb / len vb)) (Some va) (Some vb) = (Fin (fst d + fst rp), Fin (snd d + snd rp)).
Proof.
  intros NP Ia Ib.
  assert (Na : va <> (0, 0)) by (intros ->; apply NP; unfold parallel, cross; cbn; ring).
  assert (Nb : vb <> (0, 0)) by (intros ->; apply NP; unfold parallel, cross; cbn; ring).
  unfold pp_position. rewrite !pol_vec by auto.
  pose proof (len_pos va Na) as Pa. pose proof (len_pos vb Nb) as Pb. pose proof (len_sq va) as Qa. pose proof (len_sq vb) as Qb.
  destruct va as [ax ay], vb as [bx by_], d as [dx dy]. unfold parallel, cross, inner in *. cbn [fst snd] in *.
  set (la := len (ax, ay)) in *. set (lb := len (bx, by_)) in *.
  unfold intersection1. set (ea := (dx * ax + dy * ay) / la). set (eb := (dx * bx + dy * by_) / lb).
  assert (Ha : ea * la = dx * ax + dy * ay) by (unfold ea; field; lra).
  assert (Hb : eb * lb = dx * bx + dy * by_) by (unfold eb; field; lra).
  assert (Za : ea <> 0) by (intro Z; apply Ia; rewrite <- Ha, Z; ring).
  assert (Zb : eb <> 0) by (intro Z; apply Ib; rewrite <- Hb, Z; ring).
  clearbody ea eb.
  set (D := eb * bx / lb * (ea * ay / la) - ea * ax / la * (eb * by_ / lb)).
  assert (HD : D = ea * eb * (bx * ay - ax * by_) / (la * lb)) by (unfold D; field; lra).
  assert (ND : D <> 0).
  { rewrite HD. unfold Rdiv. assert (/ (la * lb) <> 0) by (apply Rinv_neq_0_compat; apply Rmult_integral_contrapositive_currified; lra).
    assert (bx * ay - ax * by_ <> 0) by lra. repeat apply Rmult_integral_contrapositive_currified; auto. }
  assert (SA : (ea * ax / la) ^ 2 + (ea * ay / la) ^ 2 = ea ^ 2).
  { replace ((ea * ax / la) ^ 2 + (ea * ay / la) ^ 2) with (ea ^ 2 * (ax * ax + ay * ay) / la ^ 2) by (field; lra). rewrite <- Qa. field. lra. }
  assert (SB : (eb * bx / lb) ^ 2 + (eb * by_ / lb) ^ 2 = eb ^ 2).
  { replace ((eb * bx / lb) ^ 2 + (eb * by_ / lb) ^ 2) with (eb ^ 2 * (bx * bx + by_ * by_) / lb ^ 2) by (field; lra). rewrite <- Qb. field. lra. }
  rewrite SA, SB. rewrite !fdiv_fin by exact ND. cbn [fadd]. 
  assert (W : bx * ay - ax * by_ <> 0) by lra.
  f_equal; f_equal; f_equal.
  - rewrite HD.
    replace (eb ^ 2 * (ea * ay / la) - eb * by_ / lb * ea ^ 2) with (ea * eb * (eb * lb * ay - by_ * (ea * la)) / (la * lb)) by (field; lra).
    rewrite Ha, Hb. field. repeat split; auto; lra.
  - rewrite HD.
    replace (ea ^ 2 * (eb * bx / lb) - ea * ax / la * eb ^ 2) with (ea * eb * (ea * la * bx - ax * (eb * lb)) / (la * lb)) by (field; lra).
    rewrite Ha, Hb. field. repeat split; auto; lra.
Qed.

(* The error of one frozen-field row. *)
Lemma frozen_error v x rp P r : v <> (0, 0) ->
  pp_plan r = Fin (along v P rp) -> pp_delay_dist r = fmul (fopp (pp_delay r)) (Fin (len v)) -> pp_error r = fsub (pp_delay_dist r) (pp_plan r) ->
  pp_delay r = Fin (travel_time v x P) -> pp_error r = Fin (inner (sub2 x rp) v / len v).
Proof.
  intros N A B C D. pose proof (len_pos v N). pose proof (len_sq v) as Q. rewrite C, B, A, D. cbn [fopp fmul fsub fadd]. f_equal.
  unfold travel_time, along. rewrite <- Q. unfold inner, sub2. cbn [fst snd]. field. lra.
Qed.

(*@ C30 Exactness: if every used point's delay is the travel time of the pattern from the sensor's true position
    [x], the true position is returned, whichever points were used, provided the position error has a component
    along both CMVs. *)
Lemma predicted_exact : forall (K : Type) (HK : Label K) dtf sv cmv (df1 df2 : list (K * list (option R))) pos ref va vb mode n p s1 s2 x rp,
  NoDup (map fst pos) -> ~ parallel va vb -> dget pos ref = Some rp ->
  compute_predicted_position dtf sv cmv df1 df2 pos ref (Some (Some va, Some vb)) mode n = Ok (p, (s1, s2)) ->
  s1 <> [] -> s2 <> [] ->
  (forall k r P, In (k, r) s1 -> dget pos k = Some P -> pp_delay r = Fin (travel_time va x P)) ->
  (forall k r P, In (k, r) s2 -> dget pos k = Some P -> pp_delay r = Fin (travel_time vb x P)) ->
  inner (sub2 x rp) va <> 0 -> inner (sub2 x rp) vb <> 0 ->
  p = (Fin (fst x), Fin (snd x)).
Proof.
  intros K HK dtf sv cmv df1 df2 pos ref va vb mode n p s1 s2 x rp ND NP Hrp E N1 N2 F1 F2 Ia Ib.
  assert (Na : va <> (0, 0)) by (intros ->; apply NP; unfold parallel, cross; cbn; ring).
  assert (Nb : vb <> (0, 0)) by (intros ->; apply NP; unfold parallel, cross; cbn; ring).
  apply cpp_inv in E. destruct E as (d1 & d2 & ix1 & ix2 & rp' & E1 & E2 & _ & E4 & E5 & E6 & ->).
  assert (rp' = rp) by congruence. subst rp'.
  assert (M : forall v df d ix s, v <> (0, 0) -> pp_case dtf df pos ref (Some v) = Ok d -> loc_rows d ix = Ok s -> s <> [] ->
     (forall k r P, In (k, r) s -> dget pos k = Some P -> pp_delay r = Fin (travel_time v x P)) ->
     series_mean (map (fun r => pp_error (snd r)) s) = Fin (inner (sub2 x rp) v / len v)).
  { intros v df d ix s Nv Ec El Ne Fz. destruct (case_rows_ok _ _ _ _ _ _ _ _ Nv Ec El) as (sig & dl & coh & rp' & _ & _ & R1 & R2).
    assert (rp' = rp) by congruence. subst rp'.
    set (c := inner (sub2 x rp) v / len v).
    assert (EM : map (fun r : K * ppdata => pp_error (snd r)) s = map Fin (map (fun _ => c) s)).
    { rewrite map_map. apply map_ext_in. intros [k r] Hr. cbn [snd]. destruct (R2 k r Hr) as (i & P & Q1 & _ & _ & Q4 & Q5 & Q6).
      apply (frozen_error v x rp P r); auto. apply (Fz k r P Hr). apply dget_NoDup; [exact ND|]. now apply nth_error_In in Q1. }
    rewrite EM. rewrite series_mean_fin by (destruct s; [contradiction|discriminate]). f_equal. clear -Ne. unfold Rmean. rewrite map_length.
    assert (S : Rsum (map (fun _ => c) s) = INR (length s) * c).
    { clear. induction s as [|a s IH]; [cbn; ring|]. cbn [map]. rewrite Rsum_cons, IH. cbn [length]. rewrite S_INR. ring. }
    rewrite S. field. apply not_0_INR. destruct s; [contradiction|cbn; lia]. }
  rewrite (M va df1 d1 ix1 s1), (M vb df2 d2 ix2 s2) by auto. rewrite position_of_components by auto.
  unfold sub2. cbn [fst snd]. f_equal; f_equal; ring.
Qed.

Lemma Rsum_const {A} (l : list A) c : Rsum (map (fun _ => c) l) = INR (length l) * c.
Proof. induction l as [|a l IH]; [cbn; ring|]. cbn [map]. rewrite Rsum_cons, IH. cbn [length]. rewrite S_INR. ring. Qed.

Lemma Rsum_one_out {K V} `{Label K} (s : list (K * V)) (ref : K) c : NoDup (map fst s) -> In ref (map fst s) ->
  Rsum (map (fun r => if lab_eqb (fst r) ref then 0 else c) s) = (INR (length s) - 1) * c.
Proof.
  induction s as [|[k v] s IH]; intros ND Hin; [destruct Hin|]. cbn [map fst] in *. inversion ND as [|? ? Nk ND']; subst.
  rewrite Rsum_cons. cbn [length]. rewrite S_INR. destruct Hin as [->|Hin].
  - replace (lab_eqb ref ref) with true by (symmetry; now apply lab_eqb_eq).
    replace (map (fun r : K * V => if lab_eqb (fst r) ref then 0 else c) s) with (map (fun _ : K * V => c) s).
    + rewrite Rsum_const. ring.
    + apply map_ext_in. intros [k' v'] Hr. cbn [fst]. rewrite lab_eqb_neq; auto. intros ->. apply Nk. now apply (in_map fst) in Hr.
  - rewrite IH by auto. rewrite lab_eqb_neq; [ring|]. intros ->. contradiction.
Qed.

(*@ C30 Self-inclusion bias: the reference point's own delay to itself is zero wherever the sensor is, so when it is
    among the used points (mode 'all', 'distance') the estimate is pulled towards the labelled position by the
    factor (m - 1)/m for m used points. *)
Lemma predicted_self_bias : forall (K : Type) (HK : Label K) dtf sv cmv (df1 df2 : list (K * list (option R))) pos ref va vb mode n p s1 s2 x rp m,
  NoDup (map fst pos) -> ~ parallel va vb -> dget pos ref = Some rp ->
  compute_predicted_position dtf sv cmv df1 df2 pos ref (Some (Some va, Some vb)) mode n = Ok (p, (s1, s2)) ->
  NoDup (map fst s1) -> NoDup (map fst s2) -> In ref (map fst s1) -> In ref (map fst s2) ->
  length s1 = m -> length s2 = m -> (2 <= m)%nat ->
  (forall k r P, In (k, r) s1 -> dget pos k = Some P -> pp_delay r = Fin (if lab_eqb k ref then 0 else travel_time va x P)) ->
  (forall k r P, In (k, r) s2 -> dget pos k = Some P -> pp_delay r = Fin (if lab_eqb k ref then 0 else travel_time vb x P)) ->
  inner (sub2 x rp) va <> 0 -> inner (sub2 x rp) vb <> 0 ->
  p = (Fin (fst rp + (INR m - 1) / INR m * (fst x - fst rp)), Fin (snd rp + (INR m - 1) / INR m * (snd x - snd rp))).
Proof.
  intros K HK dtf sv cmv df1 df2 pos ref va vb mode n p s1 s2 x rp m ND NP Hrp E U1 U2 H1 H2 L1 L2 Hm F1 F2 Ia Ib.
  assert (Na : va <> (0, 0)) by (intros ->; apply NP; unfold parallel, cross; cbn; ring).
  assert (Nb : vb <> (0, 0)) by (intros ->; apply NP; unfold parallel, cross; cbn; ring).
  apply cpp_inv in E. destruct E as (d1 & d2 & ix1 & ix2 & rp' & E1 & E2 & _ & E4 & E5 & E6 & ->).
  assert (rp' = rp) by congruence. subst rp'.
  assert (Pm : 1 < INR m) by (apply (lt_INR 1); lia).
  set (q := (INR m - 1) / INR m). assert (Hq : 0 < q) by (unfold q; apply Rdiv_lt_0_compat; lra).
  set (d := scale2 q (sub2 x rp)).
  assert (M : forall v df dd ix s, v <> (0, 0) -> pp_case dtf df pos ref (Some v) = Ok dd -> loc_rows dd ix = Ok s ->
     NoDup (map fst s) -> In ref (map fst s) -> length s = m ->
     (forall k r P, In (k, r) s -> dget pos k = Some P -> pp_delay r = Fin (if lab_eqb k ref then 0 else travel_time v x P)) ->
     series_mean (map (fun r => pp_error (snd r)) s) = Fin (inner d v / len v)).
  { intros v df dd ix s Nv Ec El U Hi L Fz. destruct (case_rows_ok _ _ _ _ _ _ _ _ Nv Ec El) as (sig & dl & coh & rp' & _ & _ & R1 & R2).
    assert (rp' = rp) by congruence. subst rp'. pose proof (len_pos v Nv) as Pv.
    set (c := inner (sub2 x rp) v / len v).
    assert (EM : map (fun r : K * ppdata => pp_error (snd r)) s = map Fin (map (fun r => if lab_eqb (fst r) ref then 0 else c) s)).
    { rewrite map_map. apply map_ext_in. intros [k r] Hr. cbn [fst snd]. destruct (R2 k r Hr) as (i & P & Q1 & _ & _ & Q4 & Q5 & Q6).
      assert (HP : dget pos k = Some P) by (apply dget_NoDup; [exact ND|]; now apply nth_error_In in Q1).
      specialize (Fz k r P Hr HP). destruct (lab_eqb k ref) eqn:Ek.
      - apply lab_eqb_eq in Ek. subst k. assert (P = rp) by congruence. subst P.
        rewrite Q6, Q5, Q4, Fz. cbn [fopp fmul fsub fadd]. f_equal. unfold along, inner, sub2. cbn [fst snd]. field. lra.
      - now apply (frozen_error v x rp P r). }
    rewrite EM. rewrite series_mean_fin by (destruct s; [destruct Hi|discriminate]). f_equal. unfold Rmean. rewrite map_length.
    rewrite Rsum_one_out by auto. rewrite L. unfold c, d, q, inner, scale2, sub2. cbn [fst snd]. field. lra. }
  rewrite (M va df1 d1 ix1 s1), (M vb df2 d2 ix2 s2) by auto.
  assert (S : forall v, inner d v = q * inner (sub2 x rp) v) by (intro v; unfold d, inner, scale2; cbn [fst snd]; ring).
  rewrite position_of_components; auto.
  - unfold d, scale2, sub2. cbn [fst snd]. f_equal; f_equal; ring.
  - rewrite S. apply Rmult_integral_contrapositive_currified; [lra|auto].
  - rewrite S. apply Rmult_integral_contrapositive_currified; [lra|auto].
Qed.

(*@ C30 A zero mean error along either CMV - in particular a correctly labelled sensor - gives NaN, not the label. *)
Lemma predicted_zero_error : forall (K : Type) (HK : Label K) dtf sv cmv (df1 df2 : list (K * list (option R))) pos ref va vb mode n p s1 s2 x rp,
  NoDup (map fst pos) -> va <> (0, 0) -> vb <> (0, 0) -> dget pos ref = Some rp ->
  compute_predicted_position dtf sv cmv df1 df2 pos ref (Some (Some va, Some vb)) mode n = Ok (p, (s1, s2)) ->
  (forall k r P, In (k, r) s1 -> dget pos k = Some P -> pp_delay r = Fin (travel_time va x P)) ->
  (forall k r P, In (k, r) s2 -> dget pos k = Some P -> pp_delay r = Fin (travel_time vb x P)) ->
  inner (sub2 x rp) va = 0 \/ inner (sub2 x rp) vb = 0 ->
  p = (Nan, Nan).
Proof.
  intros K HK dtf sv cmv df1 df2 pos ref va vb mode n p s1 s2 x rp ND Na Nb Hrp E F1 F2 Z.
  apply cpp_inv in E. destruct E as (d1 & d2 & ix1 & ix2 & rp' & E1 & E2 & _ & E4 & E5 & E6 & ->).
  assert (rp' = rp) by congruence. subst rp'.
  assert (M : forall v df d ix s, v <> (0, 0) -> pp_case dtf df pos ref (Some v) = Ok d -> loc_rows d ix = Ok s ->
     (forall k r P, In (k, r) s -> dget pos k = Some P -> pp_delay r = Fin (travel_time v x P)) ->
     series_mean (map (fun r => pp_error (snd r)) s) = Nan \/
     series_mean (map (fun r => pp_error (snd r)) s) = Fin (inner (sub2 x rp) v / len v)).
  { intros v df d ix s Nv Ec El Fz. destruct (case_rows_ok _ _ _ _ _ _ _ _ Nv Ec El) as (sig & dl & coh & rp' & _ & _ & R1 & R2).
    assert (rp' = rp) by congruence. subst rp'. destruct s as [|r0 s0] eqn:Es; [now left|right]. rewrite <- Es in *.
    set (c := inner (sub2 x rp) v / len v).
    assert (EM : map (fun r : K * ppdata => pp_error (snd r)) s = map Fin (map (fun _ => c) s)).
    { rewrite map_map. apply map_ext_in. intros [k r] Hr. cbn [snd]. destruct (R2 k r Hr) as (i & P & Q1 & _ & _ & Q4 & Q5 & Q6).
      apply (frozen_error v x rp P r); auto. apply (Fz k r P Hr). apply dget_NoDup; [exact ND|]. now apply nth_error_In in Q1. }
    rewrite EM. rewrite series_mean_fin by (rewrite Es; discriminate). f_equal. unfold Rmean. rewrite map_length, Rsum_const.
    field. apply not_0_INR. rewrite Es. cbn. lia. }
  assert (T : forall ea eb, (ea = 0 \/ eb = 0) -> pp_position rp (Fin ea) (Fin eb) (Some va) (Some vb) = (Nan, Nan)).
  { intros ea eb Hz. unfold pp_position. rewrite !pol_vec by auto.
    destruct Hz as [-> | ->]; unfold intersection1; cbv zeta.
    - replace (0 * fst va / len va) with 0 by (unfold Rdiv; ring). replace (0 * snd va / len va) with 0 by (unfold Rdiv; ring).
      match goal with |- (fadd (fdiv (Fin ?a) (Fin ?c)) _, fadd (fdiv (Fin ?b) _) _) = _ => replace c with 0 by ring; replace a with 0 by ring; replace b with 0 by ring end.
      rewrite !fdiv_zero. now rewrite sgn_inf_0.
    - replace (0 * fst vb / len vb) with 0 by (unfold Rdiv; ring). replace (0 * snd vb / len vb) with 0 by (unfold Rdiv; ring).
      match goal with |- (fadd (fdiv (Fin ?a) (Fin ?c)) _, fadd (fdiv (Fin ?b) _) _) = _ => replace c with 0 by ring; replace a with 0 by ring; replace b with 0 by ring end.
      rewrite !fdiv_zero. now rewrite sgn_inf_0. }
  destruct (M va df1 d1 ix1 s1 Na E1 E4 F1) as [X| ->], (M vb df2 d2 ix2 s2 Nb E2 E5 F2) as [Y| ->]; rewrite ?X, ?Y; try reflexivity.
  apply T. destruct Z as [-> | ->]; [left|right]; unfold Rdiv; ring.
Qed.

(*@ C30 A NaN CMV gives a NaN position, and the reported planned distance, delay distance and error of every used point of its
    data frame are NaN. *)
Lemma predicted_nan_cmv : forall (K : Type) (HK : Label K) dtf sv cmv (df1 df2 : list (K * list (option R))) pos ref va vb mode n p s1 s2,
  compute_predicted_position dtf sv cmv df1 df2 pos ref (Some (va, vb)) mode n = Ok (p, (s1, s2)) ->
  (va = None \/ vb = None -> p = (Nan, Nan)) /\
  (forall v s, (v, s) = (va, s1) \/ (v, s) = (vb, s2) -> v = None ->
     forall k r, In (k, r) s -> pp_plan r = Nan /\ pp_delay_dist r = Nan /\ pp_error r = Nan).
Proof.
  intros K HK dtf sv cmv df1 df2 pos ref va vb mode n p s1 s2 E.
  apply cpp_inv in E. destruct E as (d1 & d2 & ix1 & ix2 & rp & E1 & E2 & _ & E4 & E5 & E6 & ->). split.
  - generalize (series_mean (map (fun r => pp_error (snd r)) s1)), (series_mean (map (fun r => pp_error (snd r)) s2)). intros ea eb.
    intros [-> | ->]; unfold pp_position; [destruct ea, eb; reflexivity|destruct ea, eb, va; reflexivity].
  - assert (G : forall df d ix s, pp_case dtf df pos ref None = Ok d -> loc_rows d ix = Ok s ->
      forall k r, In (k, r) s -> pp_plan r = Nan /\ pp_delay_dist r = Nan /\ pp_error r = Nan).
    { intros df d ix s F L k r Hr. apply pp_case_inv in F. destruct F as (sig & dl & coh & rp' & _ & _ & _ & _ & _ & _ & _ & _ & D).
      apply (loc_rows_in _ _ _ _ _ L) in Hr. apply In_nth_error in Hr. destruct Hr as (i & Hi).
      destruct (D i k r Hi) as (P & _ & _ & _ & D4 & D5 & D6). cbn [project_on map] in D4. injection D4 as D4. cbn [vec_magnitude] in D5.
      assert (N : pp_delay_dist r = Nan) by (rewrite D5; destruct (fopp (pp_delay r)); reflexivity).
      split; [easy|]. split; [exact N|]. rewrite D6, N. reflexivity. }
    intros v s [X|X] ->; injection X as <- ->; [exact (G df1 d1 ix1 s1 E1 E4)|exact (G df2 d2 ix2 s2 E2 E5)].
Qed.

(*@ C30 Parallel CMVs (a zero CMV included) never give a finite position. *)
Lemma predicted_parallel : forall (K : Type) (HK : Label K) dtf sv cmv (df1 df2 : list (K * list (option R))) pos ref va vb mode n p s,
  parallel va vb ->
  compute_predicted_position dtf sv cmv df1 df2 pos ref (Some (Some va, Some vb)) mode n = Ok (p, s) ->
  is_finite (fst p) = false /\ is_finite (snd p) = false.
Proof.
  intros K HK dtf sv cmv df1 df2 pos ref va vb mode n p [s1 s2] Hp E.
  apply cpp_inv in E. destruct E as (d1 & d2 & ix1 & ix2 & rp & E1 & E2 & _ & E4 & E5 & E6 & ->).
  destruct (Classical_Prop.classic (va = (0, 0))) as [Z|Na]; [|destruct (Classical_Prop.classic (vb = (0, 0))) as [Z|Nb]].
  3: { generalize (series_mean (map (fun r => pp_error (snd r)) s1)), (series_mean (map (fun r => pp_error (snd r)) s2)). intros ea eb.
    unfold pp_position. destruct ea as [ea| | |], eb as [eb| | |]; try (split; reflexivity). rewrite !pol_vec by auto. unfold intersection1. cbv zeta.
    pose proof (len_pos va Na). pose proof (len_pos vb Nb). unfold parallel, cross in Hp.
    replace (eb * fst vb / len vb * (ea * snd va / len va) - ea * fst va / len va * (eb * snd vb / len vb)) with 0.
    - rewrite !fdiv_zero. unfold sgn_inf. split; repeat match goal with |- context [Rltb ?a ?b] => destruct (Rltb a b) end; reflexivity.
    - symmetry. transitivity (- (ea * eb * (fst va * snd vb - snd va * fst vb)) / (len va * len vb)); [field; lra|]. rewrite Hp. field. lra. }
  - assert (X : series_mean (map (fun r => pp_error (snd r)) s1) = Nan).
    { subst va. pose proof (pp_case_inv _ _ _ _ _ _ E1) as (sig & dl & coh & rp' & _ & _ & _ & _ & _ & _ & _ & _ & D).
      unfold series_mean. cbv zeta. replace (filter _ _) with (@nil fl); [reflexivity|]. symmetry.
      assert (A : forall r, In r s1 -> pp_error (snd r) = Nan).
      { intros [k r] Hr. apply (loc_rows_in _ _ _ _ _ E4) in Hr. apply In_nth_error in Hr. destruct Hr as (i & Hi).
        destruct (D i k r Hi) as (P & _ & _ & _ & D4 & _ & D6). cbn [project_on] in D4. rewrite project_zero_dir in D4. cbn in D4. injection D4 as D4.
        cbn [snd]. rewrite D6, <- D4. destruct (pp_delay_dist r); reflexivity. }
      clear - A. induction s1 as [|r s IH]; auto. cbn [map filter]. rewrite A by (now left). cbn. apply IH. intros; apply A; now right. }
    rewrite X. split; reflexivity.
  - assert (X : series_mean (map (fun r => pp_error (snd r)) s2) = Nan).
    { subst vb. pose proof (pp_case_inv _ _ _ _ _ _ E2) as (sig & dl & coh & rp' & _ & _ & _ & _ & _ & _ & _ & _ & D).
      unfold series_mean. cbv zeta. replace (filter _ _) with (@nil fl); [reflexivity|]. symmetry.
      assert (A : forall r, In r s2 -> pp_error (snd r) = Nan).
      { intros [k r] Hr. apply (loc_rows_in _ _ _ _ _ E5) in Hr. apply In_nth_error in Hr. destruct Hr as (i & Hi).
        destruct (D i k r Hi) as (P & _ & _ & _ & D4 & _ & D6). cbn [project_on] in D4. rewrite project_zero_dir in D4. cbn in D4. injection D4 as D4.
        cbn [snd]. rewrite D6, <- D4. destruct (pp_delay_dist r); reflexivity. }
      clear - A. induction s2 as [|r s IH]; auto. cbn [map filter]. rewrite A by (now left). cbn. apply IH. intros; apply A; now right. }
    rewrite X. clear. generalize (series_mean (map (fun r => pp_error (snd r)) s1)). intros []; split; reflexivity.
Qed.

Lemma sorted_app {A} (Q : A -> A -> Prop) l l' : StronglySorted Q (l ++ l') -> forall a b, In a l -> In b l' -> Q a b.
Proof.
  induction l as [|x l IH]; cbn; intros S a b Ha Hb; [destruct Ha|]. inversion S as [|? ? S' F]; subst.
  destruct Ha as [->|Ha]; [|now apply IH]. rewrite Forall_forall in F. apply F. apply in_or_app. now right.
Qed.

Lemma sorted_app_r {A} (Q : A -> A -> Prop) l l' : StronglySorted Q (l ++ l') -> StronglySorted Q l'.
Proof. induction l; cbn; auto. intro S. inversion S; auto. Qed.

Lemma slice_neg_split {A} n (l : list A) : exists low top, l = low ++ slice_neg n l ++ top /\
  length top = Nat.min 1 (length l) /\ length (slice_neg n l) = ((if Nat.eqb n 0 then length l else Nat.min n (length l)) - 1)%nat.
Proof.
  unfold slice_neg. set (st := if Nat.eqb n 0 then 0%nat else (length l - n)%nat).
  exists (firstn st (firstn (length l - 1) l)), (skipn (length l - 1) l). split; [|split].
  - rewrite app_assoc, firstn_skipn, firstn_skipn. reflexivity.
  - rewrite skipn_length. lia.
  - rewrite skipn_length, firstn_length. unfold st. destruct (Nat.eqb n 0); lia.
Qed.

Lemma below_top_ok {K} (sv : list (K * fl) -> list (K * fl)) scores n : sorts sv -> takes_below_top scores n (map fst (slice_neg n (sv scores))).
Proof.
  intro S. destruct (S scores) as [P Q]. destruct (slice_neg_split n (sv scores)) as (low & top & E & Lt & Lm).
  pose proof (Permutation_length P) as LP. rewrite <- LP in Lt, Lm.
  exists low, (slice_neg n (sv scores)), top. rewrite <- E. split; auto. split; auto. split; auto. split; auto.
  rewrite E in Q. split; [now apply sorted_app|]. apply sorted_app. now apply sorted_app_r in Q.
Qed.

Lemma lowest_ok {K} (sv : list (K * fl) -> list (K * fl)) scores n : sorts sv -> takes_lowest scores n (map fst (firstn n (sv scores))).
Proof.
  intro S. destruct (S scores) as [P Q]. pose proof (Permutation_length P) as LP.
  exists (firstn n (sv scores)), (skipn n (sv scores)). rewrite firstn_skipn. split; auto. split; auto. split; [rewrite firstn_length; lia|].
  apply sorted_app. now rewrite firstn_skipn.
Qed.

Lemma coh_pairs {K} `{Label K} dtf (df : list (K * list (option R))) pos ref v d : pp_case dtf df pos ref v = Ok d ->
  exists sig delay coh, dget df ref = Some sig /\ dtf (ref, sig) df = Ok (delay, coh) /\
    map (fun r => (fst r, pp_coh (snd r))) d = combine (map fst pos) coh.
Proof.
  intro E. apply pp_case_inv in E. destruct E as (sig & dl & coh & rp & A & B & _ & _ & L & F & Ld & C & _).
  exists sig, dl, coh. split; auto. split; auto. rewrite <- F, <- C. clear. induction d as [|[k r] d IH]; cbn; [reflexivity|]. now rewrite IH.
Qed.

(*@ C31 The used points, mode by mode. 'coherence' (or 'preavg'): for each CMV, among the points with finite
    coherence, those ranked just below the single most coherent one, ndownsel - 1 of them.
    'global_coherence': the same for the sum of squared coherences, NaN ranking highest, one choice for both CMVs.
    'distance': the ndownsel points nearest to the labelled reference position. 'all': every point in order. *)
Lemma predicted_selection : forall (K : Type) (HK : Label K) dtf sv cmv (df1 df2 : list (K * list (option R))) pos ref va vb mode n p s1 s2,
  sorts sv ->
  compute_predicted_position dtf sv cmv df1 df2 pos ref (Some (va, vb)) mode n = Ok (p, (s1, s2)) ->
  exists sig1 sig2 del1 del2 coh1 coh2 rp,
    dget df1 ref = Some sig1 /\ dget df2 ref = Some sig2 /\ dget pos ref = Some rp /\
    dtf (ref, sig1) df1 = Ok (del1, coh1) /\ dtf (ref, sig2) df2 = Ok (del2, coh2) /\
    (mode = "coherence" \/ mode = "preavg" ->
       takes_below_top (filter (fun s => is_finite (snd s)) (combine (map fst pos) coh1)) n (map fst s1) /\
       takes_below_top (filter (fun s => is_finite (snd s)) (combine (map fst pos) coh2)) n (map fst s2))%string /\
    (mode = "global_coherence"%string ->
       map fst s1 = map fst s2 /\
       takes_below_top (combine (map fst pos) (map2 (fun a b => fadd (fmul a a) (fmul b b)) coh1 coh2)) n (map fst s1)) /\
    (mode = "distance"%string ->
       map fst s1 = map fst s2 /\ takes_lowest (map (fun q => (fst q, Fin (dist2 (snd q) rp))) pos) n (map fst s1)) /\
    (mode = "all"%string -> map fst s1 = map fst pos /\ map fst s2 = map fst pos) /\
    In mode ["coherence"; "preavg"; "global_coherence"; "distance"; "all"]%string.
Proof.
  intros K HK dtf sv cmv df1 df2 pos ref va vb mode n p s1 s2 S E.
  apply cpp_inv in E. destruct E as (d1 & d2 & ix1 & ix2 & rp & E1 & E2 & E3 & E4 & E5 & E6 & _).
  destruct (coh_pairs _ _ _ _ _ _ E1) as (sig1 & del1 & coh1 & A1 & B1 & C1). destruct (coh_pairs _ _ _ _ _ _ E2) as (sig2 & del2 & coh2 & A2 & B2 & C2).
  exists sig1, sig2, del1, del2, coh1, coh2, rp. do 5 (split; [assumption|]).
  apply loc_rows_fst in E4. apply loc_rows_fst in E5. rewrite E4, E5. unfold select_points in E3. cbv zeta in E3. rewrite C1, C2 in E3.
  destruct (String.eqb_spec mode "coherence") as [M|M]; [|destruct (String.eqb_spec mode "preavg") as [M'|M']].
  - cbn [orb] in E3. injection E3 as <- <-. subst mode. split; [intros _; split; now apply below_top_ok|].
    repeat (split; [discriminate|]). cbn; auto.
  - cbn [orb] in E3. injection E3 as <- <-. subst mode. split; [intros _; split; now apply below_top_ok|].
    repeat (split; [discriminate|]). cbn; auto.
  - cbn [orb] in E3. split; [intros [?|?]; contradiction|].
    destruct (String.eqb_spec mode "global_coherence") as [M2|M2].
    { assert (X : map (fun x : K * fl * (K * fl) => (fst (fst x), fadd (fmul (snd (fst x)) (snd (fst x))) (fmul (snd (snd x)) (snd (snd x)))))
               (combine (combine (map fst pos) coh1) (combine (map fst pos) coh2)) =
               combine (map fst pos) (map2 (fun a b => fadd (fmul a a) (fmul b b)) coh1 coh2)).
      { clear. revert coh1 coh2. induction (map fst pos) as [|k l IH]; intros [|a c1] [|b c2]; cbn; auto. f_equal. apply IH. }
      rewrite X in E3. injection E3 as <- <-. subst mode. split; [intros _; split; [reflexivity|now apply below_top_ok]|].
      repeat (split; [discriminate|]). cbn; auto. }
    split; [intro; contradiction|].
    destruct (String.eqb_spec mode "distance") as [M3|M3].
    { unfold lookup in E3. rewrite E6 in E3. cbn [rbind] in E3. injection E3 as <- <-. subst mode. split.
      - intros _. split; auto.
        replace (map (fun p0 : K * (R * R) => (fst p0, Fin (magnitude (fst (snd p0) - fst rp, snd (snd p0) - snd rp)))) pos)
          with (map (fun q : K * (R * R) => (fst q, Fin (dist2 (snd q) rp))) pos); [now apply lowest_ok|].
        apply map_ext. intros [k q]. cbn [fst snd]. rewrite magnitude_len. reflexivity.
      - split; [discriminate|]. cbn; auto. }
    split; [intro; contradiction|].
    destruct (String.eqb_spec mode "all") as [M4|M4]; [|discriminate].
    injection E3 as <- <-. subst mode. split; [auto|]. cbn; auto 6.
Qed.

(*@ C31 Any other mode is rejected once the delays have been computed. *)
Lemma predicted_bad_mode : forall (K : Type) (HK : Label K) dtf sv cmv (df1 df2 : list (K * list (option R))) pos ref va vb mode mode' n n' res,
  compute_predicted_position dtf sv cmv df1 df2 pos ref (Some (va, vb)) mode' n' = Ok res ->
  ~ In mode ["coherence"; "preavg"; "global_coherence"; "distance"; "all"]%string ->
  compute_predicted_position dtf sv cmv df1 df2 pos ref (Some (va, vb)) mode n = Err ValueError.
Proof.
  intros K HK dtf sv cmv df1 df2 pos ref va vb mode mode' n n' [p [s1 s2]] E N.
  apply cpp_inv in E. destruct E as (d1 & d2 & ix1 & ix2 & rp & E1 & E2 & _).
  unfold compute_predicted_position. cbv zeta. cbn [rbind]. rewrite E1. cbn [rbind]. rewrite E2. cbn [rbind].
  unfold select_points. cbv zeta.
  destruct (String.eqb_spec mode "coherence") as [->|]; [exfalso; apply N; cbn; auto|].
  destruct (String.eqb_spec mode "preavg") as [->|]; [exfalso; apply N; cbn; auto|]. cbn [orb].
  destruct (String.eqb_spec mode "global_coherence") as [->|]; [exfalso; apply N; cbn; auto|].
  destruct (String.eqb_spec mode "distance") as [->|]; [exfalso; apply N; cbn; auto|].
  destruct (String.eqb_spec mode "all") as [->|]; [exfalso; apply N; cbn; auto 6|]. reflexivity.
Qed.

(*@ C30 Without CMVs the polar CMV estimate of each data frame is used, as a Cartesian vector. *)
Lemma predicted_default_cmv : forall (K : Type) (HK : Label K) dtf sv cmv (df1 df2 : list (K * list (option R))) pos ref mode n s1 t1 s2 t2,
  cmv df1 pos = Ok (Fin s1, Fin t1) -> cmv df2 pos = Ok (Fin s2, Fin t2) ->
  compute_predicted_position dtf sv cmv df1 df2 pos ref None mode n =
  compute_predicted_position dtf sv cmv df1 df2 pos ref
    (Some (Some (s1 * cos t1, s1 * sin t1), Some (s2 * cos t2, s2 * sin t2))) mode n.
Proof. intros. unfold compute_predicted_position. cbv zeta. rewrite H, H0. reflexivity. Qed.

Definition rank_leb {K} (p q : K * fl) : bool := is_nan (snd q) || fleb (snd p) (snd q).
Lemma rank_leb_ranked {K} (p q : K * fl) : rank_leb p q = true <-> ranked (snd p) (snd q).
Proof. unfold rank_leb, ranked. rewrite orb_true_iff. tauto. Qed.

Lemma ranked_total a b : ranked a b \/ ranked b a.
Proof.
  unfold ranked. destruct a as [x| | |], b as [y| | |]; cbn; auto.
  destruct (Rle_or_lt x y); [left|right]; right; apply Rleb_true; lra.
Qed.
Lemma ranked_trans a b c : ranked a b -> ranked b c -> ranked a c.
Proof.
  unfold ranked. destruct a as [x| | |], b as [y| | |], c as [z| | |]; cbn; auto; intros [A|A] [B|B]; try discriminate; auto.
  right. revert A B. destruct (Rleb_spec x y), (Rleb_spec y z); try discriminate. intros _ _. apply Rleb_true. lra.
Qed.

Lemma insert_perm {A} (le : A -> A -> bool) x l : Permutation (x :: l) (insert_by le x l).
Proof. induction l as [|y l IH]; cbn; auto. destruct (le x y); auto. eapply perm_trans; [apply perm_swap|]. now apply perm_skip. Qed.

Lemma stable_sorts {K} : sorts (K := K) (sort_by rank_leb).
Proof.
  intro l. induction l as [|x l [P S]]; [split; constructor|]. change (sort_by rank_leb (x :: l)) with (insert_by rank_leb x (sort_by rank_leb l)).
  split; [eapply perm_trans; [now apply perm_skip, P|apply insert_perm]|].
  clear P. induction S as [|y t S IH F]; cbn; [repeat constructor|].
  destruct (rank_leb x y) eqn:E.
  - constructor; [now constructor|]. apply rank_leb_ranked in E. constructor; auto.
    eapply Forall_impl; [|apply F]. intros z Hz. now apply ranked_trans with (snd y).
  - constructor; [exact IH|].
    assert (Y : ranked (snd y) (snd x)).
    { destruct (ranked_total (snd y) (snd x)) as [|Z]; auto. apply rank_leb_ranked in Z. congruence. }
    rewrite Forall_forall in *. intros z Hz. apply (Permutation_in z (Permutation_sym (insert_perm _ x t))) in Hz. destruct Hz as [<-|Hz]; auto.
Qed.

(*@ C30 Without CMVs, an estimate that is not a number in speed or direction counts as a NaN CMV: the position is NaN. *)
Lemma predicted_default_nan : forall (K : Type) (HK : Label K) dtf sv cmv (df1 df2 : list (K * list (option R))) pos ref mode n a b p s,
  cmv df1 pos = Ok a -> cmv df2 pos = Ok b ->
  (exists c, (c = a \/ c = b) /\ (fst c = Nan \/ snd c = Nan)) ->
  compute_predicted_position dtf sv cmv df1 df2 pos ref None mode n = Ok (p, s) -> p = (Nan, Nan).
Proof.
  intros K HK dtf sv cmv df1 df2 pos ref mode n a b p s A B C E.
  set (as_vec := fun q : fl * fl => match q with (Fin s, Fin t) => Some (pol2rect s t) | _ => None end).
  assert (E' : compute_predicted_position dtf sv cmv df1 df2 pos ref (Some (as_vec a, as_vec b)) mode n = Ok (p, s)).
  { rewrite <- E. unfold compute_predicted_position. cbv zeta. rewrite A, B. reflexivity. }
  destruct s as [s1 s2]. apply predicted_nan_cmv in E'. destruct E' as [E' _]. apply E'.
  destruct C as (c & [-> | ->] & H); [left|right]; unfold as_vec;
    [destruct a as [[]  []]|destruct b as [[] []]]; cbn in H; destruct H as [H|H]; try discriminate H; reflexivity.
Qed.

(*@ C31 It succeeds whenever the reference is a data column and a listed point, there are as many data columns as
    listed points, and the mode is one of the five. *)
Lemma predicted_success : forall (K : Type) (HK : Label K) dtf sv cmv (df1 df2 : list (K * list (option R))) pos ref va vb mode n sig1 sig2 del1 del2 coh1 coh2 rp,
  sorts sv -> dget df1 ref = Some sig1 -> dget df2 ref = Some sig2 -> dget pos ref = Some rp ->
  dtf (ref, sig1) df1 = Ok (del1, coh1) -> dtf (ref, sig2) df2 = Ok (del2, coh2) ->
  length del1 = length pos -> length coh1 = length pos -> length del2 = length pos -> length coh2 = length pos ->
  In mode ["coherence"; "preavg"; "global_coherence"; "distance"; "all"]%string ->
  exists res, compute_predicted_position dtf sv cmv df1 df2 pos ref (Some (va, vb)) mode n = Ok res.
Proof.
  intros K HK dtf sv cmv df1 df2 pos ref va vb mode n sig1 sig2 del1 del2 coh1 coh2 rp S D1 D2 Hrp B1 B2 L1 L1' L2 L2' Hm.
  assert (C : forall df v sig del coh, dget df ref = Some sig -> dtf (ref, sig) df = Ok (del, coh) -> length del = length pos -> length coh = length pos ->
     exists d, pp_case dtf df pos ref v = Ok d).
  { intros df v sig del coh H1 H2 H3 H4. unfold pp_case. unfold lookup. rewrite H1. cbn [rbind]. rewrite H2. cbn [rbind]. rewrite Hrp. cbn [rbind compute_vectors].
    rewrite map_length, project_on_length, !map_length, combine_length, !map_length, Nat.min_id, H3, H4, !Nat.eqb_refl. cbn [andb negb]. eauto. }
  destruct (C df1 va _ _ _ D1 B1 L1 L1') as (d1 & E1). destruct (C df2 vb _ _ _ D2 B2 L2 L2') as (d2 & E2).
  assert (K1 : map fst d1 = map fst pos) by (apply pp_case_inv in E1; destruct E1 as (? & ? & ? & ? & _ & _ & _ & _ & _ & F & _); exact F).
  assert (K2 : map fst d2 = map fst pos) by (apply pp_case_inv in E2; destruct E2 as (? & ? & ? & ? & _ & _ & _ & _ & _ & F & _); exact F).
  assert (LR : forall d ix, (forall k, In k ix -> In k (map fst d)) -> exists s, loc_rows d ix = Ok s).
  { intros d ix. unfold loc_rows. induction ix as [|k ix IH]; cbn [mapM]; intro H; [eauto|].
    destruct (dget_key_Some d k) as (r & Hr); [apply H; now left|]. unfold lookup at 1. rewrite Hr. cbn [rbind].
    destruct IH as (s & ->); [intros; apply H; now right|]. cbn [rbind]. eauto. }
  assert (SUB : forall (l l' : list (K * fl)), (forall x, In x l -> In x (sv l')) -> (forall x, In x l' -> In (fst x) (map fst pos)) -> forall k, In k (map fst l) -> In k (map fst pos)).
  { intros l l' H1 H2 k Hk. apply in_map_iff in Hk. destruct Hk as (x & <- & Hx). apply H2. destruct (S l') as [P _]. apply (Permutation_in x (Permutation_sym P)). auto. }
  assert (SL : forall (l : list (K * fl)) x, In x (slice_neg n l) -> In x l).
  { intros l x Hx. unfold slice_neg in Hx. rewrite <- (firstn_skipn (length l - 1) l). apply in_or_app. left.
    match type of Hx with In x (skipn ?a ?b) => rewrite <- (firstn_skipn a b) end. apply in_or_app. now right. }
  assert (FI : forall d, map fst d = map fst pos -> forall x, In x (map (fun r : K * ppdata => (fst r, pp_coh (snd r))) d) -> In (fst x) (map fst pos)).
  { intros d Hd x Hx. apply in_map_iff in Hx. destruct Hx as (r & <- & Hr). cbn. rewrite <- Hd. now apply in_map. }
  assert (SEL : exists ix1 ix2, select_points sv pos ref mode n d1 d2 = Ok (ix1, ix2) /\ (forall k, In k ix1 -> In k (map fst pos)) /\ (forall k, In k ix2 -> In k (map fst pos))).
  { unfold select_points. cbv zeta.
    assert (CO : forall d, map fst d = map fst pos -> forall k, In k (map fst (slice_neg n (sv (filter (fun r => is_finite (snd r)) (map (fun r : K * ppdata => (fst r, pp_coh (snd r))) d))))) -> In k (map fst pos)).
    { intros d Hd k. apply SUB with (l' := filter (fun r => is_finite (snd r)) (map (fun r : K * ppdata => (fst r, pp_coh (snd r))) d)); [apply SL|]. intros x Hx. apply filter_In in Hx. destruct Hx as [Hx _]. now apply (FI d Hd). }
    destruct Hm as [<-|[<-|[<-|[<-|[<-|[]]]]]]; cbn [String.eqb Ascii.eqb Bool.eqb orb].
    - eexists. eexists. split; [reflexivity|]. split; now apply CO.
    - eexists. eexists. split; [reflexivity|]. split; now apply CO.
    - eexists. eexists. split; [reflexivity|].
      match goal with |- (forall k, In k (map fst (slice_neg n (sv ?l'))) -> _) /\ _ => assert (X : forall k, In k (map fst (slice_neg n (sv l'))) -> In k (map fst pos)) end; [|now split].
      intro k. eapply SUB; [apply SL|]. intros x Hx. apply in_map_iff in Hx. destruct Hx as ([a b] & <- & Hr). cbn [fst]. apply in_combine_l in Hr. now apply (FI d1 K1).
    - unfold lookup. rewrite Hrp. cbn [rbind]. eexists. eexists. split; [reflexivity|].
      match goal with |- (forall k, In k (map fst (firstn n (sv ?l'))) -> _) /\ _ => assert (X : forall k, In k (map fst (firstn n (sv l'))) -> In k (map fst pos)) end; [|now split].
      intro k. eapply SUB; [intros x Hx; rewrite <- (firstn_skipn n); apply in_or_app; left; exact Hx|].
      intros x Hx. apply in_map_iff in Hx. destruct Hx as (q & <- & Hq). cbn [fst]. now apply in_map.
    - eexists. eexists. split; [reflexivity|]. auto. }
  destruct SEL as (ix1 & ix2 & E3 & I1 & I2).
  destruct (LR d1 ix1) as (s1 & E4); [now rewrite K1|]. destruct (LR d2 ix2) as (s2 & E5); [now rewrite K2|].
  unfold compute_predicted_position. cbv zeta. cbn [rbind]. rewrite E1. cbn [rbind]. rewrite E2. cbn [rbind]. rewrite E3. cbn [rbind].
  rewrite E4. cbn [rbind]. rewrite E5. cbn [rbind]. unfold lookup. rewrite Hrp. cbn [rbind]. eauto.
Qed.

(* Four sites; the sensor labelled 0, listed at the origin, really stands at (10, 20). *)
Definition demo_sites : list (nat * (R * R)) := [(0%nat, (0, 0)); (1%nat, (100, 0)); (2%nat, (0, 100)); (3%nat, (100, 100))].
Definition demo_df (n : nat) : list (nat * list (option R)) := map (fun k => (k, repeat (Some 1) n)) [0; 1; 2; 3]%nat.
Definition demo_dtf (sig : nat * list (option R)) (_ : list (nat * list (option R))) : result (list fl * list fl) :=
  if Nat.eqb (length (snd sig)) 1 then Ok ([Fin 0; Fin 9; Fin (-1); Fin 9], [Fin 1; Fin 0.9; Fin 0.8; Fin 0.7])
  else Ok ([Fin 0; Fin (-4); Fin 16; Fin 16], [Fin 1; Fin 0.9; Fin 0.8; Fin 0.7]).
Definition no_cmv (_ : list (nat * list (option R))) (_ : list (nat * (R * R))) : result (fl * fl) := Err ValueError.

Lemma demo_row (v : R * R) df s k r : v <> (0, 0) -> case_rows demo_dtf df demo_sites 0%nat v s -> In (k, r) s ->
  exists i P sig delay coh, nth_error demo_sites i = Some (k, P) /\ dget df 0%nat = Some sig /\
    demo_dtf (0%nat, sig) df = Ok (delay, coh) /\ nth_error delay i = Some (pp_delay r).
Proof. intros N (sig & delay & coh & rp & A & B & C & D) Hr. destruct (D k r Hr) as (i & P & E & F & _). exists i, P, sig, delay, coh. auto. Qed.

Lemma demo_delays n k r (v : R * R) s : v <> (0, 0) -> case_rows demo_dtf (demo_df n) demo_sites 0%nat v s -> In (k, r) s ->
  (n = 1%nat -> v = (10, 0) -> forall P, dget demo_sites k = Some P -> pp_delay r = Fin (if Nat.eqb k 0 then 0 else travel_time v (10, 20) P)) /\
  (n = 2%nat -> v = (0, 5) -> forall P, dget demo_sites k = Some P -> pp_delay r = Fin (if Nat.eqb k 0 then 0 else travel_time v (10, 20) P)).
Proof.
  intros N C Hr. destruct (demo_row _ _ _ _ _ N C Hr) as (i & P0 & sig & delay & coh & Hi & Hs & Hd & Hn).
  split; intros -> -> P HP; injection Hs as <-; injection Hd as <- <-;
    destruct i as [|[|[|[|i]]]]; cbn [nth_error demo_sites] in Hi; try (destruct i; discriminate); injection Hi as <- <-;
    cbn [nth_error] in Hn; injection Hn as <-; cbn in HP; injection HP as <-; cbn [Nat.eqb]; auto; f_equal; unfold travel_time, inner, sub2; cbn [fst snd]; field.
Qed.

(*@ex C30 The hypotheses are met by a run: mode 'coherence' with ndownsel = 8 uses the three other sites. *)
Lemma predicted_example : exists p s1 s2,
  NoDup (map fst demo_sites) /\ ~ parallel (10, 0) (0, 5) /\ sorts (K := nat) (sort_by rank_leb) /\
  compute_predicted_position demo_dtf (sort_by rank_leb) no_cmv (demo_df 1) (demo_df 2) demo_sites 0%nat (Some (Some (10, 0), Some (0, 5))) "coherence" 8
    = Ok (p, (s1, s2)) /\ s1 <> [] /\ s2 <> [] /\
  (forall k r P, In (k, r) s1 -> dget demo_sites k = Some P -> pp_delay r = Fin (travel_time (10, 0) (10, 20) P)) /\
  (forall k r P, In (k, r) s2 -> dget demo_sites k = Some P -> pp_delay r = Fin (travel_time (0, 5) (10, 20) P)) /\
  inner (sub2 (10, 20) (0, 0)) (10, 0) <> 0 /\ inner (sub2 (10, 20) (0, 0)) (0, 5) <> 0.
Proof.
  assert (Na : (10, 0) <> (0, 0)) by (intro F; injection F; lra). assert (Nb : (0, 5) <> (0, 0)) by (intro F; injection F; lra).
  destruct (predicted_success nat _ demo_dtf (sort_by rank_leb) no_cmv (demo_df 1) (demo_df 2) demo_sites 0%nat (Some (10, 0)) (Some (0, 5)) "coherence" 8
     (repeat (Some 1) 1) (repeat (Some 1) 2) [Fin 0; Fin 9; Fin (-1); Fin 9] [Fin 0; Fin (-4); Fin 16; Fin 16]
     [Fin 1; Fin 0.9; Fin 0.8; Fin 0.7] [Fin 1; Fin 0.9; Fin 0.8; Fin 0.7] (0, 0)) as ([p [s1 s2]] & E); try reflexivity; [apply stable_sorts|cbn; auto|].
  exists p, s1, s2. split; [cbn; repeat (constructor; [cbn; lia|]); constructor|].
  split; [unfold parallel, cross; cbn; lra|]. split; [apply stable_sorts|]. split; [exact E|].
  assert (SO : sort_by rank_leb [(0%nat, Fin 1); (1%nat, Fin 0.9); (2%nat, Fin 0.8); (3%nat, Fin 0.7)] = [(3%nat, Fin 0.7); (2%nat, Fin 0.8); (1%nat, Fin 0.9); (0%nat, Fin 1)]).
  { unfold sort_by. cbn [fold_right insert_by]. unfold rank_leb. cbn [is_nan orb fleb fst snd].
    rewrite (Rleb_false 0.8 0.7) by lra. cbn [insert_by is_nan orb fleb fst snd]. rewrite (Rleb_false 0.9 0.7), (Rleb_false 0.9 0.8) by lra.
    cbn [insert_by is_nan orb fleb fst snd]. rewrite (Rleb_false 1 0.7), (Rleb_false 1 0.8), (Rleb_false 1 0.9) by lra. reflexivity. }
  pose proof E as E0. apply cpp_inv in E0. destruct E0 as (d1 & d2 & ix1 & ix2 & rp & E1 & E2 & E3 & E4 & E5 & _).
  pose proof (case_rows_ok _ _ _ _ _ _ _ _ Na E1 E4) as R1. pose proof (case_rows_ok _ _ _ _ _ _ _ _ Nb E2 E5) as R2.
  assert (I : ix1 = [3; 2; 1]%nat /\ ix2 = [3; 2; 1]%nat).
  { destruct (coh_pairs _ _ _ _ _ _ E1) as (sig1 & del1 & coh1 & A1 & B1 & C1). destruct (coh_pairs _ _ _ _ _ _ E2) as (sig2 & del2 & coh2 & A2 & B2 & C2).
    injection A1 as <-. injection A2 as <-. injection B1 as <- <-. injection B2 as <- <-.
    unfold select_points in E3. cbv zeta in E3. rewrite C1, C2 in E3. cbn [String.eqb Ascii.eqb Bool.eqb orb] in E3.
    cbn [map fst demo_sites combine filter is_finite snd] in E3. rewrite SO in E3. injection E3 as <- <-. split; reflexivity. }
  destruct I as [-> ->]. apply loc_rows_fst in E4. apply loc_rows_fst in E5.
  assert (NZ : forall s k (r : ppdata), map fst s = [3; 2; 1]%nat -> In (k, r) s -> Nat.eqb k 0 = false).
  { intros s k r Hs Hr. apply (in_map fst) in Hr. rewrite Hs in Hr. cbn in Hr. apply Nat.eqb_neq. lia. }
  split; [intros ->; discriminate|]. split; [intros ->; discriminate|]. split; [|split; [|unfold inner, sub2; cbn [fst snd]; split; lra]].
  - intros k r P Hr HP. destruct (demo_delays 1 k r _ _ Na R1 Hr) as [D _]. specialize (D eq_refl eq_refl P HP). rewrite (NZ _ _ _ E4 Hr) in D. exact D.
  - intros k r P Hr HP. destruct (demo_delays 2 k r _ _ Nb R2 Hr) as [_ D]. specialize (D eq_refl eq_refl P HP). rewrite (NZ _ _ _ E5 Hr) in D. exact D.
Qed.

(*@ex C31 *)
Lemma selection_example : exists p s1 s2,
  sorts (K := nat) (sort_by rank_leb) /\
  compute_predicted_position demo_dtf (sort_by rank_leb) no_cmv (demo_df 1) (demo_df 2) demo_sites 0%nat (Some (Some (10, 0), Some (0, 5))) "all" 8
    = Ok (p, (s1, s2)) /\ map fst s1 = [0; 1; 2; 3]%nat /\ map fst s2 = [0; 1; 2; 3]%nat /\
  (forall k r P, In (k, r) s1 -> dget demo_sites k = Some P -> pp_delay r = Fin (if lab_eqb k 0%nat then 0 else travel_time (10, 0) (10, 20) P)) /\
  (forall k r P, In (k, r) s2 -> dget demo_sites k = Some P -> pp_delay r = Fin (if lab_eqb k 0%nat then 0 else travel_time (0, 5) (10, 20) P)).
Proof.
  assert (Na : (10, 0) <> (0, 0)) by (intro F; injection F; lra). assert (Nb : (0, 5) <> (0, 0)) by (intro F; injection F; lra).
  destruct (predicted_success nat _ demo_dtf (sort_by rank_leb) no_cmv (demo_df 1) (demo_df 2) demo_sites 0%nat (Some (10, 0)) (Some (0, 5)) "all" 8
     (repeat (Some 1) 1) (repeat (Some 1) 2) [Fin 0; Fin 9; Fin (-1); Fin 9] [Fin 0; Fin (-4); Fin 16; Fin 16]
     [Fin 1; Fin 0.9; Fin 0.8; Fin 0.7] [Fin 1; Fin 0.9; Fin 0.8; Fin 0.7] (0, 0)) as ([p [s1 s2]] & E); try reflexivity; [apply stable_sorts|cbn; auto 6|].
  exists p, s1, s2. split; [apply stable_sorts|]. split; [exact E|].
  pose proof E as E0. apply cpp_inv in E0. destruct E0 as (d1 & d2 & ix1 & ix2 & rp & E1 & E2 & E3 & E4 & E5 & _).
  pose proof (case_rows_ok _ _ _ _ _ _ _ _ Na E1 E4) as R1. pose proof (case_rows_ok _ _ _ _ _ _ _ _ Nb E2 E5) as R2.
  cbn in E3. injection E3 as <- <-. apply loc_rows_fst in E4. apply loc_rows_fst in E5. split; [exact E4|]. split; [exact E5|]. split.
  - intros k r P Hr HP. exact (proj1 (demo_delays 1 k r _ _ Na R1 Hr) eq_refl eq_refl P HP).
  - intros k r P Hr HP. exact (proj2 (demo_delays 2 k r _ _ Nb R2 Hr) eq_refl eq_refl P HP).
Qed.
