(** C121: from digitised outlines to the table of combiner positions *)
From Coq Require Import String Lra Psatz Permutation.
From Verif Require Import Prelude PreludeFacts RealBase P_list Spec_spatial Spec_digitize M_digitize P_digitize.
Local Open Scope R_scope.

(** * The table *)
Lemma filter_all {A} (f : A -> bool) l : (forall a, In a l -> f a = true) -> filter f l = l.
Proof. induction l as [|a l IH]; intro H; [reflexivity|]. cbn. rewrite (H a) by now left. f_equal. apply IH. intros b I. apply H. now right. Qed.
Lemma filter_short {A} (f : A -> bool) l : (length (filter f l) <= length l)%nat.
Proof. induction l as [|a l IH]; cbn; [lia|]. destruct (f a); cbn; lia. Qed.
Lemma filter_shorter {A} (f : A -> bool) l a : In a l -> f a = false -> (length (filter f l) < length l)%nat.
Proof.
  induction l as [|b l IH]; intros I E; [contradiction|]. destruct I as [->|I].
  - cbn. rewrite E. pose proof (filter_short f l). lia.
  - specialize (IH I E). cbn. destruct (f b); cbn; lia.
Qed.
Lemma nth_error_combine {A B} (l : list A) (m : list B) i a b : nth_error l i = Some a -> nth_error m i = Some b -> nth_error (combine l m) i = Some (a, b).
Proof. revert m i. induction l as [|x l IH]; intros [|y m] [|i]; cbn; intros H1 H2; try discriminate; [injection H1 as ->; injection H2 as ->; reflexivity|]. now apply IH. Qed.

Lemma in_corners data p : In p (corners data) <-> exists a ring, In a data /\ In ring (a_parts a) /\ In p ring.
Proof.
  unfold corners. rewrite in_concat. split.
  - intros (l & I & J). apply in_map_iff in I. destruct I as (a & <- & I). apply in_concat in J. destruct J as (ring & J & K). eauto.
  - intros (a & ring & I & J & K). exists (concat (a_parts a)). split; [apply in_map_iff; eauto|]. apply in_concat. eauto.
Qed.
Lemma origin_is o data : (exists p, In p (corners data)) ->
  ((forall a ring p, In a data -> In ring (a_parts a) -> In p ring -> fst o <= fst p /\ snd o <= snd p) /\
   (exists a ring p, In a data /\ In ring (a_parts a) /\ In p ring /\ fst p = fst o) /\
   (exists a ring p, In a data /\ In ring (a_parts a) /\ In p ring /\ snd p = snd o)) -> origin data = o.
Proof.
  intros _ (H & (a1 & r1 & p1 & A1 & B1 & C1 & E1) & (a2 & r2 & p2 & A2 & B2 & C2 & E2)).
  unfold origin. apply injective_projections; cbn [fst snd]; apply Rmin_of_unique.
  - apply in_map_iff. exists p1. split; [exact E1|]. apply in_corners. eauto.
  - intros x I. apply in_map_iff in I. destruct I as (p & <- & I). apply in_corners in I. destruct I as (a & r & Ia & Ir & Ip). exact (proj1 (H a r p Ia Ir Ip)).
  - apply in_map_iff. exists p2. split; [exact E2|]. apply in_corners. eauto.
  - intros x I. apply in_map_iff in I. destruct I as (p & <- & I). apply in_corners in I. destruct I as (a & r & Ia & Ir & Ip). exact (proj2 (H a r p Ia Ir Ip)).
Qed.

(*@ C121 When every digitised asset is a combiner, the table has one row per asset, in order: its own name with the centroid of its own outline, projected about the least longitude and least latitude that any corner has. *)
Lemma centroid_rows : forall thin proj data o,
  (forall a ring p, In a data -> In ring (a_parts a) -> In p ring -> fst o <= fst p /\ snd o <= snd p) ->
  (exists a ring p, In a data /\ In ring (a_parts a) /\ In p ring /\ fst p = fst o) ->
  (exists a ring p, In a data /\ In ring (a_parts a) /\ In p ring /\ snd p = snd o) ->
  (forall a, In a data -> a_type a = "combiner"%string) ->
  exists rows, digitize thin proj data = Ok rows /\ length rows = length data /\
    forall i a, nth_error data i = Some a -> nth_error rows i = Some (a_name a, centroid thin (map (map (proj o)) (a_parts a))).
Proof.
  intros thin proj data o H1 H2 H3 H4.
  assert (E : origin data = o).
  { apply origin_is; [|auto]. destruct H2 as (a & r & p & A & B & C & _). exists p. apply in_corners. eauto. }
  unfold digitize, centroid_table, to_crs. rewrite E. set (utm := map _ data).
  rewrite filter_all.
  2:{ intros a I. unfold utm in I. apply in_map_iff in I. destruct I as (b & <- & I). cbn [a_type]. apply String.eqb_eq. now apply H4. }
  rewrite !map_length, Nat.eqb_refl. eexists. split; [reflexivity|]. split.
  - rewrite combine_length, !map_length, Nat.min_id. unfold utm. apply map_length.
  - intros i a I. apply nth_error_combine; unfold utm; rewrite nth_error_map, nth_error_map, I; reflexivity.
Qed.
(*@ C121 If any other asset was digitised too, there is no table: ValueError. *)
Lemma others_refused : forall thin proj data a, In a data -> a_type a <> "combiner"%string -> digitize thin proj data = Err ValueError.
Proof.
  intros thin proj data a I N. unfold digitize, centroid_table. set (utm := to_crs proj data).
  assert (L : (length (filter (fun a => String.eqb (a_type a) "combiner") utm) < length utm)%nat).
  { apply (filter_shorter _ utm (mkAsset (a_name a) (a_type a) (map (map (proj (origin data))) (a_parts a)))).
    - unfold utm, to_crs. apply in_map_iff. exists a. auto.
    - cbn [a_type]. now apply String.eqb_neq. }
  rewrite !map_length. destruct (Nat.eqb_spec (length (filter (fun a => String.eqb (a_type a) "combiner") utm)) (length utm)) as [E|E]; [lia|reflexivity].
Qed.
(*@ C121 With a projection that looks at longitudes only as differences from the origin's, moving the plant east or west leaves the table as it is. *)
Lemma longitude_hidden : forall thin proj data s,
  (forall o p, proj (fst o + s, snd o) (fst p + s, snd p) = proj o p) ->
  (exists a ring p, In a data /\ In ring (a_parts a) /\ In p ring) ->
  digitize thin proj (map (fun a => mkAsset (a_name a) (a_type a) (map (map (fun p => (fst p + s, snd p))) (a_parts a))) data) = digitize thin proj data.
Proof.
  intros thin proj data s P (a0 & r0 & p0 & A0 & B0 & C0). unfold digitize. f_equal. unfold to_crs.
  set (data' := map _ data) in |- * at 1 2.
  assert (Ne : corners data <> []) by (intro F; assert (I : In p0 (corners data)) by (apply in_corners; eauto); rewrite F in I; contradiction).
  assert (E : origin data' = (fst (origin data) + s, snd (origin data))).
  { apply origin_is.
    - exists (fst p0 + s, snd p0). apply in_corners. eexists _, (map (fun p => (fst p + s, snd p)) r0). split; [apply in_map_iff; exists a0; split; [reflexivity|exact A0]|]. cbn [a_parts].
      split; apply in_map_iff; eauto.
    - assert (N1 : map fst (corners data) <> []) by (intro F; apply Ne; now destruct (corners data)).
      assert (N2 : map snd (corners data) <> []) by (intro F; apply Ne; now destruct (corners data)).
      split; [|split].
      + intros a r p Ia Ir Ip. apply in_map_iff in Ia. destruct Ia as (b & <- & Ib). cbn [a_parts] in Ir. apply in_map_iff in Ir. destruct Ir as (rb & <- & Ir).
        apply in_map_iff in Ip. destruct Ip as (pb & <- & Ip). cbn [fst snd]. assert (K : In pb (corners data)) by (apply in_corners; eauto).
        split; [apply Rplus_le_compat_r|]; unfold origin; cbn [fst snd]; apply Rmin_of_le; now apply in_map.
      + pose proof (Rmin_of_in _ N1) as K. apply in_map_iff in K. destruct K as (p & Ep & K). apply in_corners in K. destruct K as (a & r & Ia & Ir & Ip).
        eexists _, (map (fun p => (fst p + s, snd p)) r), (fst p + s, snd p). split; [apply in_map_iff; exists a; split; [reflexivity|exact Ia]|]. cbn [a_parts].
        split; [apply in_map_iff; eauto|]. split; [apply in_map_iff; eauto|]. cbn [fst]. unfold origin. cbn [fst]. now rewrite Ep.
      + pose proof (Rmin_of_in _ N2) as K. apply in_map_iff in K. destruct K as (p & Ep & K). apply in_corners in K. destruct K as (a & r & Ia & Ir & Ip).
        eexists _, (map (fun p => (fst p + s, snd p)) r), (fst p + s, snd p). split; [apply in_map_iff; exists a; split; [reflexivity|exact Ia]|]. cbn [a_parts].
        split; [apply in_map_iff; eauto|]. split; [apply in_map_iff; eauto|]. exact Ep. }
  rewrite E. unfold data'. rewrite map_map. apply map_ext. intro a. cbn [a_name a_type a_parts]. f_equal. rewrite map_map. apply map_ext. intro r.
  rewrite map_map. apply map_ext. intro p. apply (P (origin data) p).
Qed.

(** * The centroid *)
Definition sg (ring : list (R * R)) : R := if Rltb (fst (fst (raw_sums ring))) 0 then -1 else 1.
Lemma sg_cases ring : sg ring = 1 /\ 0 <= fst (fst (raw_sums ring)) \/ sg ring = -1 /\ fst (fst (raw_sums ring)) < 0.
Proof. unfold sg. destruct (Rltb_spec (fst (fst (raw_sums ring))) 0); [right|left]; split; auto; lra. Qed.
Lemma ring_sums_sg ring : ring_sums ring = (Rabs (fst (fst (raw_sums ring))), sg ring * snd (fst (raw_sums ring)), sg ring * snd (raw_sums ring)).
Proof.
  unfold ring_sums, sg. destruct (raw_sums ring) as [[a mx] my]. cbn [fst snd]. destruct (Rltb_spec a 0) as [E|E].
  - rewrite Rabs_left by exact E. apply injective_projections; [apply injective_projections|]; cbn [fst snd]; ring.
  - rewrite Rabs_right by lra. apply injective_projections; [apply injective_projections|]; cbn [fst snd]; ring.
Qed.
Lemma ring_sums_nonneg ring : 0 <= fst (fst (ring_sums ring)).
Proof. rewrite ring_sums_sg. cbn. apply Rabs_pos. Qed.
Lemma area_raw o ring area : over_sides ring (tri_area o) area <-> area = fst (fst (raw_sums ring)) / 2.
Proof. rewrite over_sides_eq, cross_from. reflexivity. Qed.

(** Something of the outline has area. *)
Definition with_area (parts : list (list (R * R))) : Prop := exists o ring area, In ring parts /\ over_sides ring (tri_area o) area /\ area <> 0.
Lemma with_area_pos parts : with_area parts -> 0 < fst (fst (outline_sums parts)).
Proof.
  intros (o & ring & area & I & A & N). apply area_raw in A. unfold outline_sums. cbn [fst].
  assert (N' : fst (fst (raw_sums ring)) <> 0) by (intro F; rewrite F in A; apply N; lra).
  apply in_split in I. destruct I as (l1 & l2 & ->). rewrite map_app, Rsum_app. cbn [map]. rewrite Rsum_cons.
  assert (P : forall l, 0 <= Rsum (map (fun r => fst (fst (ring_sums r))) l)).
  { intro l. apply Rsum_nonneg. intros x I. apply in_map_iff in I. destruct I as (r & <- & _). apply ring_sums_nonneg. }
  pose proof (P l1). pose proof (P l2). pose proof (Rabs_pos_lt _ N') as K.
  assert (V : fst (fst (ring_sums ring)) = Rabs (fst (fst (raw_sums ring)))) by (rewrite ring_sums_sg; reflexivity). lra.
Qed.
Lemma centroid_eq thin parts c : 0 < fst (fst (outline_sums parts)) ->
  (centroid thin parts = c <-> 3 * fst (fst (outline_sums parts)) * fst c = snd (fst (outline_sums parts)) /\ 3 * fst (fst (outline_sums parts)) * snd c = snd (outline_sums parts)).
Proof.
  intro P. unfold centroid. destruct (outline_sums parts) as [[a mx] my]. cbn [fst snd] in *.
  destruct (Reqb_spec a 0) as [E|E]; [lra|]. split.
  - intros <-. cbn [fst snd]. split; field; lra.
  - intros [<- <-]. apply injective_projections; cbn [fst snd]; field; lra.
Qed.

Lemma sums_one ring : outline_sums [ring] = ring_sums ring.
Proof. unfold outline_sums. cbn [map]. rewrite !Rsum_cons, !Rsum_nil, !Rplus_0_r. now destruct (ring_sums ring) as [[a mx] my]. Qed.
Lemma sg_sq ring : sg ring * sg ring = 1.
Proof. destruct (sg_cases ring) as [[-> _]|[-> _]]; ring. Qed.
Lemma sg_abs ring : sg ring * fst (fst (raw_sums ring)) = Rabs (fst (fst (raw_sums ring))).
Proof. destruct (sg_cases ring) as [[-> H]|[-> H]]; [rewrite Rabs_right by lra|rewrite Rabs_left by lra]; ring. Qed.

(*@ C121 The centroid of a one-piece outline is what its triangles from any point o make, added with their signs, whenever the outline has area. *)
Lemma centroid_triangles : forall thin o ring area, over_sides ring (tri_area o) area -> area <> 0 ->
  made_of_triangles o ring area (centroid thin [ring]).
Proof.
  intros thin o ring area A N. assert (P : with_area [ring]) by (exists o, ring, area; repeat split; auto; now left).
  apply with_area_pos in P. pose proof (proj1 (centroid_eq thin [ring] _ P) eq_refl) as [E1 E2].
  rewrite sums_one, ring_sums_sg in E1, E2. cbn [fst snd] in E1, E2. rewrite <- sg_abs in E1, E2.
  apply triangles_sums. apply area_raw in A. split; [exact A|]. rewrite A.
  set (a := fst (fst (raw_sums ring))) in *. set (c := centroid thin [ring]) in *.
  pose proof (sg_sq ring) as Q.
  split.
  - assert (H : sg ring * (3 * (sg ring * a) * fst c) = sg ring * (sg ring * snd (fst (raw_sums ring)))) by now rewrite E1.
    replace (sg ring * (3 * (sg ring * a) * fst c)) with (sg ring * sg ring * (3 * a * fst c)) in H by ring.
    replace (sg ring * (sg ring * snd (fst (raw_sums ring)))) with (sg ring * sg ring * snd (fst (raw_sums ring))) in H by ring. rewrite Q in H. lra.
  - assert (H : sg ring * (3 * (sg ring * a) * snd c) = sg ring * (sg ring * snd (raw_sums ring))) by now rewrite E2.
    replace (sg ring * (3 * (sg ring * a) * snd c)) with (sg ring * sg ring * (3 * a * snd c)) in H by ring.
    replace (sg ring * (sg ring * snd (raw_sums ring))) with (sg ring * sg ring * snd (raw_sums ring)) in H by ring. rewrite Q in H. lra.
Qed.
Lemma ring_of_triangles o ring area c : made_of_triangles o ring area c ->
  ring_sums ring = (2 * Rabs area, 6 * (Rabs area * fst c), 6 * (Rabs area * snd c)).
Proof.
  intro T. apply triangles_sums in T. destruct T as (-> & E1 & E2). rewrite ring_sums_sg.
  set (a := fst (fst (raw_sums ring))) in *.
  assert (F : Rabs (a / 2) = sg ring * a / 2).
  { unfold Rdiv. rewrite Rabs_mult, (Rabs_right (/ 2)) by lra. unfold a. now rewrite <- sg_abs. }
  rewrite F. unfold a at 1. rewrite <- sg_abs. fold a.
  assert (G1 : snd (fst (raw_sums ring)) = 6 * (a / 2 * fst c)) by lra. assert (G2 : snd (raw_sums ring) = 6 * (a / 2 * snd c)) by lra.
  rewrite G1, G2. apply injective_projections; [apply injective_projections|]; cbn [fst snd]; field.
Qed.
(*@ C121 The centroid of an outline in several pieces is the mean of the pieces' centroids weighted with their areas, whichever way round each piece was drawn. *)
Lemma centroid_pieces : forall thin o (pieces : list (list (R * R) * R * (R * R))),
  (forall ring area c, In (ring, area, c) pieces -> made_of_triangles o ring area c) ->
  let total := Rsum (map (fun x => Rabs (snd (fst x))) pieces) in
  total <> 0 ->
  total * fst (centroid thin (map (fun x => fst (fst x)) pieces)) = Rsum (map (fun x => Rabs (snd (fst x)) * fst (snd x)) pieces) /\
  total * snd (centroid thin (map (fun x => fst (fst x)) pieces)) = Rsum (map (fun x => Rabs (snd (fst x)) * snd (snd x)) pieces).
Proof.
  intros thin o pieces H total N.
  assert (E : outline_sums (map (fun x => fst (fst x)) pieces) = (2 * total, 6 * Rsum (map (fun x => Rabs (snd (fst x)) * fst (snd x)) pieces), 6 * Rsum (map (fun x => Rabs (snd (fst x)) * snd (snd x)) pieces))).
  { unfold outline_sums, total. rewrite !map_map, <- !Rsum_map_scal.
    assert (K : forall x, In x pieces -> ring_sums (fst (fst x)) = (2 * Rabs (snd (fst x)), 6 * (Rabs (snd (fst x)) * fst (snd x)), 6 * (Rabs (snd (fst x)) * snd (snd x)))).
    { intros [[r a] c] I. cbn [fst snd]. apply (ring_of_triangles o). now apply H. }
    apply injective_projections; [apply injective_projections|]; cbn [fst snd]; apply Rsum_map_ext; intros x I; rewrite (K x I); reflexivity. }
  assert (T : 0 <= total) by (apply Rsum_nonneg; intros x I; apply in_map_iff in I; destruct I as (y & <- & _); apply Rabs_pos).
  assert (P : 0 < fst (fst (outline_sums (map (fun x => fst (fst x)) pieces)))) by (rewrite E; cbn [fst]; lra).
  pose proof (proj1 (centroid_eq thin _ _ P) eq_refl) as [E1 E2]. rewrite E in E1, E2. cbn [fst snd] in E1, E2. split; lra.
Qed.
(*@ C121 An outline without area gets whatever the geometry library falls back to. *)
Lemma centroid_thin : forall thin o parts, (forall ring, In ring parts -> over_sides ring (tri_area o) 0) -> centroid thin parts = thin parts.
Proof.
  intros thin o parts H. unfold centroid. assert (E : fst (fst (outline_sums parts)) = 0).
  { unfold outline_sums. cbn [fst]. rewrite (Rsum_map_ext _ (fun _ => 0)); [rewrite Rsum_map_const; ring|].
    intros r I. rewrite ring_sums_sg. cbn [fst]. specialize (H r I). apply area_raw in H. replace (fst (fst (raw_sums r))) with 0 by lra. apply Rabs_R0. }
  destruct (outline_sums parts) as [[a mx] my]. cbn in E. now rewrite (Reqb_true a 0 E).
Qed.

Lemma has_area_with parts : has_area parts -> with_area parts.
Proof. intros [N H]. destruct parts as [|r l]; [contradiction|]. destruct (H r (or_introl eq_refl)) as (o & area & A & B). exists o, r, area. repeat split; auto. now left. Qed.
Lemma has_area_raw parts ring : has_area parts -> In ring parts -> fst (fst (raw_sums ring)) <> 0.
Proof. intros [_ H] I. destruct (H ring I) as (o & area & A & N). apply area_raw in A. intro F. apply N. rewrite A, F. lra. Qed.
Lemma ring_affine a b c d t ring : a * d - b * c <> 0 -> fst (fst (raw_sums ring)) <> 0 -> let S := ring_sums ring in let D := Rabs (a * d - b * c) in
  ring_sums (map (affine a b c d t) ring) = (D * fst (fst S), D * (a * snd (fst S) + b * snd S + 3 * fst t * fst (fst S)), D * (c * snd (fst S) + d * snd S + 3 * snd t * fst (fst S))).
Proof.
  intros N Z S0 D0. subst S0 D0. pose proof (raw_affine a b c d t ring) as E. unfold ring_sums. 
  destruct (raw_sums ring) as [[A mx] my]. cbn [fst snd] in *. cbv zeta in E. rewrite E. set (D := a * d - b * c) in *.
  destruct (Rltb_spec A 0) as [HA|HA]; destruct (Rltb_spec (D * A) 0) as [HB|HB]; cbn [fst snd].
  - assert (0 < D) by nra. rewrite Rabs_right by lra. apply injective_projections; [apply injective_projections|]; cbn [fst snd]; ring.
  - assert (D < 0) by (destruct (Rtotal_order D 0) as [|[|]]; [assumption|contradiction|nra]). rewrite Rabs_left by lra. apply injective_projections; [apply injective_projections|]; cbn [fst snd]; ring.
  - assert (D < 0) by nra. rewrite Rabs_left by lra. apply injective_projections; [apply injective_projections|]; cbn [fst snd]; ring.
  - assert (0 < D) by (destruct (Rtotal_order D 0) as [|[|]]; [nra|contradiction|assumption]). rewrite Rabs_right by lra. reflexivity.
Qed.
(*@ C121 Moving, turning, mirroring or stretching an outline does the same to its centroid. *)
Lemma centroid_affine : forall thin a b c d t parts, a * d - b * c <> 0 -> has_area parts ->
  centroid thin (map (map (affine a b c d t)) parts) = affine a b c d t (centroid thin parts).
Proof.
  intros thin a b c d t parts N H. pose proof (with_area_pos parts (has_area_with parts H)) as P.
  pose proof (proj1 (centroid_eq thin parts _ P) eq_refl) as [E1 E2].
  set (D := Rabs (a * d - b * c)). assert (PD : 0 < D) by now apply Rabs_pos_lt.
  assert (E : outline_sums (map (map (affine a b c d t)) parts) = let S := outline_sums parts in
     (D * fst (fst S), D * (a * snd (fst S) + b * snd S + 3 * fst t * fst (fst S)), D * (c * snd (fst S) + d * snd S + 3 * snd t * fst (fst S)))).
  { cbv zeta. unfold outline_sums. cbn [fst snd]. rewrite !map_map.
    assert (K : forall r, In r parts -> ring_sums (map (affine a b c d t) r) = (D * fst (fst (ring_sums r)), D * (a * snd (fst (ring_sums r)) + b * snd (ring_sums r) + 3 * fst t * fst (fst (ring_sums r))), D * (c * snd (fst (ring_sums r)) + d * snd (ring_sums r) + 3 * snd t * fst (fst (ring_sums r))))).
    { intros r I. apply ring_affine; [exact N|]. now apply (has_area_raw parts). }
    rewrite <- !Rsum_map_scal, <- !Rsum_map_plus, <- !Rsum_map_scal.
    apply injective_projections; [apply injective_projections|]; cbn [fst snd]; apply Rsum_map_ext; intros r I; rewrite (K r I); cbn [fst snd]; ring. }
  apply centroid_eq; rewrite E; cbv zeta; cbn [fst snd].
  - now apply Rmult_lt_0_compat.
  - unfold affine. cbn [fst snd]. rewrite <- E1, <- E2. split; ring.
Qed.
Lemma redrawn_sums r r' : redrawn r r' -> fst (fst (raw_sums r)) <> 0 -> ring_sums r' = ring_sums r.
Proof.
  intros (k & L & E) N. set (q := (skipn k r ++ firstn k r)%list) in *.
  assert (E1 : raw_sums q = raw_sums r) by (apply raw_perm, sides_turn, L).
  destruct E as [->| ->]; unfold ring_sums; [now rewrite E1|].
  pose proof (raw_rev q) as F. rewrite E1 in F. destruct (raw_sums r) as [[a mx] my]. cbn [fst] in N. rewrite F.
  destruct (Rltb_spec a 0); destruct (Rltb_spec (- a) 0); try lra; rewrite ?Ropp_involutive; reflexivity.
Qed.
(*@ C121 The centroid does not depend on the corner at which each piece was begun, on the direction in which it was drawn, or on the order of the pieces. *)
Lemma centroid_redrawn : forall thin parts mid parts', has_area parts -> Forall2 redrawn parts mid -> Permutation mid parts' ->
  centroid thin parts' = centroid thin parts.
Proof.
  intros thin parts mid parts' H F Q. pose proof (with_area_pos parts (has_area_with parts H)) as P.
  assert (E : outline_sums parts' = outline_sums parts).
  { assert (K : forall f : R * R * R -> R, Rsum (map (fun r => f (ring_sums r)) parts') = Rsum (map (fun r => f (ring_sums r)) parts)).
    { intro f. rewrite <- (Rsum_map_perm _ _ _ Q). f_equal.
      assert (G : forall r, In r parts -> fst (fst (raw_sums r)) <> 0) by (intros r; now apply has_area_raw).
      clear H P Q. induction F as [|r r' l l' A F IH]; [reflexivity|]. cbn [map]. rewrite (redrawn_sums r r' A) by (apply G; now left). f_equal. apply IH. intros s I. apply G. now right. }
    unfold outline_sums. rewrite (K (fun s => fst (fst s))), (K (fun s => snd (fst s))), (K snd). reflexivity. }
  unfold centroid. rewrite E. destruct (outline_sums parts) as [[a mx] my]. cbn in P. rewrite Reqb_false by lra. reflexivity.
Qed.

Lemma side_in ring i p q : side_of ring i p q -> In p ring /\ In q ring.
Proof. intros [A B]. split; eapply nth_error_In; eauto. Qed.
Lemma half_plane_ring o ring n k : seen_from o ring -> (forall p, In p ring -> inner n p <= k) -> fst (fst (raw_sums ring)) <> 0 ->
  fst n * snd (fst (ring_sums ring)) + snd n * snd (ring_sums ring) <= 3 * k * fst (fst (ring_sums ring)).
Proof.
  intros [I S] H N. rewrite ring_sums_sg. cbn [fst snd].
  set (T := fun s : (R * R) * (R * R) => tri_area o (fst s) (snd s)). set (M := fun s : (R * R) * (R * R) => tri_mid o (fst s) (snd s)).
  assert (A : Rsum (map T (sides ring)) = fst (fst (raw_sums ring)) / 2) by apply cross_from.
  assert (X : fst n * snd (fst (raw_sums ring)) + snd n * snd (raw_sums ring) = 6 * Rsum (map (fun s => T s * inner n (M s)) (sides ring))).
  { rewrite (map_ext _ (fun s => fst n * (T s * fst (M s)) + snd n * (T s * snd (M s)))) by (intro s; unfold inner; ring).
    rewrite Rsum_map_plus, !Rsum_map_scal. unfold T, M. rewrite moment_x, moment_y. field. }
  assert (In_k : forall s, In s (sides ring) -> inner n (M s) <= k).
  { intros [p q] J. apply In_nth_error in J. destruct J as [i J]. apply sides_nth in J. apply side_in in J. destruct J as [J1 J2].
    pose proof (H o I). pose proof (H p J1). pose proof (H q J2). unfold M, tri_mid, inner, add2, scale2 in *. cbn [fst snd] in *. lra. }
  assert (Sg : forall s, In s (sides ring) -> 0 <= sg ring * T s).
  { destruct S as [S|S].
    - assert (0 <= fst (fst (raw_sums ring))).
      { assert (0 <= Rsum (map T (sides ring))); [|lra]. apply Rsum_nonneg. intros x J. apply in_map_iff in J. destruct J as ([p q] & <- & J). apply In_nth_error in J. destruct J as [i J]. apply sides_nth in J. exact (S i p q J). }
      intros [p q] J. apply In_nth_error in J. destruct J as [i J]. apply sides_nth in J. pose proof (S i p q J) as V. unfold T. cbn [fst snd]. destruct (sg_cases ring) as [[-> _]|[_ F]]; lra.
    - assert (fst (fst (raw_sums ring)) <= 0).
      { assert (Rsum (map T (sides ring)) <= Rsum (map (fun _ => 0) (sides ring))); [|rewrite Rsum_map_const in *; lra]. apply Rsum_map_le. intros [p q] J. apply In_nth_error in J. destruct J as [i J]. apply sides_nth in J. exact (S i p q J). }
      intros [p q] J. apply In_nth_error in J. destruct J as [i J]. apply sides_nth in J. pose proof (S i p q J) as V. unfold T. cbn [fst snd]. destruct (sg_cases ring) as [[_ F]|[-> _]]; lra. }
  replace (fst n * (sg ring * snd (fst (raw_sums ring))) + snd n * (sg ring * snd (raw_sums ring))) with (sg ring * (fst n * snd (fst (raw_sums ring)) + snd n * snd (raw_sums ring))) by ring.
  rewrite X, <- sg_abs. replace (fst (fst (raw_sums ring))) with (2 * Rsum (map T (sides ring))) by lra.
  assert (L : Rsum (map (fun s => sg ring * T s * inner n (M s)) (sides ring)) <= Rsum (map (fun s => sg ring * T s * k) (sides ring))).
  { apply Rsum_map_le. intros s J. apply Rmult_le_compat_l; [now apply Sg|now apply In_k]. }
  rewrite (map_ext (fun s => sg ring * T s * inner n (M s)) (fun s => sg ring * (T s * inner n (M s)))), Rsum_map_scal in L by (intro; ring).
  rewrite (map_ext (fun s => sg ring * T s * k) (fun s => sg ring * k * T s)), Rsum_map_scal in L by (intro; ring). nra.
Qed.
(*@ C121 When every piece of an outline can be seen as a whole from one of its corners, as every convex piece can, the centroid lies on the side of any straight line on which all the corners lie: it is in the convex hull of the corners. *)
Lemma centroid_inside : forall thin parts n k, has_area parts ->
  (forall ring, In ring parts -> exists o, seen_from o ring) ->
  (forall ring p, In ring parts -> In p ring -> inner n p <= k) -> inner n (centroid thin parts) <= k.
Proof.
  intros thin parts n k H S L. pose proof (with_area_pos parts (has_area_with parts H)) as P.
  pose proof (proj1 (centroid_eq thin parts _ P) eq_refl) as [E1 E2]. set (c := centroid thin parts) in *.
  assert (G : fst n * snd (fst (outline_sums parts)) + snd n * snd (outline_sums parts) <= 3 * k * fst (fst (outline_sums parts))).
  { unfold outline_sums. cbn [fst snd]. rewrite <- !Rsum_map_scal, <- Rsum_map_plus. apply Rsum_map_le. intros r I.
    destruct (S r I) as [o So]. apply (half_plane_ring o); [exact So| |now apply (has_area_raw parts)]. intros p J. now apply (L r). }
  rewrite <- E1, <- E2 in G. unfold inner. set (a := fst (fst (outline_sums parts))) in *.
  apply (Rmult_le_reg_l (3 * a)); [lra|]. lra.
Qed.
(*@ C121 The centroid of a rectangle, or of any parallelogram, is its middle; that of a triangle is the mean of its corners. *)
Lemma centroid_simple : forall thin p u v, cross u v <> 0 ->
  centroid thin [[p; add2 p u; add2 (add2 p u) v; add2 p v]] = add2 p (scale2 (/ 2) (add2 u v)) /\
  centroid thin [[p; add2 p u; add2 p v]] = add2 p (scale2 (/ 3) (add2 u v)).
Proof.
  intros thin [px py] [ux uy] [vx vy] N. unfold cross in N. cbn [fst snd] in N.
  unfold centroid. rewrite !sums_one. unfold ring_sums, raw_sums, sides, next, side_cross, add2, scale2. cbn [combine map app fst snd Rsum fold_right].
  rewrite ?Rsum_cons, ?Rsum_nil.
  split.
  - match goal with |- context [Rltb ?a 0] => replace a with (2 * (ux * vy - uy * vx)) by ring end.
    destruct (Rltb_spec (2 * (ux * vy - uy * vx)) 0) as [L|L]; rewrite Reqb_false by lra; apply injective_projections; cbn [fst snd]; field; lra.
  - match goal with |- context [Rltb ?a 0] => replace a with (ux * vy - uy * vx) by ring end.
    destruct (Rltb_spec (ux * vy - uy * vx) 0) as [L|L]; rewrite Reqb_false by lra; apply injective_projections; cbn [fst snd]; field; lra.
Qed.

(** * A small plant *)
Definition block (x y w h : R) : list (R * R) := [(x, y); (x + w, y); (x + w, y + h); (x, y + h)].
Definition flat (o p : R * R) : R * R := (100 * (fst p - fst o), 110 * (snd p - snd o)).
Definition plant : list asset := [mkAsset "CMB-001-01" "combiner" [block 7 50 2 1]; mkAsset "CMB-001-02" "combiner" [block 10 52 1 4]].
Definition plant_inv : list asset := plant ++ [mkAsset "INV-001" "inverter" [block 9 51 1 1]].
(*@ex C121 Two rectangular combiners, about the corner (7, 50). *)
Lemma plant_example : forall thin, digitize thin flat plant = Ok [("CMB-001-01"%string, (100, 55)); ("CMB-001-02"%string, (350, 440))].
Proof.
  intro thin. destruct (centroid_rows thin flat plant (7, 50)) as (rows & E & L & H).
  - intros a ring p I J K. cbn in I. repeat destruct I as [<-|I]; try contradiction; cbn in J; destruct J as [<-|[]]; cbn in K; repeat destruct K as [<-|K]; try contradiction; cbn; lra.
  - eexists _, (block 7 50 2 1), (7, 50). split; [now left|]. repeat split; now left.
  - eexists _, (block 7 50 2 1), (7, 50). split; [now left|]. repeat split; now left.
  - intros a I. cbn in I. repeat destruct I as [<-|I]; try contradiction; reflexivity.
  - rewrite E. f_equal. pose proof (H 0%nat _ eq_refl) as H0. pose proof (H 1%nat _ eq_refl) as H1.
    assert (B : forall x y w h, w <> 0 -> h <> 0 -> centroid thin (map (map (flat (7, 50))) [block x y w h]) = (100 * (x + w / 2 - 7), 110 * (y + h / 2 - 50))).
    { intros x y w h W Hh.
      replace (map (map (flat (7, 50))) [block x y w h]) with
        ([[flat (7, 50) (x, y); add2 (flat (7, 50) (x, y)) (100 * w, 0); add2 (add2 (flat (7, 50) (x, y)) (100 * w, 0)) (0, 110 * h); add2 (flat (7, 50) (x, y)) (0, 110 * h)]]).
      2:{ unfold block, flat, add2. cbn [map fst snd]. apply (f_equal (fun l => [l])). repeat (apply (f_equal2 (@cons (R * R))); [apply injective_projections; cbn [fst snd]; ring|]). reflexivity. }
      destruct (centroid_simple thin (flat (7, 50) (x, y)) (100 * w, 0) (0, 110 * h)) as [E1 _].
      - unfold cross. cbn [fst snd]. intro F. assert (w * h <> 0) by now apply Rmult_integral_contrapositive. lra.
      - rewrite E1. unfold flat, add2, scale2. cbn [fst snd]. f_equal; field. }
    cbn [a_parts a_name] in H0, H1. rewrite B in H0, H1 by lra.
    destruct rows as [|r0 [|r1 [|r2 rows]]]; try discriminate. cbn [nth_error] in H0, H1. injection H0 as ->. injection H1 as ->. repeat (apply (f_equal2 (@cons (string * (R * R)))); [apply (f_equal (pair _)); apply injective_projections; cbn [fst snd]; field|]). reflexivity.
Qed.
(*@ex C121 The notebook suggests to digitise inverters too and to filter them out: with one inverter there is no table. *)
Lemma inverter_example : forall thin, digitize thin flat plant_inv = Err ValueError.
Proof. intro thin. apply (others_refused thin flat plant_inv (mkAsset "INV-001" "inverter" [block 9 51 1 1])); [right; right; now left|discriminate]. Qed.
(*@ex C121 An L-shaped outline meets what centroid_inside asks: it can be seen from its inner corner. *)
Lemma ell_example : exists ring, seen_from (1, 1) ring /\ has_area [ring] /\ length ring = 6%nat /\ forall thin, centroid thin [ring] = (5 / 6, 5 / 6).
Proof.
  exists [(0, 0); (2, 0); (2, 1); (1, 1); (1, 2); (0, 2)].
  assert (A : over_sides [(0, 0); (2, 0); (2, 1); (1, 1); (1, 2); (0, 2)] (tri_area (0, 0)) 3).
  { apply area_raw. unfold raw_sums, sides, next, side_cross. cbn [combine map app fst snd]. rewrite ?Rsum_cons, ?Rsum_nil. lra. }
  split; [|split; [|split]].
  - split; [right; right; right; now left|]. left. intros i p q [E1 E2].
    do 6 (destruct i as [|i]; [cbn in E1, E2; injection E1 as <-; injection E2 as <-; unfold tri_area, cross, sub2; cbn [fst snd]; lra|]). destruct i; discriminate.
  - split; [discriminate|]. intros r [<-|[]]. exists (0, 0), 3. split; [exact A|lra].
  - reflexivity.
  - intro thin. pose proof (centroid_triangles thin (0, 0) _ 3 A ltac:(lra)) as T. apply triangles_sums in T. destruct T as (_ & E1 & E2).
    unfold raw_sums, sides, next, side_cross in E1, E2. cbn [combine map app fst snd] in E1, E2. rewrite ?Rsum_cons, ?Rsum_nil in E1, E2.
    apply injective_projections; cbn [fst snd]; lra.
Qed.
