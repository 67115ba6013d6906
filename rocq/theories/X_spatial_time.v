(** spatial.py spacetime_distances: a pseudometric encoding frozen advection. *)
From Verif Require Import Prelude PreludeFacts RealBase Fl M_spatial Spec_spatial P_plane.
Local Open Scope R_scope.

Lemma nth_error_concat {A} (m : nat) (rows : list (list A)) i k row :
  Forall (fun r => length r = m) rows -> nth_error rows i = Some row -> (k < m)%nat ->
  nth_error (concat rows) (i * m + k) = nth_error row k.
Proof.
  intros F. revert i. induction F as [|r rows Hr F IH]; intros [|i] Hi Hk; cbn in Hi; try discriminate.
  - injection Hi as ->. cbn. rewrite nth_error_app1 by lia. reflexivity.
  - cbn [concat Nat.mul]. rewrite nth_error_app2 by lia. rewrite <- (IH i Hi Hk). f_equal. lia.
Qed.

Lemma length_concat_uniform {A} (m : nat) (rows : list (list A)) :
  Forall (fun r => length r = m) rows -> length (concat rows) = (length rows * m)%nat.
Proof. induction 1 as [|r rows Hr F IH]; [easy|]. cbn. rewrite app_length, IH. lia. Qed.

Lemma transpose_transpose n m (X : list (list R)) :
  length X = n -> Forall (fun r => length r = m) X -> transpose n (transpose m X) = X.
Proof.
  intros HX F. unfold transpose.
  apply nth_error_ext. intro i. rewrite nth_error_map.
  destruct (Nat.lt_ge_cases i n) as [Hi|Hi].
  - assert (Hs : nth_error (seq 0 n) i = Some i).
    { replace (Some i) with (Some (nth i (seq 0 n) 0%nat)) by (rewrite seq_nth by easy; easy).
      apply nth_error_nth'. now rewrite seq_length. }
    rewrite Hs. cbn [option_map]. destruct (nth_error X i) as [row|] eqn:Er.
    + f_equal. assert (Lr : length row = m) by (rewrite Forall_forall in F; apply F; now apply nth_error_In in Er).
      rewrite map_map. subst m. clear Hs F.
      transitivity (map (fun j => nth j row 0) (seq 0 (length row))).
      * apply map_ext. intro j. rewrite (nth_indep _ 0 (nth j [] 0)) by (rewrite map_length; lia).
        rewrite (map_nth (fun r => nth j r 0)). f_equal. now apply nth_error_nth.
      * clear Er. induction row as [|a row IH]; [easy|]. cbn [length seq map nth]. f_equal.
        rewrite <- seq_shift, map_map. exact IH.
    + apply nth_error_None in Er. lia.
  - rewrite (proj2 (nth_error_None _ _)) by (rewrite seq_length; lia).
    cbn [option_map]. symmetry. apply nth_error_None. lia.
Qed.

(** The flattened drifted coordinates. *)
Definition drifted (x : list R) (dr : list R) : list R := concat (map (fun xi => map (fun d => xi - d) dr) x).

Lemma drifted_nth x dr i k xi d : nth_error x i = Some xi -> nth_error dr k = Some d ->
  nth_error (drifted x dr) (i * length dr + k) = Some (xi - d).
Proof.
  intros Hi Hk. unfold drifted. rewrite (nth_error_concat (length dr) _ i k (map (fun d => xi - d) dr)).
  - now rewrite nth_error_map, Hk.
  - apply Forall_forall. intros r Hr. apply in_map_iff in Hr. destruct Hr as (? & <- & _). apply map_length.
  - now rewrite nth_error_map, Hi.
  - apply nth_error_Some. congruence.
Qed.

Lemma drifted_length x dr : length (drifted x dr) = (length x * length dr)%nat.
Proof.
  unfold drifted. rewrite (length_concat_uniform (length dr)); [now rewrite map_length|].
  apply Forall_forall. intros r Hr. apply in_map_iff in Hr. destruct Hr as (? & <- & _). apply map_length.
Qed.

Lemma spacetime_unfold x y t0 ts cs cd : length x = length y ->
  let times := t0 :: ts in
  let xf := drifted x (map (fun t => cs * (t - t0) * cos cd) times) in
  let yf := drifted y (map (fun t => cs * (t - t0) * sin cd) times) in
  spacetime_distances x y times cs cd =
  Ok (map2 (map2 (fun a b => sqrt (a ^ 2 + b ^ 2))) (map (fun a => map (fun b => a - b) xf) xf) (map (fun a => map (fun b => a - b) yf) yf)).
Proof.
  intros EL times xf yf. unfold spacetime_distances. fold times. rewrite EL, Nat.eqb_refl. cbn [negb].
  assert (Md : forall g, map (fun d => cs * d * g) (map (fun t => t - t0) times) = map (fun t => cs * (t - t0) * g) times)
    by (intro; now rewrite map_map).
  unfold ravelF. unfold times at 1. cbv iota. rewrite !Md. rewrite !transpose_transpose.
  - reflexivity.
  - now rewrite map_length.
  - apply Forall_forall. intros r Hr. apply in_map_iff in Hr. destruct Hr as (? & <- & _). now rewrite !map_length.
  - now rewrite map_length.
  - apply Forall_forall. intros r Hr. apply in_map_iff in Hr. destruct Hr as (? & <- & _). now rewrite !map_length.
Qed.

Lemma matrix_entry (xf yf : list R) a b xa xb ya yb :
  nth_error xf a = Some xa -> nth_error xf b = Some xb -> nth_error yf a = Some ya -> nth_error yf b = Some yb ->
  entry (map2 (map2 (fun a b => sqrt (a ^ 2 + b ^ 2))) (map (fun a => map (fun b => a - b) xf) xf) (map (fun a => map (fun b => a - b) yf) yf)) a b
  = Some (dist2 (xa, ya) (xb, yb)).
Proof.
  intros Ha Hb Hc Hd. unfold entry. rewrite nth_error_map2, !nth_error_map, Ha, Hc. cbn [option_map].
  rewrite nth_error_map2, !nth_error_map, Hb, Hd. cbn [option_map]. f_equal. unfold dist2, len, inner, sub2. cbn [fst snd]. f_equal. ring.
Qed.

(*@ C13 Every entry: Euclidean distance between the two sites, each moved back along the cloud
    motion by speed times elapsed time; site-major, time-minor layout. *)
Lemma spacetime_entry : forall (x y times : list R) (cs cd : R) (i j k l : nat) xi yi xj yj tk tl t0,
  length x = length y -> nth_error times 0 = Some t0 ->
  nth_error x i = Some xi -> nth_error y i = Some yi -> nth_error times k = Some tk ->
  nth_error x j = Some xj -> nth_error y j = Some yj -> nth_error times l = Some tl ->
  exists D, spacetime_distances x y times cs cd = Ok D /\
    entry D (i * length times + k) (j * length times + l) =
      Some (dist2 (moved_back (xi, yi) cs cd (tk - t0)) (moved_back (xj, yj) cs cd (tl - t0))).
Proof.
  intros x y times cs cd i j k l xi yi xj yj tk tl t0 EL H0 Hxi Hyi Hk Hxj Hyj Hl.
  destruct times as [|t0' ts]; [discriminate|]. injection H0 as ->. rewrite spacetime_unfold by easy.
  eexists. split; [reflexivity|]. set (times := t0 :: ts) in *.
  set (dx := map (fun t => cs * (t - t0) * cos cd) times). set (dy := map (fun t => cs * (t - t0) * sin cd) times).
  assert (Lx : length dx = length times) by apply map_length. assert (Ly : length dy = length times) by apply map_length.
  rewrite (matrix_entry _ _ _ _ (xi - cs * (tk - t0) * cos cd) (xj - cs * (tl - t0) * cos cd) (yi - cs * (tk - t0) * sin cd) (yj - cs * (tl - t0) * sin cd)).
  - unfold moved_back, scale2, sub2. cbn [fst snd]. reflexivity.
  - rewrite <- Lx. apply drifted_nth; [easy|]. unfold dx. now rewrite nth_error_map, Hk.
  - rewrite <- Lx. apply drifted_nth; [easy|]. unfold dx. now rewrite nth_error_map, Hl.
  - rewrite <- Ly. apply drifted_nth; [easy|]. unfold dy. now rewrite nth_error_map, Hk.
  - rewrite <- Ly. apply drifted_nth; [easy|]. unfold dy. now rewrite nth_error_map, Hl.
Qed.

(** Underlying points of the rows. *)
Lemma spacetime_points x y times cs cd D : spacetime_distances x y times cs cd = Ok D ->
  exists pts, length pts = (length x * length times)%nat /\ length D = length pts /\
    (forall row, In row D -> length row = length pts) /\
    forall a b p q, nth_error pts a = Some p -> nth_error pts b = Some q -> entry D a b = Some (dist2 p q).
Proof.
  intro E. destruct times as [|t0 ts]; [discriminate|].
  assert (EL : length x = length y).
  { unfold spacetime_distances in E. destruct (Nat.eqb_spec (length x) (length y)); [easy|discriminate]. }
  rewrite spacetime_unfold in E by easy. cbv zeta in E.
  match type of E with Ok ?X = Ok D => assert (HD : X = D) by congruence end. clear E. subst D.
  set (times := t0 :: ts) in *.
  set (xf := drifted x (map (fun t => cs * (t - t0) * cos cd) times)).
  set (yf := drifted y (map (fun t => cs * (t - t0) * sin cd) times)).
  assert (Lx : length xf = (length x * length times)%nat) by (unfold xf; rewrite drifted_length, map_length; easy).
  assert (Ly : length yf = (length x * length times)%nat) by (unfold yf; rewrite drifted_length, map_length, EL; easy).
  exists (combine xf yf). rewrite combine_length, Lx, Ly, Nat.min_id. split; [easy|]. split.
  { rewrite map2_length; rewrite !map_length; congruence. }
  split.
  { intros row Hr. apply In_nth_error in Hr. destruct Hr as [n Hn]. rewrite nth_error_map2, !nth_error_map in Hn.
    destruct (nth_error xf n), (nth_error yf n); cbn [option_map] in Hn; try discriminate.
    match type of Hn with Some ?X = Some row => assert (HX : X = row) by congruence end. subst row.
    rewrite map2_length; rewrite !map_length; congruence. }
  intros a b [xa ya] [xb yb] Ha Hb.
  assert (Split : forall n u v, nth_error (combine xf yf) n = Some (u, v) -> nth_error xf n = Some u /\ nth_error yf n = Some v).
  { clear. generalize xf yf. induction xf0 as [|c l IH]; intros [|d l'] [|n] u v; cbn; try easy. now intros [= -> ->]. apply IH. }
  apply Split in Ha. apply Split in Hb. now apply matrix_entry.
Qed.

(*@ C12 Square, symmetric, zero diagonal, non-negative, triangle inequality. *)
Lemma spacetime_pseudometric : forall (x y times : list R) (cs cd : R) (D : list (list R)),
  spacetime_distances x y times cs cd = Ok D ->
  length D = (length x * length times)%nat /\ (forall row, In row D -> length row = length D) /\
  (forall a, (a < length D)%nat -> entry D a a = Some 0) /\
  (forall a b, (a < length D)%nat -> (b < length D)%nat -> exists d, entry D a b = Some d /\ 0 <= d /\ entry D b a = Some d) /\
  (forall a b c dab dbc dac, entry D a b = Some dab -> entry D b c = Some dbc -> entry D a c = Some dac -> dac <= dab + dbc).
Proof.
  intros x y times cs cd D E. destruct (spacetime_points _ _ _ _ _ _ E) as (pts & Lp & LD & LR & H).
  split; [lia|]. split; [intros row Hr; rewrite LD; now apply LR|].
  assert (Ex : forall a, (a < length D)%nat -> exists p, nth_error pts a = Some p).
  { intros a Ha. rewrite LD in Ha. apply nth_error_Some in Ha. destruct (nth_error pts a) as [p|]; [now exists p|easy]. }
  assert (In_ : forall a b d, entry D a b = Some d -> (a < length D)%nat /\ (b < length D)%nat).
  { intros a b d Hd. unfold entry in Hd. destruct (nth_error D a) as [row|] eqn:Er; [|discriminate]. split.
    - apply nth_error_Some. congruence.
    - rewrite LD, <- (LR row) by (now apply nth_error_In in Er). apply nth_error_Some. congruence. }
  split.
  { intros a Ha. destruct (Ex a Ha) as [p Hp]. rewrite (H a a p p Hp Hp). now rewrite dist2_self. }
  split.
  { intros a b Ha Hb. destruct (Ex a Ha) as [p Hp], (Ex b Hb) as [q Hq]. exists (dist2 p q).
    split; [now apply H|]. split; [apply dist2_nonneg|]. rewrite dist2_sym. now apply H. }
  intros a b c dab dbc dac Hab Hbc Hac.
  destruct (Ex a (proj1 (In_ _ _ _ Hab))) as [p Hp], (Ex b (proj2 (In_ _ _ _ Hab))) as [q Hq], (Ex c (proj2 (In_ _ _ _ Hbc))) as [r Hr].
  rewrite (H a b p q Hp Hq) in Hab. rewrite (H b c q r Hq Hr) in Hbc. rewrite (H a c p r Hp Hr) in Hac.
  injection Hab as <-. injection Hbc as <-. injection Hac as <-. apply dist2_triangle.
Qed.

(*@ C12 It is only rejected for an empty time axis or unequal coordinate lists. *)
Lemma spacetime_defined : forall (x y times : list R) (cs cd : R),
  (exists D, spacetime_distances x y times cs cd = Ok D) <-> times <> [] /\ length x = length y.
Proof.
  intros. destruct times as [|t0 ts]; cbn [spacetime_distances]; [split; [now intros [D E]|easy]|].
  destruct (Nat.eqb_spec (length x) (length y)) as [E|N]; cbn [negb]; split; try easy; intros; [now eexists|].
  destruct H as [D E]. discriminate.
Qed.

(*@ex C12 *)
Lemma spacetime_example : exists D, spacetime_distances [0; 10] [0; 5] [0; 1; 2] 4 (PI / 3) = Ok D.
Proof. apply spacetime_defined. split; easy. Qed.

Lemma moved_back_dist p q cs cd a b :
  dist2 (moved_back p cs cd a) (moved_back q cs cd b) = len (sub2 (sub2 q p) (scale2 (cs * (b - a)) (cos cd, sin cd))).
Proof.
  unfold dist2, len, inner, moved_back, sub2, scale2. cbn [fst snd]. f_equal. ring.
Qed.

(*@ C13 Zero exactly when the second site is where the cloud over the first has drifted to; plain
    site distance at equal times; speed times elapsed time for one site. *)
Lemma spacetime_advection : forall (x y times : list R) (cs cd : R) (D : list (list R)) (i j k l : nat) xi yi xj yj tk tl d,
  spacetime_distances x y times cs cd = Ok D ->
  nth_error x i = Some xi -> nth_error y i = Some yi -> nth_error times k = Some tk ->
  nth_error x j = Some xj -> nth_error y j = Some yj -> nth_error times l = Some tl ->
  entry D (i * length times + k) (j * length times + l) = Some d ->
  (d = 0 <-> xj = xi + cs * (tl - tk) * cos cd /\ yj = yi + cs * (tl - tk) * sin cd) /\
  (tk = tl -> d = dist2 (xi, yi) (xj, yj)) /\
  ((xi, yi) = (xj, yj) -> d = Rabs cs * Rabs (tl - tk)).
Proof.
  intros x y times cs cd D i j k l xi yi xj yj tk tl d E Hxi Hyi Hk Hxj Hyj Hl Hd.
  assert (Hdef : times <> [] /\ length x = length y) by (apply (proj1 (spacetime_defined x y times cs cd)); now exists D).
  destruct Hdef as [NT EL]. destruct times as [|t0 ts]; [easy|].
  destruct (spacetime_entry x y (t0 :: ts) cs cd i j k l xi yi xj yj tk tl t0) as (D' & E' & Hd'); try easy.
  assert (D' = D) by congruence. subst D'. rewrite Hd in Hd'. injection Hd' as ->. clear E' Hd.
  rewrite moved_back_dist. replace (tl - t0 - (tk - t0)) with (tl - tk) by ring. split; [|split].
  - rewrite len_zero. unfold sub2, scale2. cbn [fst snd]. split.
    + intros [= A B]. lra.
    + intros [A B]. f_equal; lra.
  - intros ->. rewrite (dist2_sym (xi, yi)). unfold dist2. f_equal. unfold sub2, scale2. cbn [fst snd]. f_equal; ring.
  - intros [= -> ->]. rewrite <- Rabs_mult. unfold len. set (c := cs * (tl - tk)).
    rewrite <- (sqrt_Rsqr_abs c). f_equal. pose proof (sin2_cos2 cd) as S. unfold Rsqr in *.
    unfold inner, sub2, scale2. cbn [fst snd].
    transitivity (c * c * (sin cd * sin cd + cos cd * cos cd)); [ring|rewrite S; ring].
Qed.

(*@ C13 Unchanged by shifting all times or all sites. *)
Lemma spacetime_shift : forall (x y times : list R) (cs cd a b c : R),
  spacetime_distances (map (fun v => v + a) x) (map (fun v => v + b) y) (map (fun t => t + c) times) cs cd
  = spacetime_distances x y times cs cd.
Proof.
  intros x y times cs cd a b c. destruct times as [|t0 ts]; [easy|].
  destruct (Nat.eq_dec (length x) (length y)) as [EL|NE].
  - change (map (fun t => t + c) (t0 :: ts)) with (t0 + c :: map (fun t => t + c) ts).
    rewrite spacetime_unfold by (rewrite !map_length; easy). rewrite spacetime_unfold by easy. cbv zeta.
    change (t0 + c :: map (fun t => t + c) ts) with (map (fun t => t + c) (t0 :: ts)).
    set (times := t0 :: ts). rewrite !map_map.
    assert (Dr : forall (g : R) (z : list R) (s : R), drifted (map (fun v => v + s) z) (map (fun t => cs * (t + c - (t0 + c)) * g) times)
       = map (fun v => v + s) (drifted z (map (fun t => cs * (t - t0) * g) times))).
    { intros g z s. unfold drifted. rewrite concat_map, !map_map. f_equal. apply map_ext. intro v. rewrite !map_map.
      apply map_ext. intro t. ring. }
    rewrite !Dr. rewrite !map_map. f_equal. f_equal; apply map_ext; intro v; rewrite map_map; apply map_ext; intro w; ring.
  - unfold spacetime_distances. cbn [map]. rewrite !map_length.
    destruct (Nat.eqb_spec (length x) (length y)); [easy|]. reflexivity.
Qed.

(*@ex C13 *)
Lemma spacetime_advection_example : exists D, spacetime_distances [0; 10] [0; 0] [0; 2] 5 0 = Ok D /\
  entry D (0 * 2 + 0) (1 * 2 + 1) = Some 0.
Proof.
  destruct (spacetime_entry [0; 10] [0; 0] [0; 2] 5 0 0 1 0 1 0 0 10 0 0 2 0) as (D & E & H); try reflexivity.
  exists D. split; [exact E|]. cbn [length] in H. rewrite H. f_equal. apply dist2_zero.
  unfold moved_back, sub2, scale2. cbn [fst snd]. rewrite cos_0, sin_0. f_equal; ring.
Qed.
