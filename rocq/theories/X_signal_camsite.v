(** The cloud advection filter from site positions (C90). *)
From Coq Require Import String.
From Verif Require Import Prelude PreludeFacts RealBase Fl RealStat Dft Phase M_spatial M_cmv M_signal_corr M_signal_tf M_signal_plant Spec_spatial Spec_welch Spec_plant P_list P_plane P_dft P_welch P_plant P_cam X_signal_plant X_signal_cam.
From Coquelicot Require Import Complex.
From Coq Require Import Lra Psatz Permutation.
Local Open Scope R_scope.

Lemma vecs_of pts ref : pts <> [] -> exists vecs,
  compute_vectors_frame (seq 0 (length pts)) (map fst pts) (map snd pts) [fst ref; snd ref] = Ok vecs /\
  map snd vecs = map (fun p => sub2 p ref) pts.
Proof.
  intro N. unfold compute_vectors_frame.
  assert (E : compute_vectors (map fst pts) (map snd pts) [fst ref; snd ref] = Ok (map (fun p => sub2 p ref) pts)).
  { unfold compute_vectors. f_equal. clear N. induction pts as [|[x y] pts IH]; [reflexivity|]. cbn [map combine fst snd]. f_equal. exact IH. }
  rewrite E. cbn [rbind]. rewrite map_length, seq_length, Nat.eqb_refl.
  destruct pts as [|p pts]; [contradiction|]. cbn [map]. eexists. split; [reflexivity|].
  change (sub2 p ref :: map (fun p0 : R * R => sub2 p0 ref) pts) with (map (fun p0 => sub2 p0 ref) (p :: pts)).
  generalize (p :: pts). intro l. generalize 0%nat as k. induction l as [|q l IH]; intro k; [reflexivity|]. cbn [length seq map combine snd]. f_equal. apply IH.
Qed.

(*@ C90 For at least one site the filter is that of the one-dimensional plant whose sites stand at their signed distances from the
   reference along the cloud direction. *)
Lemma camfilter_plane : forall proj pts v d ref dx rc width shape xmax, d <> (0, 0) -> pts <> [] ->
  get_camfilter proj (EastNorth pts) v d (EastNorth ref) dx rc width shape xmax =
  rbind (get_1d_plant (map (fun p => Some (inner (sub2 p ref) d / len d)) pts) rc width shape dx xmax)
        (fun r => plant1d_to_camfilter (fst r) (snd r) v).
Proof.
  intros proj pts v d ref dx rc width shape xmax N Ne. unfold get_camfilter. cbn [utm_all utm_one rbind]. destruct (vecs_of pts ref Ne) as (vecs & -> & V). cbn [rbind]. rewrite V.
  rewrite project_fin by exact N. rewrite !map_map. destruct (get_1d_plant _ rc width shape dx xmax) as [[pl xs]|e]; reflexivity.
Qed.
(*@ C90 Latitude and longitude: every site, and the reference, is first converted in its own UTM zone; neither kind of
   coordinates is a KeyError, and a plant without sites a ValueError. *)
Lemma camfilter_geo : forall proj pts v d ref dx rc width shape xmax,
  let utm p := fst (latlon2utm1 proj None (fst p) (snd p)) in
  get_camfilter proj (LatLon pts) v d (LatLon ref) dx rc width shape xmax =
    get_camfilter proj (EastNorth (map utm pts)) v d (EastNorth (utm ref)) dx rc width shape xmax /\
  get_camfilter proj (LatLon pts) v d (EastNorth ref) dx rc width shape xmax =
    get_camfilter proj (EastNorth (map utm pts)) v d (EastNorth ref) dx rc width shape xmax /\
  get_camfilter proj (EastNorth pts) v d (LatLon ref) dx rc width shape xmax =
    get_camfilter proj (EastNorth pts) v d (EastNorth (utm ref)) dx rc width shape xmax /\
  (forall c, get_camfilter proj NoCoords v d c dx rc width shape xmax = Err KeyError) /\
  (forall c, c <> LatLon [] -> get_camfilter proj c v d NoCoords dx rc width shape xmax = Err KeyError) /\
  (forall c, get_camfilter proj (LatLon []) v d c dx rc width shape xmax = Err ValueError) /\
  (forall c, c <> NoCoords -> get_camfilter proj (EastNorth []) v d c dx rc width shape xmax = Err ValueError).
Proof.
  intros proj pts v d ref dx rc width shape xmax utm. repeat split; try reflexivity.
  - destruct pts; reflexivity.
  - destruct pts; reflexivity.
  - intros [[|q l]|l|] N; try reflexivity. contradiction.
  - intros [l|l|] N; try reflexivity. contradiction.
Qed.
(*@ C90 Only the direction of the cloud vector, the offsets from the reference and the components along the direction matter. *)
Lemma camfilter_invariance : forall proj pts v d ref dx rc width shape xmax, d <> (0, 0) ->
  (forall k, 0 < k -> get_camfilter proj (EastNorth pts) v (scale2 k d) (EastNorth ref) dx rc width shape xmax =
                      get_camfilter proj (EastNorth pts) v d (EastNorth ref) dx rc width shape xmax) /\
  (forall t, get_camfilter proj (EastNorth (map (add2 t) pts)) v d (EastNorth (add2 t ref)) dx rc width shape xmax =
             get_camfilter proj (EastNorth pts) v d (EastNorth ref) dx rc width shape xmax) /\
  (forall pts', Forall2 (fun p p' => inner (sub2 p' p) d = 0) pts pts' ->
             get_camfilter proj (EastNorth pts') v d (EastNorth ref) dx rc width shape xmax =
             get_camfilter proj (EastNorth pts) v d (EastNorth ref) dx rc width shape xmax).
Proof.
  intros proj pts v d ref dx rc width shape xmax N. destruct pts as [|q0 pts0]; [repeat split; try reflexivity; intros pts' F; inversion F; reflexivity|].
  assert (Ne : q0 :: pts0 <> []) by discriminate. revert Ne. generalize (q0 :: pts0) as pts. intros pts Ne. repeat split.
  - intros k K. assert (Nk : scale2 k d <> (0, 0)).
    { destruct d as [a b]. unfold scale2. cbn [fst snd]. intro E. injection E as E1 E2. apply N. f_equal; nra. }
    rewrite !camfilter_plane by assumption. f_equal. f_equal. apply map_ext. intro p. f_equal.
    assert (L : len (scale2 k d) = k * len d).
    { unfold len, inner, scale2. cbn [fst snd]. replace (k * fst d * (k * fst d) + k * snd d * (k * snd d)) with (k * k * (fst d * fst d + snd d * snd d)) by ring.
      rewrite sqrt_mult by nra. rewrite sqrt_square by lra. reflexivity. }
    rewrite L. assert (Ld : len d <> 0).
    { unfold len. intro E. apply sqrt_eq_0 in E; [|unfold inner; nra]. unfold inner in E. apply N. destruct d as [a b]. cbn [fst snd] in E. f_equal; nra. }
    unfold inner, scale2. cbn [fst snd]. field. split; lra.
  - intro t. rewrite !camfilter_plane by (auto; intro X; apply map_eq_nil in X; auto). rewrite map_map. f_equal. f_equal. apply map_ext. intro p. do 2 f_equal. unfold inner, sub2, add2. cbn [fst snd]. ring.
  - intros pts' F. rewrite !camfilter_plane by (auto; intros ->; inversion F; auto). f_equal. f_equal. clear Ne. induction F as [|p p' l l' E F IH]; [reflexivity|]. cbn [map]. f_equal; [|exact IH].
    do 2 f_equal. replace (inner (sub2 p' ref) d) with (inner (sub2 p' p) d + inner (sub2 p ref) d) by (unfold inner, sub2; cbn [fst snd]; ring). rewrite E. ring.
Qed.
(*@ C90 For square sites their order and multiplicity do not matter. *)
Lemma camfilter_sites : forall proj pts pts' v d ref dx rc width shape xmax, d <> (0, 0) -> lower shape = "square"%string ->
  (forall p, In p pts <-> In p pts') ->
  get_camfilter proj (EastNorth pts) v d (EastNorth ref) dx rc width shape xmax =
  get_camfilter proj (EastNorth pts') v d (EastNorth ref) dx rc width shape xmax.
Proof.
  intros proj pts pts' v d ref dx rc width shape xmax N Sh E.
  destruct pts as [|p0 l0]; [destruct pts' as [|p1 l1]; [reflexivity|exfalso; apply (E p1); now left]|].
  destruct pts' as [|p1 l1]; [exfalso; apply (E p0); now left|]. rewrite !camfilter_plane by (auto; discriminate). f_equal.
  apply square_sites; [exact Sh|]. intro c. rewrite !in_map_iff. split; intros (p & K & I); exists p; (split; [exact K|now apply E]).
Qed.
(*@ C90 A zero cloud direction gives no information: every value of the filter is missing. *)
Lemma camfilter_no_direction : forall proj pts v ref dx rc width shape xmax rows f z, pts <> [] ->
  get_camfilter proj (EastNorth pts) v (0, 0) (EastNorth ref) dx rc width shape xmax = Ok rows -> In (f, z) rows -> z = None.
Proof.
  intros proj pts v ref dx rc width shape xmax rows f z Ne E I. unfold get_camfilter in E. cbn [utm_all utm_one rbind] in E. destruct (vecs_of pts ref Ne) as (vecs & Ev & Em). rewrite Ev in E. cbn [rbind] in E. rewrite Em in E.
  rewrite project_zero_dir in E. rewrite !map_map in E.
  destruct (get_1d_plant (map _ pts) rc width shape dx xmax) as [[plant xs]|e] eqn:G; [|discriminate]. cbn [rbind] in E.
  assert (Bad : In None plant \/ (exists p, plant = map Some p /\ Rsum p = 0)).
  { unfold get_1d_plant in G. destruct (arange _ _ dx) as [ys|]; [|discriminate]. cbn [rbind] in G.
    assert (Z : exists p, map (fun _ : R => Some 0) ys = map Some p /\ Rsum p = 0).
    { exists (map (fun _ => 0) ys). split; [now rewrite map_map|]. clear. induction ys as [|y l IH]; [reflexivity|]. cbn [map]. rewrite Rsum_cons, IH. ring. }
    rewrite map_map in G. cbn [option_map] in G.
    assert (Sq : forall (step : list (option R) -> option R -> list (option R)) l, (forall pl, step pl None = pl) -> fold_left step (map (fun _ : R * R => None) l) (map (fun _ : R => Some 0) ys) = map (fun _ => Some 0) ys).
    { intros step l St. induction l as [|a l IH]; [reflexivity|]. cbn [map fold_left]. now rewrite St. }
    destruct (String.eqb (lower shape) "square"); [injection G as <- <-; rewrite Sq by reflexivity; auto|].
    destruct (String.eqb (lower shape) "triangle"); [injection G as <- <-; rewrite Sq by reflexivity; auto|].
    destruct (String.eqb (lower shape) "gaussian"); [|discriminate]. injection G as <- <-.
    set (w := match width with None => dx | Some w => w end).
    destruct ys as [|y ys]; [right; exists []; split; [|reflexivity]|left].
    - clear. induction (map (fun _ : R * R => None) pts) as [|a l IH]; [reflexivity|]. cbn [fold_left]. exact IH.
    - destruct (fold_place (y :: ys) _ _ (gaussian_pw w (y :: ys)) (map (fun _ => None) pts) (map (fun _ => Some 0) (y :: ys))) as [L V]; [apply map_length|].
      apply (nth_error_In _ 0). rewrite (V 0%nat y (Some 0) eq_refl eq_refl). f_equal. apply gaussian_nan_in. destruct pts; [congruence|now left]. }
  destruct (cam_degenerate plant xs v) as [D0 D].
  destruct xs as [|x0 [|x1 rest]]; [discriminate|discriminate|].
  destruct (D _ _ _ eq_refl) as [D1 D2]. destruct plant as [|a plant]; [rewrite D1 in E by reflexivity; discriminate|].
  destruct (Req_dec x1 x0) as [X|X].
  { unfold plant1d_to_camfilter in E. rewrite X in E. rewrite (Reqb_true (x0 - x0)) in E by ring. discriminate. }
  destruct (D2 ltac:(discriminate) X) as [D3 D4].
  destruct (Req_dec v 0) as [V|V].
  - rewrite D3 in E by exact V. assert (Er : rows = map (fun _ => (0, None)) (a :: plant)) by congruence. rewrite Er in I. apply in_map_iff in I. destruct I as (? & K & _). congruence.
  - rewrite D4 in E by auto. assert (Er : rows = map (fun k => (bin_frequency (length (a :: plant)) k ((x1 - x0) / Rabs v), None)) (seq 0 (length (a :: plant)))) by congruence.
    rewrite Er in I. apply in_map_iff in I. destruct I as (? & K & _). congruence.
Qed.
(*@ C90 End to end: one site standing on a grid point at signed distance t along the direction, on a grid of even extent,
   is the pure delay t/speed at every frequency. *)
Lemma camfilter_delay : forall proj p v d ref dx shape (m n i : nat), d <> (0, 0) -> v <> 0 -> 0 < dx -> lower shape = "square"%string ->
  (2 <= n)%nat -> INR n * dx = 2 * INR m -> (i < n)%nat ->
  let t := inner (sub2 p ref) d / len d in t = INR i * dx - INR m ->
  get_camfilter proj (EastNorth [p]) v d (EastNorth ref) dx 0 None shape (2 * INR m) =
  Ok (map (fun k => let f := bin_frequency n k (dx / Rabs v) in (f, Some (phasor (- (2 * PI * f * (t / v)))))) (seq 0 n)).
Proof.
  intros proj p v d ref dx shape m n i N Nv P Sh Ln E Hi t Ht. rewrite camfilter_plane by (auto; discriminate). cbn [map]. fold t.
  destruct (square_value [Some t] 0 None shape dx (2 * INR m) ltac:(lra) Sh) as (plant & xs & G & Gr & Lp & V). rewrite G. cbn [rbind fst snd].
  destruct (plant_grid_symmetric [Some t] 0 None shape dx (2 * INR m) plant xs m n P eq_refl E G) as [Ex Q].
  assert (Lx : length xs = n) by (rewrite Ex; unfold equispaced; now rewrite map_length, seq_length).
  set (w := map (fun j => if Nat.eqb j i then 1 else 0) (seq 0 n)).
  assert (Lw : length w = n) by (unfold w; now rewrite map_length, seq_length).
  assert (Pw : plant = map Some w).
  { apply nth_error_ext. intro j. unfold w. rewrite map_map, nth_error_map. destruct (lt_dec j n) as [Hj|Hj].
    - rewrite nth_error_seq by exact Hj. cbn [option_map].
      assert (Hx : nth_error xs j = Some (- INR m + INR j * dx)) by (rewrite Ex; now apply equispaced_nth).
      assert (Cov : covered (width_or dx None) 0 [Some t] (- INR m + INR j * dx) <-> j = i).
      { unfold covered, reaches, width_or. split.
        - intros (c & [Ec|[]] & K). injection Ec as <-. rewrite Ht in K.
          destruct (Nat.lt_trichotomy j i) as [O1|[O1|O1]]; [|exact O1|]; exfalso.
          + assert (Q1 : INR j + 1 <= INR i) by (rewrite <- S_INR; apply le_INR; lia). nra.
          + assert (Q1 : INR i + 1 <= INR j) by (rewrite <- S_INR; apply le_INR; lia). nra.
        - intros ->. exists t. split; [now left|]. rewrite Ht. lra. }
      destruct (V j _ Hx) as [[A ->]|[A ->]]; destruct (Nat.eqb_spec j i) as [O1|O1]; try reflexivity; [apply Cov in A; contradiction|contradict A; now apply Cov].
    - replace (nth_error (seq 0 n) j) with (@None nat) by (symmetry; apply nth_error_None; rewrite seq_length; lia). apply nth_error_None. lia. }
  assert (Sw : Rsum w = 1).
  { unfold w. clear - Hi. change (Rsumn n (fun j => if Nat.eqb j i then 1 else 0) = 1). induction n as [|n IH]; [lia|]. rewrite Rsumn_S. destruct (Nat.eqb_spec n i) as [->|D].
    - rewrite (Rsumn_ext i _ (fun _ => 0)) by (intros j Hj; destruct (Nat.eqb_spec j i); [lia|reflexivity]).
      replace (Rsumn i (fun _ => 0)) with 0; [ring|]. clear. induction i as [|i IH]; [reflexivity|]. rewrite Rsumn_S, <- IH. ring.
    - rewrite IH by lia. ring. }
  rewrite Pw, Ex. rewrite <- Lw at 1. rewrite (cam_symmetric w (- INR m) dx v (-1)) by (rewrite ?Lw; auto; lra).
  rewrite Lw. f_equal. apply map_ext. intro k. cbv zeta. do 2 f_equal. set (f := bin_frequency n k (dx / Rabs v)).
  rewrite advected_sum, Csum_as_sumn, map_length, combine_length. unfold equispaced at 1. rewrite map_length, seq_length. unfold shares at 1. rewrite map_length, Lw, Nat.min_id.
  rewrite (Csumn_ext _ _ (fun j => if Nat.eqb j i then (fun j => cis (- (2 * PI * f * ((- INR m + INR j * dx) / v)))) j else RtoC 0)).
  - rewrite Csumn_pick by exact Hi. unfold phasor. change (cis (- (2 * PI * f * ((- INR m + INR i * dx) / v))) = cis (- (2 * PI * f * (t / v)))). do 4 f_equal. rewrite Ht. ring.
  - intros j Hj.
    rewrite nth_indep with (d' := (fun s : R * R => Cmult (RtoC (snd s)) (cis (- (2 * PI * f * (fst s / v))))) (0, 0)) by (rewrite map_length, combine_length; unfold shares, equispaced; rewrite !map_length, seq_length, Lw; lia).
    rewrite (map_nth (fun s : R * R => Cmult (RtoC (snd s)) (cis (- (2 * PI * f * (fst s / v)))))). rewrite combine_nth by (unfold shares, equispaced; now rewrite !map_length, seq_length, Lw).
    cbn [fst snd]. unfold equispaced. rewrite nth_map_seq by exact Hj. unfold shares. rewrite Sw. rewrite nth_indep with (d' := 0 / 1) by (rewrite map_length, Lw; exact Hj).
    rewrite (map_nth (fun v0 => v0 / 1)). unfold w. rewrite nth_map_seq by exact Hj. destruct (Nat.eqb j i).
    + replace (1 / 1) with 1 by field. now rewrite Cmult_1_l.
    + replace (0 / 1) with 0 by field. ring.
Qed.
(*@ex C90 A site 1 east and 7 north of the reference under an eastward wind of speed 5, grid -2..1: delay 1/5. *)
Lemma camfilter_example : forall proj, get_camfilter proj (EastNorth [(11, 27)]) 5 (2, 0) (EastNorth (10, 20)) 1 0 None "square" 4 =
  Ok (map (fun k => let f := bin_frequency 4 k (1 / 5) in (f, Some (phasor (- (2 * PI * f * (1 / 5)))))) (seq 0 4)).
Proof.
  intro proj. assert (T : inner (sub2 (11, 27) (10, 20)) (2, 0) / len (2, 0) = 1).
  { unfold len, inner, sub2. cbn [fst snd]. replace (2 * 2 + 0 * 0) with (2 * 2) by ring. rewrite sqrt_square by lra. field. }
  replace 4 with (2 * INR 2) by (cbn; ring).
  rewrite (camfilter_delay proj (11, 27) 5 (2, 0) (10, 20) 1 "square" 2 4 3); try reflexivity; try lra; try lia.
  - rewrite T. rewrite Rabs_pos_eq by lra. reflexivity.
  - intro E. injection E as E. lra.
  - cbn. ring.
  - rewrite T. cbn. ring.
Qed.
