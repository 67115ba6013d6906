(** The cloud advection filter of a one-dimensional plant (C56, C57). *)
From Coq Require Import String.
From Verif Require Import Prelude PreludeFacts RealBase Fl RealStat Dft Phase M_spatial M_cmv M_signal_corr M_signal_tf M_signal_plant Spec_plant P_list P_dft P_welch P_plant P_cam.
From Coquelicot Require Import Complex.
From Coq Require Import Lra Psatz Permutation.
Local Open Scope R_scope.

(*@ C57 The filter in full: the frequencies are those of the FFT over the time to cross one step, and the value is
   the response of sites placed at j*dx - lowest (the true positions are j*dx + lowest). *)
Lemma cam_value : forall p x0 x1 rest v m, p <> [] -> x1 <> x0 -> v <> 0 -> Rsum p <> 0 ->
  In m (x0 :: x1 :: rest) -> (forall x, In x (x0 :: x1 :: rest) -> m <= x) ->
  plant1d_to_camfilter (map Some p) (x0 :: x1 :: rest) v =
  Ok (map (fun k => let f := bin_frequency (length p) k ((x1 - x0) / Rabs v) in
                    (f, Some (advected v f (combine (map (fun j => INR j * (x1 - x0) - m) (seq 0 (length p))) (shares p)))))
          (seq 0 (length p))).
Proof.
  intros p x0 x1 rest v m Np Nx Nv Ns I M. rewrite <- (Rmin_of_unique _ _ I M). now apply cam_rows.
Qed.

Lemma some_or_missing {A} (q : list (option A)) : In None q \/ exists p, q = map Some p.
Proof.
  induction q as [|[a|] q [IH|[p ->]]]; [right; now exists []|left; now right|right; now exists (a :: p)|left; now left|left; now left].
Qed.
(*@ C56 Degenerate inputs: fewer than two coordinates, no plant, zero speed, a missing value or a zero total. *)
Lemma cam_degenerate : forall plant xs v,
  ((length xs < 2)%nat -> plant1d_to_camfilter plant xs v = Err IndexError) /\
  (forall x0 x1 rest, xs = x0 :: x1 :: rest ->
     (plant = [] -> plant1d_to_camfilter plant xs v = Err ValueError) /\
     (plant <> [] -> x1 <> x0 ->
        (v = 0 -> plant1d_to_camfilter plant xs v = Ok (map (fun _ => (0, None)) plant)) /\
        (v <> 0 -> In None plant \/ (exists p, plant = map Some p /\ Rsum p = 0) ->
           plant1d_to_camfilter plant xs v =
           Ok (map (fun k => (bin_frequency (length plant) k ((x1 - x0) / Rabs v), None)) (seq 0 (length plant)))))).
Proof.
  intros plant xs v. split.
  - intro L. destruct xs as [|a [|b xs]]; try reflexivity. cbn in L. lia.
  - intros x0 x1 rest ->. split; [intros ->; reflexivity|]. intros Np Nx.
    assert (Pn : (0 < length plant)%nat) by (destruct plant; [congruence|cbn; lia]).
    unfold plant1d_to_camfilter. destruct (Nat.eqb_spec (length plant) 0) as [E|_]; [lia|]. rewrite (Reqb_false (x1 - x0)) by lra. split.
    + intros ->. now rewrite Reqb_true by reflexivity.
    + intros Nv D. rewrite Reqb_false by exact Nv.
      assert (K : (negb (Nat.eqb (length (present plant)) (length plant)) || Reqb (Rsum (present plant)) 0)%bool = true).
      { destruct D as [I|(p & -> & S0)].
        - pose proof (present_missing plant I). destruct (Nat.eqb_spec (length (present plant)) (length plant)); [lia|reflexivity].
        - rewrite present_some, map_length, Nat.eqb_refl. now rewrite Reqb_true. }
      rewrite K. f_equal. rewrite fftfreq_bins by exact Pn. now rewrite map_map.
Qed.

(*@ C56 Unit gain at frequency zero, which is the first row. *)
Lemma cam_dc : forall p x0 x1 rest v, p <> [] -> x1 <> x0 -> v <> 0 -> Rsum p <> 0 ->
  exists rows, plant1d_to_camfilter (map Some p) (x0 :: x1 :: rest) v = Ok ((0, Some (RtoC 1)) :: rows) /\
    forall f z, In (f, z) ((0, Some (RtoC 1)) :: rows) -> f = 0 -> z = Some (RtoC 1).
Proof.
  intros p x0 x1 rest v Np Nx Nv Ns. rewrite (cam_rows p x0 x1 rest v Np Nx Nv Ns). cbv zeta.
  set (G := fun k : nat => (bin_frequency (length p) k ((x1 - x0) / Rabs v), Some _)).
  assert (V : forall k, fst (G k) = 0 -> snd (G k) = Some (RtoC 1)).
  { intros k E. unfold G in *. cbv beta zeta in *. cbn [fst snd] in *. rewrite E, advected_zero, combine_snd by (unfold shares; now rewrite !map_length, seq_length).
    now rewrite shares_total. }
  destruct p as [|a p]; [congruence|]. cbn [length seq map].
  assert (Z : fst (G 0%nat) = 0).
  { unfold G. cbv beta zeta. cbn [fst]. unfold bin_frequency. replace (bin_cycles (length (a :: p)) 0) with 0%Z by reflexivity. unfold Rdiv. ring. }
  exists (map G (seq 1 (length p))). split.
  - f_equal. f_equal. rewrite (surjective_pairing (G 0%nat)), Z. f_equal. now apply V.
  - intros f z [E|I] F; [congruence|]. apply in_map_iff in I. destruct I as (k & E & _).
    specialize (V k). rewrite E in V. now apply V.
Qed.

(*@ C56 A non-negative plant gives a passive filter: no frequency is amplified. *)
Lemma cam_passive : forall p xs v rows f z, (forall a, In a p -> 0 <= a) ->
  plant1d_to_camfilter (map Some p) xs v = Ok rows -> In (f, Some z) rows -> Cmod z <= 1.
Proof.
  intros p xs v rows f z Pos E I.
  destruct xs as [|x0 [|x1 rest]]; try discriminate.
  destruct (list_eq_dec Req_EM_T p []) as [->|Np]; [discriminate|].
  destruct (Req_dec x1 x0) as [->|Nx].
  { unfold plant1d_to_camfilter in E. destruct (Nat.eqb (length (map Some p)) 0); [discriminate|]. rewrite Reqb_true in E by ring. discriminate. }
  assert (Np' : map Some p <> []) by (destruct p; [congruence|discriminate]).
  destruct (cam_degenerate (map Some p) (x0 :: x1 :: rest) v) as [_ D]. destruct (D _ _ _ eq_refl) as [_ D']. destruct (D' Np' Nx) as [D0 D1].
  destruct (Req_dec v 0) as [->|Nv]; [rewrite D0 in E by reflexivity; injection E as <-; apply in_map_iff in I; destruct I as (? & ? & _); discriminate|].
  destruct (Req_dec (Rsum p) 0) as [S0|Ns].
  { rewrite (D1 Nv) in E by (right; eauto). injection E as <-. apply in_map_iff in I. destruct I as (? & ? & _). discriminate. }
  rewrite (cam_rows p x0 x1 rest v Np Nx Nv Ns) in E. injection E as <-. apply in_map_iff in I. destruct I as (k & K & _). cbv zeta in K. injection K as _ <-.
  assert (Sp : 0 < Rsum p).
  { destruct (Rle_lt_or_eq_dec 0 (Rsum p)) as [L|L]; [|exact L|congruence]. clear - Pos. induction p as [|a p IH]; [cbn; lra|]. rewrite Rsum_cons.
    pose proof (Pos a (or_introl eq_refl)). assert (0 <= Rsum p) by (apply IH; intros; apply Pos; now right). lra. }
  eapply Rle_trans; [apply advected_bound|].
  - intros [x w] Is. apply in_combine_r in Is. cbn [snd]. unfold shares in Is. apply in_map_iff in Is. destruct Is as (a & <- & Ia).
    apply Rle_mult_inv_pos; auto.
  - rewrite combine_snd by (unfold shares; now rewrite !map_length, seq_length). rewrite shares_total by exact Ns. lra.
Qed.

(*@ C56 Reversing the cloud direction keeps the frequencies and conjugates the values. *)
Lemma cam_reverse : forall plant xs v rows, plant1d_to_camfilter plant xs v = Ok rows ->
  plant1d_to_camfilter plant xs (- v) = Ok (map (fun r => (fst r, option_map Cconj (snd r))) rows).
Proof.
  intros plant xs v rows E. destruct xs as [|x0 [|x1 rest]]; try discriminate.
  assert (Np : plant <> []) by (intros ->; discriminate).
  destruct (Req_dec x1 x0) as [->|Nx].
  { unfold plant1d_to_camfilter in E. destruct (Nat.eqb (length plant) 0); [discriminate|]. rewrite Reqb_true in E by ring. discriminate. }
  destruct (cam_degenerate plant (x0 :: x1 :: rest) v) as [_ D]. destruct (D _ _ _ eq_refl) as [_ D']. destruct (D' Np Nx) as [D0 D1].
  destruct (cam_degenerate plant (x0 :: x1 :: rest) (- v)) as [_ DN]. destruct (DN _ _ _ eq_refl) as [_ DN']. destruct (DN' Np Nx) as [DN0 DN1].
  destruct (Req_dec v 0) as [->|Nv].
  { rewrite D0 in E by reflexivity. injection E as <-. rewrite DN0 by ring. rewrite map_map. reflexivity. }
  assert (Nv' : - v <> 0) by lra.
  destruct (some_or_missing plant) as [I|C].
  { rewrite (D1 Nv (or_introl I)) in E. injection E as <-. rewrite (DN1 Nv' (or_introl I)), map_map. rewrite Rabs_Ropp. reflexivity. }
  destruct C as [p C]. rewrite C in *.
  destruct (Req_dec (Rsum p) 0) as [S0|Ns].
  { rewrite (D1 Nv) in E by (right; eauto). injection E as <-. rewrite (DN1 Nv') by (right; eauto). rewrite map_map, Rabs_Ropp. reflexivity. }
  assert (Np' : p <> []) by (intros ->; discriminate).
  rewrite (cam_rows p x0 x1 rest v Np' Nx Nv Ns) in E. injection E as <-. rewrite (cam_rows p x0 x1 rest (- v) Np' Nx Nv' Ns). rewrite map_map, Rabs_Ropp.
  f_equal. apply map_ext. intro k. cbv zeta. cbn [fst snd option_map]. do 2 f_equal. now apply advected_reverse.
Qed.

(*@ C56 Scaling the plant by a non-zero factor changes nothing. *)
Lemma cam_scale : forall c plant xs v, c <> 0 ->
  plant1d_to_camfilter (map (option_map (fun a => c * a)) plant) xs v = plant1d_to_camfilter plant xs v.
Proof.
  intros c plant xs v Nc. unfold plant1d_to_camfilter. destruct xs as [|x0 [|x1 rest]]; try reflexivity.
  rewrite map_length, map_map.
  assert (Pr : present (map (option_map (fun a => c * a)) plant) = map (fun a => c * a) (present plant)).
  { induction plant as [|[a|] q IH]; [reflexivity| |].
    - change (present (Some a :: q)) with (a :: present q). cbn [map option_map]. change (present (Some (c * a) :: map (option_map (fun a => c * a)) q)) with (c * a :: present (map (option_map (fun a => c * a)) q)). now rewrite IH.
    - exact IH. }
  rewrite Pr, map_length. rewrite Rsum_scale. set (T := Rsum (present plant)).
  assert (Z : Reqb (c * T) 0 = Reqb T 0) by (destruct (Reqb_spec T 0) as [->|N]; [apply Reqb_true; ring|apply Reqb_false; nra]).
  rewrite Z. destruct (Nat.eqb (length plant) 0); [reflexivity|]. destruct (Reqb (x1 - x0) 0); [reflexivity|]. destruct (Reqb v 0); [reflexivity|].
  destruct (negb (Nat.eqb (length (present plant)) (length plant))) eqn:E1; [reflexivity|]. cbn [orb]. destruct (Reqb_spec T 0) as [E2|E2]; [reflexivity|].
  rewrite map_map.
  replace (map (fun x => RtoC (c * x / (c * T))) (present plant)) with (map (fun x => RtoC (x / T)) (present plant)); [reflexivity|].
  apply map_ext. intro a. f_equal. field. auto.
Qed.

Lemma cis_turn_int t : cis (2 * PI * t) = RtoC 1 -> exists q, t = IZR q.
Proof.
  intro H. exists (Int_part t). destruct (base_Int_part t) as [A B].
  destruct (Req_dec t (IZR (Int_part t))) as [E|E]; [exact E|]. exfalso.
  set (r := t - IZR (Int_part t)). assert (Hr : 0 < r < 1) by (unfold r; lra).
  apply (cis_eq_1 (2 * PI * r)); [pose proof PI_RGT_0; nra|].
  rewrite <- H. rewrite <- (cis_plus_turns (2 * PI * r) (Int_part t)). f_equal. unfold r. ring.
Qed.

Lemma equi_cons x0 dx n : equispaced x0 dx (S (S n)) = x0 :: (x0 + dx) :: map (fun i => x0 + INR i * dx) (seq 2 n).
Proof. unfold equispaced. cbn [seq map INR]. do 2 (apply (f_equal2 cons); [ring|]). reflexivity. Qed.
Lemma equi_min x0 dx n : 0 < dx -> Rmin_of (equispaced x0 dx (S (S n))) = x0.
Proof.
  intro P. apply Rmin_of_unique.
  - rewrite equi_cons. now left.
  - intros x I. unfold equispaced in I. apply in_map_iff in I. destruct I as (i & <- & _). pose proof (pos_INR i). nra.
Qed.
Lemma equi_shift p x0 dx v f : v <> 0 ->
  advected v f (combine (map (fun j => INR j * dx - x0) (seq 0 (length p))) (shares p)) =
  Cmult (advected v f (combine (equispaced x0 dx (length p)) (shares p))) (cis (2 * PI * f * (2 * x0 / v))).
Proof.
  intro N. replace (map (fun j => INR j * dx - x0) (seq 0 (length p))) with (map (fun x => x + - (2 * x0)) (equispaced x0 dx (length p))).
  - rewrite advected_shift by exact N. f_equal. f_equal. field. exact N.
  - unfold equispaced. rewrite map_map. apply map_ext. intro. ring.
Qed.

(*@ C57 On a grid x0, x0+dx, .. of n points whose origin is a whole multiple of half its length n*dx, the filter is
   the true response of the sites where they stand: every site delays by its position over the speed. *)
Lemma cam_symmetric : forall p x0 dx v q, (2 <= length p)%nat -> 0 < dx -> v <> 0 -> Rsum p <> 0 ->
  2 * x0 = IZR q * (INR (length p) * dx) ->
  plant1d_to_camfilter (map Some p) (equispaced x0 dx (length p)) v =
  Ok (map (fun k => let f := bin_frequency (length p) k (dx / Rabs v) in
                    (f, Some (advected v f (combine (equispaced x0 dx (length p)) (shares p))))) (seq 0 (length p))).
Proof.
  intros p x0 dx v q L P Nv Ns Q. set (n := length p) in *.
  assert (Np : p <> []) by (intros ->; cbn in L; lia).
  assert (En : exists m, n = S (S m)) by (exists (n - 2)%nat; lia). destruct En as [m En].
  pose proof (equi_min x0 dx m P) as Mi. rewrite En at 1. rewrite equi_cons in *.
  rewrite (cam_rows p x0 (x0 + dx) _ v Np) by (auto; lra). rewrite Mi. fold n.
  replace (x0 + dx - x0) with dx by ring. f_equal. apply map_ext. intro k. cbv zeta. do 2 f_equal.
  unfold n. rewrite equi_shift by exact Nv. fold n.
  set (f := bin_frequency n k (dx / Rabs v)).
  assert (Hn : INR n <> 0) by (apply not_0_INR; lia).
  assert (Ra : Rabs v <> 0) by (now apply Rabs_no_R0).
  assert (T : cis (2 * PI * f * (2 * x0 / v)) = RtoC 1).
  { unfold f, bin_frequency. rewrite Q.
    assert (Sg : exists s : Z, Rabs v / v = IZR s) by (destruct (Rcase_abs v) as [A|A]; [exists (-1)%Z; rewrite Rabs_left by lra|exists 1%Z; rewrite Rabs_right by lra]; cbn; field; lra).
    destruct Sg as [s Sg]. rewrite <- (cis_turns (bin_cycles n k * q * s)). f_equal. rewrite !mult_IZR, <- Sg. field. repeat split; auto; lra. }
  rewrite T. ring.
Qed.

Lemma Rsum_zeros m : Rsum (repeat 0 m) = 0.
Proof. induction m as [|m IH]; [reflexivity|]. cbn [repeat]. rewrite Rsum_cons, IH. ring. Qed.
Lemma no_weight (g : R * R -> C) xs : forall ws, (forall w, In w ws -> w = 0) ->
  Csum (map (fun s => Cmult (RtoC (snd s)) (g s)) (combine xs ws)) = RtoC 0.
Proof.
  induction xs as [|x xs IH]; intros [|w ws] Hz; try reflexivity. cbn [combine map]. rewrite Csum_cons, IH by (intros; apply Hz; now right).
  cbn [snd]. rewrite (Hz w) by (now left). ring.
Qed.
(*@ C57 That condition on the grid is exact: if the filter is the true response of every plant, it holds. *)
Lemma cam_symmetric_only : forall x0 dx v n, (2 <= n)%nat -> 0 < dx -> v <> 0 ->
  ((forall p, length p = n -> Rsum p <> 0 ->
      plant1d_to_camfilter (map Some p) (equispaced x0 dx n) v =
      Ok (map (fun k => let f := bin_frequency n k (dx / Rabs v) in
                        (f, Some (advected v f (combine (equispaced x0 dx n) (shares p))))) (seq 0 n))) <->
   exists q, 2 * x0 = IZR q * (INR n * dx)).
Proof.
  intros x0 dx v n L P Nv. split.
  - intro H. assert (En : exists m, n = S (S m)) by (exists (n - 2)%nat; lia). destruct En as [m En].
    set (p := 1 :: repeat 0 (S m)).
    assert (Lp : length p = n) by (unfold p; cbn [length]; rewrite repeat_length; lia).
    assert (Sp : Rsum p = 1). { unfold p. rewrite Rsum_cons, Rsum_zeros. ring. }
    assert (Ns : Rsum p <> 0) by (rewrite Sp; lra).
    assert (Np : p <> []) by discriminate.
    specialize (H p Lp Ns). pose proof (equi_min x0 dx m P) as Mi.
    assert (Ec : equispaced x0 dx n = x0 :: (x0 + dx) :: map (fun i => x0 + INR i * dx) (seq 2 m)) by (rewrite En; apply equi_cons).
    rewrite Ec in H at 1. rewrite (cam_rows p x0 (x0 + dx) _ v Np) in H by (auto; lra).
    rewrite <- (equi_cons x0 dx m), Mi in H. rewrite Lp in H. replace (x0 + dx - x0) with dx in H by ring. injection H as H.
    assert (H1 := f_equal (fun l => nth_error l 1) H). cbv beta in H1. rewrite !nth_error_map, !nth_error_seq in H1 by lia. cbn [option_map] in H1. cbv zeta in H1.
    apply (f_equal (fun o => match o with Some (_, Some z) => z | _ => RtoC 0 end)) in H1. cbv beta iota in H1.
    rewrite <- Lp in H1. rewrite equi_shift in H1 by exact Nv. rewrite Lp in H1. set (f := bin_frequency n 1 (dx / Rabs v)) in *.
    assert (A : advected v f (combine (equispaced x0 dx n) (shares p)) = cis (- (2 * PI * f * (x0 / v)))).
    { rewrite Ec. unfold shares. rewrite Sp. unfold p. set (zs := (x0 + dx) :: _). rewrite map_cons. set (ws := map _ _). rewrite advected_sum.
      change (combine (x0 :: zs) (1 / 1 :: ws)) with ((x0, 1 / 1) :: combine zs ws). rewrite map_cons, Csum_cons. cbn [fst snd].
      match goal with |- Cplus ?a ?b = _ => replace b with (RtoC 0) end.
      - replace (1 / 1) with 1 by field. ring.
      - symmetry. apply (no_weight (fun s => cis (- (2 * PI * f * (fst s / v))))). intros w I. apply in_map_iff in I. destruct I as (a & <- & I). apply repeat_spec in I. subst. field. }
    rewrite A in H1.
    assert (T : cis (2 * PI * f * (2 * x0 / v)) = RtoC 1).
    { assert (Nz := cis_nz (- (2 * PI * f * (x0 / v)))). rewrite <- (Cmult_1_l (cis (2 * PI * f * (2 * x0 / v)))).
      rewrite <- (Cinv_l _ Nz), <- Cmult_assoc, H1. reflexivity. }
    assert (Hn : INR n <> 0) by (apply not_0_INR; lia). assert (Ra : Rabs v <> 0) by (now apply Rabs_no_R0).
    destruct (cis_turn_int (f * (2 * x0 / v))) as [q Hq]; [rewrite <- T; f_equal; ring|].
    assert (Sg : exists s : Z, (s = 1 \/ s = -1)%Z /\ f * (2 * x0 / v) = IZR s * (2 * x0 / (INR n * dx))).
    { unfold f, bin_frequency.
      assert (B : bin_cycles n 1 = 1%Z \/ bin_cycles n 1 = (-1)%Z) by (unfold bin_cycles; destruct (Nat.ltb_spec (2 * 1) n); [left; reflexivity|right; lia]).
      destruct (Rcase_abs v) as [V|V]; [rewrite Rabs_left by lra|rewrite Rabs_right by lra]; destruct B as [-> | ->];
        [exists (-1)%Z|exists 1%Z|exists 1%Z|exists (-1)%Z]; (split; [auto|field; repeat split; auto; lra]). }
    destruct Sg as (s & Hs & Es). rewrite Es in Hq. exists (s * q)%Z. rewrite mult_IZR, <- Hq.
    destruct Hs as [-> | ->]; field; split; auto; lra.
  - intros [q Q] p Lp Ns. subst n. now apply cam_symmetric with (q := q).
Qed.

Lemma grid_equispaced dx xmax xs lo : 0 < dx -> site_grid dx xmax xs -> IZR lo <= - xmax / 2 < IZR lo + 1 ->
  xs = equispaced (IZR lo) dx (length xs).
Proof.
  intros P (lo' & hi & A & _ & G) B.
  assert (E : lo' = lo).
  { assert (lo' <= lo)%Z by (apply Z.lt_succ_r, lt_IZR; rewrite succ_IZR; lra). assert (lo <= lo')%Z by (apply Z.lt_succ_r, lt_IZR; rewrite succ_IZR; lra). lia. }
  subst lo'. apply nth_error_ext. intro i. destruct (nth_error xs i) as [x|] eqn:H.
  - rewrite equispaced_nth by (apply nth_error_Some; congruence). apply G in H. destruct H as [-> _]. reflexivity.
  - symmetry. apply nth_error_None. unfold equispaced. rewrite map_length, seq_length. now apply nth_error_None.
Qed.
Lemma grid_length dx xmax xs n lo hi : 0 < dx -> site_grid dx xmax xs -> IZR lo <= - xmax / 2 < IZR lo + 1 -> IZR hi <= xmax / 2 < IZR hi + 1 ->
  INR n * dx = IZR hi - IZR lo -> length xs = n.
Proof.
  intros P (lo' & hi' & A & A' & G) B B' E.
  assert (lo' = lo).
  { assert (lo' <= lo)%Z by (apply Z.lt_succ_r, lt_IZR; rewrite succ_IZR; lra). assert (lo <= lo')%Z by (apply Z.lt_succ_r, lt_IZR; rewrite succ_IZR; lra). lia. }
  assert (hi' = hi).
  { assert (hi' <= hi)%Z by (apply Z.lt_succ_r, lt_IZR; rewrite succ_IZR; lra). assert (hi <= hi')%Z by (apply Z.lt_succ_r, lt_IZR; rewrite succ_IZR; lra). lia. }
  subst. assert (K : forall i, (i < length xs)%nat <-> (i < n)%nat).
  { intro i. rewrite <- nth_error_Some. split.
    - intro H. destruct (nth_error xs i) as [x|] eqn:Hx; [|congruence]. apply G in Hx. destruct Hx as [-> [[_ Hx]|[Hx _]]]; [|lra]. apply INR_lt. nra.
    - intro H. apply lt_INR in H. assert (Hx : nth_error xs i = Some (IZR lo + INR i * dx)) by (apply G; split; [reflexivity|left; split; [exact P|nra]]). congruence. }
  destruct (Nat.lt_trichotomy (length xs) n) as [H|[H|H]]; [apply K in H|exact H|apply K in H]; lia.
Qed.

(*@ C57 The grid of get_1d_plant meets the condition when xmax is a positive even number and dx divides it. *)
Lemma plant_grid_symmetric : forall centers ref width shape dx xmax plant xs (m n : nat), 0 < dx -> xmax = 2 * INR m -> INR n * dx = xmax ->
  get_1d_plant centers ref width shape dx xmax = Ok (plant, xs) ->
  xs = equispaced (- INR m) dx n /\ 2 * - INR m = IZR (-1) * (INR n * dx).
Proof.
  intros centers ref width shape dx xmax plant xs m n P X D E. split; [|rewrite D, X; cbn; ring].
  assert (G : site_grid dx xmax xs).
  { unfold get_1d_plant in E. destruct (arange_grid dx xmax ltac:(lra)) as (ys & Ey & G). rewrite Ey in E. cbn [rbind] in E.
    destruct (String.eqb (lower shape) "square"); [congruence|]. destruct (String.eqb (lower shape) "triangle"); [congruence|]. destruct (String.eqb (lower shape) "gaussian"); congruence. }
  assert (B : IZR (- Z.of_nat m) <= - xmax / 2 < IZR (- Z.of_nat m) + 1) by (rewrite opp_IZR, <- INR_IZR_INZ; lra).
  assert (B' : IZR (Z.of_nat m) <= xmax / 2 < IZR (Z.of_nat m) + 1) by (rewrite <- INR_IZR_INZ; lra).
  rewrite (grid_equispaced dx xmax xs _ P G B). rewrite (grid_length dx xmax xs n _ _ P G B B') by (rewrite opp_IZR, <- INR_IZR_INZ; lra).
  now rewrite opp_IZR, <- INR_IZR_INZ.
Qed.

(*@ C57 It does not when xmax is odd and the step is 1: the grid starts one step too low, and a site at the
   reference is reported one step late. *)
Lemma plant_grid_odd : forall (m : nat) v, (1 <= m)%nat -> v <> 0 ->
  exists plant xs rows, get_1d_plant [Some 0] 0 None "square" 1 (2 * INR m + 1) = Ok (plant, xs) /\
    xs = equispaced (- INR (m + 1)) 1 (2 * m + 1) /\
    (~ exists q, 2 * - INR (m + 1) = IZR q * (INR (2 * m + 1) * 1)) /\
    plant = map (fun x => Some (if Req_EM_T x 0 then 1 else 0)) xs /\
    plant1d_to_camfilter plant xs v = Ok rows /\
    rows = map (fun k => let f := bin_frequency (2 * m + 1) k (1 / Rabs v) in (f, Some (phasor (- (2 * PI * f * (1 / v)))))) (seq 0 (2 * m + 1)).
Proof.
  intros m v Hm Nv. set (xmax := 2 * INR m + 1).
  assert (Gx : exists xs, arange (half_floor (- xmax)) (half_floor xmax) 1 = Ok xs /\ site_grid 1 xmax xs) by (apply arange_grid; lra).
  destruct Gx as (xs & Ar & G).
  assert (B : IZR (- Z.of_nat (m + 1)) <= - xmax / 2 < IZR (- Z.of_nat (m + 1)) + 1) by (rewrite opp_IZR, <- INR_IZR_INZ, plus_INR; cbn [INR]; unfold xmax; lra).
  assert (B' : IZR (Z.of_nat m) <= xmax / 2 < IZR (Z.of_nat m) + 1) by (rewrite <- INR_IZR_INZ; unfold xmax; lra).
  pose proof (grid_equispaced 1 xmax xs _ ltac:(lra) G B) as Ex.
  assert (Ln : length xs = (2 * m + 1)%nat).
  { apply (grid_length 1 xmax xs _ _ _ ltac:(lra) G B B'). rewrite opp_IZR, <- !INR_IZR_INZ, !plus_INR, mult_INR. cbn [INR]. ring. }
  rewrite Ln, opp_IZR, <- INR_IZR_INZ in Ex.
  assert (Pl : exists plant, get_1d_plant [Some 0] 0 None "square" 1 xmax = Ok (plant, xs) /\ plant = map (fun x => Some (if Req_EM_T x 0 then 1 else 0)) xs).
  { eexists. split; [unfold get_1d_plant; rewrite Ar; reflexivity|]. cbn [map option_map fold_left place_square].
    apply nth_error_ext. intro i. rewrite nth_error_map, nth_error_map2, nth_error_map. destruct (nth_error xs i) as [x|] eqn:H; [|reflexivity]. cbn [option_map]. f_equal.
    assert (Hi : (i < 2 * m + 1)%nat) by (rewrite <- Ln; apply nth_error_Some; congruence).
    rewrite Ex in H. rewrite equispaced_nth in H by exact Hi. injection H as H.
    assert (Hz : x = IZR (Z.of_nat i - Z.of_nat (m + 1))) by (rewrite minus_IZR, <- !INR_IZR_INZ; lra).
    destruct (Z.eq_dec (Z.of_nat i - Z.of_nat (m + 1)) 0) as [Z0|Z0].
    - rewrite Z0 in Hz. cbn in Hz. subst x. rewrite Hz. destruct (Req_EM_T 0 0) as [_|K]; [|lra]. unfold in_window.
      destruct (Rleb_spec (0 - 0 - 1 / 2) 0); [|lra]. destruct (Rltb_spec 0 (0 - 0 + 1 / 2)); [|lra]. reflexivity.
    - assert (Far : x <= -1 \/ 1 <= x).
      { destruct (Z.lt_ge_cases (Z.of_nat i - Z.of_nat (m + 1)) 0) as [K|K]; [left|right]; rewrite Hz; apply IZR_le; lia. }
      destruct (Req_EM_T x 0) as [K|_]; [lra|]. unfold in_window. destruct (Rleb_spec (0 - 0 - 1 / 2) x), (Rltb_spec x (0 - 0 + 1 / 2)); try reflexivity. lra. }
  destruct Pl as (plant & Epl & Vpl). exists plant, xs.
  assert (Hm' : exists mm, (2 * m + 1)%nat = S (S mm)) by (exists (2 * m - 1)%nat; lia). destruct Hm' as [mm Hmm].
  set (p := map (fun x => if Req_EM_T x 0 then 1 else 0) xs).
  assert (Ep : plant = map Some p) by (unfold p; now rewrite map_map).
  assert (Lp : length p = (2 * m + 1)%nat) by (unfold p; now rewrite map_length).
  assert (Hj : forall i, (i < 2 * m + 1)%nat -> nth i p 0 = if Nat.eqb i (m + 1) then 1 else 0).
  { intros i Hi. unfold p. rewrite Ex. unfold equispaced. rewrite map_map, nth_map_seq by exact Hi.
    destruct (Nat.eqb_spec i (m + 1)) as [->|D]; [destruct (Req_EM_T (- INR (m + 1) + INR (m + 1) * 1) 0) as [_|K]; [reflexivity|lra]|].
    destruct (Req_EM_T (- INR (m + 1) + INR i * 1) 0) as [K|_]; [|reflexivity]. exfalso. apply D, INR_eq. lra. }
  assert (Pick : forall n j g, (j < n)%nat -> Rsumn n (fun i => if Nat.eqb i j then g i else 0) = g j).
  { intros n j g. induction n as [|n IH]; intro Hn; [lia|]. rewrite Rsumn_S. destruct (Nat.eqb_spec n j) as [->|D].
    - rewrite (Rsumn_ext j _ (fun _ => 0)) by (intros i Hi; destruct (Nat.eqb_spec i j); [lia|reflexivity]).
      replace (Rsumn j (fun _ => 0)) with 0; [ring|]. clear. induction j as [|j IH]; [reflexivity|]. rewrite Rsumn_S, <- IH. ring.
    - rewrite IH by lia. ring. }
  assert (Sp : Rsum p = 1).
  { rewrite Rsum_as_sumn, Lp. rewrite (Rsumn_ext _ _ (fun i => if Nat.eqb i (m + 1) then (fun _ => 1) i else 0)) by (intros i Hi; now apply Hj).
    rewrite Pick by lia. reflexivity. }
  assert (Np : p <> []) by (intro K; rewrite K in Lp; cbn in Lp; lia).
  eexists. split; [exact Epl|]. split; [exact Ex|]. split; [|split; [exact Vpl|]].
  - intros [q Q]. rewrite plus_INR, (plus_INR (2 * m)), mult_INR in Q. cbn [INR] in Q.
    rewrite INR_IZR_INZ in Q.
    assert (Q' : IZR (2 * - (Z.of_nat m + 1)) = IZR (q * (2 * Z.of_nat m + 1))) by (rewrite !mult_IZR, opp_IZR, !plus_IZR, mult_IZR; lra).
    apply eq_IZR in Q'. assert (M1 : (1 <= Z.of_nat m)%Z) by lia. generalize dependent (Z.of_nat m). intros M _ Q' M1.
    destruct (Z.lt_trichotomy q (-1)) as [K|[K|K]]; [|subst q; lia|]; [assert (q <= -2)%Z by lia|assert (0 <= q)%Z by lia]; nia.
  - rewrite Ep. rewrite Ex, Hmm. pose proof (equi_min (- INR (m + 1)) 1 mm ltac:(lra)) as Mi. rewrite equi_cons in *.
    rewrite (cam_rows p _ _ _ v Np) by (auto; lra). rewrite Mi, Lp, <- Hmm.
    replace (- INR (m + 1) + 1 - - INR (m + 1)) with 1 by ring. split; [reflexivity|].
    apply map_ext. intro k. cbv zeta. do 2 f_equal. set (f := bin_frequency (2 * m + 1) k (1 / Rabs v)).
    rewrite advected_sum. rewrite Csum_as_sumn, map_length, combine_length, map_length, seq_length. unfold shares at 1. rewrite map_length, Lp, Nat.min_id.
    rewrite (Csumn_ext _ _ (fun i => if Nat.eqb i (m + 1) then (fun i => cis (- (2 * PI * f * ((INR i * 1 + INR (m + 1)) / v)))) i else RtoC 0)).
    + rewrite Csumn_pick by lia. unfold phasor.
      assert (Hn : INR (2 * m + 1) <> 0) by (apply not_0_INR; lia). assert (Ra : Rabs v <> 0) by (now apply Rabs_no_R0).
      assert (Sg : exists s : Z, Rabs v / v = IZR s) by (destruct (Rcase_abs v) as [A|A]; [exists (-1)%Z; rewrite Rabs_left by lra|exists 1%Z; rewrite Rabs_right by lra]; cbn; field; lra).
      destruct Sg as [s Sg]. symmetry. change (cis (- (2 * PI * f * (1 / v))) = cis (- (2 * PI * f * ((INR (m + 1) * 1 + INR (m + 1)) / v)))).
      rewrite <- (cis_plus_turns (- (2 * PI * f * (1 / v))) (- (bin_cycles (2 * m + 1) k * s))). f_equal.
      rewrite opp_IZR, mult_IZR, <- Sg. unfold f, bin_frequency.
      replace (INR (m + 1) * 1 + INR (m + 1)) with (1 + INR (2 * m + 1)) by (rewrite !plus_INR, mult_INR; cbn [INR]; ring).
      field. repeat split; auto.
    + intros i Hi.
      rewrite nth_indep with (d' := (fun s : R * R => Cmult (RtoC (snd s)) (cis (- (2 * PI * f * (fst s / v))))) (0, 0)) by (rewrite map_length, combine_length, map_length, seq_length; unfold shares; rewrite map_length, Lp; lia).
      rewrite (map_nth (fun s : R * R => Cmult (RtoC (snd s)) (cis (- (2 * PI * f * (fst s / v)))))). rewrite combine_nth by (unfold shares; now rewrite !map_length, seq_length, Lp).
      cbn [fst snd]. rewrite nth_map_seq by exact Hi. unfold shares. rewrite Sp. rewrite nth_indep with (d' := 0 / 1) by (rewrite map_length, Lp; exact Hi).
      rewrite (map_nth (fun v0 => v0 / 1)), Hj by exact Hi. destruct (Nat.eqb i (m + 1)).
      * replace (1 / 1) with 1 by field. rewrite Cmult_1_l. f_equal. unfold Rdiv. ring.
      * replace (0 / 1) with 0 by field. ring.
Qed.

(*@ex C56 Two sites of unequal size, one at -1 and one at 0, speed 1: gain 1 at 0 and 1/2 at the other frequency. *)
Lemma cam_example : plant1d_to_camfilter [Some 1; Some 3] [-1; 0] 1 = Ok [(0, Some (RtoC 1)); (- (1 / 2), Some (RtoC (1 / 2)))].
Proof.
  replace [-1; 0] with (equispaced (-1) 1 2) by (unfold equispaced; cbn [seq map INR]; apply (f_equal2 cons); [ring|]; apply (f_equal2 cons); [ring|reflexivity]).
  change [Some 1; Some 3] with (map Some [1; 3]). change 2%nat with (length [1; 3]). rewrite (cam_symmetric [1; 3] (-1) 1 1 (-1)) by (cbn [length Rsum fold_right INR]; try lra; lia).
  f_equal. unfold equispaced, shares, advected, bin_frequency. cbn [length seq map combine fst snd]. change (bin_cycles 2 0) with 0%Z. change (bin_cycles 2 1) with (-1)%Z.
  cbn [INR]. rewrite Rabs_R1. unfold RtoC, Rsum. cbn [fold_right].
  replace (0 / ((1 + 1) * (1 / 1))) with 0 by field. replace (-1 / ((1 + 1) * (1 / 1))) with (- (1 / 2)) by field.
  replace (2 * PI * 0 * ((-1 + 0 * 1) / 1)) with 0 by field. replace (2 * PI * 0 * ((-1 + 1 * 1) / 1)) with 0 by field.
  replace (2 * PI * - (1 / 2) * ((-1 + 0 * 1) / 1)) with PI by field. replace (2 * PI * - (1 / 2) * ((-1 + 1 * 1) / 1)) with 0 by field.
  rewrite cos_0, sin_0, cos_PI, sin_PI.
  repeat first [reflexivity | apply (f_equal2 cons) | apply (f_equal2 pair) | apply f_equal]; field.
Qed.
