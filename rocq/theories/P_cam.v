(** Lemmas about the cloud advection filter. *)
From Verif Require Import Prelude PreludeFacts RealBase Fl RealStat Dft Phase M_spatial M_cmv M_signal_corr M_signal_tf M_signal_plant Spec_plant P_list P_dft P_welch P_plant.
From Coquelicot Require Import Complex.
From Coq Require Import Lra Psatz Permutation.
Local Open Scope R_scope.

Lemma signed_bin_cycles n k : (0 < n)%nat -> signed_bin n k = bin_cycles n k.
Proof.
  intro P. unfold signed_bin, bin_cycles.
  pose proof (Nat.div_mod (n - 1) 2 ltac:(lia)). pose proof (Nat.mod_upper_bound (n - 1) 2 ltac:(lia)).
  destruct (Nat.ltb_spec k ((n - 1) / 2 + 1)), (Nat.ltb_spec (2 * k) n); lia.
Qed.
Lemma fftfreq_bins n d : (0 < n)%nat -> fftfreq n d = map (fun k => bin_frequency n k d) (seq 0 n).
Proof. intro P. unfold fftfreq, bin_frequency. apply map_ext. intro k. now rewrite signed_bin_cycles. Qed.
Lemma bin_cycles_turn n k : exists z, bin_cycles n k = (Z.of_nat k + z * Z.of_nat n)%Z.
Proof. unfold bin_cycles. destruct (Nat.ltb (2 * k) n); [exists 0%Z|exists (-1)%Z]; lia. Qed.

(** Over one record a bin's frequency and its index turn alike at the samples. *)
Lemma bin_turns n k d j : (0 < n)%nat -> d <> 0 ->
  cis (- (2 * PI * bin_frequency n k d * (INR j * d))) = cis (- (2 * PI * INR k * INR j / INR n)).
Proof.
  intros P D. unfold bin_frequency. destruct (bin_cycles_turn n k) as [z ->].
  rewrite plus_IZR, mult_IZR, <- !INR_IZR_INZ.
  assert (N : INR n <> 0) by (apply not_0_INR; lia).
  replace (- (2 * PI * ((INR k + IZR z * INR n) / (INR n * d)) * (INR j * d)))
    with (- (2 * PI * INR k * INR j / INR n) + 2 * PI * IZR (- (z * Z.of_nat j))) by (rewrite opp_IZR, mult_IZR, <- INR_IZR_INZ; field; auto).
  apply cis_plus_turns.
Qed.

Lemma Csum_weighted (l : list (R * R)) (th : R -> R) :
  Csum (map (fun s => Cmult (RtoC (snd s)) (cis (- th (fst s)))) l) =
  (Rsum (map (fun s => snd s * cos (th (fst s))) l), - Rsum (map (fun s => snd s * sin (th (fst s))) l)).
Proof.
  induction l as [|s l IH]; [cbn; unfold RtoC; f_equal; ring|].
  cbn [map]. rewrite Csum_cons, !Rsum_cons, IH. unfold Cmult, Cplus, RtoC, cis. cbn [fst snd]. rewrite cos_neg, sin_neg. f_equal; ring.
Qed.
Lemma advected_sum v f sites : advected v f sites = Csum (map (fun s => Cmult (RtoC (snd s)) (cis (- (2 * PI * f * (fst s / v))))) sites).
Proof. symmetry. apply (Csum_weighted sites (fun x => 2 * PI * f * (x / v))). Qed.

Lemma advected_reverse v f sites : v <> 0 -> advected (- v) f sites = Cconj (advected v f sites).
Proof.
  intro N. unfold advected, Cconj. cbn [fst snd]. f_equal.
  - f_equal. apply map_ext. intro s. f_equal. replace (2 * PI * f * (fst s / - v)) with (- (2 * PI * f * (fst s / v))) by (field; exact N). apply cos_neg.
  - apply f_equal.
    transitivity (Rsum (map (fun s => - (snd s * sin (2 * PI * f * (fst s / v)))) sites)).
    + f_equal. apply map_ext. intro s. replace (2 * PI * f * (fst s / - v)) with (- (2 * PI * f * (fst s / v))) by (field; exact N). rewrite sin_neg. ring.
    + induction sites as [|s l IH]; [cbn; ring|]. cbn [map]. rewrite !Rsum_cons, IH. ring.
Qed.

(** Shifting all the sites turns the response. *)
Lemma advected_shift v f a xs ws : v <> 0 ->
  advected v f (combine (map (fun x => x + a) xs) ws) = Cmult (advected v f (combine xs ws)) (cis (- (2 * PI * f * (a / v)))).
Proof.
  intro N. rewrite !advected_sum. revert ws. induction xs as [|x xs IH]; intros [|w ws]; try (cbn; rewrite Cmult_0_l; reflexivity).
  cbn [map combine]. rewrite !Csum_cons, IH, Cmult_plus_distr_r. f_equal. cbn [fst snd].
  rewrite <- Cmult_assoc, <- cis_plus. do 2 f_equal. field. exact N.
Qed.

Lemma Csumn_map_seq n (g : nat -> C) : Csumn n g = Csum (map g (seq 0 n)).
Proof. reflexivity. Qed.

(** The FFT of real weights at bin k: sites at j*d, seen at the bin's frequency. *)
Lemma fft_bin_advected (w : list R) d v k : (0 < length w)%nat -> d <> 0 -> 0 < v ->
  fft_bin (map RtoC w) k = advected v (bin_frequency (length w) k (d / v)) (combine (map (fun j => INR j * d) (seq 0 (length w))) w).
Proof.
  intros P D V. rewrite advected_sum. unfold fft_bin. rewrite map_length, Csumn_map_seq.
  assert (DV : d / v <> 0) by (unfold Rdiv; apply Rmult_integral_contrapositive_currified; [exact D|apply Rinv_neq_0_compat; lra]).
  f_equal. apply nth_error_ext. intro i. rewrite !nth_error_map.
  destruct (lt_dec i (length w)) as [L|L].
  - rewrite nth_error_seq by exact L. cbn [option_map].
    rewrite (nth_error_nth' (combine (map (fun j => INR j * d) (seq 0 (length w))) w) (0, 0)) by (rewrite combine_length, map_length, seq_length; lia).
    rewrite combine_nth by (rewrite map_length, seq_length; reflexivity). rewrite nth_map_seq by exact L. cbn [option_map fst snd].
    rewrite (map_nth RtoC w 0 i).
    f_equal. f_equal. rewrite <- (bin_turns (length w) k (d / v) i P DV). do 2 f_equal. field. lra.
  - replace (nth_error (seq 0 (length w)) i) with (@None nat) by (symmetry; apply nth_error_None; rewrite seq_length; lia).
    replace (nth_error (combine (map (fun j => INR j * d) (seq 0 (length w))) w) i) with (@None (R * R)) by (symmetry; apply nth_error_None; rewrite combine_length, map_length, seq_length; lia).
    reflexivity.
Qed.
Lemma present_some {A} (p : list A) : present (map Some p) = p.
Proof. induction p as [|a p IH]; [reflexivity|]. change (present (map Some (a :: p))) with (a :: present (map Some p)). now rewrite IH. Qed.
Lemma present_missing {A} (p : list (option A)) : In None p -> (length (present p) < length p)%nat.
Proof.
  assert (L : forall q : list (option A), (length (present q) <= length q)%nat).
  { induction q as [|[a|] q IH]; [cbn; lia| |]; [change (present (Some a :: q)) with (a :: present q)|change (present (None :: q)) with (present q)]; cbn [length]; lia. }
  induction p as [|[a|] p IH]; [intros []| |]; intro I.
  - change (present (Some a :: p)) with (a :: present p). cbn [length]. destruct I as [I|I]; [discriminate|]. specialize (IH I). lia.
  - change (present (None :: p)) with (present p). cbn [length]. specialize (L p). lia.
Qed.

(** What the code computes on a complete plant. *)
Lemma cam_rows p x0 x1 rest v : p <> [] -> x1 <> x0 -> v <> 0 -> Rsum p <> 0 ->
  let d := x1 - x0 in let m := Rmin_of (x0 :: x1 :: rest) in let n := length p in
  plant1d_to_camfilter (map Some p) (x0 :: x1 :: rest) v =
  Ok (map (fun k => let f := bin_frequency n k (d / Rabs v) in
                    (f, Some (advected v f (combine (map (fun j => INR j * d - m) (seq 0 n)) (shares p))))) (seq 0 n)).
Proof.
  intros Np Nx Nv Ns d m n. unfold plant1d_to_camfilter. rewrite map_length. fold n. fold d. fold m.
  assert (Pn : (0 < n)%nat) by (unfold n; destruct p; [congruence|cbn; lia]).
  destruct (Nat.eqb_spec n 0) as [E|_]; [lia|].
  rewrite Reqb_false by (unfold d; lra). rewrite Reqb_false by exact Nv. rewrite present_some. fold n. rewrite Nat.eqb_refl. rewrite Reqb_false by exact Ns.
  cbn [negb orb]. f_equal.
  assert (Dn : d <> 0) by (unfold d; lra).
  rewrite <- (map_map (fun v0 => v0 / Rsum p) RtoC p). fold (shares p).
  assert (Ln : length (shares p) = n) by (unfold shares; now rewrite map_length).
  rewrite fftfreq_bins by exact Pn. unfold fft. rewrite map_length, Ln.
  set (V := Rabs v). assert (PV : 0 < V) by (now apply Rabs_pos_lt).
  assert (Comb : forall (F : C -> R -> C) (B : nat -> C) (f : nat -> R),
     combine (map f (seq 0 n)) (map Some (map2 F (map B (seq 0 n)) (map f (seq 0 n)))) = map (fun k => (f k, Some (F (B k) (f k)))) (seq 0 n)).
  { intros F B f. induction (seq 0 n) as [|k l IH]; [reflexivity|]. unfold map2 in *. cbn [map combine]. f_equal. exact IH. }
  assert (Hb : forall k, Cmult (fft_bin (map RtoC (shares p)) k) (cis (bin_frequency n k (d / V) * (2 * PI) * (m / V))) =
     advected V (bin_frequency n k (d / V)) (combine (map (fun j => INR j * d - m) (seq 0 n)) (shares p))).
  { intro k. rewrite (fft_bin_advected (shares p) d V k) by (rewrite ?Ln; auto). rewrite Ln.
    replace (map (fun j => INR j * d - m) (seq 0 n)) with (map (fun x => x + - m) (map (fun j => INR j * d) (seq 0 n))) by (rewrite map_map; apply map_ext; intro; ring).
    rewrite advected_shift by lra. f_equal. f_equal. field. lra. }
  destruct (Rltb_spec 0 v) as [L|L].
  - rewrite Comb. apply map_ext. intro k. cbv beta zeta. do 2 f_equal. replace v with V by (unfold V; apply Rabs_pos_eq; lra). apply Hb.
  - rewrite (Comb (fun z f => Cconj (Cmult z (cis (f * (2 * PI) * - (m / v)))))). apply map_ext. intro k. cbv beta zeta. do 2 f_equal.
    assert (EV : v = - V) by (unfold V; rewrite Rabs_left; lra).
    replace (- (m / v)) with (m / V) by (rewrite EV; field; lra). rewrite Hb.
    rewrite EV at 1. now rewrite advected_reverse by lra.
Qed.

Lemma Rsum_scale c (l : list R) : Rsum (map (fun v => c * v) l) = c * Rsum l.
Proof. induction l as [|a l IH]; [cbn; ring|]. cbn [map]. rewrite !Rsum_cons, IH. ring. Qed.
Lemma shares_total p : Rsum p <> 0 -> Rsum (shares p) = 1.
Proof.
  intro N. unfold shares. rewrite (map_ext _ (fun v => / Rsum p * v)) by (intro; unfold Rdiv; ring). rewrite Rsum_scale. now apply Rinv_l.
Qed.
Lemma advected_zero v sites : advected v 0 sites = RtoC (Rsum (map snd sites)).
Proof.
  unfold advected, RtoC. f_equal.
  - f_equal. apply map_ext. intro s. replace (2 * PI * 0 * (fst s / v)) with 0 by ring. rewrite cos_0. ring.
  - transitivity (- 0); [apply f_equal|ring]. induction sites as [|s l IH]; [reflexivity|]. cbn [map]. rewrite Rsum_cons, IH.
    replace (2 * PI * 0 * (fst s / v)) with 0 by ring. rewrite sin_0. ring.
Qed.
Lemma Csum_mod_le l : Cmod (Csum l) <= Rsum (map Cmod l).
Proof.
  induction l as [|a l IH]; [cbn; rewrite Cmod_0; lra|]. rewrite Csum_cons. cbn [map]. rewrite Rsum_cons.
  eapply Rle_trans; [apply Cmod_triangle|]. lra.
Qed.
Lemma advected_bound v f sites : (forall s, In s sites -> 0 <= snd s) -> Cmod (advected v f sites) <= Rsum (map snd sites).
Proof.
  intro H. rewrite advected_sum. eapply Rle_trans; [apply Csum_mod_le|]. right. rewrite map_map. f_equal. apply map_ext_in. intros s I.
  rewrite Cmod_mult, cis_mod, Cmod_R, Rmult_1_r. apply Rabs_pos_eq. now apply H.
Qed.
Lemma combine_snd {A B} (l : list A) (l' : list B) : length l = length l' -> map snd (combine l l') = l'.
Proof. revert l'. induction l as [|a l IH]; intros [|b l'] H; try discriminate; [reflexivity|]. cbn in *. f_equal. apply IH. lia. Qed.
Lemma equispaced_nth x0 dx n i : (i < n)%nat -> nth_error (equispaced x0 dx n) i = Some (x0 + INR i * dx).
Proof. intro H. unfold equispaced. rewrite nth_error_map, nth_error_seq by exact H. reflexivity. Qed.
