(** The cloud advection model is exact in a periodic frozen field. *)
From Coq Require Import String.
From Verif Require Import Prelude PreludeFacts RealBase Fl RealStat Dft Phase M_spatial M_cmv M_signal_corr M_signal_tf M_signal_plant Spec_spatial Spec_welch Spec_plant P_list P_plane P_dft P_welch P_plant P_cam P_filter X_signal_plant X_signal_cam X_signal_interp X_signal_filter X_signal_camsite X_signal_marcos Spec_cam_exact.
From Coquelicot Require Import Complex.
From Coq Require Import Lra Psatz Permutation.
Local Open Scope R_scope.

Definition memb (j : nat) (js : list nat) : bool := existsb (Nat.eqb j) js.
Lemma memb_spec j js : reflect (In j js) (memb j js).
Proof.
  apply iff_reflect. unfold memb. rewrite existsb_exists. split.
  - intro I. exists j. split; [exact I|apply Nat.eqb_refl].
  - intros (x & I & E). apply Nat.eqb_eq in E. now subst.
Qed.
Lemma pick_all n (f : nat -> C) : forall js, NoDup js -> (forall i, In i js -> (i < n)%nat) ->
  Csumn n (fun j => if memb j js then f j else RtoC 0) = Csum (map f js).
Proof.
  induction js as [|i js IH]; intros ND B.
  - cbn [memb existsb map]. unfold Csumn. clear. induction (seq 0 n) as [|x l IH]; [reflexivity|]. cbn [map Csum fold_right]. change (fold_right Cplus (RtoC 0)) with Csum. rewrite IH. cbn. ring.
  - inversion ND as [|? ? Ni ND']. subst.
    rewrite (Csumn_ext n _ (fun j => Cplus (if Nat.eqb j i then f j else RtoC 0) (if memb j js then f j else RtoC 0))).
    + rewrite Csumn_plus, Csumn_pick by (apply B; now left). rewrite IH; [reflexivity|exact ND'|intros; apply B; now right].
    + intros j _. cbn [memb existsb]. fold (memb j js). destruct (Nat.eqb_spec j i) as [->|D]; [|cbn; ring]. cbn [orb]. destruct (memb_spec i js); [contradiction|ring].
Qed.
Lemma pick_count n : forall js, NoDup js -> (forall i, In i js -> (i < n)%nat) ->
  Rsum (map (fun j => if memb j js then 1 else 0) (seq 0 n)) = INR (length js).
Proof.
  intros js ND B. pose proof (pick_all n (fun _ => RtoC 1) js ND B) as E.
  assert (F : fst (Csumn n (fun j => if memb j js then RtoC 1 else RtoC 0)) = Rsum (map (fun j => if memb j js then 1 else 0) (seq 0 n))).
  { rewrite Csumn_parts. cbn [fst]. apply Rsumn_ext. intros j _. destruct (memb j js); reflexivity. }
  rewrite <- F, E. clear. induction js as [|x l IH]; [reflexivity|]. cbn [map Csum fold_right]. change (fold_right Cplus (RtoC 0)) with Csum. cbn [fst Cplus RtoC]. rewrite IH. cbn [length]. rewrite S_INR. ring.
Qed.

Lemma Csum_scal_r {A} (g : A -> C) c l : Csum (map (fun i => Cmult (g i) c) l) = Cmult (Csum (map g l)) c.
Proof. induction l as [|x l IH]; [unfold Csum; cbn; ring|]. cbn [map Csum fold_right]. change (fold_right Cplus (RtoC 0)) with Csum. rewrite IH. ring. Qed.

(** Filter of square sites standing on the grid points numbered [js]. *)
Lemma camfilter_comb : forall proj pts v d ref dx shape (m n : nat) js, d <> (0, 0) -> v <> 0 -> 0 < dx -> lower shape = "square"%string ->
  (2 <= n)%nat -> INR n * dx = 2 * INR m -> pts <> [] -> NoDup js -> (forall i, In i js -> (i < n)%nat) ->
  (forall p, In p pts -> exists i, In i js /\ along d ref p = INR i * dx - INR m) ->
  (forall i, In i js -> exists p, In p pts /\ along d ref p = INR i * dx - INR m) ->
  get_camfilter proj (EastNorth pts) v d (EastNorth ref) dx 0 None shape (2 * INR m) =
  Ok (map (fun k => let f := bin_frequency n k (dx / Rabs v) in
     (f, Some (Cdiv (Csum (map (fun i => cis (- (2 * PI * f * ((INR i * dx - INR m) / v)))) js)) (RtoC (INR (length js)))))) (seq 0 n)).
Proof.
  intros proj pts v d ref dx shape m n js N Nv P Sh Ln E Np ND B Fw Bw. rewrite camfilter_plane by auto.
  set (cs := map (fun p => Some (inner (sub2 p ref) d / len d)) pts).
  destruct (square_value cs 0 None shape dx (2 * INR m) ltac:(lra) Sh) as (plant & xs & G & Gr & Lp & V). rewrite G. cbn [rbind fst snd].
  destruct (plant_grid_symmetric cs 0 None shape dx (2 * INR m) plant xs m n P eq_refl E G) as [Ex Q].
  assert (Lx : length xs = n) by (rewrite Ex; unfold equispaced; now rewrite map_length, seq_length).
  set (w := map (fun j => if memb j js then 1 else 0) (seq 0 n)).
  assert (Lw : length w = n) by (unfold w; now rewrite map_length, seq_length).
  assert (Pw : plant = map Some w).
  { apply nth_error_ext. intro j. unfold w. rewrite map_map, nth_error_map. destruct (lt_dec j n) as [Hj|Hj].
    - rewrite nth_error_seq by exact Hj. cbn [option_map].
      assert (Hx : nth_error xs j = Some (- INR m + INR j * dx)) by (rewrite Ex; now apply equispaced_nth).
      assert (Cov : covered (width_or dx None) 0 cs (- INR m + INR j * dx) <-> In j js).
      { unfold covered, reaches, width_or. split.
        - intros (c & Ic & K). unfold cs in Ic. apply in_map_iff in Ic. destruct Ic as (p & Ec & Ip). injection Ec as <-.
          destruct (Fw p Ip) as (i & Ii & Ai). change (inner (sub2 p ref) d / len d) with (along d ref p) in K. rewrite Ai in K.
          destruct (Nat.lt_trichotomy j i) as [O1|[O1|O1]]; [|rewrite O1; exact Ii|]; exfalso.
          + assert (Q1 : INR j + 1 <= INR i) by (rewrite <- S_INR; apply le_INR; lia). nra.
          + assert (Q1 : INR i + 1 <= INR j) by (rewrite <- S_INR; apply le_INR; lia). nra.
        - intro I. destruct (Bw j I) as (p & Ip & Ap). exists (along d ref p). split; [apply in_map_iff; exists p; split; [reflexivity|exact Ip]|]. rewrite Ap. lra. }
      destruct (V j _ Hx) as [[A ->]|[A ->]]; destruct (memb_spec j js) as [O1|O1]; try reflexivity; [apply Cov in A; contradiction|contradict A; now apply Cov].
    - replace (nth_error (seq 0 n) j) with (@None nat) by (symmetry; apply nth_error_None; rewrite seq_length; lia). apply nth_error_None. lia. }
  assert (Sw : Rsum w = INR (length js)) by (now apply pick_count).
  assert (Lj : INR (length js) <> 0).
  { apply not_0_INR. destruct pts as [|p pts']; [easy|]. destruct (Fw p (or_introl eq_refl)) as (i & Ii & _). destruct js; [easy|discriminate]. }
  rewrite Pw, Ex. rewrite <- Lw at 1. rewrite (cam_symmetric w (- INR m) dx v (-1)) by (rewrite ?Lw; auto; lra).
  rewrite Lw. f_equal. apply map_ext. intro k. cbv zeta. do 2 f_equal. set (f := bin_frequency n k (dx / Rabs v)).
  rewrite advected_sum, Csum_as_sumn, map_length, combine_length. unfold equispaced at 1. rewrite map_length, seq_length. unfold shares at 1. rewrite map_length, Lw, Nat.min_id.
  rewrite (Csumn_ext _ _ (fun j => if memb j js then (fun j => Cmult (cis (- (2 * PI * f * ((INR j * dx - INR m) / v)))) (Cinv (RtoC (INR (length js))))) j else RtoC 0)).
  - rewrite pick_all by auto. unfold Cdiv. now rewrite Csum_scal_r.
  - intros j Hj.
    rewrite nth_indep with (d' := (fun s : R * R => Cmult (RtoC (snd s)) (cis (- (2 * PI * f * (fst s / v))))) (0, 0)) by (rewrite map_length, combine_length; unfold shares, equispaced; rewrite !map_length, seq_length, Lw; lia).
    rewrite (map_nth (fun s : R * R => Cmult (RtoC (snd s)) (cis (- (2 * PI * f * (fst s / v)))))). rewrite combine_nth by (unfold shares, equispaced; now rewrite !map_length, seq_length, Lw).
    cbn [fst snd]. unfold equispaced. rewrite nth_map_seq by exact Hj. unfold shares. rewrite Sw. rewrite nth_indep with (d' := 0 / INR (length js)) by (rewrite map_length, Lw; exact Hj).
    rewrite (map_nth (fun v0 => v0 / INR (length js))). unfold w. rewrite nth_map_seq by exact Hj. destruct (memb j js).
    + replace (1 / INR (length js)) with (/ INR (length js)) by (field; exact Lj). rewrite RtoC_inv by exact Lj. replace (- INR m + INR j * dx) with (INR j * dx - INR m) by ring. apply Cmult_comm.
    + replace (0 / INR (length js)) with 0 by (field; exact Lj). ring.
Qed.

(** Distinct bins have distinct frequencies. *)
Lemma cycles_inj n a b : (a < n)%nat -> (b < n)%nat -> bin_cycles n a = bin_cycles n b -> a = b.
Proof. intros A B. unfold bin_cycles. destruct (Nat.ltb_spec (2 * a) n), (Nat.ltb_spec (2 * b) n); lia. Qed.
Lemma frequencies_distinct n step : step <> 0 -> NoDup (map (fun k => bin_frequency n k step) (seq 0 n)).
Proof.
  intro S0. destruct (Nat.eq_dec n 0) as [->|Nn]; [constructor|]. assert (N0 : INR n <> 0) by (now apply not_0_INR).
  apply (NoDup_nth _ 0). intros i j Hi Hj E. rewrite map_length, seq_length in Hi, Hj. rewrite !nth_map_seq in E by assumption.
  apply (cycles_inj n); auto. apply eq_IZR. unfold bin_frequency in E. unfold Rdiv in E. apply Rmult_eq_reg_r in E; [exact E|]. apply Rinv_neq_0_compat. now apply Rmult_integral_contrapositive_currified.
Qed.
Lemma cycles_bounds n k : (k < n)%nat -> (- Z.of_nat n <= 2 * bin_cycles n k < Z.of_nat n)%Z.
Proof. intro K. unfold bin_cycles. destruct (Nat.ltb_spec (2 * k) n); lia. Qed.
Lemma cycles_onto n c : (- Z.of_nat n <= 2 * c < Z.of_nat n)%Z -> exists k, (k < n)%nat /\ bin_cycles n k = c.
Proof.
  intro B. destruct (Z.ltb_spec c 0) as [L|L].
  - exists (Z.to_nat (c + Z.of_nat n)). split; [lia|]. unfold bin_cycles. destruct (Nat.ltb_spec (2 * Z.to_nat (c + Z.of_nat n)) n); lia.
  - exists (Z.to_nat c). split; [lia|]. unfold bin_cycles. destruct (Nat.ltb_spec (2 * Z.to_nat c) n); lia.
Qed.
(** Every frequency of the signal is a frequency of the filter. *)
Lemma signal_bins N n M dt dx v k : (0 < M)%nat -> (k < N)%nat -> 0 < dx -> 0 < dt -> v <> 0 -> INR n * dx = INR M * (INR N * dt * Rabs v) -> dx <= dt * Rabs v ->
  exists k', (k' < n)%nat /\ bin_frequency N k dt = bin_frequency n k' (dx / Rabs v).
Proof.
  intros HM Hk Px Pt Nv E Le. assert (V : 0 < Rabs v) by (now apply Rabs_pos_lt). assert (N1 : 0 < INR N) by (apply lt_0_INR; lia). assert (M1 : 0 < INR M) by (now apply lt_0_INR).
  assert (Big : (M * N <= n)%nat).
  { apply INR_le. rewrite mult_INR. apply Rmult_le_reg_r with dx; [exact Px|]. rewrite E. replace (INR M * (INR N * dt * Rabs v)) with (INR M * INR N * (dt * Rabs v)) by ring. apply Rmult_le_compat_l; [apply Rmult_le_pos; lra|exact Le]. }
  pose proof (cycles_bounds N k Hk) as Bk. set (c := bin_cycles N k) in *.
  destruct (cycles_onto n (Z.of_nat M * c)) as (k' & Hk' & Ek').
  { assert (Z.of_nat M * Z.of_nat N <= Z.of_nat n)%Z by (rewrite <- Nat2Z.inj_mul; lia). nia. }
  exists k'. split; [exact Hk'|]. unfold bin_frequency. rewrite Ek'. fold c. rewrite mult_IZR, <- INR_IZR_INZ.
  replace (INR n * (dx / Rabs v)) with (INR n * dx / Rabs v) by (field; lra). rewrite E. field. repeat split; lra.
Qed.

Lemma op_H_plus n H H' x j : op n (fun k => Cplus (H k) (H' k)) x j = Cplus (op n H x j) (op n H' x j).
Proof.
  unfold op, Cdiv. rewrite <- Cmult_plus_distr_r. f_equal. rewrite <- Csumn_plus. apply Csumn_ext. intros k _. ring.
Qed.
Lemma op_H_zero n x j : op n (fun _ => RtoC 0) x j = RtoC 0.
Proof.
  unfold op, Cdiv. rewrite (Csumn_ext n _ (fun k => Cmult (RtoC 0) (cis (ang n k j)))) by (intros; ring). rewrite Csumn_scal. ring.
Qed.
Lemma spectral_sum_of sig : forall (qs : list Z) (c : R),
  spectral_product sig (fun k => Cmult (RtoC c) (Csum (map (fun q => phasor (- (2 * PI * INR k * IZR q / INR (length sig)))) qs))) =
  map (fun t => c * Rsum (map (fun s => nth t s 0) (map (fun q => delayed q sig) qs))) (seq 0 (length sig)).
Proof.
  intros qs c. apply nth_ext with (d := 0) (d' := 0); [now rewrite spectral_length, map_length, seq_length|].
  intros j Hj. rewrite spectral_length in Hj. rewrite nth_map_seq by exact Hj. rewrite spectral_op, nth_map_seq by exact Hj.
  induction qs as [|q qs IH].
  - cbn [map]. rewrite Rsum_nil. rewrite (op_ext _ _ (fun _ => RtoC 0) _ (fun i => RtoC (nth i sig 0))); [|intros; unfold Csum; cbn; ring|reflexivity].
    rewrite op_H_zero. cbn. ring.
  - cbn [map]. rewrite Rsum_cons, Rmult_plus_distr_l, <- IH.
    rewrite (op_ext _ _ (fun k => Cplus (Cmult (RtoC c) (phasor (- (2 * PI * INR k * IZR q / INR (length sig))))) (Cmult (RtoC c) (Csum (map (fun q0 => phasor (- (2 * PI * INR k * IZR q0 / INR (length sig)))) qs)))) _ (fun i => RtoC (nth i sig 0))); [|intros k _; cbn [Csum fold_right]; change (fold_right Cplus (RtoC 0)) with Csum; ring|reflexivity].
    rewrite op_H_plus. cbn [fst Cplus]. f_equal.
    pose proof (spectral_delay sig (RtoC c) q) as E. rewrite spectral_op in E. apply (f_equal (fun l => nth j l 0)) in E. rewrite nth_map_seq in E by exact Hj. rewrite E. cbn [fst RtoC].
    rewrite nth_indep with (d' := c * 0) by (rewrite map_length; unfold delayed; now rewrite map_length, seq_length). now rewrite (map_nth (Rmult c)).
Qed.

Lemma grid_indices (n m : nat) dx u : forall qs : list Z, u <> 0 -> NoDup qs -> (forall q, In q qs -> exists i, (i < n)%nat /\ IZR q * u = INR i * dx - INR m) ->
  exists js, NoDup js /\ Forall2 (fun q i => (i < n)%nat /\ IZR q * u = INR i * dx - INR m) qs js.
Proof.
  intros qs U. induction qs as [|q qs IH]; intros ND H; [exists []; split; constructor|]. inversion ND as [|? ? Nq ND']. subst.
  destruct IH as (js & NJ & F); [exact ND'|intros; apply H; now right|]. destruct (H q (or_introl eq_refl)) as (i & Hi & Ei). exists (i :: js). split; [|constructor; auto].
  constructor; [|exact NJ]. intro I. apply Nq. clear - F Ei I U. induction F as [|q' i' qs js [_ E] F IH]; [destruct I|]. destruct I as [->|I]; [left|right; auto].
  apply eq_IZR. apply (Rmult_eq_reg_r u); [congruence|exact U].
Qed.
Lemma forall2_in_l {A B} (P : A -> B -> Prop) l l' : Forall2 P l l' -> forall a, In a l -> exists b, In b l' /\ P a b.
Proof. induction 1 as [|x y l l' Pxy F IH]; intros a I; [destruct I|]. destruct I as [->|I]; [exists y; split; [now left|exact Pxy]|]. destruct (IH a I) as (b & Ib & Pb). exists b. split; [now right|exact Pb]. Qed.
Lemma forall2_in_r {A B} (P : A -> B -> Prop) l l' : Forall2 P l l' -> forall b, In b l' -> exists a, In a l /\ P a b.
Proof. induction 1 as [|x y l l' Pxy F IH]; intros a I; [destruct I|]. destruct I as [->|I]; [exists x; split; [now left|exact Pxy]|]. destruct (IH a I) as (b & Ib & Pb). exists b. split; [now right|exact Pb]. Qed.

(*@ C118 A signal filtered with the cloud advection model of a plant is the average, over the distinct delays between the sites and the
    reference, of the signal delayed (around the end of the record), provided the filter has the frequencies of the signal. *)
Lemma cam_average : forall proj pts v d ref dx dt shape sig (m n M : nat) qs, d <> (0, 0) -> v <> 0 -> 0 < dx -> 0 < dt -> lower shape = "square"%string ->
  (2 <= length sig)%nat -> (0 < M)%nat -> INR n * dx = 2 * INR m -> INR n * dx = INR M * (INR (length sig) * dt * Rabs v) -> dx <= dt * Rabs v ->
  pts <> [] -> NoDup qs ->
  (forall p, In p pts -> exists q, In q qs /\ along d ref p = IZR q * (dt * v)) ->
  (forall q, In q qs -> exists p, In p pts /\ along d ref p = IZR q * (dt * v)) ->
  (forall q, In q qs -> exists i, (i < n)%nat /\ IZR q * (dt * v) = INR i * dx - INR m) ->
  exists filt, get_camfilter proj (EastNorth pts) v d (EastNorth ref) dx 0 None shape (2 * INR m) = Ok (map (fun r => (fst r, Some (snd r))) filt) /\
    apply_filter dt sig filt = Ok (mean_series (length sig) (map (fun q => delayed q sig) qs)).
Proof.
  intros proj pts v d ref dx dt shape sig m n M qs N Nv Px Pt Sh Ls HM Ex En Le Np ND Fw Bw Gr.
  assert (U : dt * v <> 0) by (apply Rmult_integral_contrapositive_currified; lra).
  assert (V : 0 < Rabs v) by (now apply Rabs_pos_lt).
  assert (Ln : (2 <= n)%nat).
  { apply INR_le. assert (2 <= INR (length sig)) by (apply (le_INR 2); exact Ls). assert (1 <= INR M) by (apply (le_INR 1); exact HM).
    change (INR 2) with 2. apply Rmult_le_reg_r with dx; [exact Px|]. rewrite En. replace (INR M * (INR (length sig) * dt * Rabs v)) with (INR M * INR (length sig) * (dt * Rabs v)) by ring.
    apply Rmult_le_compat; [lra..|nra|exact Le]. }
  destruct (grid_indices n m dx (dt * v) qs U ND Gr) as (js & NJ & F).
  assert (Fj : forall p, In p pts -> exists i, In i js /\ along d ref p = INR i * dx - INR m).
  { intros p Ip. destruct (Fw p Ip) as (q & Iq & Eq). destruct (forall2_in_l _ _ _ F q Iq) as (i & Ii & _ & Ei). exists i. split; [exact Ii|]. lra. }
  assert (Bj : forall i, In i js -> exists p, In p pts /\ along d ref p = INR i * dx - INR m).
  { intros i Ii. destruct (forall2_in_r _ _ _ F i Ii) as (q & Iq & _ & Ei). destruct (Bw q Iq) as (p & Ip & Ep). exists p. split; [exact Ip|]. lra. }
  assert (Lj : forall i, In i js -> (i < n)%nat) by (intros i Ii; now destruct (forall2_in_r _ _ _ F i Ii) as (q & Iq & L & _)).
  pose proof (camfilter_comb proj pts v d ref dx shape m n js N Nv Px Sh Ln Ex Np NJ Lj Fj Bj) as Cam. rewrite Cam.
  set (val := fun f => Cdiv (Csum (map (fun i => cis (- (2 * PI * f * ((INR i * dx - INR m) / v)))) js)) (RtoC (INR (length js)))).
  exists (map (fun k => (bin_frequency n k (dx / Rabs v), val (bin_frequency n k (dx / Rabs v)))) (seq 0 n)).
  split; [rewrite map_map; reflexivity|].
  assert (Dst : NoDup (map fst (map (fun k => (bin_frequency n k (dx / Rabs v), val (bin_frequency n k (dx / Rabs v)))) (seq 0 n)))).
  { rewrite map_map. cbn [fst]. apply frequencies_distinct. apply Rgt_not_eq. now apply Rdiv_lt_0_compat. }
  set (filt := map (fun k => (bin_frequency n k (dx / Rabs v), val (bin_frequency n k (dx / Rabs v)))) (seq 0 n)) in *.
  assert (Lf : (2 <= length filt)%nat) by (unfold filt; rewrite map_length, seq_length; exact Ln).
  assert (Has : forall k, (k < length sig)%nat -> In (bin_frequency (length sig) k dt, val (bin_frequency (length sig) k dt)) filt).
  { intros k Hk. destruct (signal_bins (length sig) n M dt dx v k HM Hk Px Pt Nv En Le) as (k' & Hk' & ->). unfold filt. apply in_map_iff. exists k'. split; [reflexivity|apply in_seq; lia]. }
  assert (Ng : INR (length sig) <> 0) by (apply not_0_INR; lia).
  assert (Lq : length qs = length js) by (clear - F; induction F; cbn; congruence).
  assert (Qn : INR (length qs) <> 0).
  { apply not_0_INR. destruct pts as [|p pts']; [easy|]. destruct (Fw p (or_introl eq_refl)) as (i & Ii & _). destruct qs; [easy|discriminate]. }
  assert (Val : forall k, (k < length sig)%nat -> val (bin_frequency (length sig) k dt) =
     Cmult (RtoC (/ INR (length qs))) (Csum (map (fun q => phasor (- (2 * PI * INR k * IZR q / INR (length sig)))) qs))).
  { intros k Hk. unfold val. rewrite <- Lq. unfold Cdiv. rewrite Cmult_comm, RtoC_inv by exact Qn. f_equal. f_equal.
    assert (One : forall q i, IZR q * (dt * v) = INR i * dx - INR m -> cis (- (2 * PI * bin_frequency (length sig) k dt * ((INR i * dx - INR m) / v))) = phasor (- (2 * PI * INR k * IZR q / INR (length sig)))).
    { intros q i <-. change (cis (- (2 * PI * bin_frequency (length sig) k dt * (IZR q * (dt * v) / v))) = cis (- (2 * PI * INR k * IZR q / INR (length sig)))).
      unfold bin_frequency. destruct (bin_cycles_turn (length sig) k) as [z ->]. rewrite plus_IZR, mult_IZR, <- !INR_IZR_INZ.
      rewrite <- (cis_plus_turns (- (2 * PI * INR k * IZR q / INR (length sig))) (- (z * q))). f_equal. rewrite opp_IZR, mult_IZR. field. repeat split; lra. }
    clear - F One. induction F as [|q i qs js [_ E] F IH]; [reflexivity|]. cbn [map]. rewrite IH. f_equal. now apply One. }
  rewrite (apply_value dt sig filt (fun k => Cmult (RtoC (/ INR (length qs))) (Csum (map (fun q => phasor (- (2 * PI * INR k * IZR q / INR (length sig)))) qs)))); auto.
  - f_equal. rewrite spectral_sum_of. unfold mean_series. apply map_ext. intro t. rewrite map_length. unfold Rdiv. ring.
  - lra.
  - intros k Hk. specialize (Has k Hk). split; [split; do 2 eexists; (split; [exact Has|apply Rle_refl])|]. rewrite <- Val by exact Hk. now apply interp_node.
Qed.

(*@ C118 If the clouds reach the sites at different times the model's prediction from the reference record is exactly the average of the
    records of the sites in a periodic frozen cloud field. *)
Lemma cam_exact : forall proj pts v d ref dx dt shape sig (m n M : nat) qs, d <> (0, 0) -> v <> 0 -> 0 < dx -> 0 < dt -> lower shape = "square"%string ->
  (2 <= length sig)%nat -> (0 < M)%nat -> INR n * dx = 2 * INR m -> INR n * dx = INR M * (INR (length sig) * dt * Rabs v) -> dx <= dt * Rabs v ->
  pts <> [] -> Forall2 (fun p q => along d ref p = IZR q * (dt * v) /\ exists i, (i < n)%nat /\ along d ref p = INR i * dx - INR m) pts qs -> NoDup qs ->
  exists filt, get_camfilter proj (EastNorth pts) v d (EastNorth ref) dx 0 None shape (2 * INR m) = Ok (map (fun r => (fst r, Some (snd r))) filt) /\
    apply_filter dt sig filt = Ok (mean_series (length sig) (map (fun q => delayed q sig) qs)).
Proof.
  intros proj pts v d ref dx dt shape sig m n M qs N Nv Px Pt Sh Ls HM Ex En Le Np F ND. apply cam_average with (n := n) (M := M); auto.
  - intros p Ip. destruct (forall2_in_l _ _ _ F p Ip) as (q & Iq & E & _). eauto.
  - intros q Iq. destruct (forall2_in_r _ _ _ F q Iq) as (p & Ip & E & _). eauto.
  - intros q Iq. destruct (forall2_in_r _ _ _ F q Iq) as (p & Ip & E & i & Hi & Ei). exists i. split; [exact Hi|congruence].
Qed.

(** Two sites abreast and one downwind of them. *)
Definition abreast : list (R * R) := [(0, 0); (0, 5); (1, 0)].
Lemma along_e p : along (1, 0) (0, 0) p = fst p.
Proof. unfold along, inner, sub2, len, inner. cbn [fst snd]. replace (1 * 1 + 0 * 0) with 1 by ring. rewrite sqrt_1. field. Qed.
Lemma abreast_filter : forall proj, exists filt, get_camfilter proj (EastNorth abreast) 1 (1, 0) (EastNorth (0, 0)) 1 0 None "square"%string (2 * INR 2) = Ok (map (fun r => (fst r, Some (snd r))) filt) /\
  apply_filter 1 [6; 0; 0; 0] filt = Ok [3; 3; 0; 0].
Proof.
  intro proj. destruct (cam_average proj abreast 1 (1, 0) (0, 0) 1 1 "square"%string [6; 0; 0; 0] 2 4 1 [0; 1]%Z) as (filt & G & A); try (cbn; lia); try lra; try easy.
  - intro E. injection E as E. lra.
  - cbn. lra.
  - cbn. rewrite Rabs_R1. lra.
  - rewrite Rabs_R1. lra.
  - repeat constructor; cbn; intuition lia.
  - intros p Ip. rewrite along_e. destruct Ip as [<-|[<-|[<-|[]]]]; cbn [fst]; [exists 0%Z|exists 0%Z|exists 1%Z]; (split; [cbn; tauto|lra]).
  - intros q Iq. destruct Iq as [<-|[<-|[]]]; [exists (0, 0)|exists (1, 0)]; rewrite along_e; cbn [fst]; (split; [cbn; tauto|lra]).
  - intros q Iq. destruct Iq as [<-|[<-|[]]]; [exists 2%nat|exists 3%nat]; (split; [lia|cbn; lra]).
  - exists filt. split; [exact G|]. rewrite A. f_equal. cbn. change (Pos.to_nat 1) with 1%nat. change (Pos.to_nat 2) with 2%nat. change (Pos.to_nat 3) with 3%nat. repeat (apply (f_equal2 (@cons R)); [lra|]). reflexivity.
Qed.
(*@ C118 Sites abreast of each other count once: the prediction is not the average over the sites then. *)
Lemma cam_abreast_refuted : ~ (forall proj pts v d ref dx dt shape sig (m n M : nat) qs, d <> (0, 0) -> v <> 0 -> 0 < dx -> 0 < dt -> lower shape = "square"%string ->
  (2 <= length sig)%nat -> (0 < M)%nat -> INR n * dx = 2 * INR m -> INR n * dx = INR M * (INR (length sig) * dt * Rabs v) -> dx <= dt * Rabs v ->
  pts <> [] -> Forall2 (fun p q => along d ref p = IZR q * (dt * v) /\ exists i, (i < n)%nat /\ along d ref p = INR i * dx - INR m) pts qs ->
  exists filt, get_camfilter proj (EastNorth pts) v d (EastNorth ref) dx 0 None shape (2 * INR m) = Ok (map (fun r => (fst r, Some (snd r))) filt) /\
    apply_filter dt sig filt = Ok (mean_series (length sig) (map (fun q => delayed q sig) qs))).
Proof.
  intro All. set (proj := fun (_ : Z) (_ : bool) (a b : R) => (a, b)).
  destruct (All proj abreast 1 (1, 0) (0, 0) 1 1 "square"%string [6; 0; 0; 0] 2%nat 4%nat 1%nat [0; 0; 1]%Z) as (filt & G & A); try (cbn; lia); try lra; try easy.
  - intro E. injection E as E. lra.
  - cbn. lra.
  - cbn. rewrite Rabs_R1. lra.
  - rewrite Rabs_R1. lra.
  - unfold abreast. repeat apply Forall2_cons; [..|apply Forall2_nil]; rewrite along_e; cbn [fst].
    + split; [lra|]. exists 2%nat. split; [lia|cbn; lra].
    + split; [lra|]. exists 2%nat. split; [lia|cbn; lra].
    + split; [lra|]. exists 3%nat. split; [lia|cbn; lra].
  - destruct (abreast_filter proj) as (filt' & G' & A'). rewrite G in G'. injection G' as G'.
    assert (E : filt = filt').
    { clear - G'. revert filt' G'. induction filt as [|[f z] l IH]; intros [|[f' z'] l'] E; try discriminate; [reflexivity|]. cbn in E. injection E as -> -> E. f_equal. auto. }
    subst filt'. rewrite A in A'. injection A' as A'. cbn in A'. change (Pos.to_nat 1) with 1%nat in A'. change (Pos.to_nat 2) with 2%nat in A'. change (Pos.to_nat 3) with 3%nat in A'. cbn in A'. lra.
Qed.
(*@ex C118 Two sites, the second one step downwind, and a record of four samples. *)
Lemma cam_exact_example : forall proj, exists filt, get_camfilter proj (EastNorth [(0, 0); (1, 0)]) 1 (1, 0) (EastNorth (0, 0)) 1 0 None "square"%string (2 * INR 2) = Ok (map (fun r => (fst r, Some (snd r))) filt) /\
  apply_filter 1 [6; 0; 0; 2] filt = Ok [4; 3; 0; 1].
Proof.
  intro proj. destruct (cam_exact proj [(0, 0); (1, 0)] 1 (1, 0) (0, 0) 1 1 "square"%string [6; 0; 0; 2] 2 4 1 [0; 1]%Z) as (filt & G & A); try (cbn; lia); try lra; try easy.
  - intro E. injection E as E. lra.
  - cbn. lra.
  - cbn. rewrite Rabs_R1. lra.
  - rewrite Rabs_R1. lra.
  - repeat apply Forall2_cons; [..|apply Forall2_nil]; rewrite along_e; cbn [fst].
    + split; [lra|]. exists 2%nat. split; [lia|cbn; lra].
    + split; [lra|]. exists 3%nat. split; [lia|cbn; lra].
  - repeat constructor; cbn; intuition lia.
  - exists filt. split; [exact G|]. rewrite A. f_equal. cbn. change (Pos.to_nat 1) with 1%nat. change (Pos.to_nat 2) with 2%nat. change (Pos.to_nat 3) with 3%nat. repeat (apply (f_equal2 (@cons R)); [lra|]). reflexivity.
Qed.

Lemma deviations_as l : l <> [] -> deviations l = Rsum (map (fun x => x ^ 2) l) - INR (length l) * (Rmean l) ^ 2.
Proof.
  intro N. assert (L : INR (length l) <> 0) by (apply not_0_INR; destruct l; [easy|discriminate]). unfold deviations.
  change (Rsum l / INR (length l)) with (Rmean l). set (c := Rmean l).
  assert (G : forall k : list R, Rsum (map (fun x => (x - c) ^ 2) k) = Rsum (map (fun x => x ^ 2) k) - 2 * c * Rsum k + INR (length k) * c ^ 2).
  { induction k as [|x k IH]; [cbn; ring|]. cbn [map length]. rewrite !Rsum_cons, IH, S_INR. ring. }
  rewrite G. assert (E : Rsum l = INR (length l) * c) by (unfold c, Rmean; field; exact L). rewrite E. ring.
Qed.
Lemma smooth_core dt sig filt out : NoDup (map fst filt) -> (2 <= length filt)%nat -> In (0, RtoC 1) filt -> (forall f z, In (f, z) filt -> Cmod z <= 1) ->
  apply_filter dt sig filt = Ok out -> length out = length sig /\ Rmean out = Rmean sig /\ deviations out <= deviations sig.
Proof.
  intros ND L DC Ps A. destruct (filter_values dt sig filt out ND L A) as (Ls & Dt & H & Eo & _). assert (Lo : length out = length sig) by (rewrite Eo; apply spectral_length).
  pose proof (apply_mean dt sig filt out (RtoC 1) ND L DC A) as Mn. cbn [fst RtoC] in Mn. rewrite Rmult_1_l in Mn.
  pose proof (apply_energy dt sig filt out 1 ND L Ps A) as En. split; [exact Lo|]. split; [exact Mn|].
  rewrite !deviations_as by (intros ->; cbn in *; lia). rewrite Mn, Lo. lra.
Qed.
Lemma nearest_index m n dx t : 0 < dx -> INR n * dx = 2 * INR m -> - INR m <= t <= INR m - dx -> exists i, (i < n)%nat /\ reaches dx (t - 0) (- INR m + INR i * dx).
Proof.
  intros P E B. set (u := (t + INR m) / dx - 1 / 2). destruct (archimed u) as [A1 A2]. set (z := up u) in *.
  assert (Dv : (t + INR m) / dx * dx = t + INR m) by (field; lra).
  assert (U0 : - (1 / 2) <= u) by (unfold u; assert (0 <= (t + INR m) / dx) by (apply Rmult_le_pos; [lra|left; now apply Rinv_0_lt_compat]); lra).
  assert (Un : u <= INR n - 3 / 2). { unfold u. assert ((t + INR m) / dx <= INR n - 1); [|lra]. apply Rmult_le_reg_r with dx; [exact P|]. rewrite Dv. nra. }
  assert (Z0 : (0 <= z)%Z) by (assert (IZR z > -1) by lra; assert (-1 < z)%Z by (apply lt_IZR; lra); lia).
  (* the smallest whole number not below u *)
  destruct (Req_dec (IZR z - u) 1) as [Q|Q].
  - assert (Z1 : (0 <= z - 1)%Z) by (assert (-1 < z - 1)%Z by (apply lt_IZR; rewrite minus_IZR; lra); lia).
    exists (Z.to_nat (z - 1)). assert (Ei : INR (Z.to_nat (z - 1)) = u) by (rewrite INR_IZR_INZ, Z2Nat.id by exact Z1; rewrite minus_IZR; lra). split.
    + apply INR_lt. rewrite Ei. lra.
    + unfold reaches. rewrite Ei. unfold u. lra.
  - exists (Z.to_nat z). assert (Ei : INR (Z.to_nat z) = IZR z) by (rewrite INR_IZR_INZ, Z2Nat.id by exact Z0; reflexivity). split.
    + apply INR_lt. rewrite Ei. assert (z < Z.of_nat n)%Z; [|rewrite INR_IZR_INZ; now apply IZR_lt].
      apply lt_IZR. rewrite <- INR_IZR_INZ. lra.
    + unfold reaches. rewrite Ei. assert (u * dx = t + INR m - dx / 2) by (unfold u; lra). nra.
Qed.

(*@ C118 Without any condition on the times of arrival: when the clouds move at least two grid steps per sample and a site lies on the
    grid, the filtered record has the length and mean of the reference record and deviates from it no more; likewise for the Marcos
    filter on the same frequencies. *)
Lemma cam_smooths : forall proj pts v d ref dx dt shape sig s (m n : nat), d <> (0, 0) -> v <> 0 -> 0 < dx -> 0 < dt -> lower shape = "square"%string ->
  (2 <= length sig)%nat -> (3 <= n)%nat -> INR n * dx = 2 * INR m -> 2 * dx <= dt * Rabs v ->
  (exists p, In p pts /\ - INR m <= along d ref p <= INR m - dx) -> 0 < s ->
  exists filt mfilt out mout,
    get_camfilter proj (EastNorth pts) v d (EastNorth ref) dx 0 None shape (2 * INR m) = Ok (map (fun r => (fst r, Some (snd r))) filt) /\
    get_marcosfilter s (Some (map fst filt)) = map (fun r => (fst r, Some (snd r))) mfilt /\
    apply_filter dt sig filt = Ok out /\ apply_filter dt sig mfilt = Ok mout /\
    (length out = length sig /\ Rmean out = Rmean sig /\ deviations out <= deviations sig) /\
    (length mout = length sig /\ Rmean mout = Rmean sig /\ deviations mout <= deviations sig).
Proof.
  intros proj pts v d ref dx dt shape sig s m n N Nv Px Pt Sh Ls Ln Ex Le (p & Ip & Bp) Ss.
  assert (V : 0 < Rabs v) by (now apply Rabs_pos_lt).
  rewrite camfilter_plane by (auto; intros ->; destruct Ip).
  set (cs := map (fun p => Some (inner (sub2 p ref) d / len d)) pts).
  destruct (square_value cs 0 None shape dx (2 * INR m) ltac:(lra) Sh) as (plant & xs & G & Gr & Lp & Vp). rewrite G. cbn [rbind fst snd].
  destruct (plant_grid_symmetric cs 0 None shape dx (2 * INR m) plant xs m n Px eq_refl Ex G) as [Exs Q].
  assert (Lx : length xs = n) by (rewrite Exs; unfold equispaced; now rewrite map_length, seq_length).
  destruct (nearest_index m n dx (along d ref p) Px Ex Bp) as (i & Hi & Ri).
  assert (Pl : exists w, plant = map Some w /\ (forall a, In a w -> 0 <= a) /\ 0 < Rsum w).
  { assert (Ent : forall a, In a plant -> a = Some 1 \/ a = Some 0).
    { intros a Ia. apply In_nth_error in Ia. destruct Ia as [j Hj]. destruct (nth_error xs j) as [x|] eqn:Exj.
      - destruct (Vp j x Exj) as [[_ K]|[_ K]]; rewrite K in Hj; injection Hj as <-; auto.
      - apply nth_error_None in Exj. assert (j < length plant)%nat by (apply nth_error_Some; congruence). lia. }
    assert (Hx : nth_error xs i = Some (- INR m + INR i * dx)) by (rewrite Exs; now apply equispaced_nth).
    assert (I1 : In (Some 1) plant).
    { destruct (Vp i _ Hx) as [[_ K]|[K _]]; [eapply nth_error_In; exact K|]. exfalso. apply K. exists (along d ref p). split; [|exact Ri]. unfold cs. apply in_map_iff. exists p. split; [reflexivity|exact Ip]. }
    clear - Ent I1. assert (W : exists w, plant = map Some w /\ forall a, In a w -> 0 <= a).
    { clear I1. induction plant as [|a l IH]; [exists []; split; [reflexivity|easy]|]. destruct IH as (w & -> & Pw); [intros; apply Ent; now right|].
      destruct (Ent a (or_introl eq_refl)) as [->| ->]; [exists (1 :: w)|exists (0 :: w)]; (split; [reflexivity|]); intros b [<-|Ib]; auto; lra. }
    destruct W as (w & -> & Pw). exists w. split; [reflexivity|]. split; [exact Pw|]. apply in_map_iff in I1. destruct I1 as (x & Exx & Ix). injection Exx as ->.
    apply in_split in Ix. destruct Ix as (l1 & l2 & ->). rewrite Rsum_app, Rsum_cons.
    assert (0 <= Rsum l1) by (apply Rsum_nonneg; intros; apply Pw, in_or_app; now left). assert (0 <= Rsum l2) by (apply Rsum_nonneg; intros; apply Pw, in_or_app; right; now right). lra. }
  destruct Pl as (w & -> & Pw & Sw). rewrite map_length, Lx in Lp.
  assert (Cv : plant1d_to_camfilter (map Some w) xs v = Ok (map (fun k => let f := bin_frequency n k (dx / Rabs v) in (f, Some (advected v f (combine (equispaced (- INR m) dx n) (shares w))))) (seq 0 n))).
  { rewrite Exs, <- Lp. apply (cam_symmetric w (- INR m) dx v (-1)); rewrite ?Lp; auto; [lia|lra]. }
  set (val := fun f => advected v f (combine (equispaced (- INR m) dx n) (shares w))).
  set (filt := map (fun k => (bin_frequency n k (dx / Rabs v), val (bin_frequency n k (dx / Rabs v)))) (seq 0 n)).
  assert (Cf : plant1d_to_camfilter (map Some w) xs v = Ok (map (fun r => (fst r, Some (snd r))) filt)) by (rewrite Cv; unfold filt; rewrite map_map; reflexivity).
  assert (Fst : map fst filt = map (fun k => bin_frequency n k (dx / Rabs v)) (seq 0 n)) by (unfold filt; rewrite map_map; reflexivity).
  assert (ND : NoDup (map fst filt)) by (rewrite Fst; apply frequencies_distinct; apply Rgt_not_eq; now apply Rdiv_lt_0_compat).
  assert (Lf : (2 <= length filt)%nat) by (unfold filt; rewrite map_length, seq_length; lia).
  assert (Psv : forall f z, In (f, z) filt -> Cmod z <= 1).
  { intros f z I. apply (cam_passive w xs v _ f z Pw Cf). apply in_map_iff. exists (f, z). split; [reflexivity|exact I]. }
  assert (DC : In (0, RtoC 1) filt).
  { destruct xs as [|x0 [|x1 rest]]; [cbn in Lx; lia..|]. assert (X01 : x1 <> x0).
    { assert (H0 := f_equal (fun l => nth 0 l 0) Exs). assert (H1 := f_equal (fun l => nth 1 l 0) Exs). unfold equispaced in H0, H1. rewrite nth_map_seq in H0 by lia. rewrite nth_map_seq in H1 by lia. cbn in H0, H1. lra. }
    destruct (cam_dc w x0 x1 rest v) as (rows & Er & _); auto; [destruct w; [cbn in Lp; lia|easy]|lra|].
    rewrite Cf in Er. injection Er as Er. destruct filt as [|[f0 z0] fl]; [discriminate|]. cbn in Er. injection Er as -> -> _. now left. }
  assert (Cover : forall rows : list (R * C), map fst rows = map fst filt -> forall k, (k < length sig)%nat -> in_range rows (bin_frequency (length sig) k dt)).
  { intros rows Er k Hk. assert (Has : forall c, (- Z.of_nat n <= 2 * c < Z.of_nat n)%Z -> exists z, In (IZR c / (INR n * (dx / Rabs v)), z) rows).
    { intros c Bc. destruct (cycles_onto n c Bc) as (k' & Hk' & Ek). assert (I : In (bin_frequency n k' (dx / Rabs v)) (map fst rows)) by (rewrite Er, Fst; apply in_map_iff; exists k'; split; [reflexivity|apply in_seq; lia]).
      apply in_map_iff in I. destruct I as ([g z] & Eg & I). cbn in Eg. exists z. unfold bin_frequency in Eg. rewrite Ek in Eg. now rewrite <- Eg. }
    set (c := Z.of_nat ((n - 1) / 2)).
    assert (Half : ((n - 1) / 2 * 2 <= n - 1 /\ n - 1 <= (n - 1) / 2 * 2 + 1)%nat) by (pose proof (Nat.div_mod (n - 1) 2 ltac:(lia)); pose proof (Nat.mod_upper_bound (n - 1) 2 ltac:(lia)); lia).
    assert (C4 : (Z.of_nat n <= 4 * c)%Z) by (unfold c; lia).
    destruct (Has c) as (z1 & I1); [unfold c; lia|]. destruct (Has (- c)%Z) as (z2 & I2); [unfold c; lia|].
    pose proof (cycles_bounds (length sig) k Hk) as Bk. assert (Ng : 0 < INR (length sig)) by (apply lt_0_INR; lia). assert (Nn : 0 < INR n) by (apply lt_0_INR; lia).
    assert (Top : / (2 * dt) <= IZR c / (INR n * (dx / Rabs v))).
    { apply IZR_le in C4. rewrite mult_IZR, <- INR_IZR_INZ in C4. apply Rle_trans with (Rabs v / (4 * dx)).
      - apply Rmult_le_reg_r with (4 * dx * dt); [nra|]. replace (/ (2 * dt) * (4 * dx * dt)) with (2 * dx) by (field; lra). replace (Rabs v / (4 * dx) * (4 * dx * dt)) with (dt * Rabs v) by (field; lra). exact Le.
      - replace (IZR c / (INR n * (dx / Rabs v))) with (4 * IZR c / INR n * (Rabs v / (4 * dx))) by (field; lra).
        rewrite <- (Rmult_1_l (Rabs v / (4 * dx))) at 1. apply Rmult_le_compat_r; [left; apply Rdiv_lt_0_compat; lra|]. apply Rmult_le_reg_r with (INR n); [exact Nn|]. unfold Rdiv. rewrite Rmult_assoc, Rinv_l by lra. lra. }
    assert (Bf : - / (2 * dt) <= bin_frequency (length sig) k dt <= / (2 * dt)).
    { unfold bin_frequency. set (b := bin_cycles (length sig) k) in *. destruct Bk as [B1 B2]. apply IZR_le in B1. apply IZR_lt in B2. rewrite opp_IZR, mult_IZR, <- INR_IZR_INZ in B1. rewrite mult_IZR, <- INR_IZR_INZ in B2.
      split; apply Rmult_le_reg_r with (INR (length sig) * dt); try nra.
      - replace (- / (2 * dt) * (INR (length sig) * dt)) with (- INR (length sig) / 2) by (field; lra). replace (IZR b / (INR (length sig) * dt) * (INR (length sig) * dt)) with (IZR b) by (field; lra). lra.
      - replace (/ (2 * dt) * (INR (length sig) * dt)) with (INR (length sig) / 2) by (field; lra). replace (IZR b / (INR (length sig) * dt) * (INR (length sig) * dt)) with (IZR b) by (field; lra). lra. }
    split.
    - exists (IZR (- c) / (INR n * (dx / Rabs v))), z2. split; [exact I2|]. rewrite opp_IZR. unfold Rdiv in *. rewrite Ropp_mult_distr_l_reverse. lra.
    - exists (IZR c / (INR n * (dx / Rabs v))), z1. split; [exact I1|]. lra. }
  set (q := fun f => f / (0.02 / sqrt s)). set (mfilt := map (fun f => (f, (/ (1 + q f ^ 2), - q f / (1 + q f ^ 2)))) (map fst filt) : list (R * C)).
  assert (Mv : get_marcosfilter s (Some (map fst filt)) = map (fun r => (fst r, Some (snd r))) mfilt) by (rewrite (proj1 (marcos_value s (map fst filt) Ss)); unfold mfilt; rewrite !map_map; reflexivity).
  assert (Mf : map fst mfilt = map fst filt) by (unfold mfilt; rewrite map_map; cbn [fst]; apply map_id).
  assert (Lm : (2 <= length mfilt)%nat) by (unfold mfilt; now rewrite !map_length).
  destruct (apply_outcome dt sig filt) as (_ & _ & O3 & _). destruct (O3 Ls ltac:(lra) ND Lf) as [O4 _]. destruct (O4 (Cover filt eq_refl)) as (out & Eo & _). clear O3 O4.
  destruct (apply_outcome dt sig mfilt) as (_ & _ & O3 & _). destruct (O3 Ls ltac:(lra) ltac:(now rewrite Mf) Lm) as [O4 _]. destruct (O4 (Cover mfilt Mf)) as (mout & Em & _). clear O3 O4.
  exists filt, mfilt, out, mout. split; [exact Cf|]. split; [exact Mv|]. split; [exact Eo|]. split; [exact Em|]. split.
  - apply (smooth_core dt sig filt out); auto.
  - apply (smooth_core dt sig mfilt mout); auto.
    + now rewrite Mf.
    + unfold mfilt. apply in_map_iff. exists 0. split.
      * f_equal. unfold q, RtoC. f_equal; unfold Rdiv; rewrite Rmult_0_l; cbn; field.
      * apply in_map_iff. exists (0, RtoC 1). split; [reflexivity|exact DC].
    + intros f z I. apply (marcos_magnitude s f z Ss). unfold mfilt in I. apply in_map_iff in I. destruct I as (f' & E & _). injection E as -> <-.
      rewrite (proj1 (marcos_value s [f] Ss)). reflexivity.
Qed.
(*@ex C118 A plant across the wind and a record that does not fit the grid. *)
Lemma cam_smooths_example : (0, 1) <> (0, 0) /\ 2 * 1 <= 1 * Rabs 20 /\ INR 8 * 1 = 2 * INR 4 /\ (2 <= length [5%R; (-1)%R; 0%R])%nat /\
  (exists p, In p [(0, 0); (7, 5/2)] /\ - INR 4 <= along (0, 1) (0, 0) p <= INR 4 - 1) /\ along (0, 1) (0, 0) (7, 5/2) = 5/2.
Proof.
  assert (A : forall p, along (0, 1) (0, 0) p = snd p).
  { intro p. unfold along, inner, sub2, len, inner. cbn [fst snd]. replace (0 * 0 + 1 * 1) with 1 by ring. rewrite sqrt_1. field. }
  split; [intro E; injection E as E; lra|]. split; [rewrite Rabs_right; lra|]. split; [cbn; lra|]. split; [cbn; lia|]. split; [|now rewrite A].
  exists (7, 5/2). split; [right; now left|]. rewrite A. cbn. lra.
Qed.
