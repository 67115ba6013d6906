(** Lemmas on the least-squares problems of tf_delay. *)
From Coq Require Import String.
From Verif Require Import Prelude PreludeFacts RealBase Fl RealStat Dft Phase Spec_tfdelay M_cmv M_signal_corr M_signal_tf P_signal P_dft P_phase P_list.
From Coq Require Import Lra Psatz.
From Coquelicot Require Import Complex.
Local Open Scope R_scope.

(** ** Separable affine problems *)
Definition lin_res (ab : list (R * R)) (d : list R) : list R := map (fun p => fst (fst p) + snd (fst p) * snd p) (combine ab d).
Definition lin_best (ab : list (R * R)) : list R := map (fun p => if Req_EM_T (snd p) 0 then 0 else - fst p / snd p) ab.
Lemma lin_opt ab : forall y, length y = length ab ->
  squares (lin_res ab (lin_best ab)) <= squares (lin_res ab y) /\
  (squares (lin_res ab (lin_best ab)) = squares (lin_res ab y) ->
   dist2 (lin_best ab) (map (fun _ => 0) ab) <= dist2 y (map (fun _ => 0) ab) /\
   (dist2 (lin_best ab) (map (fun _ => 0) ab) = dist2 y (map (fun _ => 0) ab) -> y = lin_best ab)).
Proof.
  induction ab as [|[a b] ab IH]; intros [|y0 y] L; try discriminate L.
  - cbn. split; [lra|]. intros _. split; [lra|reflexivity].
  - injection L as L. destruct (IH y L) as [I1 I2]. 
    unfold squares, dist2, lin_res in *. cbn [lin_best map combine fst snd]. fold (lin_best ab). rewrite !Rsum_cons.
    set (sx := Rsum (map (fun x => x ^ 2) (map (fun p => fst (fst p) + snd (fst p) * snd p) (combine ab (lin_best ab))))) in *.
    set (sy := Rsum (map (fun x => x ^ 2) (map (fun p => fst (fst p) + snd (fst p) * snd p) (combine ab y)))) in *.
    set (dx := Rsum (map (fun p => (fst p - snd p) ^ 2) (combine (lin_best ab) (map (fun _ => 0) ab)))) in *.
    set (dy := Rsum (map (fun p => (fst p - snd p) ^ 2) (combine y (map (fun _ => 0) ab)))) in *.
    destruct (Req_EM_T b 0) as [-> |B].
    + replace ((a + 0 * 0) ^ 2) with (a ^ 2) by ring. replace ((a + 0 * y0) ^ 2) with (a ^ 2) by ring. split; [lra|].
      intro E. destruct (I2 ltac:(lra)) as [D1 D2]. pose proof (pow2_ge_0 (y0 - 0)) as P. replace ((0 - 0) ^ 2) with 0 by ring. split; [lra|].
      intro E2. assert (Y : (y0 - 0) ^ 2 = 0) by lra. assert (y0 = 0) by nra. subst y0. f_equal. apply D2. lra.
    + replace (a + b * (- a / b)) with 0 by (field; auto). pose proof (pow2_ge_0 (a + b * y0)) as P. split; [replace (0 ^ 2) with 0 by ring; lra|].
      intro E. assert (Y : (a + b * y0) ^ 2 = 0) by (replace (0 ^ 2) with 0 in E by ring; lra).
      assert (Y0 : y0 = - a / b). { assert (a + b * y0 = 0) by nra. apply Rmult_eq_reg_l with b; [|auto]. field_simplify; [lra|auto]. }
      subst y0. replace (0 ^ 2) with 0 in E by ring. destruct (I2 ltac:(lra)) as [D1 D2]. split; [lra|]. intro E2. f_equal. apply D2. lra.
Qed.
Lemma solve_linear ls ab res : solver ls -> (forall d, length d = length ab -> res d = lin_res ab d) ->
  ls res (map (fun _ => 0) ab) = lin_best ab.
Proof.
  intros S E. assert (Lb : length (lin_best ab) = length ab) by (unfold lin_best; now rewrite map_length).
  apply S; [now rewrite map_length|]. intros y Ly N. rewrite map_length in Ly. rewrite !E by auto.
  destruct (lin_opt ab y Ly) as [I1 I2]. destruct (Req_dec (squares (lin_res ab (lin_best ab))) (squares (lin_res ab y))) as [Q|Q]; [|left; lra].
  right. split; [exact Q|]. destruct (I2 Q) as [D1 D2]. destruct (Req_dec (dist2 (lin_best ab) (map (fun _ => 0) ab)) (dist2 y (map (fun _ => 0) ab))) as [W|W]; [|lra].
  exfalso. apply N. auto.
Qed.
(** ** One-parameter line through the origin, started at 1 *)
Definition line_best (pts : list (R * R)) : R := if Req_EM_T (sum_ff pts) 0 then 1 else - sum_fp pts / (2 * PI * sum_ff pts).
Lemma sum_ff_nonneg pts : 0 <= sum_ff pts.
Proof. apply Rsum_nonneg. intros z Hz. apply in_map_iff in Hz. destruct Hz as [u [<- _]]. apply pow2_ge_0. Qed.
Lemma line_squares pts d : squares (map (fun p => 2 * PI * fst p * - d - snd p) pts)
  = 4 * PI ^ 2 * sum_ff pts * d ^ 2 + 4 * PI * sum_fp pts * d + Rsum (map (fun p => snd p ^ 2) pts).
Proof.
  unfold squares, sum_ff, sum_fp. induction pts as [|p pts IH]; cbn [map]; rewrite ?Rsum_nil, ?Rsum_cons; [ring|]. rewrite IH. ring.
Qed.
Lemma solve_line ls pts res : solver ls -> (forall d, res d = map (fun p => 2 * PI * fst p * - nth 0 d 0 - snd p) pts) ->
  ls res [1] = [line_best pts].
Proof.
  intros S E. apply S; [reflexivity|]. intros [|y [|? ?]] Ly N; try discriminate Ly. rewrite !E. cbn [nth]. rewrite !line_squares.
  pose proof (sum_ff_nonneg pts) as F. pose proof PI_RGT_0 as P. unfold line_best in *. destruct (Req_EM_T (sum_ff pts) 0) as [Z|Z].
  - assert (Z2 : sum_fp pts = 0).
    { assert (G : forall p, In p pts -> fst p = 0).
      { intros p Hp. assert (Q : fst p ^ 2 = 0); [|nra]. apply (Rsum_zero_all (map (fun p => fst p ^ 2) pts)); auto.
        - intros z Hz. apply in_map_iff in Hz. destruct Hz as [u [<- _]]. apply pow2_ge_0.
        - apply in_map_iff. eauto. }
      unfold sum_fp. rewrite (Rsum_map_ext _ (fun _ => 0)); [rewrite Rsum_map_const; ring|]. intros p Hp. rewrite (G p Hp). ring. }
    right. rewrite Z, Z2. split; [ring|]. unfold dist2. cbn. assert (y <> 1) by congruence. assert (0 < (y - 1) ^ 2) by (assert (y - 1 <> 0) by lra; nra). lra.
  - left. set (X := sum_ff pts) in *. set (Y := sum_fp pts) in *. set (b := - Y / (2 * PI * X)) in *.
    assert (Yb : Y = - (2 * PI * X) * b) by (unfold b; field; split; lra).
    assert (Hy : y <> b) by congruence. assert (0 < (y - b) ^ 2) by (assert (y - b <> 0) by lra; nra).
    assert (0 < 4 * PI ^ 2 * X * (y - b) ^ 2).
    { apply Rmult_lt_0_compat; [|assumption]. apply Rmult_lt_0_compat; [|lra]. apply Rmult_lt_0_compat; [lra|apply pow_lt; lra]. }
    clearbody b. rewrite Yb.
    enough (Q : 4 * PI ^ 2 * X * y ^ 2 + 4 * PI * (- (2 * PI * X) * b) * y + Rsum (map (fun p => snd p ^ 2) pts)
            - (4 * PI ^ 2 * X * b ^ 2 + 4 * PI * (- (2 * PI * X) * b) * b + Rsum (map (fun p => snd p ^ 2) pts)) = 4 * PI ^ 2 * X * (y - b) ^ 2) by lra.
    ring.
Qed.

(** ** Masks and residuals *)
Lemma select_cons {A} b (m : list bool) (x : A) l : select (b :: m) (x :: l) = if b then x :: select m l else select m l.
Proof. unfold select. cbn. now destruct b. Qed.
Lemma select_length_eq {A B} (m : list bool) : forall (l : list A) (l' : list B), length l = length l' -> length (select m l) = length (select m l').
Proof. induction m as [|b m IH]; intros [|x l] [|y l'] E; try discriminate; try reflexivity. rewrite !select_cons. injection E as E. destruct b; cbn; auto. Qed.
Lemma bins_freq freqs : forall tf coh, length tf = length freqs -> length coh = length freqs -> map b_freq (bins_of freqs tf coh) = freqs.
Proof. induction freqs as [|f fs IH]; intros [|z tf] [|c coh] L1 L2; try discriminate; try reflexivity. cbn. f_equal. apply IH; cbn in *; lia. Qed.
Lemma bins_tf freqs : forall tf coh, length tf = length freqs -> length coh = length freqs -> map b_tf (bins_of freqs tf coh) = tf.
Proof. induction freqs as [|f fs IH]; intros [|z tf] [|c coh] L1 L2; try discriminate; try reflexivity. cbn. f_equal. apply IH; cbn in *; lia. Qed.
Lemma bins_coh freqs : forall tf coh, length tf = length freqs -> length coh = length freqs -> map b_coh (bins_of freqs tf coh) = coh.
Proof. induction freqs as [|f fs IH]; intros [|z tf] [|c coh] L1 L2; try discriminate; try reflexivity. cbn. f_equal. apply IH; cbn in *; lia. Qed.
Lemma freq_ok_below lim b : freq_ok lim (b_freq b) = if below_dec lim b then true else false.
Proof.
  unfold freq_ok. destruct lim as [l|]; [|destruct (below_dec None b) as [|n]; [reflexivity|exfalso; apply n; exact I]].
  destruct (Rltb_spec (b_freq b) l) as [H|H]; destruct (below_dec (Some l) b) as [B|B]; auto; cbn in B; lra.
Qed.
Lemma coh_ok_coherent lim b : coh_ok lim (b_coh b) = if coherent_dec lim b then true else false.
Proof.
  unfold coh_ok. destruct lim as [l|]; [|destruct (coherent_dec None b) as [|n]; [reflexivity|exfalso; apply n; exact I]].
  destruct (coherent_dec (Some l) b) as [B|B]; cbn in B.
  - destruct B as [v [-> L]]. destruct (Rltb_spec l v); [reflexivity|lra].
  - destruct (b_coh b) as [v|]; [|reflexivity]. destruct (Rltb_spec l v); [exfalso; apply B; eauto|reflexivity].
Qed.
Lemma select_bins {A} lim (g : bin -> A) bs :
  select (map (freq_ok lim) (map b_freq bs)) (map g bs) = map g (filter (fun b => if below_dec lim b then true else false) bs).
Proof.
  induction bs as [|b bs IH]; [reflexivity|]. cbn [map]. rewrite select_cons, freq_ok_below. cbn [filter].
  destruct (below_dec lim b); cbn [map]; now rewrite IH.
Qed.
Lemma mask_bins cl fl bs :
  mask_col cl fl (map b_freq bs) (map b_coh bs)
  = map (fun b => if below_dec fl b then if coherent_dec cl b then true else false else false) bs.
Proof.
  unfold mask_col, map2. induction bs as [|b bs IH]; [reflexivity|]. cbn [map combine fst snd]. rewrite freq_ok_below, coh_ok_coherent. f_equal; [|exact IH].
  destruct (below_dec fl b), (coherent_dec cl b); reflexivity.
Qed.
Lemma select_mask {A} (m : bin -> bool) (g : bin -> A) bs : select (map m bs) (map g bs) = map g (filter m bs).
Proof. induction bs as [|b bs IH]; [reflexivity|]. cbn [map]. rewrite select_cons. cbn [filter]. destruct (m b); cbn [map]; now rewrite IH. Qed.

Definition resid (d : R) (p : R * (option R * bool)) : R :=
  match fst (snd p) with None => 0 | Some ph => if snd (snd p) then ph - 2 * PI * fst p * - d else 0 end.
Definition pts_of (cl : option R) (use : list (bin * C)) (ph : list R) : list (R * R) :=
  map (fun q => (b_freq (fst (fst q)), snd q)) (filter (fun q => if coherent_dec cl (fst (fst q)) then true else false) (combine use ph)).
Lemma resid_gap d fs : forall (l : list (option R)) (m : list bool), (forall x, In x l -> x = None) -> Rsum (map (resid d) (combine fs (combine l m))) = 0.
Proof.
  induction fs as [|f fs IH]; intros [|x l] [|b m] H; try reflexivity. cbn [combine map]. rewrite Rsum_cons, IH by (intros; apply H; now right).
  rewrite (H x (or_introl eq_refl)). unfold resid. cbn. ring.
Qed.
Lemma resid_from cl d F : forall prev c,
  Rsum (map (resid d) (combine (map b_freq F) (combine (unwrap_from_nan prev c (map (option_map angle) (map b_tf F))) (map (coh_ok cl) (map b_coh F)))))
  = Rsum (map (fun p => snd p + 2 * PI * fst p * d) (pts_of cl (before_gap F) (unwrap_from prev c (map (fun p => angle (snd p)) (before_gap F))))).
Proof.
  induction F as [|b F IH]; intros prev c; [reflexivity|]. cbn [map before_gap]. destruct (b_tf b) as [z|] eqn:E.
  - cbn [option_map unwrap_from_nan map unwrap_from snd]. cbn [combine map]. rewrite Rsum_cons, IH.
    rewrite coh_ok_coherent. unfold pts_of at 2. cbn [combine filter fst snd]. destruct (coherent_dec cl b).
    + cbn [map fst snd]. rewrite Rsum_cons. unfold resid. cbn [fst snd]. unfold pts_of. ring.
    + unfold resid. cbn [fst snd]. unfold pts_of. ring.
  - cbn [option_map unwrap_from_nan]. change (b_freq b :: map b_freq F) with (map b_freq (b :: F)). change (coh_ok cl (b_coh b) :: map (coh_ok cl) (map b_coh F)) with (map (coh_ok cl) (map b_coh (b :: F))).
    rewrite resid_gap; [reflexivity|]. intros x Hx. apply in_map_iff in Hx. now destruct Hx as [? [<- _]].
Qed.
Lemma resid_all cl d F :
  Rsum (map (resid d) (combine (map b_freq F) (combine (unwrap_nan (map (option_map angle) (map b_tf F))) (map (coh_ok cl) (map b_coh F)))))
  = Rsum (map (fun p => snd p + 2 * PI * fst p * d) (pts_of cl (before_gap F) (unwrap (map (fun p => angle (snd p)) (before_gap F))))).
Proof.
  destruct F as [|b F]; [reflexivity|]. cbn [map before_gap]. destruct (b_tf b) as [z|] eqn:E.
  - cbn [option_map unwrap_nan map unwrap snd]. cbn [combine map]. rewrite Rsum_cons, resid_from.
    rewrite coh_ok_coherent. unfold pts_of at 2. cbn [combine filter fst snd]. destruct (coherent_dec cl b).
    + cbn [map fst snd]. rewrite Rsum_cons. unfold resid. cbn [fst snd]. unfold pts_of. ring.
    + unfold resid. cbn [fst snd]. unfold pts_of. ring.
  - cbn [option_map unwrap_nan]. change (b_freq b :: map b_freq F) with (map b_freq (b :: F)). change (coh_ok cl (b_coh b) :: map (coh_ok cl) (map b_coh F)) with (map (coh_ok cl) (map b_coh (b :: F))).
    rewrite resid_gap; [reflexivity|]. intros x Hx. apply in_map_iff in Hx. now destruct Hx as [? [<- _]].
Qed.
Lemma residual_points cl fl bs d :
  residual_col (map b_freq (filter (fun b => if below_dec fl b then true else false) bs))
    (unwrap_nan (map (option_map angle) (map b_tf (filter (fun b => if below_dec fl b then true else false) bs))))
    (map (coh_ok cl) (map b_coh (filter (fun b => if below_dec fl b then true else false) bs))) d
  = sum_p (multi_points cl fl bs) + 2 * PI * sum_f (multi_points cl fl bs) * d.
Proof.
  unfold residual_col. change (fun p : R * (option R * bool) => _) with (resid d). rewrite resid_all.
  unfold multi_points, sum_p, sum_f, pts_of. set (l := map _ (filter _ _)). 
  induction l as [|p l IH]; cbn [map]; rewrite ?Rsum_nil, ?Rsum_cons; [ring|]. rewrite IH. ring.
Qed.
Definition multi_delay (cl fl : option R) (bs : list bin) : R :=
  let pts := multi_points cl fl bs in if Req_EM_T (sum_f pts) 0 then 0 else - sum_p pts / (2 * PI * sum_f pts).
Definition all_missing (tf : list (option C)) : bool := forallb (fun z => match z with None => true | _ => false end) tf.
Lemma delay_multi_eq ls cl fl freqs cols : solver ls -> Forall (fun c => length (fst c) = length freqs /\ length (snd c) = length freqs) cols ->
  delay_multi ls cl fl freqs cols
  = map (fun c : list (option C) * list (option R) => if all_missing (fst c) then None else Some (multi_delay cl fl (bins_of freqs (fst c) (snd c)))) cols.
Proof.
  intros S F. unfold delay_multi.
  set (ab := map (fun c : list (option C) * list (option R) => let pts := multi_points cl fl (bins_of freqs (fst c) (snd c)) in (sum_p pts, 2 * PI * sum_f pts)) cols).
  match goal with |- map2 _ _ (ls ?res ?x0) = _ => replace (ls res x0) with (lin_best ab) end.
  - unfold map2, ab. clear S ab. induction cols as [|c cols IH]; [reflexivity|]. inversion F; subst. cbn [map combine lin_best fst snd] in *. f_equal; [|apply IH; auto].
    unfold all_missing. destruct (forallb _ (fst c)); [reflexivity|]. f_equal. unfold multi_delay.
    set (pts := multi_points cl fl (bins_of freqs (fst c) (snd c))). pose proof PI_RGT_0.
    destruct (Req_EM_T (sum_f pts) 0) as [Z|Z]; destruct (Req_EM_T (2 * PI * sum_f pts) 0) as [Q|Q]; auto.
    + exfalso. apply Q. rewrite Z. ring.
    + exfalso. apply Z. apply Rmult_integral in Q. destruct Q as [Q|Q]; [lra|exact Q].
  - symmetry. replace (map (fun _ : list (option C) * list (option R) => 0) cols) with (map (fun _ : R * R => 0) ab) by (unfold ab; now rewrite map_map).
    apply solve_linear; [exact S|]. intros d Ld. unfold lin_res, ab in *. clear S. rewrite map_length in Ld.
    revert d Ld. induction cols as [|c cols IH]; intros [|d0 d] Ld; try discriminate Ld; [reflexivity|].
    inversion F as [|? ? [F1 F2] F']; subst. cbn [map combine fst snd]. f_equal; [|apply IH; auto].
    set (bs := bins_of freqs (fst c) (snd c)).
    replace (fst c) with (map b_tf bs) by (now apply bins_tf). replace (snd c) with (map b_coh bs) by (now apply bins_coh).
    replace freqs with (map b_freq bs) by (now apply bins_freq).
    rewrite (map_map b_coh (coh_ok cl) bs), !select_bins, <- (map_map b_coh (coh_ok cl)). apply residual_points.
Qed.
(** ** Method 'fit' *)
Lemma present_short {A} (l : list (option A)) : In None l -> (length (present l) < length l)%nat.
Proof.
  assert (E1 : forall (x : A) m, present (Some x :: m) = x :: present m) by reflexivity.
  assert (E2 : forall m : list (option A), present (None :: m) = present m) by reflexivity.
  intro H. assert (G : forall m : list (option A), (length (present m) <= length m)%nat).
  { induction m as [|[x|] m IH]; [cbn; lia|rewrite E1; cbn [length]; lia|rewrite E2; cbn [length]; lia]. }
  induction l as [|[x|] l IH]; [easy| |rewrite E2; cbn [length]; specialize (G l); lia].
  rewrite E1. cbn [length]. destruct H as [H|H]; [discriminate|]. specialize (IH H). lia.
Qed.
Lemma unwrap_from_nan_none l : forall prev c, In None l -> In None (unwrap_from_nan prev c l).
Proof. induction l as [|[q|] r IH]; intros prev c H; [easy| |left; reflexivity]. cbn. right. apply IH. destruct H; [discriminate|auto]. Qed.
Lemma unwrap_nan_none l : In None l -> In None (unwrap_nan l).
Proof. destruct l as [|[q|] r]; intro H; [easy| |left; reflexivity]. cbn. right. apply unwrap_from_nan_none. destruct H; [discriminate|auto]. Qed.
(** The points of a list of bins that all have a value. *)
Definition fit_points (bs : list bin) (zs : list C) : list (R * R) := combine (map b_freq bs) (unwrap (map angle zs)).
Lemma delay_fit_eq ls cl fl bs zs : solver ls -> map b_tf (used cl fl bs) = map Some zs -> zs <> [] ->
  delay_fit ls cl fl (map b_freq bs) (map b_tf bs) (map b_coh bs) = Some (line_best (fit_points (used cl fl bs) zs)).
Proof.
  intros S E N. unfold delay_fit. rewrite mask_bins, !select_mask. fold (used cl fl bs). rewrite E.
  replace (map (option_map angle) (map Some zs)) with (map Some (map angle zs)) by (rewrite !map_map; reflexivity).
  rewrite unwrap_nan_some, present_map_Some. rewrite (map_length Some), Nat.eqb_refl.
  assert (L : length (used cl fl bs) = length zs) by (apply (f_equal (@length _)) in E; now rewrite !map_length in E).
  destruct (Nat.eqb_spec (length (map b_freq (used cl fl bs))) 0) as [Z|_]; [exfalso; rewrite map_length, L in Z; apply N; now apply length_zero_iff_nil|].
  cbn [orb negb]. rewrite (solve_line ls (fit_points (used cl fl bs) zs)); [reflexivity|exact S|].
  intro d. unfold fit_points, map2. reflexivity.
Qed.
Lemma delay_fit_nan ls cl fl bs : used cl fl bs = [] \/ In None (map b_tf (used cl fl bs)) ->
  delay_fit ls cl fl (map b_freq bs) (map b_tf bs) (map b_coh bs) = None.
Proof.
  intro H. unfold delay_fit. rewrite mask_bins, !select_mask. fold (used cl fl bs). destruct H as [-> |H]; [reflexivity|].
  set (ys := unwrap_nan _). assert (G : In None ys).
  { unfold ys. apply unwrap_nan_none. apply in_map_iff. exists None. auto. }
  apply present_short in G. destruct (Nat.eqb_spec (length (present ys)) (length ys)); [lia|]. now rewrite orb_true_r.
Qed.
(** ** Phases of a pure delay *)
Lemma angle_of r t : 0 < r -> same_turn (angle (Cmult (RtoC r) (cis t))) t.
Proof.
  intro P. set (z := Cmult (RtoC r) (cis t)). assert (M : Cmod z = r) by (unfold z; rewrite Cmod_mult, cis_mod, Cmod_R, Rabs_pos_eq by lra; ring).
  apply cis_inj. pose proof (polar z) as Q. rewrite M in Q. unfold z at 2 in Q.
  assert (R0 : RtoC r <> RtoC 0) by (intro Z; apply RtoC_inj in Z; lra).
  replace (cis (angle z)) with (Cmult (Cinv (RtoC r)) (Cmult (RtoC r) (cis (angle z)))) by (field; auto). rewrite Q. field. auto.
Qed.
Lemma angle_exact r t : 0 < r -> - PI < t <= PI -> angle (Cmult (RtoC r) (cis t)) = t.
Proof.
  intros P T. apply same_turn_close; [now apply angle_of|]. pose proof (angle_range (Cmult (RtoC r) (cis t))). apply Rabs_def1; lra.
Qed.
(** Unwrapped angles of a delayed signal: the straight line -2 pi f d, when it starts inside half a turn
    and steps by less than half a turn. *)
Lemma unwrap_delay (fz : list (R * C)) d :
  (forall f z, In (f, z) fz -> exists r, 0 < r /\ z = Cmult (RtoC r) (cis (- (2 * PI * f * d)))) ->
  (forall f z r, fz = (f, z) :: r -> Rabs (f * d) < / 2) ->
  (forall i, (S i < length fz)%nat -> Rabs ((fst (nth (S i) fz (0, RtoC 0)) - fst (nth i fz (0, RtoC 0))) * d) < / 2) ->
  unwrap (map (fun p => angle (snd p)) fz) = map (fun p => - (2 * PI * fst p * d)) fz.
Proof.
  intros H1 H2 H3. pose proof PI_RGT_0 as P.
  destruct fz as [|[f0 z0] r0]; [reflexivity|]. specialize (H2 f0 z0 r0 eq_refl). set (fz := (f0, z0) :: r0) in *.
  assert (Nz : nth 0 fz (0, RtoC 0) = (f0, z0)) by reflexivity. assert (L0 : (0 < length fz)%nat) by (cbn; lia).
  clearbody fz. clear r0.
  apply nth_ext with (d := 0) (d' := 0); [now rewrite unwrap_length, !map_length|]. intros i Hi. rewrite unwrap_length, map_length in Hi.
  assert (A : forall j, (j < length fz)%nat -> nth j (map (fun p => angle (snd p)) fz) 0 = angle (snd (nth j fz (0, RtoC 0)))).
  { intros j Hj. rewrite nth_indep with (d' := angle (snd (0, RtoC 0))) by (now rewrite map_length). apply (map_nth (fun p => angle (snd p))). }
  rewrite (unwrap_recovers (map (fun p => angle (snd p)) fz) (fun j => - (2 * PI * fst (nth j fz (0, RtoC 0)) * d))).
  - rewrite A, Nz by auto. cbn [snd fst].
    assert (E0 : angle z0 = - (2 * PI * f0 * d)).
    { destruct (H1 f0 z0) as (r & Pr & ->); [rewrite <- Nz; now apply nth_In|]. apply angle_exact; [auto|]. apply Rabs_def2 in H2. nra. }
    rewrite E0. rewrite nth_indep with (d' := - (2 * PI * fst (0, RtoC 0) * d)) by (now rewrite map_length).
    rewrite (map_nth (fun p => - (2 * PI * fst p * d))). lra.
  - intros j Hj. rewrite map_length in Hj. rewrite A by auto. destruct (nth j fz (0, RtoC 0)) as [f z] eqn:E. cbn [fst snd].
    destruct (H1 f z) as (r & Pr & ->); [rewrite <- E; now apply nth_In|]. now apply angle_of.
  - intros j Hj. rewrite map_length in Hj. specialize (H3 j Hj). apply Rabs_def2 in H3. apply Rabs_def1; nra.
  - now rewrite map_length.
Qed.
