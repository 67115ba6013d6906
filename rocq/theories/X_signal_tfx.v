(** compute_delays_tf: composition, mean coherence and correlation metrics (C52, C53). *)
From Coq Require Import String.
From Verif Require Import Prelude PreludeFacts RealBase Fl RealStat Dft Phase Spec_signal Spec_welch Spec_tfdelay M_cmv M_signal_corr M_signal_tf P_signal P_corr P_delay P_dft P_welch P_tf P_phase P_list P_tfdelay P_tfx X_signal_corr X_signal_psd X_signal_tf X_signal_tfdelay.
From Coq Require Import Lra Psatz.
From Coquelicot Require Import Complex Rcomplements.
Local Open Scope string_scope.
Local Open Scope R_scope.

(** Normalised cross-correlation of two signals at lag [L]. *)
Definition ncc (a b : list R) (L : Z) : R :=
  lag_sum (centred a) (centred b) L / (sqrt (energy (centred a)) * sqrt (energy (centred b))).
(** Average coherence of the bins below a frequency, a missing coherence counting 0. *)
Definition coh_or_0 (b : bin) : R := match b_coh b with Some v => v | None => 0 end.
Definition average_coherence (lim : R) (bs : list bin) : option R :=
  let l := filter (fun b => if Rlt_dec (b_freq b) lim then true else false) bs in
  match l with [] => None | _ => Some (Rsum (map coh_or_0 l) / INR (length l)) end.

Lemma mean_coh_eq lim bs : mean_coh (map b_freq bs) lim (map b_coh bs) = average_coherence lim bs.
Proof.
  unfold mean_coh, average_coherence. set (l := filter (fun b => if Rlt_dec (b_freq b) lim then true else false) bs).
  rewrite map_map. set (m := map (fun b => Rltb (b_freq b) lim) bs).
  assert (M : m = map (fun b => if Rlt_dec (b_freq b) lim then true else false) bs).
  { unfold m. apply map_ext. intro b. destruct (Rltb_spec (b_freq b) lim), (Rlt_dec (b_freq b) lim); auto; lra. }
  rewrite M, select_mask. fold l.
  assert (L : length (filter (fun b : bool => b) (map (fun b => if Rlt_dec (b_freq b) lim then true else false) bs)) = length l).
  { unfold l. clear. induction bs as [|b bs IH]; [reflexivity|]. cbn [map filter]. destruct (Rlt_dec (b_freq b) lim); cbn [length]; now rewrite ?IH. }
  rewrite L. destruct l as [|b0 l0] eqn:E; [reflexivity|]. rewrite <- E. destruct (Nat.eqb_spec (length l) 0) as [Z|_]; [rewrite E in Z; discriminate|].
  f_equal. f_equal. f_equal. rewrite map_map. apply map_ext. intro b. unfold coh_or_0. now destruct (b_coh b).
Qed.

Definition pair_counts {A B} (ins : list A) (outs : list B) : bool :=
  (Nat.ltb 1 (length ins) && Nat.ltb 1 (length outs) && negb (Nat.eqb (length ins) (length outs)))%bool.
Lemma pair_counts_ok {A B} (ins : list A) (outs : list B) : matchable ins outs -> pair_counts ins outs = false.
Proof.
  unfold pair_counts. intros [E|[E|E]]; rewrite ?E; [now rewrite Nat.eqb_refl, andb_false_r|reflexivity|]. now rewrite andb_false_r.
Qed.
Lemma mapM_all {A B} (f : A -> result B) l ys : Forall2 (fun x y => f x = Ok y) l ys -> mapM f l = Ok ys.
Proof. induction 1 as [|x y l ys E _ IH]; [reflexivity|]. cbn. rewrite E. cbn. rewrite IH. reflexivity. Qed.
Lemma named_one (tfs : list (string * (list (option C) * list (option R)))) i c : NoDup (map fst tfs) -> nth_error tfs i = Some c ->
  filter (fun c' => String.eqb (fst c') (fst c)) tfs = [c].
Proof.
  revert i. induction tfs as [|t tfs IH]; intros i N E; [now destruct i|]. inversion N as [|? ? N1 N2]; subst. cbn [filter]. destruct i as [|i].
  - injection E as ->. rewrite String.eqb_refl. f_equal. 
    clear -N1. induction tfs as [|t tfs IH]; [reflexivity|]. cbn [filter]. destruct (String.eqb_spec (fst t) (fst c)) as [Q|Q]; [exfalso; apply N1; left; auto|]. apply IH. intro H. apply N1. now right.
  - cbn in E. destruct (String.eqb_spec (fst t) (fst c)) as [Q|Q]; [exfalso; apply N1; rewrite Q; apply in_map; eapply nth_error_In; eauto|]. eapply IH; eauto.
Qed.
Lemma named_two (tfs : list (string * (list (option C) * list (option R)))) : ~ NoDup (map fst tfs) ->
  exists c, In c tfs /\ (2 <= length (filter (fun c' => String.eqb (fst c') (fst c)) tfs))%nat.
Proof.
  induction tfs as [|t tfs IH]; intro N; [exfalso; apply N; constructor|].
  destruct (in_dec String.string_dec (fst t) (map fst tfs)) as [I|I].
  - exists t. split; [now left|]. cbn [filter]. rewrite String.eqb_refl. cbn [length]. apply in_map_iff in I. destruct I as (c & E & I).
    assert (In c (filter (fun c' => String.eqb (fst c') (fst t)) tfs)) by (apply filter_In; split; [auto|]; now apply String.eqb_eq).
    destruct (filter _ tfs); [easy|cbn; lia].
  - destruct IH as (c & I1 & I2); [intro H; apply N; now constructor|]. exists c. split; [now right|]. cbn [filter]. destruct (String.eqb (fst t) (fst c)); cbn [length]; lia.
Qed.
Lemma mapM_err {A B} (f : A -> result B) e l : (forall x r, In x l -> f x = Err r -> r = e) -> (exists x, In x l /\ exists r, f x = Err r) -> mapM f l = Err e.
Proof.
  induction l as [|x l IH]; intros H [y [I [r R0]]]; [easy|]. cbn [mapM]. destruct (f x) as [v|e'] eqn:E.
  - cbn. rewrite IH; [reflexivity|intros z r' Iz Rz; eapply H; [right; exact Iz|exact Rz]|]. destruct I as [-> |I]; [congruence|]. eauto.
  - cbn. f_equal. eapply H; [left; reflexivity|exact E].
Qed.

(*@ C52 compute_delays_tf with method 'multi' is averaged_tf (without detrending) followed by one tf_delay of all columns;
    with 'fit' and distinct column names it is one tf_delay per column. *)
Lemma delays_tf_multi : forall ls win dtr dt n ins outs navgs cl lim overlap window xc freqs tfs,
  matchable ins outs -> averaged_tf win dtr dt n (Frame ins) (Frame outs) navgs overlap window None = Ok (freqs, tfs) ->
  forall delay ex, compute_delays_tf ls win dtr dt n ins outs navgs cl (Some lim) "multi" overlap window xc = Ok (delay, ex) ->
  tf_delay ls freqs (map snd tfs) cl (Some lim) "multi" = Ok (delay, te_ix ex).
Proof.
  intros ls win dtr dt n ins outs navgs cl lim overlap window xc freqs tfs M E delay ex Q.
  unfold compute_delays_tf in Q. change ((Nat.ltb 1 (length ins) && Nat.ltb 1 (length outs) && negb (Nat.eqb (length ins) (length outs)))%bool) with (pair_counts ins outs) in Q.
  rewrite pair_counts_ok in Q by auto. rewrite E in Q. cbn [rbind String.eqb Ascii.eqb Bool.eqb] in Q.
  destruct (tf_delay ls freqs (map snd tfs) cl (Some lim) "multi") as [[dl ix]|e]; [|discriminate]. cbn [rbind] in Q.
  destruct xc; [destruct (mapM _ _) as [rows|]; [|discriminate]; cbn [rbind] in Q|]; injection Q as -> <-; reflexivity.
Qed.

(*@ C52 *)
Lemma delays_tf_fit : forall ls win dtr dt n ins outs navgs cl lim overlap window xc freqs tfs,
  matchable ins outs -> averaged_tf win dtr dt n (Frame ins) (Frame outs) navgs overlap window None = Ok (freqs, tfs) -> NoDup (map fst tfs) ->
  forall delay ex, compute_delays_tf ls win dtr dt n ins outs navgs cl (Some lim) "fit" overlap window xc = Ok (delay, ex) ->
  length delay = length tfs /\ length (te_ix ex) = length tfs /\
  forall i nm col, nth_error tfs i = Some (nm, col) -> exists d m, nth_error delay i = Some d /\ nth_error (te_ix ex) i = Some m /\
    tf_delay ls freqs [col] cl (Some lim) "fit" = Ok ([d], [m]).
Proof.
  intros ls win dtr dt n ins outs navgs cl lim overlap window xc freqs tfs M E ND delay ex Q.
  unfold compute_delays_tf in Q. change ((Nat.ltb 1 (length ins) && Nat.ltb 1 (length outs) && negb (Nat.eqb (length ins) (length outs)))%bool) with (pair_counts ins outs) in Q.
  rewrite pair_counts_ok in Q by auto. rewrite E in Q. cbn [rbind String.eqb Ascii.eqb Bool.eqb] in Q.
  set (one := fun c : string * (list (option C) * list (option R)) => ([delay_fit ls cl (Some lim) freqs (fst (snd c)) (snd (snd c))], [mask_col cl (Some lim) freqs (snd (snd c))])).
  match type of Q with context[mapM ?f tfs] => assert (R1 : mapM f tfs = Ok (map one tfs)) end.
  { apply mapM_all. apply Forall2_nth_iff. split; [now rewrite map_length|]. intros i c y Hc Hy. rewrite (map_nth_error one i tfs Hc) in Hy. injection Hy as <-.
    cbv beta. rewrite (named_one tfs i c ND Hc). reflexivity. }
  rewrite R1 in Q. cbn [rbind] in Q.
  assert (D : concat (map fst (map one tfs)) = map (fun c => delay_fit ls cl (Some lim) freqs (fst (snd c)) (snd (snd c))) tfs).
  { clear. induction tfs as [|c tfs IH]; [reflexivity|]. cbn. now rewrite IH. }
  assert (I : concat (map snd (map one tfs)) = map (fun c => mask_col cl (Some lim) freqs (snd (snd c))) tfs).
  { clear. induction tfs as [|c tfs IH]; [reflexivity|]. cbn. now rewrite IH. }
  rewrite D, I in Q.
  assert (K : delay = map (fun c => delay_fit ls cl (Some lim) freqs (fst (snd c)) (snd (snd c))) tfs /\ te_ix ex = map (fun c => mask_col cl (Some lim) freqs (snd (snd c))) tfs).
  { destruct xc; [destruct (mapM _ _) as [rows|]; [|discriminate]; cbn [rbind] in Q|]; injection Q as <- <-; auto. }
  destruct K as [-> ->]. rewrite !map_length. split; [reflexivity|]. split; [reflexivity|]. intros i nm col Hi.
  do 2 eexists. split; [erewrite map_nth_error by exact Hi; reflexivity|]. split; [erewrite map_nth_error by exact Hi; reflexivity|]. reflexivity.
Qed.

(*@ C52 with 'fit', two result columns of the same name make the call fail (ValueError, or IndexError with a single
    frequency), although averaged_tf itself succeeds. *)
Lemma delays_tf_collision : forall ls win dtr dt n ins outs navgs cl fl overlap window xc freqs tfs,
  matchable ins outs -> averaged_tf win dtr dt n (Frame ins) (Frame outs) navgs overlap window None = Ok (freqs, tfs) -> ~ NoDup (map fst tfs) ->
  compute_delays_tf ls win dtr dt n ins outs navgs cl fl "fit" overlap window xc = Err (if Nat.eqb (length freqs) 1 then IndexError else ValueError).
Proof.
  intros ls win dtr dt n ins outs navgs cl fl overlap window xc freqs tfs M E ND.
  unfold compute_delays_tf. change ((Nat.ltb 1 (length ins) && Nat.ltb 1 (length outs) && negb (Nat.eqb (length ins) (length outs)))%bool) with (pair_counts ins outs).
  rewrite pair_counts_ok by auto. rewrite E. cbn [rbind String.eqb Ascii.eqb Bool.eqb].
  erewrite mapM_err; [reflexivity| |].
  - intros c r I Hr. unfold tf_delay in Hr. cbn [String.eqb Ascii.eqb Bool.eqb] in Hr.
    destruct (map snd (filter _ tfs)) as [|c1 [|c2 l]]; destruct (Nat.eqb (length freqs) 1); congruence.
  - destruct (named_two tfs ND) as (c & I & L). exists c. split; [exact I|]. unfold tf_delay. cbn [String.eqb Ascii.eqb Bool.eqb].
    destruct (filter _ tfs) as [|c1 [|c2 l]]; cbn in L; try lia. cbn [map]. destruct (Nat.eqb (length freqs) 1); eauto.
Qed.

(*@ C52 freq_limit = None is refused: after a successful delay computation with a TypeError; an unknown method is a
    ValueError; an error of averaged_tf is passed on. *)
Lemma delays_tf_refused : forall ls win dtr dt n ins outs navgs cl overlap window xc, matchable ins outs ->
  (forall method r, compute_delays_tf ls win dtr dt n ins outs navgs cl None method overlap window xc <> Ok r) /\
  (forall freqs tfs, ins <> [] -> outs <> [] -> averaged_tf win dtr dt n (Frame ins) (Frame outs) navgs overlap window None = Ok (freqs, tfs) ->
     tfs <> [] -> compute_delays_tf ls win dtr dt n ins outs navgs cl None "multi" overlap window xc = Err TypeError) /\
  (forall freqs tfs method fl, averaged_tf win dtr dt n (Frame ins) (Frame outs) navgs overlap window None = Ok (freqs, tfs) ->
     method <> "fit" -> method <> "multi" -> compute_delays_tf ls win dtr dt n ins outs navgs cl fl method overlap window xc = Err ValueError) /\
  (forall e method fl, averaged_tf win dtr dt n (Frame ins) (Frame outs) navgs overlap window None = Err e ->
     compute_delays_tf ls win dtr dt n ins outs navgs cl fl method overlap window xc = Err e).
Proof.
  intros ls win dtr dt n ins outs navgs cl overlap window xc M.
  unfold compute_delays_tf. change ((Nat.ltb 1 (length ins) && Nat.ltb 1 (length outs) && negb (Nat.eqb (length ins) (length outs)))%bool) with (pair_counts ins outs).
  rewrite pair_counts_ok by auto. split; [|split; [|split]].
  - intros method r. destruct (averaged_tf _ _ _ _ _ _ _ _ _ _) as [[freqs tfs]|e]; [|discriminate]. cbn [rbind].
    match goal with |- rbind ?x _ <> _ => destruct x as [[delay ix]|e]; [|discriminate] end. discriminate.
  - intros freqs tfs _ _ E N. rewrite E. cbn [rbind String.eqb Ascii.eqb Bool.eqb]. unfold tf_delay. cbn [String.eqb Ascii.eqb Bool.eqb].
    destruct (map snd tfs) eqn:Em; [destruct tfs; [easy|discriminate]|]. reflexivity.
  - intros freqs tfs method fl E N1 N2. rewrite E. cbn [rbind]. apply String.eqb_neq in N1, N2. now rewrite N1, N2.
  - intros e method fl E. now rewrite E.
Qed.

(*@ C52 mean_coh of each pair is the average coherence over all bins below freq_limit, a missing coherence counting 0;
    it is NaN exactly when there is no such bin. *)
Lemma mean_coh_value : forall ls win dtr dt n ins outs navgs cl lim method overlap window xc freqs tfs delay ex,
  matchable ins outs -> averaged_tf win dtr dt n (Frame ins) (Frame outs) navgs overlap window None = Ok (freqs, tfs) ->
  compute_delays_tf ls win dtr dt n ins outs navgs cl (Some lim) method overlap window xc = Ok (delay, ex) ->
  length (te_coh ex) = length tfs /\
  forall i nm tf coh, nth_error tfs i = Some (nm, (tf, coh)) -> nth_error (te_coh ex) i = Some (average_coherence lim (bins_of freqs tf coh)).
Proof.
  intros ls win dtr dt n ins outs navgs cl lim method overlap window xc freqs tfs delay ex M E Q.
  unfold compute_delays_tf in Q. change ((Nat.ltb 1 (length ins) && Nat.ltb 1 (length outs) && negb (Nat.eqb (length ins) (length outs)))%bool) with (pair_counts ins outs) in Q.
  rewrite pair_counts_ok in Q by auto. rewrite E in Q. cbn [rbind] in Q.
  match type of Q with rbind ?x _ = _ => destruct x as [[dl ix]|e]; [|discriminate] end. cbn [rbind] in Q.
  assert (K : te_coh ex = map (fun c => mean_coh freqs lim (snd (snd c))) tfs).
  { destruct xc; [destruct (mapM _ _) as [rows|]; [|discriminate]; cbn [rbind] in Q|]; injection Q as <- <-; reflexivity. }
  rewrite K, map_length. split; [reflexivity|]. intros i nm tf coh Hi. erewrite map_nth_error by exact Hi. f_equal. cbn [snd].
  assert (T : length tf = length freqs /\ length coh = length freqs).
  { unfold averaged_tf in E. destruct (sample_rate dt n); [|discriminate]. cbn [rbind] in E. destruct (pair_columns ins outs) as [pairs|]; [|discriminate]. cbn [rbind] in E.
    destruct (segmenting n navgs overlap) as [[ng nv]|]; [|discriminate]. cbn [rbind] in E. destruct (psd_scale _ _ _ _ _) as [sc|]; [|discriminate]. cbn [rbind] in E.
    destruct (some_column pairs); [|discriminate]. cbn [rbind] in E. injection E as <- <-. rewrite nth_error_map in Hi. destruct (nth_error pairs i) as [[nm' [xa xb]]|]; [|discriminate]. cbn in Hi. injection Hi as _ <- <-. now rewrite !map_length. }
  destruct T as [T1 T2]. rewrite <- (bins_freq freqs tf coh T1 T2) at 1. rewrite <- (bins_coh freqs tf coh T1 T2) at 2. apply mean_coh_eq.
Qed.

(*@ C52 so mean_coh lies in [0,1] whenever defined *)
Lemma mean_coh_range : forall ls win dtr dt n ins outs navgs cl lim method overlap window xc N V delay ex i v,
  windows win -> keeps_length dtr -> (2 <= n)%nat -> dt <> 0 -> welch_grid n navgs overlap N V ->
  power (win window N) <> 0 -> Forall (fun col => length (snd col) = n) (ins ++ outs) -> matchable ins outs -> ins <> [] -> outs <> [] ->
  compute_delays_tf ls win dtr dt n ins outs (Z.of_nat navgs) cl (Some lim) method overlap window xc = Ok (delay, ex) ->
  nth_error (te_coh ex) i = Some (Some v) -> 0 <= v <= 1.
Proof.
  intros ls win dtr dt n ins outs navgs cl lim method overlap window xc N V delay ex i v Hw Hd Hn D G P Fc M Ni No Q Hv.
  pose proof G as (G1 & G2 & G3 & G4 & G5 & G6). destruct (segments_exist n N V G6 ltac:(nia)) as [K F].
  destruct (tf_value win dtr dt n ins outs navgs overlap window None N V K Hw Hd Hn D G F P Fc M Ni No) as (out & E & L & T).
  destruct (mean_coh_value _ _ _ _ _ _ _ _ _ _ _ _ _ _ _ _ _ _ M E Q) as [L2 T2].
  assert (Hi : (i < length out)%nat) by (rewrite <- L2; apply nth_error_Some; congruence).
  destruct (T i Hi) as (a & x & b & y & tf & coh & _ & _ & A & B1 & B2 & B).
  rewrite (T2 i _ _ _ A) in Hv. injection Hv as Hv. set (freqs := map _ _) in Hv. unfold average_coherence in Hv.
  assert (Cr : forall u, In u (bins_of freqs tf coh) -> 0 <= coh_or_0 u <= 1).
  { intros u Hu. assert (Lf : length freqs = (N / 2 + 1)%nat) by (unfold freqs; now rewrite map_length, seq_length).
    assert (Hc : In (b_coh u) coh) by (rewrite <- (bins_coh freqs tf coh); [now apply in_map|congruence|congruence]).
    apply In_nth with (d := None) in Hc. destruct Hc as (k & Hk & Ek). destruct (B k ltac:(lia)) as [_ B3]. rewrite Ek in B3.
    unfold coh_or_0. destruct (b_coh u) as [c|]; [|lra]. cbv zeta in B3. destruct (Req_EM_T _ 0) as [|Nz]; [discriminate|]. injection B3 as ->.
    match goal with |- context[Cmod (cross K ?X ?Y)] => set (U := X) in *; set (W := Y) in * end.
    pose proof (auto_nonneg K U). pose proof (auto_nonneg K W). pose proof (cross_bound K U W). pose proof (pow2_ge_0 (Cmod (cross K U W))).
    assert (0 < auto K U * auto K W) by (assert (0 <= auto K U * auto K W) by (now apply Rmult_le_pos); lra).
    split; [now apply Rle_mult_inv_pos|]. apply Rmult_le_reg_r with (auto K U * auto K W); [auto|]. unfold Rdiv. rewrite Rmult_assoc, Rinv_l by auto. lra. }
  set (l := filter _ (bins_of freqs tf coh)) in Hv.
  assert (Cl : forall u, In u l -> 0 <= coh_or_0 u <= 1) by (intros u Hu; apply filter_In in Hu; now apply Cr).
  clearbody l. destruct l as [|u0 l0] eqn:El; [discriminate|]. rewrite <- El in *.
  assert (Pl : 0 < INR (length l)) by (apply lt_0_INR; rewrite El; cbn; lia). injection Hv as <-.
  assert (S0 : 0 <= Rsum (map coh_or_0 l) <= INR (length l)).
  { clear -Cl. induction l as [|u l IH]; [cbn; lra|]. cbn [map length]. rewrite Rsum_cons, S_INR.
    assert (0 <= coh_or_0 u <= 1) by (apply Cl; now left). assert (0 <= Rsum (map coh_or_0 l) <= INR (length l)) by (apply IH; intros; apply Cl; now right). lra. }
  split; [apply Rle_mult_inv_pos; lra|]. apply Rmult_le_reg_r with (INR (length l)); [auto|]. unfold Rdiv. rewrite Rmult_assoc, Rinv_l by lra. lra.
Qed.

(*@ C52 mean_coh and the correlation at zero lag and on average do not depend on coh_limit, method or solver *)
Lemma extras_independent : forall ls ls' win dtr dt n ins outs navgs cl cl' lim method method' overlap window xc delay ex delay' ex',
  compute_delays_tf ls win dtr dt n ins outs navgs cl (Some lim) method overlap window xc = Ok (delay, ex) ->
  compute_delays_tf ls' win dtr dt n ins outs navgs cl' (Some lim) method' overlap window xc = Ok (delay', ex') ->
  te_coh ex = te_coh ex' /\
  (xc = true -> exists pk pk' mn zr, te_xcorr ex = Some (pk, mn, zr) /\ te_xcorr ex' = Some (pk', mn, zr)) /\
  (xc = false -> te_xcorr ex = None).
Proof.
  intros ls ls' win dtr dt n ins outs navgs cl cl' lim method method' overlap window xc delay ex delay' ex' Q Q'.
  unfold compute_delays_tf in Q, Q'. destruct (_ && _)%bool; [discriminate|].
  destruct (averaged_tf _ _ _ _ _ _ _ _ _ _) as [[freqs tfs]|e]; [|discriminate]. cbn [rbind] in Q, Q'.
  match type of Q with rbind ?x _ = _ => destruct x as [[dl ix]|e]; [|discriminate] end.
  match type of Q' with rbind ?x _ = _ => destruct x as [[dl' ix']|e]; [|discriminate] end. cbn [rbind] in Q, Q'.
  destruct xc; [|injection Q as <- <-; injection Q' as <- <-; split; [reflexivity|split; [discriminate|reflexivity]]].
  set (a := fun i => snd (nth (if Nat.eqb (length ins) 1 then 0 else i) ins ("", []))) in *.
  set (b := fun i => snd (nth (if Nat.eqb (length outs) 1 then 0 else i) outs ("", []))) in *.
  change (mapM _ _) with (mapM (fun i => xcorr_metrics dt (a i) (b i) (nth i dl None)) (seq 0 (Nat.max (length ins) (length outs)))) in Q.
  change (mapM _ _) with (mapM (fun i => xcorr_metrics dt (a i) (b i) (nth i dl' None)) (seq 0 (Nat.max (length ins) (length outs)))) in Q'.
  destruct (mapM _ _) as [rows|] eqn:E1 in Q; [|discriminate]. destruct (mapM _ _) as [rows'|] eqn:E2 in Q'; [|discriminate]. cbn [rbind] in Q, Q'.
  injection Q as <- <-. injection Q' as <- <-. split; [reflexivity|]. split; [|discriminate]. intros _. cbn [te_xcorr].
  assert (Z : map (fun r : fl * fl * fl => snd (fst r)) rows' = map (fun r => snd (fst r)) rows /\ map (@snd (fl * fl) fl) rows' = map snd rows).
  { clearbody a b. revert rows rows' E1 E2. generalize (seq 0 (Nat.max (length ins) (length outs))). induction l as [|i l IH]; intros rows rows' E1 E2; cbn in E1, E2.
    - injection E1 as <-. injection E2 as <-. auto.
    - unfold xcorr_metrics in E1 at 1. unfold xcorr_metrics in E2 at 1. destruct (correlation (a i) (b i) "coeff") as [[cu lg]|]; [|discriminate]. cbn [rbind] in E1, E2.
      destruct (mapM (fun i => xcorr_metrics dt (a i) (b i) (nth i dl None)) l) as [r1|] eqn:F1; [|discriminate].
      destruct (mapM (fun i => xcorr_metrics dt (a i) (b i) (nth i dl' None)) l) as [r2|] eqn:F2; [|discriminate]. cbn [rbind] in E1, E2.
      injection E1 as <-. injection E2 as <-. destruct (IH r1 r2 eq_refl eq_refl) as [I1 I2]. cbn [map fst snd]. now rewrite I1, I2. }
  destruct Z as [Z1 Z2]. rewrite Z1, Z2. do 4 eexists. split; reflexivity.
Qed.

Lemma metrics_eq dt a b o : length b = length a -> ~ constant a -> ~ constant b -> dt <> 0 ->
  xcorr_metrics dt a b o = Ok (np_interp (option_map Ropp o) (secs dt (length a) (length a)) (map (fun L => Fin (ncc a b L)) (correlation_lags (length a) (length a))), Fin 0, Fin (pearson a b)).
Proof.
  intros Lb Ka Kb D. assert (Na : a <> []) by (intros ->; apply Ka; now intros x y []). assert (Nb : b <> []) by (intros ->; apply Kb; now intros x y []).
  unfold xcorr_metrics. rewrite correlation_eq; [|auto|auto|cbn; tauto]. cbn [rbind]. change (lower "coeff") with "coeff". change (scale_val a b "coeff") with (coeff_val a b).
  rewrite Lb. fold (secs dt (length a) (length a)).
  assert (Ev : map (coeff_val a b) (correlation_lags (length a) (length a)) = map (fun L => Fin (ncc a b L)) (correlation_lags (length a) (length a))).
  { apply map_ext. intro L. now rewrite coeff_val_fin. }
  rewrite Ev. assert (La : (0 < length a)%nat) by (destruct a; [easy|cbn; lia]).
  f_equal. f_equal; [f_equal|].
  - change (fmean ?l) with (fl_mean l). rewrite <- (map_map (ncc a b) Fin), fl_mean_fin.
    + f_equal. unfold Rmean. unfold ncc. 
      replace (Rsum (map (fun L => lag_sum (centred a) (centred b) L / (sqrt (energy (centred a)) * sqrt (energy (centred b)))) (correlation_lags (length a) (length a)))) with 0; [unfold Rdiv; ring|].
      symmetry. rewrite (Rsum_map_ext _ (fun L => / (sqrt (energy (centred a)) * sqrt (energy (centred b))) * lag_sum (centred a) (centred b) L)) by (intros; unfold Rdiv; ring).
      assert (SC : forall c l, Rsum (map (fun L => c * lag_sum (centred a) (centred b) L) l) = c * Rsum (map (lag_sum (centred a) (centred b)) l)).
      { intros c l. induction l as [|x l IH]; cbn [map]; rewrite ?Rsum_nil, ?Rsum_cons; [ring|]. rewrite IH. ring. }
      rewrite SC. replace (correlation_lags (length a) (length a)) with (correlation_lags (length (centred a)) (length (centred b))) by (rewrite !centred_length, Lb; reflexivity).
      rewrite total_overlap, centred_sum. ring.
    + intro Z. apply (f_equal (@length _)) in Z. rewrite map_length, lags_length in Z. cbn in Z. lia.
  - unfold secs. rewrite zero_index_lags by auto. rewrite (nth_map_lags (fun L => Fin (ncc a b L))) by lia.
    replace (Z.of_nat (length a - 1) - Z.of_nat (length a - 1))%Z with 0%Z by lia. reflexivity.
Qed.

(** The metrics of pair i in a result. *)
Definition metrics_of (ex : tf_extras) (i : nat) (pk mn zr : fl) : Prop :=
  exists pks mns zrs, te_xcorr ex = Some (pks, mns, zrs) /\ nth_error pks i = Some pk /\ nth_error mns i = Some mn /\ nth_error zrs i = Some zr.

Lemma metrics_entry ls win dtr dt n ins outs navgs cl lim method overlap window delay ex i a x b y :
  compute_delays_tf ls win dtr dt n ins outs navgs cl (Some lim) method overlap window true = Ok (delay, ex) ->
  partner ins i = Some (a, x) -> partner outs i = Some (b, y) -> (i < Nat.max (length ins) (length outs))%nat ->
  exists pk mn zr, metrics_of ex i pk mn zr /\ xcorr_metrics dt x y (nth i delay None) = Ok (pk, mn, zr).
Proof.
  intros Q Ha Hb Hi. unfold compute_delays_tf in Q. destruct (_ && _)%bool; [discriminate|].
  destruct (averaged_tf _ _ _ _ _ _ _ _ _ _) as [[freqs tfs]|e]; [|discriminate]. cbn [rbind] in Q.
  match type of Q with rbind ?x _ = _ => destruct x as [[dl ix]|e]; [|discriminate] end. cbn [rbind] in Q.
  destruct (mapM _ _) as [rows|] eqn:E; [|discriminate]. cbn [rbind] in Q. injection Q as <- <-.
  apply mapM_seq in E. destruct E as [L E]. destruct (E i Hi) as ([[pk mn] zr] & Er & Em). cbv beta in Em.
  unfold partner in Ha, Hb. rewrite (nth_error_nth _ _ _ Ha), (nth_error_nth _ _ _ Hb) in Em. cbn [snd] in Em.
  exists pk, mn, zr. split; [|exact Em]. do 3 eexists. split; [reflexivity|]. rewrite !nth_error_map, Er. auto.
Qed.

(*@ C53 with compute_xcorr, for every pair of non-constant signals: zero_corr is Pearson's coefficient, mean_corr is
    always 0, and peak_corr is the normalised cross-correlation at minus the estimated delay: the curve's value at a
    whole lag, the straight line between the two neighbouring lags elsewhere, NaN for a missing delay and for
    delays beyond the record. *)
Lemma xcorr_value : forall ls win dtr dt n ins outs navgs cl lim method overlap window delay ex i a x b y,
  compute_delays_tf ls win dtr dt n ins outs navgs cl (Some lim) method overlap window true = Ok (delay, ex) ->
  0 < dt -> partner ins i = Some (a, x) -> partner outs i = Some (b, y) -> (i < Nat.max (length ins) (length outs))%nat ->
  length x = n -> length y = n -> ~ constant x -> ~ constant y ->
  exists pk, metrics_of ex i pk (Fin 0) (Fin (pearson x y)) /\
  (nth i delay None = None -> pk = Nan) /\
  forall d, nth i delay None = Some d ->
    (INR (n - 1) * dt < Rabs d -> pk = Nan) /\
    (forall L, lag_of n n L -> - d = IZR L * dt -> pk = Fin (ncc x y L)) /\
    (forall L, lag_of n n L -> lag_of n n (L + 1) -> IZR L * dt <= - d <= IZR (L + 1) * dt ->
       pk = Fin (ncc x y L + (ncc x y (L + 1) - ncc x y L) * (- d / dt - IZR L))).
Proof.
  intros ls win dtr dt n ins outs navgs cl lim method overlap window delay ex i a x b y Q D Ha Hb Hi Lx Ly Kx Ky.
  destruct (metrics_entry _ _ _ _ _ _ _ _ _ _ _ _ _ _ _ _ _ _ _ _ Q Ha Hb Hi) as (pk & mn & zr & M & E).
  rewrite metrics_eq in E by (auto; try congruence; lra). injection E as E1 <- <-. exists pk. split; [exact M|].
  assert (Hn : (0 < n)%nat). { destruct x; [exfalso; apply Kx; now intros ? ? []|]. cbn in Lx. lia. }
  rewrite Lx in E1. split; [intro N; rewrite N in E1; exact (eq_sym E1)|]. intros d Hd. rewrite Hd in E1. cbn [option_map np_interp] in E1.
  pose proof (secs_increasing dt n n D) as I. pose proof (secs_length dt n n) as Ls.
  assert (Lm : length (map (fun L => Fin (ncc x y L)) (correlation_lags n n)) = length (secs dt n n)) by (now rewrite map_length, lags_length, Ls).
  assert (At : forall L, lag_of n n L -> exists k, (k < n + n - 1)%nat /\ L = (Z.of_nat k - Z.of_nat (n - 1))%Z).
  { intros L HL. unfold lag_of in HL. exists (Z.to_nat (L + Z.of_nat (n - 1))). lia. }
  split; [|split].
  - intro B. rewrite <- E1. apply interp_outside; auto. rewrite Ls, !secs_nth by lia.
    replace (Z.of_nat 0 - Z.of_nat (n - 1))%Z with (- Z.of_nat (n - 1))%Z by lia. replace (Z.of_nat (n + n - 1 - 1) - Z.of_nat (n - 1))%Z with (Z.of_nat (n - 1)) by lia.
    rewrite opp_IZR, <- INR_IZR_INZ. unfold Rabs in B. destruct (Rcase_abs d); [right; lra|left; lra].
  - intros L HL Ed. destruct (At L HL) as (k & Hk & ->). rewrite <- E1, Ed, <- (secs_nth dt n n k) by auto. rewrite interp_node by (auto; lia).
    rewrite (nth_map_lags (fun L => Fin (ncc x y L))) by auto. reflexivity.
  - intros L HL HL1 B. destruct (At L HL) as (k & Hk & EL). assert (Hk1 : (S k < n + n - 1)%nat) by (unfold lag_of in HL1; lia).
    rewrite <- E1. rewrite <- (map_map (ncc x y) Fin).
    assert (S1 : nth k (secs dt n n) 0 = IZR L * dt) by (rewrite secs_nth by auto; now rewrite EL).
    assert (S2 : nth (S k) (secs dt n n) 0 = IZR (L + 1) * dt) by (rewrite secs_nth by auto; do 2 f_equal; lia).
    rewrite (interp_between (secs dt n n) (map (ncc x y) (correlation_lags n n)) k (- d)); auto; try lia.
    + rewrite S1, S2. rewrite !(nth_map_lags (ncc x y)) by lia. rewrite <- EL. replace (Z.of_nat (S k) - Z.of_nat (n - 1))%Z with (L + 1)%Z by lia.
      f_equal. f_equal. f_equal. rewrite plus_IZR. field. lra.
    + now rewrite map_length, lags_length, Ls.
    + rewrite S1, S2. exact B.
Qed.

(*@ C53 so a finite peak_corr lies between the two neighbouring values of the curve, in [-1,1], and never above the
    curve's maximum; every delay within the record gives a finite one. *)
Lemma xcorr_bounded : forall ls win dtr dt n ins outs navgs cl lim method overlap window delay ex i a x b y d,
  compute_delays_tf ls win dtr dt n ins outs navgs cl (Some lim) method overlap window true = Ok (delay, ex) ->
  0 < dt -> partner ins i = Some (a, x) -> partner outs i = Some (b, y) -> (i < Nat.max (length ins) (length outs))%nat ->
  length x = n -> length y = n -> ~ constant x -> ~ constant y ->
  nth i delay None = Some d -> Rabs d <= INR (n - 1) * dt ->
  exists pk mn zr, metrics_of ex i (Fin pk) mn zr /\ -1 <= pk <= 1 /\
    exists L L', lag_of n n L /\ lag_of n n L' /\ ncc x y L <= pk <= ncc x y L' /\ (Rabs (IZR L * dt + d) <= dt /\ Rabs (IZR L' * dt + d) <= dt).
Proof.
  intros ls win dtr dt n ins outs navgs cl lim method overlap window delay ex i a x b y d Q D Ha Hb Hi Lx Ly Kx Ky Hd B.
  destruct (xcorr_value ls win dtr dt n ins outs navgs cl lim method overlap window delay ex i a x b y Q D Ha Hb Hi Lx Ly Kx Ky) as (pk & M & _ & V).
  destruct (V d Hd) as (_ & V1 & V2).
  assert (Hn : (2 <= n)%nat).
  { destruct x as [|x0 [|x1 x]]; [exfalso; apply Kx; now intros ? ? []|exfalso; apply Kx; intros ? ? [<-|[]] [<-|[]]; reflexivity|]. cbn in Lx. lia. }
  assert (R1 : forall L, -1 <= ncc x y L <= 1) by (intro L; unfold ncc; apply ratio_bound; try (now apply centred_energy_pos); apply lag_sum_cs).
  apply Rabs_le_between in B. rewrite INR_IZR_INZ in B. set (m := Z.of_nat (n - 1)) in *.
  set (t := - d / dt). assert (Et : - d = t * dt) by (unfold t; field; lra). assert (Bt : - IZR m <= t <= IZR m).
  { split; apply Rmult_le_reg_r with dt; auto; lra. }
  destruct (archimed t) as [A1 A2]. set (L := (up t - 1)%Z). assert (BL : IZR L <= t < IZR L + 1) by (unfold L; rewrite minus_IZR; lra).
  assert (LL : (- m <= L)%Z). { assert (P : IZR (- m) < IZR (L + 1)) by (rewrite opp_IZR, plus_IZR; lra). apply lt_IZR in P. lia. }
  destruct (Z.eq_dec L m) as [Em|Em].
  - assert (t = IZR L) by (rewrite Em in *; lra). assert (Hl : lag_of n n L) by (unfold lag_of; lia).
    rewrite (V1 L Hl) in M by (rewrite Et, H; ring). exists (ncc x y L), (Fin 0), (Fin (pearson x y)). split; [exact M|]. split; [apply R1|].
    assert (Q0 : Rabs (IZR L * dt + d) <= dt) by (replace (IZR L * dt + d) with 0 by (rewrite <- H; lra); rewrite Rabs_R0; lra).
    exists L, L. split; [exact Hl|]. split; [exact Hl|]. split; [lra|]. split; exact Q0.
  - assert (Lm : (L < m)%Z). { assert (P : IZR L <= IZR m) by lra. apply le_IZR in P. lia. }
    assert (Hl : lag_of n n L) by (unfold lag_of; lia). assert (Hl1 : lag_of n n (L + 1)) by (unfold lag_of; lia).
    rewrite (V2 L Hl Hl1) in M by (rewrite Et, plus_IZR; split; apply Rmult_le_compat_r; lra).
    fold t in M. set (w := t - IZR L) in *. assert (Hw : 0 <= w <= 1) by (unfold w; lra).
    pose proof (R1 L) as RL. pose proof (R1 (L + 1)%Z) as RL1. set (u := ncc x y L) in *. set (v := ncc x y (L + 1)) in *.
    assert (Q1 : Rabs (IZR L * dt + d) <= dt). { replace (IZR L * dt + d) with (- (w * dt)) by (unfold w; lra). rewrite Rabs_Ropp, Rabs_pos_eq by nra. nra. }
    assert (Q2 : Rabs (IZR (L + 1) * dt + d) <= dt). { rewrite plus_IZR. replace ((IZR L + 1) * dt + d) with ((1 - w) * dt) by (unfold w; lra). rewrite Rabs_pos_eq by nra. nra. }
    exists (u + (v - u) * w), (Fin 0), (Fin (pearson x y)). split; [exact M|]. split; [split; nra|].
    destruct (Rle_lt_dec u v) as [Uv|Uv].
    + exists L, (L + 1)%Z. split; [exact Hl|]. split; [exact Hl1|]. fold u v. split; [split; nra|]. split; assumption.
    + exists (L + 1)%Z, L. split; [exact Hl1|]. split; [exact Hl|]. fold u v. split; [split; nra|]. split; assumption.
Qed.

(*@ C53 a constant signal makes all three metrics NaN *)
Lemma xcorr_constant : forall ls win dtr dt n ins outs navgs cl lim method overlap window delay ex i a x b y,
  compute_delays_tf ls win dtr dt n ins outs navgs cl (Some lim) method overlap window true = Ok (delay, ex) ->
  dt <> 0 -> partner ins i = Some (a, x) -> partner outs i = Some (b, y) -> (i < Nat.max (length ins) (length outs))%nat ->
  length x = n -> length y = n -> (0 < n)%nat -> constant x \/ constant y -> metrics_of ex i Nan Nan Nan.
Proof.
  intros ls win dtr dt n ins outs navgs cl lim method overlap window delay ex i a x b y Q D Ha Hb Hi Lx Ly Hn K.
  destruct (metrics_entry _ _ _ _ _ _ _ _ _ _ _ _ _ _ _ _ _ _ _ _ Q Ha Hb Hi) as (pk & mn & zr & M & E).
  assert (Nx : x <> []) by (intros ->; cbn in Lx; lia). assert (Ny : y <> []) by (intros ->; cbn in Ly; lia).
  unfold xcorr_metrics in E. 
  assert (C : exists cu, correlation x y "coeff" = Ok (cu, correlation_lags n n) /\ Forall (fun v => v = Nan) cu /\ cu <> []).
  { destruct (corr_coeff_constant x y "coeff" Nx Ny K eq_refl) as ([cu lg] & C1 & C2). pose proof C1 as C3. rewrite correlation_eq in C1; [|auto|auto|cbn; tauto].
    injection C1 as C4 C5. exists cu. rewrite C3. rewrite <- C5, Lx, Ly. split; [reflexivity|]. split; [exact C2|]. rewrite <- C4. intro Z.
    apply (f_equal (@length _)) in Z. rewrite map_length, lags_length in Z. cbn in Z. lia. }
  destruct C as (cu & C1 & C2 & C3). rewrite C1 in E. cbn [rbind] in E. injection E as <- <- <-.
  replace (np_interp _ _ _) with Nan in M by (destruct (nth i delay None); [symmetry; now apply interp_nan|reflexivity]).
  replace (fmean cu) with Nan in M.
  - rewrite zero_index_lags in M by auto. replace (nth (n - 1) cu Nan) with Nan in M; [exact M|].
    destruct (Nat.lt_ge_cases (n - 1) (length cu)) as [H|H]; [|now rewrite nth_overflow]. rewrite Forall_forall in C2. symmetry. apply C2. now apply nth_In.
  - symmetry. change (fmean cu) with (fl_mean cu). now apply fl_mean_nan.
Qed.

(*@ex C53 two shifted pulses (the estimated delay is left open): the call succeeds and the metrics are those of the theorem *)
Lemma xcorr_example : forall ls delay ex,
  compute_delays_tf ls box_win no_dtr 1 4 [("a", [0; 1; 0; 0])] [("b", [0; 0; 1; 0])] 2 None (Some 1) "multi" 0 "boxcar" true = Ok (delay, ex) ->
  exists pk, metrics_of ex 0 pk (Fin 0) (Fin (- (1 / 3))) /\ ~ constant [0; 1; 0; 0] /\ ~ constant [0; 0; 1; 0].
Proof.
  intros ls delay ex Q.
  assert (K1 : ~ constant [0; 1; 0; 0]) by (intro H; specialize (H 0 1); cbn in H; assert (0 = 1) by (apply H; tauto); lra).
  assert (K2 : ~ constant [0; 0; 1; 0]) by (intro H; specialize (H 0 1); cbn in H; assert (0 = 1) by (apply H; tauto); lra).
  destruct (xcorr_value _ _ _ _ _ _ _ _ _ _ _ _ _ _ _ 0%nat "a" [0; 1; 0; 0] "b" [0; 0; 1; 0] Q ltac:(lra) eq_refl eq_refl ltac:(cbn; lia) eq_refl eq_refl K1 K2) as (pk & M & _).
  exists pk. split; [|auto]. replace (- (1 / 3)) with (pearson [0; 1; 0; 0] [0; 0; 1; 0]); [exact M|].
  unfold pearson. assert (Cx : centred [0; 1; 0; 0] = [- / 4; 3 / 4; - / 4; - / 4]) by (unfold centred, Rmean; cbn; repeat (f_equal; [lra|]); f_equal; lra).
  assert (Cy : centred [0; 0; 1; 0] = [- / 4; - / 4; 3 / 4; - / 4]) by (unfold centred, Rmean; cbn; repeat (f_equal; [lra|]); f_equal; lra).
  rewrite Cx, Cy. replace (energy [- / 4; 3 / 4; - / 4; - / 4]) with (3 / 4) by (unfold energy; cbn; lra). replace (energy [- / 4; - / 4; 3 / 4; - / 4]) with (3 / 4) by (unfold energy; cbn; lra).
  rewrite sqrt_sqrt by lra. unfold lag_sum, at0. cbn. change (Pos.to_nat 1) with 1%nat. change (Pos.to_nat 2) with 2%nat. change (Pos.to_nat 3) with 3%nat. cbn iota. field.
Qed.
