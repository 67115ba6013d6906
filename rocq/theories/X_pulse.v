(** One pulse per segment length, any window with positive weights (such as the default Hamming window): the delay is still recovered exactly (C98). *)
From Coq Require Import String.
From Verif Require Import Prelude PreludeFacts RealBase Fl RealStat Dft Phase Spec_welch Spec_tfdelay Spec_window M_cmv M_signal_corr M_signal_tf M_window M_field_delays P_signal P_corr P_dft P_phase P_list P_welch P_tf P_tfdelay P_window X_signal_psd X_signal_tf X_signal_tfdelay X_signal_tfx X_field_delays X_signal_wave X_window.
From Coq Require Import Lra Psatz.
From Coquelicot Require Import Complex.
Local Open Scope string_scope.
Local Open Scope R_scope.

(** A pulse of height [A] every [N] samples. *)
Definition train (A : R) (N : nat) (i : Z) : R := if Z.eqb (i mod Z.of_nat N) 0 then A else 0.
(** The window weight with which segment [s] sees a pulse train arriving [m] samples late. *)
Definition seen (w : list R) (N V : nat) (m : Z) (s : nat) : R := nth (Z.to_nat ((m - Z.of_nat (s * (N - V))) mod Z.of_nat N)) w 0.

Lemma train_spectrum w A N V n m g s k : (1 <= N)%nat -> (s * (N - V) + N <= n)%nat ->
  seg_spectrum w (fun v => v) (arriving (train A N) n m g) N V s k =
  Cmult (RtoC (g * A * seen w N V m s)) (cis (- (2 * PI * INR k * IZR (m - Z.of_nat (s * (N - V))) / INR N))).
Proof.
  intros HN L. assert (NZ : INR N <> 0) by (apply not_0_INR; lia). unfold seg_spectrum. rewrite chunk_arriving by exact L. set (a := (s * (N - V))%nat) in *.
  set (e := (m - Z.of_nat a)%Z). set (j0 := Z.to_nat (e mod Z.of_nat N)). pose proof (Z.mod_pos_bound e (Z.of_nat N) ltac:(lia)) as B. assert (J0 : (j0 < N)%nat) by (unfold j0; lia).
  rewrite <- fft_bin_fourier. unfold fft_bin. rewrite map_length, tapered_length, !map_length, seq_length.
  transitivity (Csumn N (fun j => if Nat.eqb j j0 then Cmult (RtoC (g * A * seen w N V m s)) (cis (- (2 * PI * INR k * INR j / INR N))) else RtoC 0)).
  - apply Csumn_ext. intros j Hj. rewrite (map_nth RtoC). unfold tapered. rewrite !map_length, seq_length. rewrite nth_map_seq by exact Hj. rewrite map_map, nth_map_seq by exact Hj.
    unfold train. destruct (Nat.eqb_spec j j0) as [->|Ne].
    + replace ((Z.of_nat a - m + Z.of_nat j0) mod Z.of_nat N)%Z with 0%Z.
      * cbn [Z.eqb]. f_equal. f_equal. unfold seen. fold a e j0. ring.
      * symmetry. unfold j0. rewrite Z2Nat.id by lia. rewrite Zplus_mod_idemp_r. unfold e. replace (Z.of_nat a - m + (m - Z.of_nat a))%Z with 0%Z by lia. apply Z.mod_0_l. lia.
    + destruct (Z.eqb_spec ((Z.of_nat a - m + Z.of_nat j) mod Z.of_nat N) 0) as [Z0|_]; [|rewrite !Rmult_0_r; apply Cmult_0_l]. exfalso. apply Ne. unfold j0.
      apply Z.mod_divide in Z0; [|lia]. destruct Z0 as [q Hq]. replace e with (Z.of_nat j + (- q) * Z.of_nat N)%Z by (unfold e; lia). rewrite Z_mod_plus_full, Z.mod_small by lia. lia.
  - rewrite (Csumn_pick N j0 (fun j => Cmult (RtoC (g * A * seen w N V m s)) (cis (- (2 * PI * INR k * INR j / INR N)))) J0). f_equal.
    pose proof (Z.div_mod e (Z.of_nat N) ltac:(lia)) as Dm. 
    replace (- (2 * PI * INR k * IZR e / INR N)) with (- (2 * PI * INR k * INR j0 / INR N) + 2 * PI * IZR (- (Z.of_nat k * (e / Z.of_nat N)))).
    + now rewrite cis_plus_turns.
    + rewrite opp_IZR, mult_IZR, <- INR_IZR_INZ. rewrite Dm at 2. rewrite plus_IZR, mult_IZR, <- INR_IZR_INZ. unfold j0. rewrite INR_IZR_INZ with (n := Z.to_nat _), Z2Nat.id by lia. field. exact NZ.
Qed.
Lemma seen_pos w N V m s : length w = N -> (1 <= N)%nat -> (forall v, In v w -> 0 < v) -> 0 < seen w N V m s.
Proof. intros L HN H. apply H, nth_In. pose proof (Z.mod_pos_bound (m - Z.of_nat (s * (N - V))) (Z.of_nat N) ltac:(lia)). lia. Qed.
Lemma avg_pos K f : (1 <= K)%nat -> (forall s, (s < K)%nat -> 0 < f s) -> 0 < avg K f.
Proof.
  intros HK H. unfold avg. apply Rdiv_lt_0_compat; [|apply lt_0_INR; lia]. apply Rsum_pos; [destruct K; [lia|discriminate]|].
  intros v I. apply in_map_iff in I as (s & <- & I). apply in_seq in I. apply H. lia.
Qed.
(** Coherence between the train and its copy [m] samples later: only the weights with which the segments see the pulses matter. *)
Definition pulse_coherence (w : list R) (N V K : nat) (m : Z) : R :=
  avg K (fun s => seen w N V 0 s * seen w N V m s) ^ 2 / (avg K (fun s => seen w N V 0 s ^ 2) * avg K (fun s => seen w N V m s ^ 2)).
(*@ C98 A train of one pulse per segment length and its copy arriving m samples later with gain g, under any window with positive weights and any
    overlap: at every frequency the transfer function is the pure delay m dt times a positive number (for g > 0), and coherence is the same
    number at all frequencies, given by the weights with which the segments see the pulses. *)
Lemma pulse_tf : forall win dtr dt n A m g a b navgs overlap window N V K,
  windows win -> keeps_length dtr -> (forall v, In v (win window N) -> 0 < v) -> (2 <= n)%nat -> dt <> 0 -> g <> 0 -> A <> 0 ->
  welch_grid n navgs overlap N V -> segments_fit n N V K ->
  exists tf coh,
    averaged_tf win dtr dt n (Frame [(a, arriving (train A N) n 0 1)]) (Frame [(b, arriving (train A N) n m g)]) (Z.of_nat navgs) overlap window None
      = Ok (map (fun k => INR k / (INR N * dt)) (seq 0 (N / 2 + 1)), [((a ++ "_" ++ b)%string, (tf, coh))]) /\
    length tf = (N / 2 + 1)%nat /\ length coh = (N / 2 + 1)%nat /\
    exists r, 0 < r /\ forall k, (k <= N / 2)%nat ->
      nth k tf None = Some (Cmult (RtoC (g * r)) (cis (- (2 * PI * (INR k / (INR N * dt)) * (IZR m * dt))))) /\
      nth k coh None = Some (pulse_coherence (win window N) N V K m).
Proof.
  intros win dtr dt n A m g a b navgs overlap window N V K Hw Hd Wp Hn D Hg HA G F.
  pose proof G as (G1 & G2 & G3 & G4 & G5 & G6). assert (NZ : INR N <> 0) by (apply not_0_INR; lia). pose proof (Hw window N) as Lw. pose proof F as (F1 & F2 & F3).
  set (w := win window N) in *.
  assert (PW : power w <> 0).
  { unfold power. assert (0 < Rsum (map (fun v => v ^ 2) w)); [|lra]. apply Rsum_pos; [intro Z0; apply map_eq_nil in Z0; rewrite Z0 in Lw; cbn in Lw; lia|]. intros v I. apply in_map_iff in I as (u & <- & I). specialize (Wp u I). nra. }
  assert (La : forall m g, length (arriving (train A N) n m g) = n) by (intros; unfold arriving; now rewrite map_length, seq_length).
  destruct (tf_value win dtr dt n [(a, arriving (train A N) n 0 1)] [(b, arriving (train A N) n m g)] navgs overlap window None N V K Hw Hd Hn D G F PW) as (out & E & L & Vv).
  { repeat constructor; apply La. } { now left. } { discriminate. } { discriminate. }
  cbn in L. destruct (Vv 0%nat ltac:(lia)) as (a' & x & b' & y & tf & coh & E1 & E2 & E3 & L1 & L2 & Vk). cbn in E1, E2. injection E1 as <- <-. injection E2 as <- <-.
  destruct out as [|o [|]]; try discriminate. cbn in E3. injection E3 as ->. exists tf, coh. split; [exact E|]. split; [exact L1|]. split; [exact L2|].
  set (u := seen w N V 0). set (v := seen w N V m).
  assert (Up : forall s, 0 < u s) by (intro s; now apply seen_pos). assert (Vp : forall s, 0 < v s) by (intro s; now apply seen_pos).
  assert (Puv : 0 < avg K (fun s => u s * v s)) by (apply avg_pos; [exact F1|]; intros s _; now apply Rmult_lt_0_compat).
  assert (Puu : 0 < avg K (fun s => u s ^ 2)) by (apply avg_pos; [exact F1|]; intros s _; specialize (Up s); nra).
  assert (Pvv : 0 < avg K (fun s => v s ^ 2)) by (apply avg_pos; [exact F1|]; intros s _; specialize (Vp s); nra).
  exists (avg K (fun s => u s * v s) / avg K (fun s => u s ^ 2)). split; [now apply Rdiv_lt_0_compat|].
  intros k Hk. specialize (Vk k Hk). cbv zeta in Vk. destruct Vk as [V1 V2].
  set (X := fun s => seg_spectrum (win window N) (detrend_by dtr None) (arriving (train A N) n 0 1) N V s k) in *.
  set (Y := fun s => seg_spectrum (win window N) (detrend_by dtr None) (arriving (train A N) n m g) N V s k) in *.
  set (sh := fun s => 2 * PI * INR k * IZR (Z.of_nat (s * (N - V))) / INR N).
  set (c := cis (- (2 * PI * (INR k / (INR N * dt)) * (IZR m * dt)))).
  assert (EX : forall s, (s < K)%nat -> X s = Cmult (RtoC (A * u s)) (cis (sh s))).
  { intros s Hs. unfold X. change (detrend_by dtr None) with (fun v : list R => v). rewrite train_spectrum by nia. fold w. fold (u s). rewrite Rmult_1_l. f_equal. f_equal. unfold sh. rewrite minus_IZR. field. exact NZ. }
  assert (EY : forall s, (s < K)%nat -> Y s = Cmult (Cmult (RtoC (g * A * v s)) c) (cis (sh s))).
  { intros s Hs. unfold Y. change (detrend_by dtr None) with (fun v : list R => v). rewrite train_spectrum by nia. fold w. fold (v s). rewrite <- Cmult_assoc. f_equal. unfold c. rewrite <- cis_plus. f_equal. unfold sh. rewrite minus_IZR. field. split; assumption. }
  assert (AX : auto K X = A ^ 2 * avg K (fun s => u s ^ 2)).
  { unfold auto. rewrite <- avg_scale. apply avg_ext. intros s Hs. rewrite EX by exact Hs. rewrite Cmod_mult, cis_mod, Cmod_R, Rmult_1_r. rewrite pow2_abs. ring. }
  assert (AY : auto K Y = (g * A) ^ 2 * avg K (fun s => v s ^ 2)).
  { unfold auto. rewrite <- avg_scale. apply avg_ext. intros s Hs. rewrite EY by exact Hs. unfold c. rewrite !Cmod_mult, !cis_mod, Cmod_R, !Rmult_1_r. rewrite pow2_abs. ring. }
  assert (CX : cross K X Y = Cmult (RtoC (g * A ^ 2 * avg K (fun s => u s * v s))) c).
  { assert (Ts : forall s, (s < K)%nat -> Cmult (Cconj (X s)) (Y s) = Cmult (RtoC (g * A ^ 2 * (u s * v s))) c).
    { intros s Hs. rewrite EX, EY by exact Hs. rewrite Cconj_mul, cis_conj. replace (Cconj (RtoC (A * u s))) with (RtoC (A * u s)) by (unfold Cconj, RtoC; cbn; f_equal; ring).
      assert (Cs : Cmult (cis (- sh s)) (cis (sh s)) = RtoC 1) by (rewrite <- cis_plus, Rplus_opp_l; apply cis_0).
      transitivity (Cmult (Cmult (Cmult (RtoC (A * u s)) (RtoC (g * A * v s))) c) (Cmult (cis (- sh s)) (cis (sh s)))); [ring|]. rewrite Cs, <- RtoC_mult, Cmult_1_r. f_equal. f_equal. ring. }
    unfold cross, cavg. rewrite (avg_ext K _ (fun s => g * A ^ 2 * fst c * (u s * v s))).
    2:{ intros s Hs. rewrite Ts by exact Hs. unfold Cmult, RtoC. cbn [fst snd]. ring. }
    rewrite (avg_ext K (fun s => snd (Cmult (Cconj (X s)) (Y s))) (fun s => g * A ^ 2 * snd c * (u s * v s))).
    2:{ intros s Hs. rewrite Ts by exact Hs. unfold Cmult, RtoC. cbn [fst snd]. ring. }
    rewrite !avg_scale. unfold Cmult, RtoC. apply injective_projections; cbn [fst snd]; ring. }
  assert (A2 : A ^ 2 <> 0) by (apply pow_nonzero; exact HA).
  assert (AX0 : auto K X <> 0) by (rewrite AX; apply Rmult_integral_contrapositive; split; [exact A2|lra]).
  assert (gA : (g * A) ^ 2 <> 0) by (apply pow_nonzero; now apply Rmult_integral_contrapositive).
  assert (AY0 : auto K Y <> 0) by (rewrite AY; apply Rmult_integral_contrapositive; split; [exact gA|lra]).
  split.
  - rewrite V1. destruct (Req_EM_T (auto K X) 0); [contradiction|]. f_equal. rewrite CX, AX.
    replace (g * (avg K (fun s => u s * v s) / avg K (fun s => u s ^ 2))) with (g * A ^ 2 * avg K (fun s => u s * v s) / (A ^ 2 * avg K (fun s => u s ^ 2))) by (field; split; lra).
    set (p := g * A ^ 2 * avg K (fun s => u s * v s)). set (q := A ^ 2 * avg K (fun s => u s ^ 2)). assert (Q0 : q <> 0) by (unfold q; rewrite <- AX; exact AX0).
    rewrite RtoC_div by exact Q0. unfold Cdiv. ring.
  - rewrite V2. destruct (Req_EM_T (auto K X * auto K Y) 0) as [Z0|_]; [apply Rmult_integral in Z0; tauto|]. f_equal. rewrite CX, AX, AY. unfold c. rewrite Cmod_mult, cis_mod, Cmod_R, Rmult_1_r, pow2_abs. unfold pulse_coherence. fold u v. field. repeat split; lra || assumption.
Qed.

(*@ C98 What tf_delay needs of a transfer function, wherever it comes from: if at every frequency looked at it is a positive number times the pure
    delay m dt, with a coherence above the limit, all three methods return m dt exactly. *)
Lemma pure_delay_found : forall ls dt N m' (tf : list (option C)) (coh : list (option R)) cl fl method,
  solver ls -> 0 < dt -> (2 <= N)%nat -> length tf = (N / 2 + 1)%nat -> length coh = (N / 2 + 1)%nat -> (2 * Z.abs m' < Z.of_nat N)%Z ->
  admits fl (1 / (INR N * dt)) -> In method ["multi"; "fit"; "diff"] ->
  (forall k, (k <= N / 2)%nat -> method = "diff" \/ admits fl (INR k / (INR N * dt)) ->
     exists r c, 0 < r /\ nth k tf None = Some (Cmult (RtoC r) (cis (- (2 * PI * (INR k / (INR N * dt)) * (IZR m' * dt))))) /\ nth k coh None = Some c /\ asks_less cl c) ->
  exists ix, tf_delay ls (map (fun k => INR k / (INR N * dt)) (seq 0 (N / 2 + 1))) [(tf, coh)] cl fl method = Ok ([Some (IZR m' * dt)], ix).
Proof.
  intros ls dt N m' tf coh cl fl method Sl D HN L1 L2 Hm Hf Me Pd.
  set (M := (N / 2 + 1)%nat) in *. set (fr := fun k => INR k / (INR N * dt)) in *. set (d := IZR m' * dt) in *.
  assert (HM : (2 <= M)%nat) by (unfold M; pose proof (Nat.div_le_mono 2 N 2 ltac:(lia) HN); change (2 / 2)%nat with 1%nat in *; lia).
  assert (NP : 0 < INR N) by (apply lt_0_INR; lia). assert (ND : 0 < INR N * dt) by now apply Rmult_lt_0_compat.
  assert (FS : forall k, (fr (S k) - fr k) * d = IZR m' / INR N) by (intro k; unfold fr, d; rewrite S_INR; field; lra).
  assert (MB : Rabs (IZR m' / INR N) < / 2).
  { unfold Rdiv. rewrite Rabs_mult, Rabs_inv, (Rabs_pos_eq (INR N)), <- abs_IZR by lra. apply (Rmult_lt_reg_r (INR N)); [exact NP|].
    rewrite Rmult_assoc, Rinv_l, Rmult_1_r by lra. apply IZR_lt in Hm. rewrite mult_IZR, <- INR_IZR_INZ in Hm. lra. }
  assert (F0 : fr 0%nat = 0) by (unfold fr; cbn [INR]; unfold Rdiv; ring).
  assert (Fm : forall i j, (i <= j)%nat -> fr i <= fr j).
  { intros i j L. unfold fr, Rdiv. apply Rmult_le_compat_r; [left; now apply Rinv_0_lt_compat|]. now apply le_INR. }
  assert (TB : table (map fr (seq 0 M)) [(tf, coh)]) by (constructor; [|constructor]; rewrite map_length, seq_length; auto).
  set (bin := fun k => mkBin (fr k) (nth k tf None) (nth k coh None)).
  assert (BI : bins_of (map fr (seq 0 M)) tf coh = map bin (seq 0 M)) by now apply bins_indexed.
  assert (BD : forall k, below fl (bin k) <-> admits fl (fr k)) by (intro k; unfold below, admits, bin; now destruct fl).
  destruct (filter_seq_down (fun k => if below_dec fl (bin k) then true else false) M) as (M' & LM & EM & QM).
  { intros i j L. destruct (below_dec fl (bin j)) as [B|]; [|discriminate]. intros _. destruct (below_dec fl (bin i)) as [|N0]; [reflexivity|]. exfalso. apply N0.
    apply BD in B. apply BD. unfold admits in *. destruct fl; [|exact I]. exact (Rle_lt_trans _ _ _ (Fm i j L) B). }
  assert (AD : forall k, (k < M')%nat -> admits fl (fr k)).
  { intros k Hk. assert (I : In k (filter (fun k => if below_dec fl (bin k) then true else false) (seq 0 M))) by (rewrite EM; apply in_seq; lia).
    apply filter_In in I. destruct I as [_ I]. destruct (below_dec fl (bin k)) as [B|]; [now apply BD|discriminate]. }
  assert (M1 : (1 < M')%nat). { apply QM; [lia|]. destruct (below_dec fl (bin 1%nat)) as [|N0]; [reflexivity|]. exfalso. apply N0, BD. unfold fr. cbn [INR]. exact Hf. }
  assert (VT : forall k, (k < M)%nat -> method = "diff" \/ admits fl (fr k) -> exists r c, 0 < r /\ nth k tf None = Some (Cmult (RtoC r) (cis (- (2 * PI * fr k * d)))) /\ nth k coh None = Some c /\ asks_less cl c).
  { intros k Hk e. apply (Pd k); [unfold M in Hk; lia|exact e]. }
  assert (US : used cl fl (map bin (seq 0 M)) = map bin (seq 0 M')).
  { unfold used. rewrite filter_map. f_equal. rewrite <- EM. apply filter_ext_in. intros k Ik. apply in_seq in Ik. destruct (below_dec fl (bin k)) as [B|]; [|reflexivity].
    destruct (coherent_dec cl (bin k)) as [|Nc]; [reflexivity|]. exfalso. apply Nc. unfold coherent, bin. cbn [b_coh]. destruct (VT k ltac:(lia) (or_intror (proj1 (BD k) B))) as (r & c & _ & _ & Ec & Hc). unfold asks_less in Hc. destruct cl as [l|]; [|exact I].
    exists c. split; assumption. }
  assert (BL : filter (fun b => if below_dec fl b then true else false) (map bin (seq 0 M)) = map bin (seq 0 M')) by now rewrite filter_map, EM.
  assert (C1 : forall bb, In bb (map bin (seq 0 M')) -> exists r, 0 < r /\ b_tf bb = Some (Cmult (RtoC r) (cis (- (2 * PI * b_freq bb * d))))).
  { intros bb Ib. apply in_map_iff in Ib. destruct Ib as (k & <- & Ik). apply in_seq in Ik. destruct (VT k ltac:(lia) (or_intror (AD k ltac:(lia)))) as (r & c & Hr & Er & _). exists r. split; [exact Hr|]. exact Er. }
  assert (C2 : forall bb r, map bin (seq 0 M') = bb :: r -> Rabs (b_freq bb * d) < / 2).
  { intros bb r Eb. destruct M' as [|M'']; [lia|]. cbn [seq map] in Eb. injection Eb as <- _. cbn [bin b_freq]. rewrite F0, Rmult_0_l, Rabs_R0. lra. }
  assert (C3 : forall i bb b', nth_error (map bin (seq 0 M')) i = Some bb -> nth_error (map bin (seq 0 M')) (S i) = Some b' -> Rabs ((b_freq b' - b_freq bb) * d) < / 2).
  { intros i bb b' E1 E2. assert (S i < M')%nat. { apply nth_error_Some_lt in E2 || (assert (X : nth_error (map bin (seq 0 M')) (S i) <> None) by congruence; apply nth_error_Some in X; rewrite map_length, seq_length in X; exact X). }
    rewrite nth_error_map, nth_error_seq in E1 by lia. rewrite nth_error_map, nth_error_seq in E2 by lia. cbn [option_map Nat.add] in E1, E2. injection E1 as <-. injection E2 as <-.
    cbn [bin b_freq]. rewrite FS. exact MB. }
  destruct Me as [<-|[<-|[<-|[]]]].
  - pose proof (multi_recovers ls (map fr (seq 0 M)) tf coh cl fl d Sl TB) as MR. cbv zeta in MR. rewrite BI, BL, US in MR. apply MR; auto. rewrite map_map.
    cbn [bin b_freq]. assert (PS : forall M0 s, 0 <= Rsum (map fr (seq s M0))).
    { induction M0 as [|M0 IH]; intro s; [cbn; lra|]. cbn [seq map]. unfold Rsum in *. cbn [fold_right]. specialize (IH (S s)).
      pose proof (Fm 0%nat s ltac:(lia)). rewrite F0 in *. lra. }
    destruct M' as [|[|M'']]; [lia|lia|]. change (map (fun x => fr x) (seq 0 (S (S M'')))) with (fr 0%nat :: fr 1%nat :: map fr (seq 2 M'')).
    pose proof (PS M'' 2%nat) as PS2. unfold Rsum in PS2 |- *. cbn [fold_right]. rewrite F0. assert (0 < fr 1%nat) by (unfold fr; cbn [INR]; apply Rdiv_lt_0_compat; lra). lra.
  - pose proof (fit_recovers ls (map fr (seq 0 M)) tf coh cl fl d Sl TB) as MR. cbv zeta in MR. rewrite BI, US in MR. apply MR; auto. exists (bin 1%nat). split; [apply in_map, in_seq; lia|]. cbn [bin b_freq].
    assert (0 < fr 1%nat) by (unfold fr; cbn [INR]; apply Rdiv_lt_0_compat; lra). lra.
  - set (zs := map (fun k => match nth k tf None with Some z => z | None => RtoC 0 end) (seq 0 M)).
    assert (ZV : forall k, (k < M)%nat -> exists r, 0 < r /\ nth k tf None = Some (nth k zs (RtoC 0)) /\ nth k zs (RtoC 0) = Cmult (RtoC r) (cis (- (2 * PI * fr k * d)))).
    { intros k Hk. destruct (VT k Hk (or_introl eq_refl)) as (r & c & Hr & Er & _). exists r. split; [exact Hr|]. unfold zs. rewrite nth_map_seq by exact Hk. rewrite Er. auto. }
    assert (ET : tf = map Some zs).
    { apply (nth_ext _ _ None None); [unfold zs; now rewrite !map_length, seq_length|]. intros k Hk. rewrite L1 in Hk. destruct (ZV k Hk) as (r & _ & -> & _).
      rewrite (nth_indep (map Some zs) None (Some (RtoC 0))) by (unfold zs; rewrite !map_length, seq_length; exact Hk). now rewrite map_nth. }
    rewrite ET in *. apply (diff_recovers ls (map fr (seq 0 M)) zs coh cl fl d TB).
    + now rewrite map_length, seq_length.
    + rewrite BI, US. destruct M'; [lia|discriminate].
    + rewrite map_length, seq_length. intros k Hk. rewrite !nth_map_seq by lia. unfold fr, Rdiv. apply Rmult_lt_compat_r; [now apply Rinv_0_lt_compat|]. rewrite S_INR. lra.
    + rewrite map_length, seq_length. intros k Hk. destruct (ZV k Hk) as (r & Hr & _ & Ez). exists r. split; [exact Hr|]. rewrite nth_map_seq by exact Hk. exact Ez.
    + rewrite map_length, seq_length. intros k Hk. rewrite !nth_map_seq by lia. rewrite FS. exact MB.
Qed.

Lemma train_periodic A N : periodic (train A N) N.
Proof. intro i. unfold train. replace (i + Z.of_nat N)%Z with (i + 1 * Z.of_nat N)%Z by lia. now rewrite Z_mod_plus_full. Qed.
(*@ C98 Hence for a train of pulses the delay is exact under the default Hamming window and any overlap as well, if the coherence limit lies below
    the coherence of the pulses. *)
Lemma pulse_delay : forall ls win dtr dt n A m m' q g a b navgs overlap window N V K cl fl method tfs,
  solver ls -> windows win -> keeps_length dtr -> (forall v, In v (win window N) -> 0 < v) -> (2 <= n)%nat -> 0 < dt -> 0 < g -> A <> 0 -> (2 <= N)%nat ->
  welch_grid n navgs overlap N V -> segments_fit n N V K -> m = (m' + q * Z.of_nat N)%Z -> (2 * Z.abs m' < Z.of_nat N)%Z ->
  asks_less cl (pulse_coherence (win window N) N V K m') -> admits fl (1 / (INR N * dt)) ->
  In method ["multi"; "fit"; "diff"] ->
  averaged_tf win dtr dt n (Frame [(a, arriving (train A N) n 0 1)]) (Frame [(b, arriving (train A N) n m g)]) (Z.of_nat navgs) overlap window None = Ok tfs ->
  exists ix, tf_delay ls (fst tfs) (map snd (snd tfs)) cl fl method = Ok ([Some (IZR m' * dt)], ix).
Proof.
  intros ls win dtr dt n A m m' q g a b navgs overlap window N V K cl fl method tfs Sl Hw Hd Wp Hn D Hg HA HN G F Em Hm Hc Hf Me Er.
  rewrite (arriving_turn (train A N) N n m m' g q (train_periodic A N) Em) in Er. clear m q Em.
  destruct (pulse_tf win dtr dt n A m' g a b navgs overlap window N V K Hw Hd Wp Hn ltac:(lra) ltac:(lra) HA G F) as (tf & coh & E & L1 & L2 & r & Hr & Vk).
  rewrite E in Er. injection Er as <-. cbn [fst snd map]. apply pure_delay_found; auto. intros k Hk _. destruct (Vk k Hk) as [V1 V2].
  exists (g * r), (pulse_coherence (win window N) N V K m'). split; [now apply Rmult_lt_0_compat|]. repeat split; assumption.
Qed.
(*@ C98 The coherence of the pulses is positive and at most 1, and is 1 for segments without overlap. *)
Lemma pulse_coherence_range : forall w N V K m, length w = N -> (1 <= N)%nat -> (1 <= K)%nat -> (forall v, In v w -> 0 < v) ->
  0 < pulse_coherence w N V K m <= 1 /\ (V = 0%nat -> pulse_coherence w N V K m = 1).
Proof.
  intros w N V K m L HN HK Wp. unfold pulse_coherence. set (u := seen w N V 0). set (v := seen w N V m).
  assert (Up : forall s, 0 < u s) by (intro s; now apply seen_pos). assert (Vp : forall s, 0 < v s) by (intro s; now apply seen_pos).
  assert (Puv : 0 < avg K (fun s => u s * v s)) by (apply avg_pos; [exact HK|]; intros s _; now apply Rmult_lt_0_compat).
  assert (Puu : 0 < avg K (fun s => u s ^ 2)) by (apply avg_pos; [exact HK|]; intros s _; specialize (Up s); nra).
  assert (Pvv : 0 < avg K (fun s => v s ^ 2)) by (apply avg_pos; [exact HK|]; intros s _; specialize (Vp s); nra).
  assert (PP : 0 < avg K (fun s => u s ^ 2) * avg K (fun s => v s ^ 2)) by now apply Rmult_lt_0_compat.
  split; [split|].
  - apply Rdiv_lt_0_compat; [|exact PP]. nra.
  - apply (Rmult_le_reg_r _ _ _ PP). unfold Rdiv. rewrite Rmult_assoc, Rinv_l, Rmult_1_r, Rmult_1_l by lra.
    pose proof (Rsum_cauchy_schwarz u v (seq 0 K)) as CS. unfold avg, Rdiv. assert (KI : 0 < / INR K) by (apply Rinv_0_lt_compat, lt_0_INR; lia). set (t := / INR K) in *.
    rewrite Rpow_mult_distr. replace (Rsum (map (fun s => u s ^ 2) (seq 0 K)) * t * (Rsum (map (fun s => v s ^ 2) (seq 0 K)) * t)) with (Rsum (map (fun s => u s ^ 2) (seq 0 K)) * Rsum (map (fun s => v s ^ 2) (seq 0 K)) * t ^ 2) by ring.
    apply Rmult_le_compat_r; [nra|exact CS].
  - intros ->. assert (Sc : forall e s, seen w N 0 e s = seen w N 0 e 0).
    { intros e s. unfold seen. do 2 f_equal. rewrite Nat.sub_0_r. replace (e - Z.of_nat (s * N))%Z with (e + (- Z.of_nat s) * Z.of_nat N)%Z by lia. rewrite Z_mod_plus_full. f_equal. lia. }
    assert (AC : forall c, avg K (fun _ => c) = c).
    { intro c. rewrite (avg_ext K (fun _ => c) (fun _ => c * 1)) by (intros; ring). rewrite avg_scale. unfold avg. replace (Rsum (map (fun _ => 1) (seq 0 K))) with (INR K).
      - field. apply not_0_INR. lia.
      - generalize 0%nat. clear. induction K as [|K IH]; intro b; [reflexivity|]. cbn [seq map]. rewrite S_INR, Rsum_cons, <- IH. ring. }
    rewrite (avg_ext K (fun s => u s * v s) (fun _ => u 0%nat * v 0%nat)) by (intros; unfold u, v; now rewrite (Sc 0%Z i), (Sc m i)).
    rewrite (avg_ext K (fun s => u s ^ 2) (fun _ => u 0%nat ^ 2)) by (intros; unfold u; now rewrite (Sc 0%Z i)).
    rewrite (avg_ext K (fun s => v s ^ 2) (fun _ => v 0%nat ^ 2)) by (intros; unfold v; now rewrite (Sc m i)). rewrite !AC.
    specialize (Up 0%nat). specialize (Vp 0%nat). field. lra.
Qed.
Lemma hamming4 : std_win "hamming" 4 = [8 / 100; 54 / 100; 1; 54 / 100].
Proof.
  assert (W : forall j, (j < 4)%nat -> nth j (std_win "hamming" 4) 0 = 54 / 100 - 46 / 100 * cos (2 * PI * INR j / INR 4) + 0 * cos (2 * (2 * PI * INR j / INR 4))).
  { intros j Hj. change (std_win "hamming" 4) with (cosine_window (54 / 100) (46 / 100) 0 4). apply cosine_nth; lia. }
  apply (nth_ext _ _ 0 0); [apply (std_windows "hamming" 4%nat)|]. intros j Hj. rewrite (std_windows "hamming" 4%nat) in Hj. rewrite W by exact Hj.
  destruct j as [|[|[|[|j]]]]; [..|lia]; cbn [nth].
  - replace (2 * PI * INR 0 / INR 4) with 0 by (cbn [INR]; unfold Rdiv; ring). rewrite cos_0. lra.
  - replace (2 * PI * INR 1 / INR 4) with (PI / 2) by (cbn [INR]; field). rewrite cos_PI2. lra.
  - replace (2 * PI * INR 2 / INR 4) with PI by (cbn [INR]; field). rewrite cos_PI. lra.
  - replace (2 * PI * INR 3 / INR 4) with (- (PI / 2) + 2 * PI) by (cbn [INR]; field). rewrite cos_plus, cos_2PI, sin_2PI, cos_neg, cos_PI2. lra.
Qed.
(*@ex C98 The library's default processing (Hamming window, half-overlapping segments): a pulse every four samples and a copy one sample later at
    three times the height. The pulses have coherence 841/1899, so with a limit of 2/5 each method returns exactly one sample. *)
Lemma pulse_example : exists ls, solver ls /\ welch_grid 8 2 (1 / 2) 4 2 /\ segments_fit 8 4 2 3 /\ (forall v, In v (std_win "hamming" 4) -> 0 < v) /\
  pulse_coherence (std_win "hamming" 4) 4 2 3 1 = 841 / 1899 /\
  forall method, In method ["multi"; "fit"; "diff"] -> exists tfs ix,
    averaged_tf std_win std_dtr 1 8 (Frame [("a", arriving (train 1 4) 8 0 1)]) (Frame [("b", arriving (train 1 4) 8 1 3)]) 2 (1 / 2) "hamming" None = Ok tfs /\
    tf_delay ls (fst tfs) (map snd (snd tfs)) (Some (2 / 5)) (Some (1 / 2)) method = Ok ([Some 1], ix).
Proof.
  destruct solver_exists as [ls Sl]. exists ls.
  assert (G : welch_grid 8 2 (1 / 2) 4 2) by (unfold welch_grid; cbn [INR]; repeat split; try lia; lra).
  assert (F : segments_fit 8 4 2 3) by (unfold segments_fit; lia).
  assert (Wp : forall v, In v (std_win "hamming" 4) -> 0 < v) by (rewrite hamming4; intros v [<-|[<-|[<-|[<-|[]]]]]; lra).
  assert (PC : pulse_coherence (std_win "hamming" 4) 4 2 3 1 = 841 / 1899).
  { rewrite hamming4. unfold pulse_coherence, avg, seen. cbn. change (Pos.to_nat 1) with 1%nat. change (Pos.to_nat 2) with 2%nat. change (Pos.to_nat 3) with 3%nat. cbn iota. field. }
  split; [exact Sl|]. split; [exact G|]. split; [exact F|]. split; [exact Wp|]. split; [exact PC|]. intros method Me.
  destruct (pulse_tf std_win std_dtr 1 8 1 1 3 "a" "b" 2 (1 / 2) "hamming" 4 2 3 std_windows std_keeps Wp ltac:(lia) ltac:(lra) ltac:(lra) ltac:(lra) G F) as (tf & coh & E & _).
  eexists.
  destruct (pulse_delay ls std_win std_dtr 1 8 1 1 1 0 3 "a" "b" 2 (1 / 2) "hamming" 4 2 3 (Some (2 / 5)) (Some (1 / 2)) method _ Sl std_windows std_keeps Wp
    ltac:(lia) ltac:(lra) ltac:(lra) ltac:(lra) ltac:(lia) G F ltac:(reflexivity) ltac:(cbn; lia) ltac:(rewrite PC; cbn; lra) ltac:(cbn; lra) Me E) as (ix & EX).
  exists ix. split; [exact E|]. rewrite EX. repeat f_equal. lra.
Qed.
