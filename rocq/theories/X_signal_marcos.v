(** The Marcos low-pass filter and cleanfreq (C59, C60). *)
From Verif Require Import Prelude PreludeFacts RealBase Fl RealStat Dft Phase M_spatial M_cmv M_signal_corr M_signal_tf M_signal_plant Spec_welch Spec_plant P_list P_dft P_welch P_signal P_parseval P_plant P_cam X_signal_interp P_filter X_signal_filter.
From Coquelicot Require Import Complex.
From Coq Require Import Lra Psatz Permutation.
Local Open Scope R_scope.

Lemma sqrt_nz s : 0 < s -> sqrt s <> 0.
Proof. intro P. pose proof (sqrt_lt_R0 s P). lra. Qed.
Lemma lowpass (q : R) : Cdiv (RtoC 1) (Cplus (0, q) (RtoC 1)) = (/ (1 + q ^ 2), - q / (1 + q ^ 2)).
Proof.
  pose proof (pow2_ge_0 q). assert (N : 1 + q ^ 2 <> 0) by lra.
  unfold Cdiv, Cinv, Cplus, Cmult, RtoC. cbn [fst snd]. f_equal; field; lra.
Qed.

(*@ C59 The filter for a plant of s > 0 hectares: 1/(1 + i q) with q = f/fc, fc = 0.02/sqrt(s), on the given frequencies,
   or on 100 frequencies spread evenly over 0 .. 0.5. *)
Lemma marcos_value : forall s freq, 0 < s ->
  let q f := f / (0.02 / sqrt s) in
  get_marcosfilter s (Some freq) = map (fun f => (f, Some (/ (1 + q f ^ 2), - q f / (1 + q f ^ 2)))) freq /\
  get_marcosfilter s None = get_marcosfilter s (Some (map (fun i => INR i / 99 * 0.5) (seq 0 100))).
Proof.
  intros s freq P q. split.
  - unfold get_marcosfilter. apply map_ext. intro f. destruct (Rltb_spec s 0) as [K|_]; [lra|]. rewrite Reqb_false by lra. do 2 f_equal.
    rewrite <- lowpass. f_equal. f_equal. pose proof (sqrt_nz s P).
    assert (Nf : 2 / 100 / sqrt s <> 0) by (unfold Rdiv; apply Rmult_integral_contrapositive_currified; [lra|now apply Rinv_neq_0_compat]).
    unfold Cdiv. rewrite <- RtoC_inv by exact Nf. unfold q, Ci, Cmult, RtoC. cbn [fst snd]. replace 0.02 with (2 / 100) by lra. f_equal; field; auto.
  - unfold get_marcosfilter, marcos_freqs. rewrite (map_ext (fun i => INR i * (1 / 2) / 99) (fun i => INR i / 99 * 0.5)) by (intro; lra). reflexivity.
Qed.
(*@ C59 Zero size: no filtering; negative size: every value is missing. *)
Lemma marcos_degenerate : forall s freq,
  get_marcosfilter 0 (Some freq) = map (fun f => (f, Some (RtoC 1))) freq /\
  (s < 0 -> get_marcosfilter s (Some freq) = map (fun f => (f, None)) freq).
Proof.
  intros s freq. split; [|intro P]; unfold get_marcosfilter; apply map_ext; intro f.
  - destruct (Rltb_spec 0 0); [lra|]. now rewrite Reqb_true.
  - destruct (Rltb_spec s 0); [reflexivity|lra].
Qed.
Lemma marcos_one s f : 0 < s -> get_marcosfilter s (Some [f]) = [(f, Some (/ (1 + (f / (0.02 / sqrt s)) ^ 2), - (f / (0.02 / sqrt s)) / (1 + (f / (0.02 / sqrt s)) ^ 2)))].
Proof. intro P. apply (proj1 (marcos_value s [f] P)). Qed.
Lemma lowpass_mod q : Cmod (/ (1 + q ^ 2), - q / (1 + q ^ 2)) = / sqrt (1 + q ^ 2).
Proof.
  pose proof (pow2_ge_0 q). unfold Cmod. cbn [fst snd].
  replace ((/ (1 + q ^ 2)) ^ 2 + (- q / (1 + q ^ 2)) ^ 2) with (/ (1 + q ^ 2)) by (field; lra).
  apply sqrt_inv.
Qed.

(*@ C59 Magnitude 1/sqrt(1 + (f/fc)^2), so 1 at frequency 0, at most 1 everywhere, and half power at fc. *)
Lemma marcos_magnitude : forall s f z, 0 < s -> get_marcosfilter s (Some [f]) = [(f, Some z)] ->
  let fc := 0.02 / sqrt s in
  Cmod z = 1 / sqrt (1 + (f / fc) ^ 2) /\ Cmod z <= 1 /\ (f = 0 -> z = RtoC 1) /\ (f = fc -> Cmod z ^ 2 = 1 / 2).
Proof.
  intros s f z P E fc. rewrite marcos_one in E by exact P. fold fc in E. set (q := f / fc) in *.
  assert (Z : z = (/ (1 + q ^ 2), - q / (1 + q ^ 2))) by congruence.
  assert (M : Cmod z = / sqrt (1 + q ^ 2)) by (rewrite Z; apply lowpass_mod).
  pose proof (pow2_ge_0 q) as Q. assert (S1 : 1 <= sqrt (1 + q ^ 2)) by (rewrite <- sqrt_1 at 1; apply sqrt_le_1; lra).
  split; [rewrite M; lra|]. split; [|split].
  - rewrite M. apply Rle_trans with (/ 1); [apply Rinv_le_contravar; [lra|exact S1]|rewrite Rinv_1; lra].
  - intro F0. assert (Q0 : q = 0) by (unfold q; rewrite F0; unfold Rdiv; ring). rewrite Z, Q0. unfold RtoC. f_equal; field.
  - intro Ef. assert (Q1 : q = 1) by (unfold q; rewrite Ef; unfold fc; field; pose proof (sqrt_lt_R0 s P); lra).
    rewrite M, Q1. replace (1 + 1 ^ 2) with 2 by ring. rewrite pow_inv, pow2_sqrt by lra. lra.
Qed.
(*@ C59 It falls with frequency and with plant size, and the value at -f is the conjugate of that at f. *)
Lemma marcos_monotone : forall s f z s' f' z', 0 < s -> 0 < s' ->
  get_marcosfilter s (Some [f]) = [(f, Some z)] -> get_marcosfilter s' (Some [f']) = [(f', Some z')] ->
  (Rabs f <= Rabs f' -> s <= s' -> Cmod z' <= Cmod z) /\
  (Rabs f < Rabs f' -> s <= s' -> Cmod z' < Cmod z) /\
  (f <> 0 -> Rabs f <= Rabs f' -> s < s' -> Cmod z' < Cmod z) /\
  (s' = s -> f' = - f -> z' = Cconj z).
Proof.
  intros s f z s' f' z' P P' E E'. rewrite marcos_one in E by exact P. rewrite marcos_one in E' by exact P'.
  set (q := f / (0.02 / sqrt s)) in *. set (q' := f' / (0.02 / sqrt s')) in *.
  assert (Z : z = (/ (1 + q ^ 2), - q / (1 + q ^ 2))) by congruence. assert (Z' : z' = (/ (1 + q' ^ 2), - q' / (1 + q' ^ 2))) by congruence.
  assert (M : Cmod z = / sqrt (1 + q ^ 2)) by (rewrite Z; apply lowpass_mod). assert (M' : Cmod z' = / sqrt (1 + q' ^ 2)) by (rewrite Z'; apply lowpass_mod).
  assert (Q2 : q ^ 2 = f ^ 2 * s * 2500).
  { unfold q. pose proof (sqrt_lt_R0 s P). replace 0.02 with (2 / 100) by lra. replace ((f / (2 / 100 / sqrt s)) ^ 2) with (f ^ 2 * (sqrt s ^ 2) * 2500) by (field; lra). rewrite pow2_sqrt by lra. reflexivity. }
  assert (Q2' : q' ^ 2 = f' ^ 2 * s' * 2500).
  { unfold q'. pose proof (sqrt_lt_R0 s' P'). replace 0.02 with (2 / 100) by lra. replace ((f' / (2 / 100 / sqrt s')) ^ 2) with (f' ^ 2 * (sqrt s' ^ 2) * 2500) by (field; lra). rewrite pow2_sqrt by lra. reflexivity. }
  pose proof (pow2_ge_0 q) as G. pose proof (pow2_ge_0 q') as G'.
  assert (Le : q ^ 2 <= q' ^ 2 -> Cmod z' <= Cmod z).
  { intro K. rewrite M, M'. apply Rinv_le_contravar; [apply sqrt_lt_R0; lra|apply sqrt_le_1; lra]. }
  assert (Lt : q ^ 2 < q' ^ 2 -> Cmod z' < Cmod z).
  { intro K. rewrite M, M'. apply Rinv_lt_contravar; [apply Rmult_lt_0_compat; apply sqrt_lt_R0; lra|apply sqrt_lt_1; lra]. }
  assert (A2 : forall a b, Rabs a <= Rabs b -> a ^ 2 <= b ^ 2).
  { intros a b K. rewrite <- (pow2_abs a), <- (pow2_abs b). apply pow_incr. split; [apply Rabs_pos|exact K]. }
  pose proof (pow2_ge_0 f) as Gf. pose proof (pow2_ge_0 f') as Gf'.
  repeat split.
  - intros K L. apply Le. rewrite Q2, Q2'. specialize (A2 f f' K). nra.
  - intros K L. apply Lt. rewrite Q2, Q2'. assert (f ^ 2 < f' ^ 2) by (rewrite <- (pow2_abs f), <- (pow2_abs f'); pose proof (Rabs_pos f); nra). nra.
  - intros N K L. apply Lt. rewrite Q2, Q2'. specialize (A2 f f' K). assert (0 < f ^ 2) by (pose proof (Rsqr_pos_lt f N) as U; unfold Rsqr in U; cbn [pow]; lra). nra.
  - intros -> ->. rewrite Z, Z'. replace q' with (- q) by (unfold q, q'; unfold Rdiv; ring). unfold Cconj. cbn [fst snd]. f_equal; field; lra.
Qed.
(*@ C59 The default filter is one-sided, so applying it to a signal always fails. *)
Lemma marcos_default_unusable : forall s dt sig filt, (2 <= length sig)%nat -> 0 < dt ->
  get_marcosfilter s None = map (fun r => (fst r, Some (snd r))) filt -> apply_filter dt sig filt = Err ValueError.
Proof.
  intros s dt sig filt L D E.
  assert (Ef : map fst filt = marcos_freqs).
  { apply (f_equal (map fst)) in E. unfold get_marcosfilter in E. rewrite !map_map in E. cbn [fst] in E. rewrite map_id in E. now rewrite E. }
  apply apply_one_sided; auto.
  - rewrite Ef. unfold marcos_freqs. apply FinFun.Injective_map_NoDup; [|apply seq_NoDup]. intros a b K. apply INR_eq. lra.
  - rewrite <- (map_length fst), Ef. unfold marcos_freqs. rewrite map_length, seq_length. lia.
  - intros f z I. apply (in_map fst) in I. rewrite Ef in I. unfold marcos_freqs in I. apply in_map_iff in I. destruct I as (i & K & _). cbn in K. rewrite <- K. pose proof (pos_INR i). lra.
Qed.

(*@ C60 cleanfreq returns nothing, keeps the length, the values and every label except the one at position n//2, which becomes missing. *)
Lemma clean_effect : forall L V (sig : list (option L * V)), sig <> [] ->
  exists after, cleanfreq sig = Ok (tt, after) /\ length after = length sig /\ map snd after = map snd sig /\
    forall i, nth_error (map fst after) i = (if Nat.eqb i (length sig / 2) then Some None else nth_error (map fst sig) i).
Proof.
  intros L V sig N. unfold cleanfreq. rewrite map_length.
  assert (Pn : (0 < length sig)%nat) by (destruct sig; [congruence|cbn; lia]).
  assert (H : (length sig / 2 < length sig)%nat) by (apply Nat.div_lt; lia).
  destruct (Nat.ltb_spec (length sig / 2) (length sig)); [|lia]. eexists. split; [reflexivity|].
  assert (Ll : length (list_set (map fst sig) (length sig / 2) None) = length (map snd sig)) by (rewrite list_set_length, !map_length; reflexivity).
  split; [rewrite combine_length, Ll, map_length; apply Nat.min_id|]. split; [now apply combine_snd|].
  assert (Cf : forall (A B : Type) (l : list A) (l' : list B), length l = length l' -> map fst (combine l l') = l).
  { intros A B l. induction l as [|a l IH]; intros [|b l'] K; try discriminate; [reflexivity|]. cbn in *. f_equal. apply IH. lia. }
  intro i. rewrite Cf by exact Ll. destruct (Nat.eqb_spec i (length sig / 2)) as [->|D].
  - apply nth_error_list_set_same. now rewrite map_length.
  - apply nth_error_list_set_other. auto.
Qed.
(*@ C60 An empty object is an IndexError; a second call changes nothing more. *)
Lemma clean_again : forall L V (sig after : list (option L * V)),
  (cleanfreq sig = Err IndexError <-> sig = []) /\ (cleanfreq sig = Ok (tt, after) -> cleanfreq after = Ok (tt, after)).
Proof.
  intros L V sig after. split.
  - split; [|intros ->; reflexivity]. intro E. destruct sig as [|r sig]; [reflexivity|].
    destruct (clean_effect L V (r :: sig)) as (a & Ea & _); [discriminate|]. congruence.
  - intro E. destruct sig as [|r sig]; [discriminate|]. destruct (clean_effect L V (r :: sig)) as (a & Ea & La & Va & Fa); [discriminate|].
    assert (a = after) by congruence. subst a. assert (Na : after <> []) by (intros ->; discriminate).
    destruct (clean_effect L V after Na) as (b & Eb & Lb & Vb & Fb). rewrite Eb. do 2 f_equal.
    assert (Ff : map fst b = map fst after).
    { apply nth_error_ext. intro i. rewrite Fb, !Fa, La. now destruct (Nat.eqb i (length (r :: sig) / 2)). }
    clear - Ff Vb. revert after Ff Vb. induction b as [|[x y] b IH]; intros [|[x' y'] after] Ff Vb; try discriminate; [reflexivity|]. cbn in *. injection Ff as -> Ff. injection Vb as -> Vb. f_equal. now apply IH.
Qed.
(*@ex C60 Four bins: the first negative frequency loses its label. *)
Lemma clean_example : cleanfreq [(Some 0, 10); (Some 1, 20); (Some (-2), 30); (Some (-1), 40)] =
  Ok (tt, [(Some 0, 10); (Some 1, 20); (None, 30); (Some (-1), 40)]).
Proof.
  reflexivity.
Qed.
(*@ex C59 One hectare at 0.02 Hz. *)
Lemma marcos_example : get_marcosfilter 1 (Some [0; 0.02]) = [(0, Some (RtoC 1)); (0.02, Some (1 / 2, - (1 / 2)))].
Proof.
  rewrite (proj1 (marcos_value 1 [0; 0.02] ltac:(lra))). cbn [map]. rewrite sqrt_1. replace 0.02 with (2 / 100) by lra. unfold RtoC.
  repeat first [reflexivity | apply (f_equal2 cons) | apply (f_equal2 pair) | apply f_equal]; field.
Qed.
