(** The Marcos filter as it is stored, in single precision (C139). *)
From Coq Require Import ZArith.
From Flocq Require Import Core Relative.
From Verif Require Import Prelude PreludeFacts RealBase M_signal_plant M_marcos32 X_signal_marcos.
From Coq Require Import Lra Psatz.
From Coquelicot Require Import Complex.
Local Open Scope R_scope.

(** f / fc for a plant of s hectares. *)
Definition rel_freq (s f : R) : R := f / (0.02 / sqrt s).

Lemma prec24 : Prec_gt_0 24. Proof. reflexivity. Qed.
Local Existing Instance prec24.
Lemma b32_valid : Valid_exp b32_exp. Proof. apply FLT_exp_valid. exact prec24. Qed.
Local Existing Instance b32_valid.
Lemma b32_mono x y : x <= y -> b32 x <= b32 y.
Proof. intro H. unfold b32. apply round_le; [exact b32_valid|apply valid_rnd_N|exact H]. Qed.
Lemma b32_bpow e : (-149 <= e)%Z -> b32 (bpow radix2 e) = bpow radix2 e.
Proof.
  intro E. unfold b32. apply round_generic; [apply valid_rnd_N|]. apply generic_format_FLT_bpow; [reflexivity|exact E].
Qed.
Lemma b32_zero : b32 0 = 0.
Proof. unfold b32. apply round_0. apply valid_rnd_N. Qed.
Lemma b32_opp x : b32 (- x) = - b32 x.
Proof. unfold b32. apply round_NE_opp. Qed.
Lemma b32_one : b32 1 = 1.
Proof. exact (b32_bpow 0 ltac:(lia)). Qed.
Lemma b32_half : b32 (/ 2) = / 2.
Proof. exact (b32_bpow (-1) ltac:(lia)). Qed.
Lemma b32_mixed x : Rabs (b32 x - x) <= / 2 ^ 24 * Rabs x + / 2 ^ 149.
Proof.
  destruct (error_N_FLT radix2 (-149) 24 ltac:(lia) (fun z => negb (Z.even z)) x) as (e & t & E & T & _ & Q).
  assert (Q' : b32 x = x * (1 + e) + t) by exact Q. rewrite Q'.
  assert (E' : Rabs e <= / 2 ^ 24) by (eapply Rle_trans; [exact E|]; cbn; lra).
  assert (T' : Rabs t <= / 2 ^ 149).
  { eapply Rle_trans; [exact T|]. assert (B : bpow radix2 (-149) = / 2 ^ 149) by (rewrite bpow_opp with (e := 149%Z); f_equal; rewrite <- IZR_Zpower by lia; cbn; lra).
    rewrite B. assert (0 < / 2 ^ 149) by (apply Rinv_0_lt_compat, pow_lt; lra). lra. }
  replace (x * (1 + e) + t - x) with (e * x + t) by ring. eapply Rle_trans; [apply Rabs_triang|]. rewrite Rabs_mult.
  pose proof (Rabs_pos x). nra.
Qed.

Lemma ideal_re q : 0 < / (1 + q ^ 2) <= 1.
Proof.
  pose proof (pow2_ge_0 q). split; [apply Rinv_0_lt_compat; lra|]. apply Rle_trans with (/ 1); [apply Rinv_le_contravar; lra|lra].
Qed.
Lemma ideal_im q : - / 2 <= - q / (1 + q ^ 2) <= / 2.
Proof.
  pose proof (pow2_ge_0 q). assert (P : 0 < 1 + q ^ 2) by lra.
  split; apply (Rmult_le_reg_r (1 + q ^ 2)); try exact P; (replace (- q / (1 + q ^ 2) * (1 + q ^ 2)) with (- q) by (field; lra)).
  - pose proof (pow2_ge_0 (q - 1)). nra.
  - pose proof (pow2_ge_0 (q + 1)). nra.
Qed.
Lemma ideal_gain q : (/ (1 + q ^ 2)) ^ 2 + (- q / (1 + q ^ 2)) ^ 2 <= 1.
Proof.
  pose proof (pow2_ge_0 q). replace ((/ (1 + q ^ 2)) ^ 2 + (- q / (1 + q ^ 2)) ^ 2) with (/ (1 + q ^ 2)) by (field; lra). apply ideal_re.
Qed.
Lemma stored_row s freq i f v : 0 < s -> nth_error (get_marcosfilter32 s (Some freq)) i = Some (f, v) ->
  nth_error freq i = Some f /\ v = Some (b32 (/ (1 + rel_freq s f ^ 2)), b32 (- rel_freq s f / (1 + rel_freq s f ^ 2))).
Proof.
  intros S H. unfold get_marcosfilter32 in H. rewrite (proj1 (marcos_value s freq S)) in H. rewrite map_map, nth_error_map in H.
  destruct (nth_error freq i) as [g|]; [|discriminate H]. cbn in H. injection H as <- <-. split; reflexivity.
Qed.

(*@ C139 For s > 0 there is one stored value per frequency, in order, and each part of it differs from the ideal one-pole response by at most half a unit in the last place
    of single precision: 2^-24 of the part itself, plus 2^-149 for tiny parts. *)
Lemma stored_close : forall s freq, 0 < s ->
  map fst (get_marcosfilter32 s (Some freq)) = freq /\
  forall i f v, nth_error (get_marcosfilter32 s (Some freq)) i = Some (f, v) -> exists re im, v = Some (re, im) /\
    let q := rel_freq s f in
    Rabs (re - / (1 + q ^ 2)) <= / 2 ^ 24 * Rabs (/ (1 + q ^ 2)) + / 2 ^ 149 /\
    Rabs (im - - q / (1 + q ^ 2)) <= / 2 ^ 24 * Rabs (- q / (1 + q ^ 2)) + / 2 ^ 149.
Proof.
  intros s freq S. split.
  - unfold get_marcosfilter32. rewrite (proj1 (marcos_value s freq S)), !map_map. cbn [fst]. apply map_id.
  - intros i f v H. destruct (stored_row s freq i f v S H) as [_ ->]. do 2 eexists. split; [reflexivity|]. cbv zeta. split; apply b32_mixed.
Qed.

Lemma b32_digits x : exists m e : Z, b32 x = IZR m * powerRZ 2 e /\ (Z.abs m < 2 ^ 24)%Z /\ (-149 <= e)%Z.
Proof.
  assert (G : generic_format radix2 b32_exp (b32 x)) by (apply generic_format_round; [exact b32_valid|apply valid_rnd_N]).
  apply (FLT_format_generic radix2 (-149) 24) in G. destruct G as [[m e] A B D]. exists m, e. rewrite A. cbn [Fnum Fexp] in *.
  split; [|split; [exact B|exact D]]. unfold F2R. cbn [Fnum Fexp]. rewrite bpow_powerRZ. reflexivity.
Qed.
(*@ C139 Both stored parts are single precision numbers: whole numbers of at most 24 binary digits times a power of two. *)
Lemma stored_single : forall s freq i f re im, 0 < s -> nth_error (get_marcosfilter32 s (Some freq)) i = Some (f, Some (re, im)) ->
  forall v, v = re \/ v = im -> exists m e : Z, v = IZR m * powerRZ 2 e /\ (Z.abs m < 2 ^ 24)%Z /\ (-149 <= e)%Z.
Proof.
  intros s freq i f re im S H v V. destruct (stored_row s freq i f _ S H) as [_ E]. injection E as -> ->.
  destruct V as [-> | ->]; apply b32_digits.
Qed.

(*@ C139 The stored real part lies in [0, 1] and the imaginary part in [-1/2, 1/2]; the imaginary part is never positive for frequencies that are not negative;
    at frequency 0 the value is exactly 1; the value at -f is the conjugate of that at f. *)
Lemma stored_shape : forall s freq i f re im, 0 < s -> nth_error (get_marcosfilter32 s (Some freq)) i = Some (f, Some (re, im)) ->
  0 <= re <= 1 /\ - / 2 <= im <= / 2 /\ (0 <= f -> im <= 0) /\ (f = 0 -> re = 1 /\ im = 0) /\
  forall freq' j v, nth_error (get_marcosfilter32 s (Some freq')) j = Some (- f, v) -> v = Some (re, - im).
Proof.
  intros s freq i f re im S H. destruct (stored_row s freq i f _ S H) as [_ E].
  set (q := rel_freq s f) in *. assert (E1 : re = b32 (/ (1 + q ^ 2))) by congruence. assert (E2 : im = b32 (- q / (1 + q ^ 2))) by congruence.
  pose proof (ideal_re q) as [R1 R2]. pose proof (ideal_im q) as [I1 I2]. pose proof (pow2_ge_0 q) as Q2.
  pose proof (sqrt_lt_R0 s S) as Sp. assert (Fc : 0 < 0.02 / sqrt s) by (apply Rdiv_lt_0_compat; lra).
  split; [|split; [|split; [|split]]].
  - rewrite E1, <- b32_zero, <- b32_one. split; apply b32_mono; rewrite ?b32_zero, ?b32_one; lra.
  - rewrite E2. split.
    + rewrite <- b32_half, <- b32_opp. now apply b32_mono.
    + apply Rle_trans with (b32 (/ 2)); [now apply b32_mono|rewrite b32_half; lra].
  - intro F. rewrite E2, <- b32_zero. apply b32_mono. assert (Q : 0 <= q) by (apply Rmult_le_pos; [exact F|left; now apply Rinv_0_lt_compat]).
    unfold Rdiv. assert (0 < / (1 + q ^ 2)) by lra. nra.
  - intro F. assert (Q : q = 0) by (unfold q, rel_freq; rewrite F; unfold Rdiv; ring). rewrite E1, E2, Q. split.
    + replace (/ (1 + 0 ^ 2)) with 1 by field. exact b32_one.
    + replace (Ropp 0 / (1 + 0 ^ 2)) with 0 by field. exact b32_zero.
  - intros freq' j v H'. destruct (stored_row s freq' j (- f) v S H') as [_ ->].
    assert (Q : rel_freq s (- f) = - q) by (unfold q, rel_freq, Rdiv; ring). rewrite Q, E1, E2, <- b32_opp.
    replace ((- q) ^ 2) with (q ^ 2) by ring. do 3 f_equal. field. lra.
Qed.

(*@ C139 Rounding does not disturb the order: at a frequency further from zero, or for a larger plant, the stored real part is not larger. *)
Lemma stored_monotone : forall s freq i f re im s' freq' j f' re' im', 0 < s -> s <= s' -> Rabs f <= Rabs f' ->
  nth_error (get_marcosfilter32 s (Some freq)) i = Some (f, Some (re, im)) ->
  nth_error (get_marcosfilter32 s' (Some freq')) j = Some (f', Some (re', im')) -> re' <= re.
Proof.
  intros s freq i f re im s' freq' j f' re' im' S SS F H H'. destruct (stored_row s freq i f _ S H) as [_ E].
  destruct (stored_row s' freq' j f' _ ltac:(lra) H') as [_ E'].
  assert (E1 : re = b32 (/ (1 + rel_freq s f ^ 2))) by congruence. assert (E2 : re' = b32 (/ (1 + rel_freq s' f' ^ 2))) by congruence.
  rewrite E1, E2. apply b32_mono. pose proof (pow2_ge_0 (rel_freq s f)). apply Rinv_le_contravar; [lra|]. apply Rplus_le_compat_l.
  pose proof (sqrt_lt_R0 s S) as S1. pose proof (sqrt_lt_R0 s' ltac:(lra)) as S2.
  assert (Q : forall a b, 0 < b -> rel_freq b a ^ 2 = 2500 * (Rabs a ^ 2 * b)).
  { intros a b B. unfold rel_freq. pose proof (sqrt_lt_R0 b B) as B1. replace (a / (0.02 / sqrt b)) with (50 * a * sqrt b) by (replace 0.02 with (/ 50) by lra; field; lra).
    rewrite pow2_abs. rewrite !Rpow_mult_distr, pow2_sqrt by lra. ring. }
  rewrite !Q by lra. apply Rmult_le_compat_l; [lra|]. apply Rmult_le_compat; [apply pow2_ge_0|lra| |exact SS]. apply pow_incr. split; [apply Rabs_pos|exact F].
Qed.
(*@ C139 A plant of no size stores exactly 1 everywhere, a negative size stores NaN, and leaving the frequencies out means 100 frequencies evenly over 0 .. 0.5. *)
Lemma stored_degenerate : forall s freq,
  get_marcosfilter32 0 (Some freq) = map (fun f => (f, Some (RtoC 1))) freq /\
  (s < 0 -> get_marcosfilter32 s (Some freq) = map (fun f => (f, None)) freq) /\
  (0 < s -> get_marcosfilter32 s None = get_marcosfilter32 s (Some (map (fun i => INR i / 99 * 0.5) (seq 0 100)))).
Proof.
  intros s freq. destruct (marcos_degenerate s freq) as [A B]. unfold get_marcosfilter32. split; [|split].
  - rewrite A, map_map. apply map_ext. intro f. cbn [fst snd option_map]. unfold to_complex64, RtoC. cbn [fst snd]. now rewrite b32_one, b32_zero.
  - intro S. rewrite (B S), map_map. reflexivity.
  - intro S. now rewrite (proj2 (marcos_value s [] S)).
Qed.

(*@ C139 The stored gain exceeds 1 by at most 2^-23. *)
Lemma stored_gain : forall s freq i f z, 0 < s -> nth_error (get_marcosfilter32 s (Some freq)) i = Some (f, Some z) -> Cmod z <= 1 + / 2 ^ 23.
Proof.
  intros s freq i f z S H. destruct (stored_row s freq i f _ S H) as [_ E]. set (q := rel_freq s f) in *.
  assert (E' : z = (b32 (/ (1 + q ^ 2)), b32 (- q / (1 + q ^ 2)))) by congruence. rewrite E'. unfold Cmod. cbn [fst snd].
  pose proof (b32_mixed (/ (1 + q ^ 2))) as A. pose proof (b32_mixed (- q / (1 + q ^ 2))) as B. pose proof (ideal_gain q) as G.
  set (x := / (1 + q ^ 2)) in *. set (y := - q / (1 + q ^ 2)) in *. set (a := b32 x) in *. set (b := b32 y) in *.
  clearbody x y a b. clear - A B G.
  assert (T : 0 < / 2 ^ 149 <= / 2 ^ 40).
  { split; [apply Rinv_0_lt_compat, pow_lt; lra|]. apply Rinv_le_contravar; [apply pow_lt; lra|]. apply Rle_pow; [lra|lia]. }
  set (t := / 2 ^ 149) in *. clearbody t. replace (/ 2 ^ 24) with (/ 16777216) in * by (f_equal; ring). replace (/ 2 ^ 40) with (/ 1099511627776) in T by (f_equal; ring).
  replace (/ 2 ^ 23) with (/ 8388608) by (f_equal; ring).
  assert (X : Rabs a <= (1 + / 16777216) * Rabs x + t) by (pose proof (Rabs_triang (a - x) x) as W; replace (a - x + x) with a in W by ring; lra).
  assert (Y : Rabs b <= (1 + / 16777216) * Rabs y + t) by (pose proof (Rabs_triang (b - y) y) as W; replace (b - y + y) with b in W by ring; lra).
  rewrite <- (pow2_abs a), <- (pow2_abs b). rewrite <- (pow2_abs x), <- (pow2_abs y) in G.
  pose proof (Rabs_pos a) as Pa. pose proof (Rabs_pos b) as Pb. pose proof (Rabs_pos x) as Px. pose proof (Rabs_pos y) as Py.
  set (m := Rabs a) in *. set (n := Rabs b) in *. set (g := Rabs x) in *. set (h := Rabs y) in *. clearbody m n g h. clear A B.
  apply Rle_trans with (sqrt ((1 + / 8388608) ^ 2)); [apply sqrt_le_1_alt|rewrite sqrt_pow2 by lra; lra].
  assert (Gx : g <= 1) by (pose proof (pow2_ge_0 h); nra). assert (Hy : h <= 1) by (pose proof (pow2_ge_0 g); nra).
  set (k := 1 + / 16777216) in *. assert (Kb : 1 <= k <= 1 + / 16777216) by (unfold k; lra).
  assert (M2 : m ^ 2 <= (k * g + t) ^ 2) by (apply pow_incr; lra). assert (N2 : n ^ 2 <= (k * h + t) ^ 2) by (apply pow_incr; lra).
  apply Rle_trans with (k ^ 2 * (g ^ 2 + h ^ 2) + 2 * k * t * (g + h) + 2 * t ^ 2); [lra|].
  assert (K2 : 0 <= k ^ 2) by apply pow2_ge_0.
  assert (S1 : k ^ 2 * (g ^ 2 + h ^ 2) <= k ^ 2 * 1) by (apply Rmult_le_compat_l; lra).
  assert (S2 : 2 * k * t * (g + h) <= 2 * k * t * 2) by (apply Rmult_le_compat_l; [|lra]; apply Rmult_le_pos; lra).
  assert (S3 : k * t <= 2 * t) by (apply Rmult_le_compat_r; lra).
  assert (S4 : t ^ 2 <= t) by (replace (t ^ 2) with (t * t) by ring; rewrite <- (Rmult_1_r t) at 3; apply Rmult_le_compat_l; lra).
  assert (K3 : k ^ 2 = 1 + 2 * / 16777216 + / 16777216 * / 16777216) by (unfold k; ring).
  assert (S5 : (1 + / 8388608) ^ 2 = 1 + 2 * / 8388608 + / 8388608 * / 8388608) by ring. lra.
Qed.

Lemma near_one x : 1 - / 67108864 <= x < 1 -> b32 x = 1.
Proof.
  intro H. unfold b32, round, scaled_mantissa, cexp.
  assert (M : mag radix2 x = 0%Z :> Z).
  { apply mag_unique. rewrite Rabs_pos_eq by lra. cbn. lra. }
  rewrite M. change (b32_exp 0) with (-24)%Z. rewrite (Znearest_imp _ _ 16777216%Z).
  - unfold F2R. cbn. lra.
  - apply Rabs_lt. cbn. lra.
Qed.
(*@ C139 The ideal gain never exceeds 1 (C59), the stored one does: for a plant of one hectare, at 2^-13 of the cut-off frequency, the stored gain is greater than 1. *)
Lemma stored_gain_refuted : exists z, nth_error (get_marcosfilter32 1 (Some [0.02 * / 2 ^ 13])) 0 = Some (0.02 * / 2 ^ 13, Some z) /\ 1 < Cmod z.
Proof.
  destruct (nth_error (get_marcosfilter32 1 (Some [0.02 * / 2 ^ 13])) 0) as [[f v]|] eqn:E; [|discriminate E].
  destruct (stored_row 1 _ 0 f v ltac:(lra) E) as [F ->]. cbn [nth_error] in F. assert (Ff : f = 0.02 * / 2 ^ 13) by congruence. rewrite Ff. clear F E Ff. eexists. split; [reflexivity|].
  assert (Q : rel_freq 1 (0.02 * / 2 ^ 13) = / 8192) by (unfold rel_freq; rewrite sqrt_1; replace (2 ^ 13) with 8192 by ring; field; lra). rewrite Q.
  rewrite near_one.
  2:{ replace (/ (1 + (/ 8192) ^ 2)) with (67108864 / 67108865) by field. lra. }
  assert (I : b32 (- / 8192 / (1 + (/ 8192) ^ 2)) <= - / 16384).
  { assert (B : b32 (/ 16384) = / 16384) by exact (b32_bpow (-14) ltac:(lia)). apply Rle_trans with (b32 (- (/ 16384))); [apply b32_mono|rewrite b32_opp, B; apply Rle_refl].
    replace (- / 8192 / (1 + (/ 8192) ^ 2)) with (- (8192 / 67108865)) by field. lra. }
  set (b := b32 _) in *. clearbody b. unfold Cmod. cbn [fst snd]. rewrite <- sqrt_1 at 1. apply sqrt_lt_1_alt. nra.
Qed.
(*@ex C139 a plant of one hectare at frequency zero and at the cut-off: 1, and exactly 1/2 - i/2 *)
Lemma marcos32_example : get_marcosfilter32 1 (Some [0; 0.02]) = [(0, Some (RtoC 1)); (0.02, Some (/ 2, - / 2))].
Proof.
  unfold get_marcosfilter32. rewrite (proj1 (marcos_value 1 [0; 0.02] ltac:(lra))). rewrite sqrt_1. cbn [map fst snd option_map]. unfold to_complex64. cbn [fst snd].
  assert (Q0 : 0 / (0.02 / 1) = 0) by (unfold Rdiv; ring). assert (Q1 : 0.02 / (0.02 / 1) = 1) by (field; lra). rewrite Q0, Q1.
  replace (/ (1 + 0 ^ 2)) with 1 by field. replace (Ropp 0 / (1 + 0 ^ 2)) with 0 by field.
  replace (/ (1 + 1 ^ 2)) with (/ 2) by (f_equal; ring). replace (Ropp 1 / (1 + 1 ^ 2)) with (Ropp (/ 2)) by field.
  rewrite b32_opp, b32_one, b32_zero, b32_half. reflexivity.
Qed.
