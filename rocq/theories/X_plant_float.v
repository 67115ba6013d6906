(** The axis and the sites of get_1d_plant in binary64. *)
From Coq Require Import String.
From Flocq Require Import Core Relative Mult_error.
From Verif Require Import Prelude RealBase M_spatial M_spatial_float X_spatial_zone M_cmv M_signal_plant X_stats_float M_trunc_float X_trunc_float M_plant_float.
Local Open Scope R_scope.

Local Existing Instance prec53.
Local Existing Instance b64_valid.

(** ** Numbers on a dyadic grid *)
Definition dyadic (k : nat) (x : R) : Prop := exists z, (Z.abs z <= 2 ^ 50)%Z /\ x = IZR z / 2 ^ k.

Lemma pow2_pos k : 0 < 2 ^ k.
Proof. apply pow_lt. lra. Qed.
Lemma pow2_bpow k : / 2 ^ k = bpow radix2 (- Z.of_nat k).
Proof. rewrite bpow_opp. f_equal. rewrite <- IZR_Zpower by lia. change (IZR radix2) with 2. rewrite pow_IZR. f_equal. Qed.
Lemma grid_b64 k z x : (k <= 1000)%nat -> (Z.abs z < 2 ^ 53)%Z -> x = IZR z / 2 ^ k -> b64 x = x.
Proof.
  intros K Z ->. apply b64_id. unfold is_b64, b64_exp. apply generic_format_FLT.
  exists (Float radix2 z (- Z.of_nat k)); [|cbn [Fnum]; change (radix2 ^ 53)%Z with (2 ^ 53)%Z; lia|cbn [Fexp]; lia].
  unfold F2R. cbn [Fnum Fexp]. unfold Rdiv. now rewrite pow2_bpow.
Qed.
Lemma half_floor_int z : half_floor (IZR z) = IZR (z / 2).
Proof.
  unfold half_floor. f_equal. destruct (base_Int_part (IZR z / 2)) as [A B]. set (n := Int_part (IZR z / 2)) in *.
  assert (2 * n <= z)%Z by (apply le_IZR; rewrite mult_IZR; lra).
  assert (z < 2 * n + 2)%Z by (apply lt_IZR; rewrite plus_IZR, mult_IZR; lra).
  apply (Z.div_unique z 2 n (z - 2 * n)); [left; lia|lia].
Qed.

(** ** The number of grid points *)
Lemma ceil_spec q n : 0 < q -> (ceil_nat q = S n <-> INR n < q <= INR n + 1).
Proof.
  intro Q. unfold ceil_nat. destruct (base_Int_part (- q)) as [A B]. set (m := Int_part (- q)) in *.
  assert (m < 0)%Z by (apply lt_IZR; lra). rewrite INR_IZR_INZ. split.
  - intro E. assert (m = - Z.of_nat (S n))%Z as -> by lia. rewrite opp_IZR, Nat2Z.inj_succ, succ_IZR in *. lra.
  - intros [L U]. assert (- Z.of_nat n - 2 < m)%Z by (apply lt_IZR; rewrite minus_IZR, opp_IZR; lra).
    assert (m < - Z.of_nat n)%Z by (apply lt_IZR; rewrite opp_IZR; lra). lia.
Qed.
Lemma ceil_pos q : 0 < q -> exists n, ceil_nat q = S n.
Proof.
  intro Q. unfold ceil_nat. destruct (base_Int_part (- q)) as [A B]. set (m := Int_part (- q)) in *.
  assert (m < 0)%Z by (apply lt_IZR; lra). exists (Z.to_nat (- m - 1)). lia.
Qed.
Lemma ceil_rounded q n : 0 < q -> ceil_nat q = S n -> (Z.of_nat (S n) <= 2 ^ 53)%Z ->
  ceil_nat (b64 q) = S n \/ (ceil_nat (b64 q) = n /\ b64 q = INR n).
Proof.
  intros Q E Hn. apply (ceil_spec q n Q) in E. destruct E as [L U].
  assert (B1 : INR n <= b64 q). { rewrite INR_IZR_INZ in *. rewrite <- (b64_int (Z.of_nat n)) by lia. apply b64_mono. lra. }
  assert (B2 : b64 q <= INR n + 1).
  { rewrite <- S_INR, INR_IZR_INZ, <- (b64_int (Z.of_nat (S n))) by lia. apply b64_mono. rewrite <- INR_IZR_INZ, S_INR. lra. }
  destruct (Rle_lt_or_eq_dec _ _ B1) as [B|B].
  - left. apply ceil_spec; [pose proof (pos_INR n); lra|lra].
  - right. rewrite <- B. split; [apply ceil_nat_INR|reflexivity].
Qed.
Lemma b64_pos_lower q : / 2 ^ 60 <= q -> / 2 ^ 60 <= b64 q.
Proof.
  intro H. rewrite <- (b64_id (/ 2 ^ 60)); [now apply b64_mono|]. rewrite pow2_bpow. apply generic_format_bpow. cbn. lia.
Qed.
(** A quotient of two whole numbers below 2^53 is not rounded across a whole number. *)
Lemma ceil_ratio p d : (0 < p < 2 ^ 53)%Z -> (0 < d <= 2 ^ 53)%Z -> ceil_nat (b64 (IZR p / IZR d)) = ceil_nat (IZR p / IZR d).
Proof.
  intros [P1 P2] [D DM]. pose proof (IZR_lt _ _ P1) as P1'. pose proof (IZR_lt _ _ P2) as P2'. pose proof (IZR_lt _ _ D) as D'.
  change (IZR (2 ^ 53)) with 9007199254740992 in P2'.
  set (q := IZR p / IZR d). assert (Eq : q * IZR d = IZR p) by (unfold q; field; lra).
  assert (Q : 0 < q) by (apply Rmult_lt_0_compat; [easy|now apply Rinv_0_lt_compat]).
  destruct (ceil_pos q Q) as [n E]. rewrite E. pose proof (proj1 (ceil_spec q n Q) E) as [L U].
  assert (D1 : 1 <= IZR d) by (apply IZR_le; lia).
  assert (Hn : (Z.of_nat n < p)%Z). { apply lt_IZR. rewrite <- INR_IZR_INZ. pose proof (pos_INR n). nra. }
  destruct (ceil_rounded q n Q E ltac:(lia)) as [C|[C F]]; [exact C|exfalso].
  assert (Gap : (Z.of_nat n * d + 1 <= p)%Z).
  { enough (Z.of_nat n * d < p)%Z by lia. apply lt_IZR. rewrite mult_IZR, <- INR_IZR_INZ, <- Eq. nra. }
  apply IZR_le in Gap. rewrite plus_IZR, mult_IZR, <- INR_IZR_INZ in Gap.
  destruct n as [|n].
  - cbn [INR] in *. apply IZR_le in DM. change (IZR (2 ^ 53)) with 9007199254740992 in DM.
    assert (/ 2 ^ 60 <= q).
    { apply Rmult_le_reg_r with (IZR d); [easy|]. rewrite Eq. apply Rle_trans with 1; [|lra].
      apply Rmult_le_reg_l with (2 ^ 60); [apply pow2_pos|]. rewrite <- Rmult_assoc, Rinv_r by (pose proof (pow2_pos 60); lra).
      assert (2 ^ 60 = 1152921504606846976) as -> by ring. lra. }
    pose proof (b64_pos_lower q H). pose proof (Rinv_0_lt_compat _ (pow2_pos 60)). lra.
  - assert (1 <= INR (S n)) by (rewrite S_INR; pose proof (pos_INR n); lra).
    assert (q < 9007199254740992) by nra.
    assert (Er : Rabs (b64 q - q) <= q * / 9007199254740992) by (rewrite <- Bm53; apply b64_rel; [lra|rewrite B53; lra|lra]).
    apply Rabs_le_inv in Er. rewrite F in Er. nra.
Qed.

(** ** Exactness on a dyadic grid *)
Lemma arange_exact k a b d za zb zd : (k <= 1000)%nat -> (Z.abs za <= 2 ^ 50)%Z -> (Z.abs zb <= 2 ^ 50)%Z -> (0 < zd <= 2 ^ 51)%Z ->
  (za <= zb)%Z -> a = IZR za / 2 ^ k -> b = IZR zb / 2 ^ k -> d = IZR zd / 2 ^ k ->
  arange_b64 a b d = map (fun i => a + INR i * d) (seq 0 (ceil_nat ((b - a) / d))) /\
  (forall i, (i < ceil_nat ((b - a) / d))%nat -> (Z.of_nat i * zd <= zb - za)%Z).
Proof.
  intros K Ha Hb Hd O Ea Eb Ed. pose proof (pow2_pos k) as Pk. pose proof (IZR_lt _ _ (proj1 Hd)) as Pd.
  assert (Eq : (b - a) / d = IZR (zb - za) / IZR zd). { rewrite minus_IZR, Ea, Eb, Ed. field. lra. }
  assert (Sm : b64 (b - a) = b - a). { apply (grid_b64 k (zb - za)); [easy|lia|]. rewrite minus_IZR, Ea, Eb. field. lra. }
  assert (Cn : ceil_nat (b64 ((b - a) / d)) = ceil_nat ((b - a) / d)).
  { rewrite Eq. destruct (Z.eq_dec za zb) as [->|N].
    - rewrite Z.sub_diag. unfold Rdiv. rewrite Rmult_0_l, b64_zero. reflexivity.
    - apply ceil_ratio; lia. }
  assert (Bd : forall i, (i < ceil_nat ((b - a) / d))%nat -> (Z.of_nat i * zd <= zb - za)%Z).
  { intros i Hi. rewrite Eq in Hi. destruct (Z.eq_dec za zb) as [->|N].
    - exfalso. rewrite Z.sub_diag in Hi. unfold Rdiv in Hi. rewrite Rmult_0_l in Hi. change 0 with (INR 0) in Hi. rewrite ceil_nat_INR in Hi. lia.
    - assert (Q : 0 < IZR (zb - za) / IZR zd) by (apply Rmult_lt_0_compat; [apply IZR_lt; lia|now apply Rinv_0_lt_compat]).
      destruct (ceil_pos _ Q) as [n En]. rewrite En in Hi. apply (ceil_spec _ n Q) in En.
      assert (INR i <= INR n) by (apply le_INR; lia). apply le_IZR. rewrite mult_IZR, <- INR_IZR_INZ.
      assert (IZR (zb - za) = IZR (zb - za) / IZR zd * IZR zd) as -> by (field; lra). nra. }
  split; [|exact Bd].
  assert (S2 : b64 (a + d) = a + d). { apply (grid_b64 k (za + zd)); [easy|lia|]. rewrite plus_IZR, Ea, Ed. field. lra. }
  assert (Dl : b64 (a + d - a) = d). { replace (a + d - a) with d by ring. apply (grid_b64 k zd); [easy|lia|exact Ed]. }
  unfold arange_b64. rewrite Sm, Cn, S2, Dl. apply map_ext_in. intros i Hi. apply in_seq in Hi. specialize (Bd i ltac:(lia)).
  destruct i as [|[|i]]; [cbn; ring|cbn; ring|]. set (j := S (S i)) in *. clearbody j.
  assert (M : b64 (INR j * d) = INR j * d).
  { apply (grid_b64 k (Z.of_nat j * zd)); [easy|lia|]. rewrite mult_IZR, <- INR_IZR_INZ, Ed. field. lra. }
  rewrite M. apply (grid_b64 k (za + Z.of_nat j * zd)); [easy|lia|]. rewrite plus_IZR, mult_IZR, <- INR_IZR_INZ, Ea, Ed. field. lra.
Qed.

Lemma map2_ext_in {A B D} (f g : A -> B -> D) xs ys : (forall x y, In x xs -> f x y = g x y) -> map2 f xs ys = map2 g xs ys.
Proof.
  revert ys. induction xs as [|x xs IH]; intros [|y ys] H; try reflexivity. cbn. f_equal; [apply H; now left|]. apply IH. intros. apply H. now right.
Qed.

(*@ C126 Exactness: when the grid step (halved), the site width (halved), the reference and the centers are whole multiples of some
    power of two 2^-k and, in units of it, nothing exceeds 2^50, the axis and the plant computed with rounding are those of exact
    arithmetic. Whole and half metres, quarters, and the default step of 1 are all covered. *)
Lemma plant_exact : forall k centers ref width (triangle : bool) dx xmax, (k <= 1000)%nat -> 0 < dx -> (0 <= xmax)%Z ->
  dyadic k (dx / 2) -> dyadic k (IZR xmax) -> dyadic k ref -> Forall (dyadic k) centers ->
  (forall w, width = Some w -> dyadic k (w / 2)) ->
  get_1d_plant (map Some centers) ref width (if triangle then "triangle" else "square")%string dx (IZR xmax) =
  Ok (get_1d_plant_b64 centers ref width triangle dx xmax).
Proof.
  intros k cs ref width tri dx xmax K Pd Px (zd & Zd & Ed) (zx & Zx & Ex) (zr & Zr & Er) Fc Hw.
  pose proof (pow2_pos k) as Pk.
  assert (Ex2 : IZR xmax * 2 ^ k = IZR zx). { rewrite Ex. field. lra. }
  assert (Px2 : zx = (xmax * 2 ^ Z.of_nat k)%Z). { apply eq_IZR. rewrite mult_IZR, <- Ex2. f_equal. rewrite <- pow_IZR. reflexivity. }
  set (u := (2 ^ Z.of_nat k)%Z) in *. assert (U : (1 <= u)%Z) by (unfold u; pose proof (Z.pow_pos_nonneg 2 (Z.of_nat k)); lia).
  assert (Eu : IZR u = 2 ^ k) by (unfold u; rewrite <- pow_IZR; reflexivity).
  set (za := (- xmax / 2 * u)%Z). set (zb := (xmax / 2 * u)%Z).
  assert (Da : (- xmax <= - xmax / 2 <= 0)%Z) by (split; [apply Z.div_le_lower_bound; lia|apply Z.div_le_upper_bound; lia]).
  assert (Db : (0 <= xmax / 2 <= xmax)%Z) by (split; [apply Z.div_pos; lia|apply Z.div_le_upper_bound; lia]).
  assert (Ba : (- 2 ^ 50 <= za <= 0)%Z) by (unfold za; nia). assert (Bb : (0 <= zb <= 2 ^ 50)%Z) by (unfold zb; nia).
  assert (Zd0 : (0 < zd)%Z). { apply lt_IZR. apply Rmult_lt_reg_r with (/ 2 ^ k); [now apply Rinv_0_lt_compat|]. unfold Rdiv in Ed. lra. }
  destruct (arange_exact k (IZR (- xmax / 2)) (IZR (xmax / 2)) dx za zb (2 * zd)) as [Ax Bx];
    [exact K|clear - Ba; lia|clear - Bb; lia| |clear - Ba Bb; lia|unfold za; rewrite mult_IZR, Eu; field; lra|unfold zb; rewrite mult_IZR, Eu; field; lra|
     rewrite mult_IZR; unfold Rdiv in *; lra|].
  { clear - Zd0 Zd. lia. }
  assert (Pts : forall x, In x (plant_axis_b64 xmax dx) -> exists z, (Z.abs z <= 2 ^ 50)%Z /\ x = IZR z / 2 ^ k).
  { intros x Hx. unfold plant_axis_b64 in Hx. rewrite Ax in Hx. apply in_map_iff in Hx. destruct Hx as (i & <- & Hi). apply in_seq in Hi.
    specialize (Bx i ltac:(lia)). exists (za + Z.of_nat i * (2 * zd))%Z. split; [nia|].
    rewrite plus_IZR, !mult_IZR, <- INR_IZR_INZ. unfold za. rewrite mult_IZR, Eu.
    replace dx with (2 * (dx / 2)) by lra. rewrite Ed. field. lra. }
  set (w := match width with None => dx | Some w => w end).
  assert (W : dyadic k (w / 2)). { unfold w. destruct width as [w0|]; [now apply Hw|]. now exists zd. }
  destruct W as (zw & Zw & Ew).
  assert (Rw : b64 (w / 2) = w / 2) by (apply (grid_b64 k zw); [easy|lia|exact Ew]).
  unfold get_1d_plant, get_1d_plant_b64. fold w. rewrite <- opp_IZR, !half_floor_int.
  unfold arange. rewrite Reqb_false by lra. cbn [rbind].
  change (plant_axis_b64 xmax dx) with (arange_b64 (IZR (- xmax / 2)) (IZR (xmax / 2)) dx) in *. rewrite Ax in *.
  set (xs := map _ (seq 0 _)) in *. clearbody xs.
  assert (St : forall (f : R -> list (option R) -> option R -> list (option R)) val,
    (forall c pl, dyadic k c -> f w pl (Some (c - ref)) = place_b64 val w xs pl (b64 (c - ref))) ->
    forall pl, fold_left (f w) (map (option_map (fun c => c - ref)) (map Some cs)) pl =
               fold_left (place_b64 val w xs) (map (fun c => b64 (c - ref)) cs) pl).
  { intros f val Hf. clear - Fc Hf. induction Fc as [|c cs Hc _ IH]; intro pl; [reflexivity|]. cbn [map fold_left option_map].
    rewrite Hf by exact Hc. apply IH. }
  assert (Win : forall c x, dyadic k c -> In x xs -> b64 (c - ref) = c - ref /\ in_window_b64 w (c - ref) x = in_window w (c - ref) x /\
    triangle_b64 w (c - ref) x = x - (c - ref) + w / 2).
  { intros c x (zc & Zc & Ec) Hx. destruct (Pts x Hx) as (z & Hz & Ez).
    assert (E1 : c - ref = IZR (zc - zr) / 2 ^ k) by (rewrite minus_IZR, Ec, Er; field; lra).
    assert (E2 : b64 (c - ref - w / 2) = c - ref - w / 2).
    { apply (grid_b64 k (zc - zr - zw)); [easy|lia|]. rewrite minus_IZR, E1, Ew. field. lra. }
    assert (E3 : b64 (c - ref + w / 2) = c - ref + w / 2).
    { apply (grid_b64 k (zc - zr + zw)); [easy|lia|]. rewrite plus_IZR, E1, Ew. field. lra. }
    assert (E4 : b64 (x - (c - ref)) = x - (c - ref)).
    { apply (grid_b64 k (z - (zc - zr))); [easy|lia|]. rewrite (minus_IZR z), E1, Ez. field. lra. }
    split; [apply (grid_b64 k (zc - zr)); [easy|lia|exact E1]|]. split.
    - unfold in_window_b64. rewrite Rw, E2, E3. reflexivity.
    - unfold triangle_b64. rewrite Rw, E4. apply (grid_b64 k (z - (zc - zr) + zw)); [easy|lia|].
      rewrite plus_IZR, (minus_IZR z), E1, Ez, Ew. field. lra. }
  assert (Rc : forall c, dyadic k c -> b64 (c - ref) = c - ref).
  { intros c (zc & Zc & Ec). apply (grid_b64 k (zc - zr)); [easy|lia|]. rewrite minus_IZR, Ec, Er. field. lra. }
  destruct tri.
  - change (String.eqb (lower "triangle") "square")%string with false. change (String.eqb (lower "triangle") "triangle")%string with true.
    cbv iota. f_equal. f_equal. apply (St (fun w pl c => place_triangle w xs pl c)). intros c pl Hc. rewrite Rc by exact Hc. cbn [place_triangle].
    unfold place_b64. apply map2_ext_in. intros x y Hx. destruct (Win c x Hc Hx) as (_ & -> & ->). reflexivity.
  - change (String.eqb (lower "square") "square")%string with true.
    cbv iota. f_equal. f_equal. apply (St (fun w pl c => place_square w xs pl c)). intros c pl Hc. rewrite Rc by exact Hc. cbn [place_square].
    unfold place_b64. apply map2_ext_in. intros x y Hx. destruct (Win c x Hc Hx) as (_ & -> & _). reflexivity.
Qed.

(** ** Other steps *)
Lemma axis_nth xmax dx i : (i < length (plant_axis_b64 xmax dx))%nat ->
  nth i (plant_axis_b64 xmax dx) 0 =
  match i with
  | O => IZR (- xmax / 2)
  | 1%nat => b64 (IZR (- xmax / 2) + dx)
  | _ => b64 (IZR (- xmax / 2) + b64 (INR i * b64 (b64 (IZR (- xmax / 2) + dx) - IZR (- xmax / 2))))
  end.
Proof.
  unfold plant_axis_b64, arange_b64. rewrite map_length, seq_length. intro Hi.
  match goal with |- nth i (map ?f _) 0 = _ => set (g := f); rewrite (nth_indep _ 0 (g O)) by (rewrite map_length, seq_length; exact Hi) end.
  rewrite (map_nth g), seq_nth by exact Hi. reflexivity.
Qed.
Definition span (xmax : Z) : R := IZR (xmax / 2) - IZR (- xmax / 2).
Lemma span_bounds xmax : (0 <= xmax)%Z -> - (IZR xmax / 2) - 1 / 2 <= IZR (- xmax / 2) <= - (IZR xmax / 2) /\ 0 <= span xmax <= IZR xmax.
Proof.
  intro H. pose proof (Z.div_mod xmax 2 ltac:(lia)) as D1. pose proof (Z.mod_pos_bound xmax 2 ltac:(lia)) as M1.
  pose proof (Z.div_mod (- xmax) 2 ltac:(lia)) as D2. pose proof (Z.mod_pos_bound (- xmax) 2 ltac:(lia)) as M2.
  unfold span. rewrite <- minus_IZR. set (p := (xmax / 2)%Z) in *. set (q := (- xmax / 2)%Z) in *. clearbody p q.
  assert (A1 : (- xmax - 1 <= 2 * q <= - xmax)%Z) by lia. destruct A1 as [A1 A2]. apply IZR_le in A1, A2.
  rewrite minus_IZR, opp_IZR, mult_IZR in A1. rewrite mult_IZR, opp_IZR in A2.
  assert (A3 : (0 <= p - q <= xmax)%Z) by lia. destruct A3 as [A3 A4]. apply IZR_le in A3, A4. lra.
Qed.
Lemma axis_length xmax dx : (0 <= xmax <= 2 ^ 53)%Z -> length (plant_axis_b64 xmax dx) = ceil_nat (b64 (span xmax / dx)).
Proof.
  intros [A B]. unfold plant_axis_b64, arange_b64. rewrite map_length, seq_length. fold (span xmax).
  replace (b64 (span xmax)) with (span xmax); [reflexivity|]. unfold span. rewrite <- minus_IZR. symmetry. apply b64_int.
  pose proof (span_bounds xmax A) as [_ [S1 S2]]. unfold span in S1, S2. rewrite <- minus_IZR in S1, S2. apply le_IZR in S1, S2. lia.
Qed.

(*@ C126 The number of points, for every positive step not longer than the span of the axis: the exact ceiling of the span divided
    by the step, or one less, and that only when the quotient exceeds the whole number below it by no more than a relative 2^-53. *)
Lemma axis_count : forall xmax dx, (2 <= xmax <= 2 ^ 53)%Z -> 0 < dx ->
  let q := (IZR (xmax / 2) - IZR (- xmax / 2)) / dx in 1 <= q <= 2 ^ 52 ->
  let n := length (plant_axis_b64 xmax dx) in
  (INR n - 1 < q <= INR n) \/ (INR n < q /\ q * (1 - / 2 ^ 53) <= INR n).
Proof.
  intros xmax dx X P q [Q1 Q2] n. unfold n. rewrite axis_length by lia. fold (span xmax) in q. fold q.
  assert (e53 : 2 ^ 53 = 9007199254740992) by ring. assert (e52 : 2 ^ 52 = 4503599627370496) by ring. rewrite e53. rewrite e52 in Q2.
  destruct (ceil_pos q ltac:(lra)) as [m E]. pose proof (proj1 (ceil_spec q m ltac:(lra)) E) as [L U].
  assert (Hm : (Z.of_nat (S m) <= 2 ^ 53)%Z).
  { enough (Z.of_nat m < 4503599627370496)%Z by lia. apply lt_IZR. rewrite <- INR_IZR_INZ. lra. }
  destruct (ceil_rounded q m ltac:(lra) E Hm) as [C|[C F]]; rewrite C.
  - left. rewrite S_INR. lra.
  - right. split; [exact L|].
    assert (Er : Rabs (b64 q - q) <= q * / 9007199254740992) by (rewrite <- Bm53; apply b64_rel; [lra|rewrite B53; lra|lra]).
    apply Rabs_le_inv in Er. rewrite F in Er. lra.
Qed.

Lemma err_pow e x : (e <= 900)%nat -> Rabs x <= 2 ^ e -> Rabs (b64 x - x) <= 2 ^ e * / 2 ^ 53.
Proof.
  intros He H. unfold b64. pose proof (error_le_half_ulp radix2 b64_exp (fun z => negb (Z.even z)) x) as E.
  assert (Pe : 2 ^ e = bpow radix2 (Z.of_nat e)) by (rewrite <- IZR_Zpower by lia; change (IZR radix2) with 2; rewrite pow_IZR; reflexivity).
  assert (U : ulp radix2 b64_exp x <= ulp radix2 b64_exp (2 ^ e)).
  { apply ulp_le; [exact b64_valid|apply FLT_exp_monotone|]. rewrite (Rabs_pos_eq (2 ^ e)) by (left; apply pow2_pos). exact H. }
  assert (V : ulp radix2 b64_exp (2 ^ e) = 2 * (2 ^ e * / 2 ^ 53)).
  { rewrite Pe, ulp_bpow. unfold b64_exp, FLT_exp. rewrite Z.max_l by lia. rewrite (pow2_bpow 53).
    change 2 with (bpow radix2 1) at 1. rewrite <- !bpow_plus. f_equal. lia. }
  lra.
Qed.

(*@ C126 The drift, for every positive step: on an axis of half-width at most 2^e, with a step of at most half of that, the point
    with number i lies within (i + 4) 2^(e-52) of its nominal place; and if twice that is less than the step at the far end, the points are
    strictly increasing. *)
Lemma axis_drift : forall e xmax dx, (1 <= e <= 50)%nat -> (0 <= xmax)%Z -> IZR xmax + 1 <= 2 ^ S e -> 0 < dx -> 2 * dx <= 2 ^ e ->
  let xs := plant_axis_b64 xmax dx in INR (length xs) <= 2 ^ 51 ->
  (forall i, (i < length xs)%nat -> Rabs (nth i xs 0 - (IZR (- xmax / 2) + INR i * dx)) <= (INR i + 4) * 2 ^ e * / 2 ^ 52) /\
  (2 * ((INR (length xs) + 3) * 2 ^ e * / 2 ^ 52) < dx ->
   forall i j, (i < j < length xs)%nat -> nth i xs 0 < nth j xs 0).
Proof.
  intros e xmax dx [He1 He2] X HX P HD xs HL. cbn [pow] in HX.
  assert (Pe : 0 < 2 ^ e) by apply pow2_pos.
  assert (e50 : 2 ^ e <= 2 ^ 50) by (apply Rle_pow; [lra|lia]).
  assert (X53 : (xmax <= 2 ^ 53)%Z).
  { apply le_IZR. change (IZR (2 ^ 53)) with 9007199254740992. assert (2 ^ 50 = 1125899906842624) by ring. lra. }
  destruct (span_bounds xmax X) as [[A1 A2] [S1 S2]]. pose proof (IZR_le _ _ X) as X'.
  set (a := IZR (- xmax / 2)) in *.
  set (second := b64 (a + dx)). set (delta := b64 (second - a)).
  assert (e52 : 2 ^ 52 = 4503599627370496) by ring. assert (e53 : 2 ^ 53 = 9007199254740992) by ring. assert (e51 : 2 ^ 51 = 2251799813685248) by ring.
  assert (E1 : Rabs (second - (a + dx)) <= 2 ^ e * / 2 ^ 53) by (apply err_pow; [lia|apply Rabs_le; lra]).
  rewrite e53 in E1. pose proof (Rabs_le_inv _ _ E1) as E1'.
  assert (E2 : Rabs (delta - (second - a)) <= 2 ^ e * / 2 ^ 53) by (apply err_pow; [lia|apply Rabs_le; lra]).
  rewrite e53 in E2. apply Rabs_le_inv in E2.
  assert (Er : forall i, (i < length xs)%nat -> Rabs (nth i xs 0 - (a + INR i * dx)) <= (INR i + 4) * 2 ^ e * / 2 ^ 52).
  { intros i Hi. rewrite e52. unfold xs. rewrite axis_nth by exact Hi. fold a. fold second. fold delta.
    assert (B2 : INR i <= 2251799813685248) by (rewrite <- e51; apply Rle_trans with (2 := HL); apply le_INR; lia).
    assert (B1 : INR i * dx <= span xmax).
    {
        unfold xs in Hi. rewrite axis_length in Hi by lia. destruct (Rle_lt_or_eq_dec _ _ S1) as [S0|S0].
        + assert (Q : 0 < span xmax / dx) by (apply Rmult_lt_0_compat; [easy|now apply Rinv_0_lt_compat]).
          destruct (Rle_or_lt (INR i) (span xmax / dx)) as [G|G].
          * apply Rmult_le_compat_r with (r := dx) in G; [|lra]. unfold Rdiv in G. rewrite Rmult_assoc, Rinv_l in G by lra. lra.
          * exfalso. assert (Bb : b64 (span xmax / dx) <= INR i).
            { rewrite INR_IZR_INZ in B2, G |- *. rewrite <- (b64_int (Z.of_nat i)); [apply b64_mono; lra|]. apply le_IZR in B2. lia. }
            destruct (Rle_lt_or_eq_dec 0 _ (b64_nonneg _ (Rlt_le _ _ Q))) as [B0|B0].
            -- destruct (ceil_pos _ B0) as [m Em]. rewrite Em in Hi. apply (ceil_spec _ m B0) in Em.
               assert (INR i <= INR m) by (apply le_INR; lia). lra.
            -- rewrite <- B0 in Hi. change 0 with (INR 0) in Hi. rewrite ceil_nat_INR in Hi. lia.
        + exfalso. rewrite <- S0 in Hi. unfold Rdiv in Hi. rewrite Rmult_0_l, b64_zero in Hi. change 0 with (INR 0) in Hi. rewrite ceil_nat_INR in Hi. lia. }
    pose proof (pos_INR i) as P0.
    destruct i as [|[|i]].
    - cbn [INR]. apply Rabs_le. nra.
    - cbn [INR]. apply Rabs_le. lra.
    - set (j := S (S i)) in *. clearbody j. clear i Hi.
      assert (Dm : Rabs (INR j * delta - INR j * dx) <= INR j * (2 ^ e * / 4503599627370496)) by (apply Rabs_le; nra).
      pose proof (Rabs_le_inv _ _ Dm) as Dm'.
      assert (J0 : 0 <= INR j * dx) by (apply Rmult_le_pos; lra).
      assert (Dj : INR j * (2 ^ e * / 4503599627370496) <= 2 ^ e) by nra.
      assert (E3 : Rabs (b64 (INR j * delta) - INR j * delta) <= 2 ^ S (S e) * / 2 ^ 53).
      { apply err_pow; [lia|]. cbn [pow]. apply Rabs_le. lra. }
      cbn [pow] in E3. apply Rabs_le_inv in E3.
      assert (E4 : Rabs (b64 (a + b64 (INR j * delta)) - (a + b64 (INR j * delta))) <= 2 ^ S (S e) * / 2 ^ 53).
      { apply err_pow; [lia|]. cbn [pow]. apply Rabs_le. lra. }
      cbn [pow] in E4. apply Rabs_le_inv in E4. apply Rabs_le. lra. }
  split; [exact Er|]. intros HS i j Hij. pose proof (Er i ltac:(lia)) as Ei. pose proof (Er j ltac:(lia)) as Ej.
  apply Rabs_le_inv in Ei, Ej. rewrite e52 in *.
  assert (I1 : INR i + 1 <= INR j) by (rewrite <- S_INR; apply le_INR; lia).
  assert (I2 : INR j + 1 <= INR (length xs)) by (rewrite <- S_INR; apply le_INR; lia). nra.
Qed.

Lemma b64_comp x (m z : Z) : bpow radix2 (m - 1) <= Rabs x < bpow radix2 m ->
  Rabs (x * bpow radix2 (- b64_exp m) - IZR z) < / 2 -> b64 x = IZR z * bpow radix2 (b64_exp m).
Proof.
  intros M H. assert (E : mag_val radix2 _ (mag radix2 x) = m) by (apply mag_unique; exact M).
  unfold b64, round, scaled_mantissa, cexp. rewrite E, (Znearest_imp _ _ z) by exact H. reflexivity.
Qed.

(*@ C126 The drift is real: on the default axis with a step written 0.1 the last but one of the 5000000 points is almost 0.03 millimetres
    beyond the place that exact multiples of the step give. *)
Lemma axis_drift_refuted : let dx := b64 (1 / 10) in let xs := plant_axis_b64 500000 dx in
  INR (length xs) = 5000000 /\ nth (Z.to_nat 4999998) xs 0 > -250000 + 4999998 * dx + 29 / 1000000.
Proof.
  assert (D : b64 (1 / 10) = 3602879701896397 / 36028797018963968).
  { rewrite (b64_comp (1 / 10) (-3) 7205759403792794).
    - change (bpow radix2 (b64_exp (-3))) with (/ 72057594037927936). lra.
    - rewrite Rabs_pos_eq by lra. change (bpow radix2 (-3 - 1)) with (/ 16). change (bpow radix2 (-3)) with (/ 8). lra.
    - change (bpow radix2 (- b64_exp (-3))) with 72057594037927936. apply Rabs_def1; lra. }
  cbv zeta. rewrite D. set (dx := 3602879701896397 / 36028797018963968). assert (Ed : dx = 3602879701896397 / 36028797018963968) by reflexivity.
  assert (L : length (plant_axis_b64 500000 dx) = Z.to_nat 5000000).
  { rewrite axis_length by lia. unfold span. change (500000 / 2)%Z with 250000%Z. change (- (500000) / 2)%Z with (-250000)%Z.
    rewrite (b64_comp ((250000 - -250000) / dx) 23 5368709120000000).
    - change (bpow radix2 (b64_exp 23)) with (/ 1073741824). replace (5368709120000000 * / 1073741824) with (INR (Z.to_nat 5000000)).
      + apply ceil_nat_INR.
      + rewrite INR_IZR_INZ, Z2Nat.id by lia. lra.
    - rewrite Rabs_pos_eq; [|rewrite Ed; lra]. change (bpow radix2 (23 - 1)) with 4194304. change (bpow radix2 23) with 8388608. rewrite Ed. lra.
    - change (bpow radix2 (- b64_exp 23)) with 1073741824. rewrite Ed. apply Rabs_def1; lra. }
  split; [rewrite L, INR_IZR_INZ, Z2Nat.id by lia; reflexivity|].
  rewrite axis_nth by (rewrite L; lia). change (- (500000) / 2)%Z with (-250000)%Z.
  assert (S1 : b64 (-250000 + dx) = -8589931156026163 * / 34359738368).
  { rewrite (b64_comp (-250000 + dx) 18 (-8589931156026163)).
    - reflexivity.
    - rewrite Rabs_left by lra. change (bpow radix2 (18 - 1)) with 131072. change (bpow radix2 18) with 262144. lra.
    - change (bpow radix2 (- b64_exp 18)) with 34359738368. apply Rabs_def1; lra. }
  rewrite S1.
  assert (S2 : b64 (-8589931156026163 * / 34359738368 - -250000) = 7205759404212224 * / 72057594037927936).
  { rewrite (b64_comp _ (-3) 7205759404212224).
    - reflexivity.
    - rewrite Rabs_pos_eq by lra. change (bpow radix2 (-3 - 1)) with (/ 16). change (bpow radix2 (-3)) with (/ 8). lra.
    - change (bpow radix2 (- b64_exp (-3))) with 72057594037927936. apply Rabs_def1; lra. }
  rewrite S2.
  assert (J : INR (Z.to_nat 4999998) = 4999998) by (rewrite INR_IZR_INZ, Z2Nat.id by lia; reflexivity).
  assert (S3 : b64 (4999998 * (7205759404212224 * / 72057594037927936)) = 8589931156526163 * / 17179869184).
  { rewrite (b64_comp _ 19 8589931156526163).
    - reflexivity.
    - rewrite Rabs_pos_eq by lra. change (bpow radix2 (19 - 1)) with 262144. change (bpow radix2 19) with 524288. lra.
    - change (bpow radix2 (- b64_exp 19)) with 17179869184. apply Rabs_def1; lra. }
  assert (S4 : b64 (-250000 + 8589931156526163 * / 17179869184) = 8589927721052326 * / 34359738368).
  { rewrite (b64_comp _ 18 8589927721052326).
    - reflexivity.
    - rewrite Rabs_pos_eq by lra. change (bpow radix2 (18 - 1)) with 131072. change (bpow radix2 18) with 262144. lra.
    - change (bpow radix2 (- b64_exp 18)) with 34359738368. apply Rabs_def1; lra. }
  set (n := Z.to_nat 4999998) in *. clearbody n. destruct n as [|[|j]]; [cbn in J; lra|cbn in J; lra|].
  rewrite J, S3, S4, Ed. lra.
Qed.

(*@ex C126 *)
Lemma plant_float_example : dyadic 2 (1 / 2 / 2) /\ dyadic 2 (IZR 10) /\ Forall (dyadic 2) [1 / 4; -3] /\
  length (plant_axis_b64 10 (1 / 2)) = 20%nat /\
  snd (get_1d_plant_b64 [1 / 4; -3] 0 None false (1 / 2) 10) = map (fun i => -5 + INR i * (1 / 2)) (seq 0 20).
Proof.
  assert (D1 : dyadic 2 (1 / 2 / 2)) by (exists 1%Z; split; [lia|lra]).
  assert (D2 : dyadic 2 (IZR 10)) by (exists 40%Z; split; [lia|lra]).
  assert (D3 : Forall (dyadic 2) [1 / 4; -3]).
  { repeat constructor; [exists 1%Z|exists (-12)%Z]; (split; [lia|lra]). }
  destruct (arange_exact 2 (-5) 5 (1 / 2) (-20) 20 2) as [E _]; try lia; try lra.
  replace ((5 - -5) / (1 / 2)) with (INR 20) in E by (cbn; lra). rewrite ceil_nat_INR in E.
  split; [exact D1|]. split; [exact D2|]. split; [exact D3|]. split; [|exact E].
  change (plant_axis_b64 10 (1 / 2)) with (arange_b64 (-5) 5 (1 / 2)). rewrite E, map_length, seq_length. reflexivity.
Qed.
