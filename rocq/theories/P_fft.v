(** Correlation through the discrete Fourier transform. *)
From Coq Require Import String.
From Verif Require Import Prelude RealBase Fl RealStat P_list Spec_signal M_cmv M_signal_corr P_signal P_corr P_delay Dft P_dft.
From Coquelicot Require Import Complex.
From Coq Require Import Lra Psatz.
Local Open Scope R_scope.

Lemma Rsumn_tail n m f : (n <= m)%nat -> (forall i, (n <= i < m)%nat -> f i = 0) -> Rsumn m f = Rsumn n f.
Proof.
  intro H. induction m as [|m IH]; intro Z; [now replace n with 0%nat by lia|].
  destruct (Nat.eq_dec n (S m)) as [-> | N]; [reflexivity|].
  rewrite Rsumn_S, IH, Z by (intros; try apply Z; lia). lra.
Qed.
Lemma Rsumn_zero n f : (forall i, (i < n)%nat -> f i = 0) -> Rsumn n f = 0.
Proof. intro H. rewrite (Rsumn_tail 0 n f) by (intros; try apply H; lia). apply Rsumn_0. Qed.

Definition wrap_lag (n k : nat) : Z := if Nat.ltb k n then Z.of_nat k else (Z.of_nat k - (2 * Z.of_nat n - 1))%Z.
Definition fft_lags (n : nat) : list Z := map (wrap_lag n) (seq 0 (2 * n - 1)).

Lemma nth_firstn_d {A} (l : list A) n k d : (k < n)%nat -> nth k (firstn n l) d = nth k l d.
Proof. revert n k. induction l as [|x l IH]; intros [|n] [|k] H; try lia; try reflexivity. cbn. apply IH. lia. Qed.
Lemma nth_skipn_d {A} (l : list A) n k d : nth k (skipn n l) d = nth (n + k) l d.
Proof. revert l. induction n as [|n IH]; intros [|x l]; try reflexivity; [now destruct k|]. cbn. apply IH. Qed.

Lemma fft_lags_roll n : (0 < n)%nat -> roll_left (n - 1) (correlation_lags n n) = fft_lags n.
Proof.
  intro Hn. unfold roll_left, fft_lags.
  assert (L1 : length (skipn (n - 1) (correlation_lags n n)) = n) by (rewrite skipn_length, lags_length; lia).
  assert (L2 : length (firstn (n - 1) (correlation_lags n n)) = (n - 1)%nat) by (rewrite firstn_length, lags_length; lia).
  apply nth_ext with (d := 0%Z) (d' := 0%Z); [rewrite app_length, L1, L2, map_length, seq_length; lia|].
  intros k Hk. rewrite app_length, L1, L2 in Hk.
  rewrite nth_indep with (l := map _ _) (d' := wrap_lag n 0) by (rewrite map_length, seq_length; lia).
  rewrite map_nth, seq_nth by lia. cbn [plus]. unfold wrap_lag. destruct (Nat.ltb_spec k n).
  - rewrite app_nth1 by lia. rewrite nth_skipn_d, lags_nth_d by lia. lia.
  - rewrite app_nth2 by lia. rewrite L1, nth_firstn_d, lags_nth_d by lia. lia.
Qed.
Lemma roll_left_map {A B} (f : A -> B) s l : roll_left s (map f l) = map f (roll_left s l).
Proof. unfold roll_left. now rewrite skipn_map, firstn_map, map_app. Qed.
Lemma roll_right_map {A B} (f : A -> B) s l : roll_right s (map f l) = map f (roll_right s l).
Proof. unfold roll_right. now rewrite map_length, skipn_map, firstn_map, map_app. Qed.
Lemma roll_back n : (0 < n)%nat -> roll_right (n - 1) (fft_lags n) = correlation_lags n n.
Proof.
  intro Hn. rewrite <- fft_lags_roll by auto. unfold roll_right, roll_left.
  set (l := correlation_lags n n). pose proof (lags_length n n) as Ll. fold l in Ll.
  assert (L1 : length (skipn (n - 1) l) = n) by (rewrite skipn_length; lia).
  assert (L2 : length (firstn (n - 1) l) = (n - 1)%nat) by (rewrite firstn_length; lia).
  rewrite app_length, L1, L2. replace (n + (n - 1) - (n - 1))%nat with (length (skipn (n - 1) l)) by lia.
  rewrite skipn_app, firstn_app, skipn_all, firstn_all, Nat.sub_diag. cbn [firstn skipn].
  rewrite app_nil_r. cbn [app]. apply firstn_skipn.
Qed.
Lemma fft_lags_nth n k : (k < 2 * n - 1)%nat -> nth k (fft_lags n) 0%Z = wrap_lag n k.
Proof.
  intro H. unfold fft_lags. rewrite nth_indep with (d' := wrap_lag n 0) by (now rewrite map_length, seq_length).
  rewrite map_nth. now rewrite seq_nth.
Qed.
Lemma fft_lags_length n : length (fft_lags n) = (2 * n - 1)%nat.
Proof. unfold fft_lags. now rewrite map_length, seq_length. Qed.

Lemma at0_pad a k i : at0 (a ++ repeat 0 k) i = at0 a i.
Proof.
  unfold at0. rewrite app_length, repeat_length.
  destruct (Z.ltb_spec i 0); cbn [orb]; [reflexivity|].
  destruct (Z.leb_spec (Z.of_nat (length a + k)) i), (Z.leb_spec (Z.of_nat (length a)) i); try lia; auto.
  - rewrite app_nth2 by lia. apply nth_repeat.
  - now rewrite app_nth1 by lia.
Qed.

Lemma fft_xcorr_eq n a b : (0 < n)%nat -> length a = n -> length b = n ->
  fft_xcorr n a b = map (lag_sum a b) (fft_lags n).
Proof.
  intros Hn La Lb. unfold fft_xcorr. set (pad := repeat 0 (2 * n - 1 - n)).
  set (a' := a ++ pad). set (b' := b ++ pad). set (N := (2 * n - 1)%nat).
  assert (La' : length a' = N) by (unfold a', pad; rewrite app_length, repeat_length; lia).
  assert (Lb' : length b' = N) by (unfold b', pad; rewrite app_length, repeat_length; lia).
  set (prod := map2 (fun x y => Cmult x (Cconj y)) (fft (map RtoC a')) (fft (map RtoC b'))).
  assert (Lp : length prod = N) by (unfold prod; rewrite map2_length; rewrite !fft_length, !map_length; lia).
  apply nth_ext with (d := 0) (d' := 0); [now rewrite !map_length, ifft_length, fft_lags_length, Lp|].
  intros m Hm. rewrite map_length, ifft_length, Lp in Hm.
  rewrite nth_indep with (l := map (lag_sum a b) _) (d' := lag_sum a b 0) by (now rewrite map_length, fft_lags_length).
  rewrite map_nth, fft_lags_nth by auto. set (L := wrap_lag n m).
  rewrite nth_indep with (d' := fst (RtoC 0)) by (rewrite map_length, ifft_length; lia).
  rewrite (map_nth fst), ifft_nth by lia. unfold prod. rewrite circular by lia. cbn [fst RtoC].
  rewrite La', lag_sum_alt, La.
  rewrite (Rsumn_tail n N).
  - apply Rsumn_ext. intros p Hp.
    rewrite Rsumn_ext with (g := fun q => if Z.eqb (Z.of_nat q) (Z.of_nat p - L) then at0 a (Z.of_nat p) * at0 b (Z.of_nat q) else 0).
    + rewrite (Rsumn_pick N (Z.of_nat p - L) (fun q => at0 a (Z.of_nat p) * at0 b (Z.of_nat q))).
      destruct (Z.leb_spec 0 (Z.of_nat p - L)); cbn [andb].
      * destruct (Z.ltb_spec (Z.of_nat p - L) (Z.of_nat N)).
        -- rewrite Z2Nat.id by lia. reflexivity.
        -- rewrite (at0_out b (Z.of_nat p - L)) by lia. lra.
      * rewrite (at0_out b (Z.of_nat p - L)) by lia. lra.
    + intros q Hq. rewrite <- !at0_nat. unfold a', b', pad. rewrite !at0_pad.
      destruct (Nat.lt_ge_cases q n) as [Q|Q].
      * replace (Z.eqb ((Z.of_nat m + Z.of_nat q - Z.of_nat p) mod Z.of_nat N) 0) with (Z.eqb (Z.of_nat q) (Z.of_nat p - L)); [reflexivity|].
        apply Bool.eq_iff_eq_true. rewrite !Z.eqb_eq.
        assert (D : exists e, (e = 0 \/ e = 1)%Z /\ Z.of_nat m = (L + e * Z.of_nat N)%Z).
        { unfold L, wrap_lag. destruct (Nat.ltb_spec m n); [exists 0%Z|exists 1%Z]; lia. }
        assert (B : (- Z.of_nat n < L < Z.of_nat n)%Z) by (unfold L, wrap_lag; destruct (Nat.ltb_spec m n); lia).
        destruct D as [e [_ De]]. rewrite De.
        replace (L + e * Z.of_nat N + Z.of_nat q - Z.of_nat p)%Z with (L + Z.of_nat q - Z.of_nat p + e * Z.of_nat N)%Z by lia.
        rewrite Z.mod_add by lia. split.
        -- intro E. rewrite E. replace (L + (Z.of_nat p - L) - Z.of_nat p)%Z with 0%Z by lia. apply Zmod_0_l.
        -- intro E. apply Z.mod_divide in E; [|lia]. destruct E as [t Ht].
           assert (t = 0)%Z by (unfold N in *; nia). subst t. lia.
      * rewrite (at0_out b (Z.of_nat q)) by lia. rewrite Rmult_0_r. destruct (Z.eqb _ _), (Z.eqb _ _); reflexivity.
  - lia.
  - intros p Hp. apply Rsumn_zero. intros q Hq. rewrite <- (at0_nat a'). unfold a', pad. rewrite at0_pad.
    rewrite (at0_out a) by lia. rewrite Rmult_0_l. now destruct (Z.eqb _ _).
Qed.

Definition fft_peak_lag (n : nat) (a b : list R) : Z := wrap_lag n (argmax (map (lag_sum a b) (fft_lags n))).

Lemma wrapped_wrap n k : (k < 2 * n - 1)%nat -> wrapped n (wrap_lag n k) = Z.of_nat k.
Proof.
  intro H. unfold wrapped, wrap_lag. destruct (Nat.ltb_spec k n).
  - destruct (Z.ltb_spec (Z.of_nat k) 0); lia.
  - destruct (Z.ltb_spec (Z.of_nat k - (2 * Z.of_nat n - 1)) 0); lia.
Qed.
Lemma wrap_lag_of n k : (k < 2 * n - 1)%nat -> lag_of n n (wrap_lag n k).
Proof. intro H. unfold lag_of, wrap_lag. destruct (Nat.ltb_spec k n); lia. Qed.
Lemma wrap_onto n L : lag_of n n L -> (Z.to_nat (wrapped n L) < 2 * n - 1)%nat /\ wrap_lag n (Z.to_nat (wrapped n L)) = L.
Proof.
  unfold lag_of, wrapped, wrap_lag. intro H. destruct (Z.ltb_spec L 0).
  - destruct (Nat.ltb_spec (Z.to_nat (L + (2 * Z.of_nat n - 1))) n); lia.
  - destruct (Nat.ltb_spec (Z.to_nat L) n); lia.
Qed.
Lemma nth_map_fft_lags {B} (f : Z -> B) n k d : (k < 2 * n - 1)%nat -> nth k (map f (fft_lags n)) d = f (wrap_lag n k).
Proof.
  intro H. rewrite nth_indep with (d' := f 0%Z) by (rewrite map_length, fft_lags_length; auto).
  rewrite map_nth. now rewrite fft_lags_nth.
Qed.
Lemma fft_peak_best n a b : (0 < n)%nat ->
  let k := argmax (map (lag_sum a b) (fft_lags n)) in
  (k < 2 * n - 1)%nat /\ lag_of n n (fft_peak_lag n a b) /\
  forall L', lag_of n n L' -> lag_sum a b L' <= lag_sum a b (fft_peak_lag n a b) /\
    (lag_sum a b L' = lag_sum a b (fft_peak_lag n a b) -> (wrapped n (fft_peak_lag n a b) <= wrapped n L')%Z).
Proof.
  intros Hn k. set (l := map (lag_sum a b) (fft_lags n)) in *.
  assert (Len : length l = (2 * n - 1)%nat) by (unfold l; now rewrite map_length, fft_lags_length).
  assert (Ne : l <> []) by (intro E; rewrite E in Len; cbn in Len; lia).
  destruct (argmax_spec l Ne) as [Hk [M F]]. fold k in Hk, M, F. rewrite Len in *.
  split; auto. split; [now apply wrap_lag_of|].
  intros L' H'. destruct (wrap_onto n L' H') as [Hj Ej]. set (j := Z.to_nat (wrapped n L')) in *.
  assert (Gj : nth j l 0 = lag_sum a b L') by (unfold l; rewrite nth_map_fft_lags, Ej by auto; reflexivity).
  assert (Gk : nth k l 0 = lag_sum a b (fft_peak_lag n a b)).
  { unfold l. rewrite nth_map_fft_lags by auto. reflexivity. }
  rewrite <- Gj, <- Gk. split; [now apply M|].
  intro E. unfold fft_peak_lag. fold l. fold k. rewrite wrapped_wrap by auto.
  destruct (Nat.lt_ge_cases j k) as [Lt|Ge]; [apply F in Lt; lra|].
  rewrite <- Ej, wrapped_wrap by auto. lia.
Qed.
Lemma zero_index_fft dt n : dt <> 0 -> (0 < n)%nat ->
  zero_index (map (fun l => IZR l * dt) (fft_lags n)) = [0%nat].
Proof.
  intros D Hn. apply zero_index_is; rewrite map_length, fft_lags_length; [lia|].
  intros j Hj. rewrite nth_map_fft_lags by auto. unfold wrap_lag. split.
  - intro E. apply Rmult_integral in E as [E|E]; [|easy]. apply eq_IZR_R0 in E. destruct (Nat.ltb_spec j n); lia.
  - intros ->. destruct (Nat.ltb_spec 0 n); [|lia]. change (Z.of_nat 0) with 0%Z. lra.
Qed.
Lemma Rsum_app2 l l' : Rsum (l ++ l') = Rsum l + Rsum l'.
Proof. unfold Rsum. induction l as [|x l IH]; cbn [app fold_right]; [lra|]. rewrite IH. lra. Qed.
Lemma mean_fft n a b : (0 < n)%nat -> Rmean (map (lag_sum a b) (fft_lags n)) = mean_over n a b.
Proof.
  intro Hn. unfold mean_over, Rmean. rewrite !map_length, fft_lags_length, lags_length.
  replace (n + n - 1)%nat with (2 * n - 1)%nat by lia. f_equal.
  rewrite <- fft_lags_roll by auto. unfold roll_left. rewrite map_app, Rsum_app2, Rplus_comm, <- Rsum_app2, <- map_app.
  now rewrite firstn_skipn.
Qed.
(** The two peaks carry the same value. *)
Lemma peaks_agree n a b : (0 < n)%nat -> lag_sum a b (fft_peak_lag n a b) = lag_sum a b (peak_lag n a b).
Proof.
  intro Hn. destruct (fft_peak_best n a b Hn) as [_ [H1 H2]].
  destruct (argmax_lags (lag_sum a b) n n Hn Hn) as [G1 [_ G2]].
  apply Rle_antisym; [now apply G2|now apply H2].
Qed.

Lemma map2_ext_Forall {A B C} (f g : A -> B -> C) (P : A -> Prop) (Q : B -> Prop) l : forall l',
  Forall P l -> Forall Q l' -> (forall a b, P a -> Q b -> f a b = g a b) -> map2 f l l' = map2 g l l'.
Proof.
  induction l as [|x l IH]; intros [|y l'] Hl Hl' E; try reflexivity.
  inversion Hl; inversion Hl'; subst. unfold map2 in *. cbn. f_equal; auto.
Qed.
Lemma mapM_ok {A B} (f : A -> B) (g : A -> result B) l : (forall x, In x l -> g x = Ok (f x)) -> mapM g l = Ok (map f l).
Proof.
  induction l as [|x l IH]; intro H; [reflexivity|]. cbn. rewrite H by (now left). cbn.
  rewrite IH by (intros; apply H; now right). reflexivity.
Qed.

Lemma fft_none dt n ins outs : dt <> 0 -> (2 <= n)%nat -> length ins = length outs ->
  Forall (fun a => length a = n) ins -> Forall (fun a => length a = n) outs ->
  compute_delays dt n n ins outs "fft" "none" = Ok (mkDelays
    (map2 (fun a b => zap (Fin (lag_sum a b (peak_lag n a b))) (- (IZR (fft_peak_lag n a b) * dt))) ins outs)
    (map2 (fun a b => Fin (lag_sum a b (peak_lag n a b))) ins outs)
    (map2 (fun a b => Fin (mean_over n a b)) ins outs)
    (Cube (map2 (fun a b => [[Fin (lag_sum a b 0)]]) ins outs))).
Proof.
  intros D Hn E Fi Fo. unfold compute_delays. destruct (Nat.ltb_spec n 2); [lia|].
  change (scale_rows n ins outs "none") with (Ok (A := list (list R) * list (list R) * option (list fl)) (ins, outs, None)).
  cbn [rbind]. change (String.eqb "fft" "loop") with false. change (String.eqb "fft" "fft") with true. cbv iota.
  rewrite E, !Nat.eqb_refl. cbn [negb andb]. rewrite roll_left_map, fft_lags_roll by lia.
  rewrite zero_index_fft by (auto; lia).
  rewrite (map2_ext_Forall (fft_xcorr n) (fun a b => map (lag_sum a b) (fft_lags n)) (fun a => length a = n) (fun a => length a = n))
    by (auto; intros; apply fft_xcorr_eq; auto; lia).
  cbn [map mul_last mul_inplace rbind].
  rewrite (mapM_ok (fun row => [[Fin (nth 0 row 0)]])) by reflexivity. cbn [rbind].
  rewrite ?map_map2, ?map2_map2, ?map_map2.
  f_equal. f_equal.
  - unfold quiet_to_zero. rewrite map2_map2.
    apply (map2_ext_Forall _ _ (fun a => length a = n) (fun a => length a = n)); auto. intros a b Ha Hb.
    destruct (fft_peak_best n a b ltac:(lia)) as [Hk _]. rewrite !nth_map_fft_lags by exact Hk.
    fold (fft_peak_lag n a b). unfold zap. rewrite peaks_agree by lia. reflexivity.
  - apply (map2_ext_Forall _ _ (fun a => length a = n) (fun a => length a = n)); auto. intros a b Ha Hb.
    destruct (fft_peak_best n a b ltac:(lia)) as [Hk _]. rewrite !nth_map_fft_lags by exact Hk.
    fold (fft_peak_lag n a b). rewrite peaks_agree by lia. reflexivity.
  - apply (map2_ext_Forall _ _ (fun a => length a = n) (fun a => length a = n)); auto. intros a b Ha Hb.
    rewrite mean_fft by lia. reflexivity.
  - f_equal. apply (map2_ext_Forall _ _ (fun a => length a = n) (fun a => length a = n)); auto. intros a b Ha Hb.
    rewrite nth_map_fft_lags by lia. unfold wrap_lag. destruct (Nat.ltb_spec 0 n); [|lia]. reflexivity.
Qed.

Lemma mul_last_one x s : s <> [] -> mul_last [x] (Some s) = Ok (map (fun k => fmul (Fin x) k) s).
Proof.
  intro N. unfold mul_last. destruct s as [|k [|k' s]]; [easy| |]; reflexivity.
Qed.
Lemma fft_coeff dt n ins outs : dt <> 0 -> (2 <= n)%nat -> length ins = length outs -> ins <> [] ->
  Forall (fun a => length a = n) ins -> Forall (fun a => length a = n) outs ->
  let P a b := peak_lag n (centred a) (centred b) in
  let k a b := coeff_factor n a b in
  compute_delays dt n n ins outs "fft" "coeff" = Ok (mkDelays
    (map2 (fun a b => zap (fmul (Fin (lag_sum (centred a) (centred b) (P a b))) (k a b)) (- (IZR (fft_peak_lag n (centred a) (centred b)) * dt))) ins outs)
    (map2 (fun a b => fmul (Fin (lag_sum (centred a) (centred b) (P a b))) (k a b)) ins outs)
    (map2 (fun a b => fmul (Fin (mean_over n (centred a) (centred b))) (k a b)) ins outs)
    (Cube (map2 (fun a b => [map (fun f => fmul (Fin (lag_sum (centred a) (centred b) 0)) f) (map2 k ins outs)]) ins outs))).
Proof.
  intros D Hn E Ni Fi Fo P k. unfold compute_delays. destruct (Nat.ltb_spec n 2); [lia|].
  unfold scale_rows. change (String.eqb "coeff" "coeff") with true. cbv iota.
  rewrite bcast2_eq by (now rewrite !map_length). cbn [rbind].
  change (String.eqb "fft" "loop") with false. change (String.eqb "fft" "fft") with true. cbv iota.
  rewrite !map_length, E, !Nat.eqb_refl. cbn [negb andb]. rewrite roll_left_map, fft_lags_roll by lia.
  rewrite zero_index_fft by (auto; lia).
  rewrite (map2_ext_Forall (fft_xcorr n) (fun a b => map (lag_sum a b) (fft_lags n)) (fun a => length a = n) (fun a => length a = n))
    by (auto using Forall_centred; intros; apply fft_xcorr_eq; auto; lia).
  rewrite !map2_maps, ?map_map2.
  change (map2 (fun x y => finv (INR n * Rstd (demean x) * Rstd (demean y))) ins outs) with (map2 k ins outs).
  set (sc := map2 k ins outs).
  assert (Sc : sc = map2 k ins outs) by reflexivity. clearbody sc.
  assert (Sn : sc <> []).
  { rewrite Sc. destruct ins, outs; try easy. }
  rewrite ?map2_map2.
  rewrite !mul_inplace_eq by (rewrite Sc, !map2_length; auto). cbn [rbind].
  rewrite (mapM_ok (fun row => [map (fun f => fmul (Fin (nth 0 row 0)) f) sc]))
    by (intros; cbn [map]; rewrite mul_last_one by auto; reflexivity). cbn [rbind].
  rewrite ?map_map2, ?map2_map2. rewrite Sc, ?map2_map2.
  f_equal. f_equal.
  - unfold quiet_to_zero. rewrite map2_map2.
    apply (map2_ext_Forall _ _ (fun a => length a = n) (fun a => length a = n)); auto. intros a b Ha Hb.
    change demean with centred.
    destruct (fft_peak_best n (centred a) (centred b) ltac:(lia)) as [Hk _]. rewrite !nth_map_fft_lags by exact Hk.
    fold (fft_peak_lag n (centred a) (centred b)). unfold zap. rewrite peaks_agree by lia. reflexivity.
  - apply (map2_ext_Forall _ _ (fun a => length a = n) (fun a => length a = n)); auto. intros a b Ha Hb.
    change demean with centred.
    destruct (fft_peak_best n (centred a) (centred b) ltac:(lia)) as [Hk _]. rewrite !nth_map_fft_lags by exact Hk.
    fold (fft_peak_lag n (centred a) (centred b)). rewrite peaks_agree by lia. reflexivity.
  - apply (map2_ext_Forall _ _ (fun a => length a = n) (fun a => length a = n)); auto. intros a b Ha Hb.
    change demean with centred. rewrite mean_fft by lia. reflexivity.
  - f_equal. apply (map2_ext_Forall _ _ (fun a => length a = n) (fun a => length a = n)); auto. intros a b Ha Hb.
    rewrite nth_map_fft_lags by lia. unfold wrap_lag. destruct (Nat.ltb_spec 0 n); [|lia].
    change demean with centred. reflexivity.
Qed.
