(** Mixture parameters, decay parameter and discretised distribution of the copula module. *)
From Verif Require Import Prelude PreludeFacts RealBase Fl RealStat M_spatial Spec_spatial Spec_stats M_copula Spec_copula X_stats_err.
Local Open Scope R_scope.

Lemma sigmoid_logistic x a c : sigmoid x a c = logistic a c x.
Proof. unfold sigmoid, logistic, Rdiv. rewrite Rmult_1_l. do 3 f_equal. ring. Qed.
Lemma logistic_bounds a c x : 0 < logistic a c x < 1.
Proof.
  unfold logistic. pose proof (exp_pos (- (a * (x - c)))) as P. split; [apply Rinv_0_lt_compat; lra|].
  rewrite <- Rinv_1. apply Rinv_lt_contravar; lra.
Qed.

(*@ C61 The sigmoid lies strictly between 0 and 1, rises for positive slope, is 1/2 at its centre and symmetric about it. *)
Lemma sigmoid_shape : forall x y a c, 0 < sigmoid x a c < 1 /\ (0 < a -> x < y -> sigmoid x a c < sigmoid y a c) /\
  sigmoid c a c = 1 / 2 /\ sigmoid (c + x) a c + sigmoid (c - x) a c = 1 /\ sigmoid x (- a) c = 1 - sigmoid x a c.
Proof.
  intros x y a c. rewrite !sigmoid_logistic. split; [apply logistic_bounds|]. unfold logistic. split; [|split; [|split]].
  - intros Ha Hxy. apply Rinv_lt_contravar.
    + pose proof (exp_pos (- (a * (x - c)))). pose proof (exp_pos (- (a * (y - c)))). nra.
    + apply Rplus_lt_compat_l. apply exp_increasing. nra.
  - replace (- (a * (c - c))) with 0 by ring. rewrite exp_0. lra.
  - replace (- (a * (c + x - c))) with (- (a * x)) by ring. replace (- (a * (c - x - c))) with (a * x) by ring.
    rewrite exp_Ropp. pose proof (exp_pos (a * x)). field. split; lra.
  - replace (- (- a * (x - c))) with (a * (x - c)) by ring. rewrite exp_Ropp. pose proof (exp_pos (a * (x - c))). field. split; lra.
Qed.

(*@ C61 The mixture: its formulas, weights that add up to 1 and a mean of exactly meanCSI. It fails only when the cloudy weight is 0. *)
Lemma mixture_mean : forall K q, let w := 1 - comp0 q * logistic (comp1 q) (comp2 q) K in
  (w = 0 <-> forall m k, process_params K q <> Ok (m, k)) /\
  (w <> 0 -> exists w1 w2 mu1 mu2 s1 s2 k,
     process_params K q = Ok ({| mix_mu := [mu1; mu2]; mix_w := [w1; w2]; mix_var := [s1 ^ 2; s2 ^ 2] |}, k) /\
     w1 = w /\ w1 + w2 = 1 /\ w1 * mu1 + w2 * mu2 = K /\
     mu2 = mean0 q * w1 * K + mean1 q * w2 * (K - mean2 q) /\
     s1 = cloud0 q * logistic (cloud1 q) (cloud2 q) K /\ s2 = clear0 q * (1 - logistic (clear1 q) (clear2 q) K) /\
     k = Rmax (corr_quadr q * K * (1 - K)) (1 / 100000)).
Proof.
  intros K q w. unfold process_params. rewrite !sigmoid_logistic. fold w.
  assert (Md : forall a, (if Rltb a decay_floor then decay_floor else a) = Rmax a (1 / 100000)).
  { intro a. fold decay_floor. destruct (Rltb_spec a decay_floor); unfold Rmax; destruct (Rle_dec a decay_floor); lra. }
  destruct (Reqb_spec w 0) as [E|E].
  - split; [|easy]. split; [discriminate|easy].
  - split.
    + split; [easy|]. intro H. exfalso. eapply H. reflexivity.
    + intros _. unfold decay_one. rewrite Md. do 7 eexists. split; [reflexivity|]. split; [reflexivity|]. split; [ring|].
      split; [field; exact E|]. repeat split; ring.
Qed.

(*@ C61 With 0 < comp[0] <= 1 and non-zero deviations the mixture is proper: weights in (0, 1), deviations positive. *)
Lemma mixture_proper : forall K q, 0 < comp0 q <= 1 -> 0 < clear0 q -> 0 < cloud0 q ->
  exists w1 w2 mu1 mu2 s1 s2 k,
    process_params K q = Ok ({| mix_mu := [mu1; mu2]; mix_w := [w1; w2]; mix_var := [s1 ^ 2; s2 ^ 2] |}, k) /\
    0 < w1 < 1 /\ 0 < w2 < 1 /\ 0 < s1 < cloud0 q /\ 0 < s2 < clear0 q.
Proof.
  intros K q Hc Hs Hd. pose proof (logistic_bounds (comp1 q) (comp2 q) K) as B. pose proof (logistic_bounds (clear1 q) (clear2 q) K) as B2.
  pose proof (logistic_bounds (cloud1 q) (cloud2 q) K) as B3.
  destruct (mixture_mean K q) as [_ M]. cbv zeta in M. set (s := logistic (comp1 q) (comp2 q) K) in *.
  destruct M as (w1 & w2 & mu1 & mu2 & s1 & s2 & k & E & Ew & Es & _ & _ & E1 & E2 & _); [nra|].
  exists w1, w2, mu1, mu2, s1, s2, k. split; [exact E|]. subst s1 s2. repeat split; nra.
Qed.

(*@ C61 With the default parameters, for every meanCSI: the published numbers. *)
Lemma default_mixture : forall K, exists w1 w2 mu1 mu2 s1 s2 k,
  process_params K default_params = Ok ({| mix_mu := [mu1; mu2]; mix_w := [w1; w2]; mix_var := [s1 ^ 2; s2 ^ 2] |}, k) /\
  w1 = 1 - 0.8051 * logistic 7.3605 0.7092 K /\ w1 + w2 = 1 /\ w1 * mu1 + w2 * mu2 = K /\ 0.1949 < w1 < 1 /\
  mu2 = 2.2928 * w1 * K + 1.0801 * w2 * (K - 0.4532) /\
  s1 = 0.1997 * logistic 5.0919 0.3863 K /\ s2 = 0.3512 * (1 - logistic 4.8414 0.6442 K) /\
  0 < s1 < 0.1997 /\ 0 < s2 < 0.3512 /\ k = Rmax (0.0043 * K * (1 - K)) 0.00001.
Proof.
  intro K. pose proof (logistic_bounds (comp1 default_params) (comp2 default_params) K) as B.
  pose proof (logistic_bounds (clear1 default_params) (clear2 default_params) K) as B2.
  pose proof (logistic_bounds (cloud1 default_params) (cloud2 default_params) K) as B3.
  destruct (mixture_mean K default_params) as [_ M]. cbv zeta in M.
  assert (Hw : 0.1949 < 1 - comp0 default_params * logistic (comp1 default_params) (comp2 default_params) K < 1).
  { change (comp0 default_params) with (8051 / 10000). lra. }
  destruct M as (w1 & w2 & mu1 & mu2 & s1 & s2 & k & E & Ew & Es & Em & E2 & E3 & E4 & Ek); [lra|].
  exists w1, w2, mu1, mu2, s1, s2, k. rewrite <- Ew in Hw.
  assert (D : forall a b c a' b' c', a = a' -> b = b' -> c = c' -> a * logistic b c K = a' * logistic b' c' K) by (intros; subst; reflexivity).
  assert (D' : forall b c b' c', b = b' -> c = c' -> logistic b c K = logistic b' c' K) by (intros; subst; reflexivity).
  cbn [comp0 comp1 comp2 mean0 mean1 mean2 clear0 clear1 clear2 cloud0 cloud1 cloud2 corr_quadr default_params] in *.
  rewrite (D' (73605 / 10000) (7092 / 10000) 7.3605 0.7092) in * by lra.
  rewrite (D' (48414 / 10000) (6442 / 10000) 4.8414 0.6442) in * by lra.
  rewrite (D' (50919 / 10000) (3863 / 10000) 5.0919 0.3863) in * by lra.
  replace 0.00001 with (1 / 100000) by lra. replace 0.0043 with (43 / 10000) by lra.
  replace 0.4532 with (4532 / 10000) by lra. replace 1.0801 with (10801 / 10000) by lra. replace 2.2928 with (22928 / 10000) by lra.
  repeat split; try assumption; lra.
Qed.

(*@ex C61 *)
Lemma default_params_proper : 0 < comp0 default_params <= 1 /\ 0 < clear0 default_params /\ 0 < cloud0 default_params.
Proof. cbn. lra. Qed.

(*@ C62 The decay parameter of a number, and of an array element by element. *)
Lemma decay_value : forall K p l, exponential_decay (Scalar K) p = Scalar (Rmax (p * K * (1 - K)) (1 / 100000)) /\
  (length l <> 1%nat -> exponential_decay (Arr l) p = Arr (map (fun K => Rmax (p * K * (1 - K)) (1 / 100000)) l)) /\
  (1 / 100000 <= p * K * (1 - K) -> exponential_decay (Arr [K]) p = Arr [p * K * (1 - K)]) /\
  (p * K * (1 - K) < 1 / 100000 -> exponential_decay (Arr [K]) p = Scalar (1 / 100000)).
Proof.
  intros K p l.
  assert (Md : forall K, decay_one K p = Rmax (p * K * (1 - K)) (1 / 100000)).
  { intro a. unfold decay_one. fold decay_floor. destruct (Rltb_spec (p * a * (1 - a)) decay_floor); unfold Rmax; destruct (Rle_dec (p * a * (1 - a)) decay_floor); lra. }
  split; [cbn; now rewrite Md|]. split; [|split].
  - intro L. destruct l as [|a [|b l]]; [reflexivity|now cbn in L|]. cbn [exponential_decay]. f_equal. apply map_ext. exact Md.
  - intro H. cbn. rewrite Rltb_false by (unfold decay_floor; lra). reflexivity.
  - intro H. cbn. rewrite Rltb_true by (unfold decay_floor; lra). reflexivity.
Qed.

(*@ C62 It is at least 1e-5 and the same for K and 1 - K; it is at most p/4 or the floor. *)
Lemma decay_bounds : forall K p v, 0 <= p -> exponential_decay (Scalar K) p = Scalar v ->
  1 / 100000 <= v <= Rmax (p / 4) (1 / 100000) /\ exponential_decay (Scalar (1 - K)) p = Scalar v.
Proof.
  intros K p v Hp E. rewrite (proj1 (decay_value K p [])) in E. assert (Ev : v = Rmax (p * K * (1 - K)) (1 / 100000)) by congruence. subst v. split.
  - split; [apply Rmax_r|]. apply Rmax_lub; [|apply Rmax_r]. apply Rle_trans with (p / 4); [|apply Rmax_l].
    pose proof (pow2_ge_0 (K - 1/2)). assert (K * (1 - K) <= 1 / 4) by nra. nra.
  - rewrite (proj1 (decay_value (1 - K) p [])). do 2 f_equal. ring.
Qed.

(*@ C62 The documented "higher K, slower decay" fails: the parameter rises up to K = 1/2. *)
Lemma decay_documented_refuted : exists K K' p v v', 0 < p /\ 0 < K /\ K < K' /\ K' < 1 /\
  exponential_decay (Scalar K) p = Scalar v /\ exponential_decay (Scalar K') p = Scalar v' /\ v < v'.
Proof.
  exists (1/10), (1/2), 1, (9/100), (1/4). rewrite !(fun K p => proj1 (decay_value K p [])).
  repeat split; try lra; f_equal; rewrite Rmax_left; lra.
Qed.
(*@ex C62 *)
Lemma decay_example : exponential_decay (Arr [1/2; 0]) (43 / 10000) = Arr [43 / 40000; 1 / 100000].
Proof.
  rewrite (proj1 (proj2 (decay_value 0 (43 / 10000) [1/2; 0]))) by easy. cbn [map]. rewrite Rmax_left, Rmax_right by lra. do 2 f_equal. lra.
Qed.

(** ** Discretised distribution *)
Lemma normal_gauss mu v x : normal_pdf mu v x = gauss mu v x.
Proof. unfold normal_pdf, gauss. rewrite Rmult_comm. unfold Rdiv. do 2 f_equal. ring. Qed.
Lemma gauss_pos mu v x : 0 < v -> 0 < gauss mu v x.
Proof. intro H. unfold gauss. apply Rdiv_lt_0_compat; [apply exp_pos|]. apply sqrt_lt_R0. pose proof PI_RGT_0. nra. Qed.

Lemma cumsum_from_nth a l i : (i < length l)%nat -> nth_error (cumsum_from a l) i = Some (a + total (S i) l).
Proof.
  revert a i. induction l as [|x l IH]; intros a i L; [cbn in L; lia|]. cbn [cumsum_from]. destruct i as [|i].
  - cbn. do 2 f_equal. unfold total. cbn. lra.
  - cbn [nth_error]. rewrite IH by (cbn in L; lia). f_equal. unfold total. cbn [firstn]. rewrite Rsum_cons. cbn [firstn]. lra.
Qed.
Lemma cumsum_length a l : length (cumsum_from a l) = length l.
Proof. revert a. induction l; intro; cbn; auto. Qed.
Lemma total_all l n : (length l <= n)%nat -> total n l = Rsum l.
Proof. intro H. unfold total. now rewrite firstn_all2. Qed.
Lemma In_firstn {A} (x : A) n l : In x (firstn n l) -> In x l.
Proof. intro H. rewrite <- (firstn_skipn n l). apply in_or_app. now left. Qed.
Lemma In_skipn {A} (x : A) n l : In x (skipn n l) -> In x l.
Proof. intro H. rewrite <- (firstn_skipn n l). apply in_or_app. now right. Qed.
Lemma total_mono l n m : (forall x, In x l -> 0 <= x) -> (n <= m)%nat -> total n l <= total m l.
Proof.
  intros P H. unfold total. replace (firstn m l) with (firstn n l ++ firstn (m - n) (skipn n l)).
  - rewrite Rsum_app. assert (0 <= Rsum (firstn (m - n) (skipn n l))); [|lra]. apply Rsum_nonneg. intros x Hx. apply P.
    eapply In_skipn. eapply In_firstn. exact Hx.
  - rewrite <- (firstn_skipn n l) at 3. rewrite firstn_app. rewrite firstn_length. 
    rewrite firstn_firstn, Nat.min_r by lia. f_equal. 
    destruct (Nat.le_gt_cases n (length l)); [now rewrite Nat.min_l|]. rewrite skipn_all2 by lia. now rewrite !firstn_nil.
Qed.

Definition components (m : mixture) : list (R * R * R) := combine (combine (mix_mu m) (mix_w m)) (mix_var m).
Lemma mixture_pdf_value m x : mixture_pdf m x =
  Rsum (map (fun c => snd (fst c) * gauss (fst (fst c)) (snd c) x) (components m)).
Proof. unfold mixture_pdf. apply Rsum_map_ext. intros. now rewrite normal_gauss. Qed.

Lemma total_max l : l <> [] -> (forall x, In x l -> 0 <= x) -> Rmax_of (cumsum l) = Rsum l.
Proof.
  intros N P. assert (L : (0 < length l)%nat) by (destruct l; [easy|cbn; lia]).
  assert (T : forall i, (i < length l)%nat -> nth_error (cumsum l) i = Some (total (S i) l)).
  { intros i Hi. unfold cumsum. rewrite cumsum_from_nth by easy. f_equal. lra. }
  apply Rmax_of_unique.
  - apply nth_error_In with (n := (length l - 1)%nat). rewrite T by lia. f_equal. apply total_all. lia.
  - intros x Hx. apply In_nth_error in Hx. destruct Hx as [i Hi].
    assert (Li : (i < length l)%nat).
    { rewrite <- (cumsum_length 0 l). apply nth_error_Some. unfold cumsum in Hi. congruence. }
    rewrite T in Hi by easy. injection Hi as <-. rewrite <- (total_all l (length l)) by lia. apply total_mono; [easy|lia].
Qed.

(*@ C63 The density at each point is the weighted sum of the normal densities; the distribution value is the running total
    of densities over their grand total. *)
Lemma gm_value : forall x m, x <> [] -> length (mix_w m) = length (mix_mu m) -> length (mix_var m) = length (mix_mu m) ->
  (forall v, In v (mix_var m) -> 0 < v) -> (forall w, In w (mix_w m) -> 0 <= w) -> (exists w, In w (mix_w m) /\ 0 < w) ->
  exists pdf cdf, gmdistribution x m = Ok (pdf, cdf) /\
    pdf = map (fun x => Rsum (map (fun i => nth i (mix_w m) 0 * gauss (nth i (mix_mu m) 0) (nth i (mix_var m) 0) x) (seq 0 (length (mix_mu m))))) x /\
    (forall d, In d pdf -> 0 < d) /\
    cdf = map (fun i => total (S i) pdf / Rsum pdf) (seq 0 (length x)).
Proof.
  intros x m N L1 L2 V W (w & Iw & Pw).
  assert (Ev : existsb (fun v => Rleb v 0) (mix_var m) = false).
  { destruct (existsb _ _) eqn:E; [|easy]. apply existsb_exists in E. destruct E as (v & I & E). apply V in I. rewrite Rleb_false in E by lra. discriminate. }
  assert (Ew : existsb (fun v => Rltb v 0) (mix_w m) = false).
  { destruct (existsb (fun v => Rltb v 0) (mix_w m)) eqn:E; [|easy]. apply existsb_exists in E. destruct E as (v & I & E). apply W in I. rewrite Rltb_false in E by lra. discriminate. }
  set (f := fun x => Rsum (map (fun i => nth i (mix_w m) 0 * gauss (nth i (mix_mu m) 0) (nth i (mix_var m) 0) x) (seq 0 (length (mix_mu m))))).
  assert (Ef : forall x, mixture_pdf m x = f x).
  { intro y. rewrite mixture_pdf_value. unfold f. f_equal. unfold components. apply nth_error_ext. intro i. rewrite !nth_error_map.
    destruct (Nat.lt_ge_cases i (length (mix_mu m))) as [Hi|Hi].
    - rewrite (nth_error_nth' (seq 0 (length (mix_mu m))) 0%nat) by now rewrite seq_length. rewrite seq_nth by easy. cbn [option_map Nat.add].
      rewrite (nth_error_nth' _ (0, 0, 0)) by (rewrite !combine_length; lia). cbn [option_map].
      rewrite combine_nth by (rewrite combine_length; lia). rewrite combine_nth by easy. reflexivity.
    - rewrite (proj2 (nth_error_None _ _)) by (rewrite !combine_length; lia).
      rewrite (proj2 (nth_error_None (seq _ _) _)) by (rewrite seq_length; lia). reflexivity. }
  assert (Pf : forall x, 0 < f x).
  { intro y. destruct (In_nth _ _ 0 Iw) as (i & Li & Ei). unfold f. rewrite L1 in Li.
    assert (Hs : In i (seq 0 (length (mix_mu m)))) by (apply in_seq; lia). destruct (in_split _ _ Hs) as (A & B & Es). rewrite Es, map_app, Rsum_app. cbn [map]. rewrite Rsum_cons.
    assert (Pt : forall j, In j (seq 0 (length (mix_mu m))) -> 0 <= nth j (mix_w m) 0 * gauss (nth j (mix_mu m) 0) (nth j (mix_var m) 0) y).
    { intros j Hj. apply in_seq in Hj. apply Rmult_le_pos; [apply W, nth_In; lia|]. left. apply gauss_pos, V, nth_In. lia. }
    assert (0 < nth i (mix_w m) 0 * gauss (nth i (mix_mu m) 0) (nth i (mix_var m) 0) y).
    { apply Rmult_lt_0_compat; [lra|]. apply gauss_pos, V, nth_In. lia. }
    assert (forall C, (forall j, In j C -> In j (seq 0 (length (mix_mu m)))) -> 0 <= Rsum (map (fun i => nth i (mix_w m) 0 * gauss (nth i (mix_mu m) 0) (nth i (mix_var m) 0) y) C)).
    { intros C HC. apply Rsum_nonneg. intros z Hz. apply in_map_iff in Hz. destruct Hz as (j & <- & Hj). auto. }
    pose proof (H0 A ltac:(intros; rewrite Es; apply in_or_app; now left)). pose proof (H0 B ltac:(intros; rewrite Es; apply in_or_app; right; now right)). lra. }
  exists (map f x), (map (fun i => total (S i) (map f x) / Rsum (map f x)) (seq 0 (length x))).
  split; [|split; [reflexivity|split; [|reflexivity]]].
  - unfold gmdistribution. rewrite Ev, Ew. destruct x as [|x0 xs]; [easy|]. set (X := x0 :: xs) in *.
    rewrite (map_ext (mixture_pdf m) f) by easy. do 2 f_equal. rewrite total_max.
    + apply nth_error_ext. intro i. rewrite !nth_error_map. destruct (Nat.lt_ge_cases i (length X)) as [Hi|Hi].
      * unfold cumsum. rewrite cumsum_from_nth by now rewrite map_length.
        rewrite (nth_error_nth' (seq 0 (length X)) 0%nat) by now rewrite seq_length. rewrite seq_nth by easy. cbn [option_map Nat.add]. do 2 f_equal. lra.
      * rewrite (proj2 (nth_error_None _ _)) by (unfold cumsum; rewrite cumsum_length, map_length; lia).
        rewrite (proj2 (nth_error_None (seq _ _) _)) by (rewrite seq_length; lia). reflexivity.
    + now apply map_ne.
    + intros y Hy. apply in_map_iff in Hy. destruct Hy as (z & <- & _). left. apply Pf.
  - intros d Hd. apply in_map_iff in Hd. destruct Hd as (z & <- & _). apply Pf.
Qed.

(*@ C63 So it is a distribution table: positive, increasing, ending at exactly 1, with steps proportional to the density. *)
Lemma gm_cdf : forall x m pdf cdf, x <> [] -> length (mix_w m) = length (mix_mu m) -> length (mix_var m) = length (mix_mu m) ->
  (forall v, In v (mix_var m) -> 0 < v) -> (forall w, In w (mix_w m) -> 0 <= w) -> (exists w, In w (mix_w m) /\ 0 < w) ->
  gmdistribution x m = Ok (pdf, cdf) ->
  length cdf = length x /\ last cdf 0 = 1 /\ (forall c, In c cdf -> 0 < c <= 1) /\
  (forall i j a b, (i < j)%nat -> nth_error cdf i = Some a -> nth_error cdf j = Some b -> a < b) /\
  (exists k, 0 < k /\ forall i a b d, nth_error cdf i = Some a -> nth_error cdf (S i) = Some b -> nth_error pdf (S i) = Some d -> b - a = k * d).
Proof.
  intros x m pdf cdf N L1 L2 V W Ex E. destruct (gm_value x m N L1 L2 V W Ex) as (pdf' & cdf' & E' & Ep & Pp & Ec).
  assert (pdf' = pdf /\ cdf' = cdf) as [-> ->] by (split; congruence). clear E E'.
  assert (Lp : length pdf = length x) by (rewrite Ep; apply map_length). clear Ep.
  assert (Np : pdf <> []) by (intros ->; destruct x; [easy|discriminate]).
  pose proof (Rsum_pos pdf Np Pp) as S0. assert (Pp' : forall d, In d pdf -> 0 <= d) by (intros; left; auto).
  assert (Lc : length cdf = length x) by (rewrite Ec, map_length, seq_length; easy).
  assert (Nt : forall i a, nth_error cdf i = Some a -> (i < length x)%nat /\ a = total (S i) pdf / Rsum pdf).
  { intros i a H. assert (Li : (i < length x)%nat) by (rewrite <- Lc; apply nth_error_Some; congruence). split; [easy|].
    rewrite Ec, nth_error_map, (nth_error_nth' _ 0%nat), seq_nth in H by (rewrite ?seq_length; easy). cbn [option_map Nat.add] in H. congruence. }
  assert (St : forall i d, nth_error pdf i = Some d -> total (S i) pdf = total i pdf + d).
  { intros i d H. unfold total. clear -H. revert i H. induction pdf as [|y l IH]; intros [|i] H; try discriminate.
    - cbn [nth_error] in H. injection H as ->. change (Rsum [d] = 0 + d). rewrite Rsum_cons, Rsum_nil. lra.
    - cbn [nth_error] in H. change (firstn (S (S i)) (y :: l)) with (y :: firstn (S i) l). change (firstn (S i) (y :: l)) with (y :: firstn i l). rewrite !Rsum_cons, (IH i H). lra. }
  assert (Lt : forall i j, (i < j <= length x)%nat -> total i pdf < total j pdf).
  { intros i j H. destruct (nth_error pdf i) as [d|] eqn:Ed; [|apply nth_error_None in Ed; lia].
    pose proof (St i d Ed). pose proof (Pp d (nth_error_In _ _ Ed)). pose proof (total_mono pdf (S i) j Pp' ltac:(lia)). lra. }
  split; [easy|]. split; [|split; [|split]].
  - assert (Hl : nth_error cdf (length x - 1) = Some 1).
    { rewrite Ec, nth_error_map, (nth_error_nth' _ 0%nat), seq_nth by (rewrite ?seq_length; destruct x; [easy|cbn; lia]). cbn [option_map]. f_equal.
      rewrite total_all by (destruct x; [easy|cbn in *; lia]). field. lra. }
    rewrite <- Lc in Hl. clear -Hl. destruct cdf as [|c l] using rev_ind; [discriminate|]. rewrite last_last. rewrite app_length in Hl. cbn in Hl.
    rewrite nth_error_app2 in Hl by lia. replace (length l + 1 - 1 - length l)%nat with 0%nat in Hl by lia. cbn in Hl. congruence.
  - intros c Hc. apply In_nth_error in Hc. destruct Hc as [i Hi]. destruct (Nt _ _ Hi) as [Li ->].
    pose proof (Lt 0%nat (S i) ltac:(lia)) as T0. assert (Z0 : total 0 pdf = 0) by reflexivity.
    pose proof (total_mono pdf (S i) (length x) Pp' ltac:(lia)) as T1. rewrite (total_all pdf (length x)) in T1 by lia. split.
    + apply Rdiv_lt_0_compat; lra.
    + apply Rmult_le_reg_r with (Rsum pdf); [easy|]. field_simplify; lra.
  - intros i j a b Hij Ha Hb. destruct (Nt _ _ Ha) as [Li ->]. destruct (Nt _ _ Hb) as [Lj ->].
    apply Rmult_lt_compat_r; [now apply Rinv_0_lt_compat|]. apply Lt. lia.
  - exists (/ Rsum pdf). split; [now apply Rinv_0_lt_compat|]. intros i a b d Ha Hb Hd. destruct (Nt _ _ Ha) as [Li ->]. destruct (Nt _ _ Hb) as [Lj ->].
    rewrite (St _ _ Hd). field. lra.
Qed.

(*@ C63 A single point always gets 1; no points, or a variance that is not positive, is refused. *)
Lemma gm_edge : forall x m, (forall v, In v (mix_var m) -> 0 < v) -> (forall w, In w (mix_w m) -> 0 <= w) -> 
  (mixture_pdf m x <> 0 -> gmdistribution [x] m = Ok ([mixture_pdf m x], [1])) /\
  gmdistribution [] m = Err ValueError /\
  (forall m' xs v, In v (mix_var m') -> v <= 0 -> gmdistribution xs m' = Err ValueError).
Proof.
  intros x m V W.
  assert (Ev : existsb (fun v => Rleb v 0) (mix_var m) = false).
  { destruct (existsb _ _) eqn:E; [|easy]. apply existsb_exists in E. destruct E as (v & I & E). apply V in I. rewrite Rleb_false in E by lra. discriminate. }
  assert (Ew : existsb (fun v => Rltb v 0) (mix_w m) = false).
  { destruct (existsb (fun v => Rltb v 0) (mix_w m)) eqn:E; [|easy]. apply existsb_exists in E. destruct E as (v & I & E). apply W in I. rewrite Rltb_false in E by lra. discriminate. }
  unfold gmdistribution at 1 2. rewrite Ev, Ew. split; [|split; [reflexivity|]].
  - intro NZ. cbn. do 3 f_equal. rewrite Rplus_0_l. field. exact NZ.
  - intros m' xs v I H. unfold gmdistribution. assert (E : existsb (fun v => Rleb v 0) (mix_var m') = true).
    { apply existsb_exists. exists v. split; [easy|]. now apply Rleb_true. }
    now rewrite E.
Qed.

(*@ C63 Every proper parameter set and mean gives such a table. *)
Lemma solar_gmm_ok : forall csi K q, csi <> [] -> 0 < comp0 q <= 1 -> 0 < clear0 q -> 0 < cloud0 q ->
  exists pdf cdf k, solar_gmm csi K q = Ok (pdf, cdf, k) /\ k = Rmax (corr_quadr q * K * (1 - K)) (1 / 100000) /\
    length cdf = length csi /\ last cdf 0 = 1 /\ (forall c, In c cdf -> 0 < c <= 1) /\
    (forall i j a b, (i < j)%nat -> nth_error cdf i = Some a -> nth_error cdf j = Some b -> a < b).
Proof.
  intros csi K q N Hc Hs Hd. destruct (mixture_proper K q Hc Hs Hd) as (w1 & w2 & mu1 & mu2 & s1 & s2 & k & E & B1 & B2 & B3 & B4).
  set (m := {| mix_mu := [mu1; mu2]; mix_w := [w1; w2]; mix_var := [s1 ^ 2; s2 ^ 2] |}) in *.
  assert (V : forall v, In v (mix_var m) -> 0 < v) by (intros v [<-|[<-|[]]]; nra).
  assert (W : forall w, In w (mix_w m) -> 0 <= w) by (intros v [<-|[<-|[]]]; lra).
  assert (X : exists w, In w (mix_w m) /\ 0 < w) by (exists w1; split; [now left|easy]).
  destruct (gm_value csi m N eq_refl eq_refl V W X) as (pdf & cdf & Eg & _).
  exists pdf, cdf, k. unfold solar_gmm. rewrite E. cbn [rbind fst snd]. rewrite Eg. cbn [rbind]. split; [reflexivity|].
  destruct (gm_cdf csi m pdf cdf N eq_refl eq_refl V W X Eg) as (A & B & C & D & _). split; [|tauto].
  destruct (mixture_mean K q) as [_ M]. cbv zeta in M. destruct M as (? & ? & ? & ? & ? & ? & k' & E' & _ & _ & _ & _ & _ & _ & Ek).
  - intro Z. pose proof (logistic_bounds (comp1 q) (comp2 q) K). nra.
  - rewrite E in E'. congruence.
Qed.
(*@ex C63 *)
Lemma gm_example : exists pdf cdf k, solar_gmm [0; 1/2; 1] (1/2) default_params = Ok (pdf, cdf, k) /\ length cdf = 3%nat.
Proof.
  destruct default_params_proper as (A & B & C). destruct (solar_gmm_ok [0; 1/2; 1] (1/2) default_params ltac:(easy) A B C) as (pdf & cdf & k & E & _ & L & _).
  exists pdf, cdf, k. split; [exact E|exact L].
Qed.
