(** field.py compute_delays: every column against the reference, one at a time. *)
From Coq Require Import String.
From Verif Require Import Prelude PreludeFacts RealBase Fl RealStat Dft Phase Spec_welch Spec_tfdelay M_cmv M_signal_corr M_signal_tf M_field_delays P_list P_tf P_tfdelay X_signal_psd X_signal_tf X_signal_tfdelay X_signal_tfx.
From Coquelicot Require Import Complex Rcomplements.
Local Open Scope string_scope.
Local Open Scope R_scope.

(** With one input column every output column is treated alike. *)
Lemma averaged_one win dtr dt n ref sig navgs overlap window d :
  (exists e, forall outs, outs <> [] -> averaged_tf win dtr dt n (Frame [(ref, sig)]) (Frame outs) navgs overlap window d = Err e) \/
  (exists freqs col, (forall outs, outs <> [] -> averaged_tf win dtr dt n (Frame [(ref, sig)]) (Frame outs) navgs overlap window d = Ok (freqs, map col outs)) /\
     forall o, fst (col o) = pair_name ref (fst o) /\ length (fst (snd (col o))) = length freqs /\ length (snd (snd (col o))) = length freqs).
Proof.
  unfold averaged_tf. destruct (sample_rate dt n) as [fs|e]; cbn [rbind]; [|left; exists e; now intros].
  set (mk := fun b : string * list R => (pair_name ref (fst b), (sig, snd b))).
  assert (Pc : forall outs, pair_columns [(ref, sig)] outs = Ok (map mk outs)).
  { intro outs. unfold pair_columns. destruct outs as [|o [|o' outs]]; reflexivity. }
  destruct (segmenting n navgs overlap) as [[np nv]|e] eqn:Es; cbn [rbind]; [|left; exists e; intros outs _; now rewrite Pc].
  destruct (psd_scale win fs window np "density") as [sc|e] eqn:Ep; cbn [rbind]; [|left; exists e; intros outs _; now rewrite Pc].
  right. exists (map (bin_freq fs np) (seq 0 (n_bins np))).
  eexists (fun o : string * list R => _). split.
  - intros outs No. rewrite Pc. cbn [rbind]. replace (some_column (map mk outs)) with (Ok tt) by (destruct outs; [contradiction|reflexivity]). cbn [rbind]. rewrite map_map. unfold mk. reflexivity.
  - intro o. cbn [fst snd]. now rewrite !map_length.
Qed.

Lemma pair_name_inj r a b : pair_name r a = pair_name r b -> a = b.
Proof. unfold pair_name. induction r as [|c r IH]; cbn; [congruence|]. intro E. injection E as E. auto. Qed.
Lemma names_nodup (col : string * list R -> string * (list (option C) * list (option R))) ref df :
  (forall o, fst (col o) = pair_name ref (fst o)) -> NoDup (map fst df) -> NoDup (map fst (map col df)).
Proof.
  intros Hc ND. rewrite map_map. rewrite (map_ext _ (fun o => pair_name ref (fst o)) Hc).
  rewrite <- (map_map fst (pair_name ref)). apply FinFun.Injective_map_NoDup; [|easy]. intros a b. apply pair_name_inj.
Qed.

(** The delay of one column. *)
Definition one_delay ls cl fl method freqs (c : list (option C) * list (option R)) : option R :=
  if String.eqb method "fit" then delay_fit ls cl fl freqs (fst c) (snd c)
  else if all_missing (fst c) then None else Some (multi_delay cl fl (bins_of freqs (fst c) (snd c))).

Lemma fit_rows ls freqs cl fl (tfs : list (string * (list (option C) * list (option R)))) : NoDup (map fst tfs) ->
  mapM (fun c => tf_delay ls freqs (map snd (filter (fun c' => String.eqb (fst c') (fst c)) tfs)) cl fl "fit") tfs
  = Ok (map (fun c => ([delay_fit ls cl fl freqs (fst (snd c)) (snd (snd c))], [mask_col cl fl freqs (snd (snd c))])) tfs).
Proof.
  intro ND. apply mapM_all. apply Forall2_nth_iff. split; [now rewrite map_length|]. intros i c r Hc Hr.
  rewrite nth_error_map, Hc in Hr. cbn in Hr. injection Hr as <-. rewrite (named_one tfs i c ND Hc). reflexivity.
Qed.

Lemma one_delays ls win dtr dt n ref sig navgs cl fl method overlap window : solver ls -> method = "fit" \/ method = "multi" ->
  (exists e, forall outs, outs <> [] -> NoDup (map fst outs) -> compute_delays_tf ls win dtr dt n [(ref, sig)] outs navgs cl fl method overlap window false = Err e) \/
  (exists freqs col lim, fl = Some lim /\ (forall o, length (fst (snd (col o))) = length freqs /\ length (snd (snd (col o))) = length freqs) /\
     (forall outs, outs <> [] -> averaged_tf win dtr dt n (Frame [(ref, sig)]) (Frame outs) navgs overlap window None = Ok (freqs, map col outs)) /\
     forall outs, outs <> [] -> NoDup (map fst outs) -> exists ix,
     compute_delays_tf ls win dtr dt n [(ref, sig)] outs navgs cl fl method overlap window false =
     Ok (map (fun o => one_delay ls cl fl method freqs (snd (col o))) outs, mkTfExtras (map (fun o => mean_coh freqs lim (snd (snd (col o)))) outs) ix None)).
Proof.
  intros S M. destruct (averaged_one win dtr dt n ref sig navgs overlap window None) as [[e E]|(freqs & col & E & Hc)].
  - left. exists e. intros outs No _. unfold compute_delays_tf. cbn [length Nat.ltb Nat.leb andb]. now rewrite E.
  - destruct fl as [lim|].
    + right. exists freqs, col, lim. split; [easy|]. split; [intro o; apply Hc|]. split; [exact E|]. intros outs No ND.
      unfold compute_delays_tf. cbn [length Nat.ltb Nat.leb andb]. rewrite E by exact No. cbn [rbind]. destruct M as [-> | ->].
      * cbn [String.eqb Ascii.eqb Bool.eqb]. rewrite fit_rows by (apply (names_nodup col ref); [apply Hc|easy]). cbn [rbind].
        eexists. f_equal. f_equal.
        -- rewrite !map_map. cbn [fst]. clear. induction outs as [|o outs IH]; [reflexivity|]. cbn [map concat app]. now rewrite IH.
        -- rewrite !map_map. reflexivity.
      * cbn [String.eqb Ascii.eqb Bool.eqb]. unfold tf_delay. cbn [String.eqb Ascii.eqb Bool.eqb].
        destruct (map snd (map col outs)) as [|c0 cs] eqn:Em; [destruct outs; easy|]. rewrite <- Em. cbn [rbind].
        eexists. f_equal. f_equal.
        -- rewrite delay_multi_eq; [rewrite !map_map; reflexivity|easy|].
           apply Forall_forall. intros c Ic. apply in_map_iff in Ic. destruct Ic as (c' & <- & Ic). apply in_map_iff in Ic. destruct Ic as (o & <- & _). apply Hc.
        -- rewrite !map_map. reflexivity.
    + left. exists TypeError. intros outs No ND. unfold compute_delays_tf. cbn [length Nat.ltb Nat.leb andb]. rewrite E by exact No. cbn [rbind]. destruct M as [-> | ->].
      * cbn [String.eqb Ascii.eqb Bool.eqb]. rewrite fit_rows by (apply (names_nodup col ref); [apply Hc|easy]). reflexivity.
      * cbn [String.eqb Ascii.eqb Bool.eqb]. unfold tf_delay. cbn [String.eqb Ascii.eqb Bool.eqb].
        destruct (map snd (map col outs)) as [|c0 cs] eqn:Em; [destruct outs; easy|]. reflexivity.
Qed.

Lemma lookup_found (df : list (string * list R)) ref sig : NoDup (map fst df) -> In (ref, sig) df -> lookup df ref = Ok sig.
Proof.
  intros ND I. unfold lookup. destruct (dget df ref) as [v|] eqn:E.
  - apply dget_In in E. f_equal. revert ND I E. clear. induction df as [|[k w] df IH]; [easy|]. cbn [map fst]. intro ND. inversion ND as [|? ? N1 N2]; subst.
    intros [I|I] [E|E]; [congruence| | |auto].
    + injection I as -> ->. exfalso. apply N1. now apply (in_map fst) in E.
    + injection E as -> ->. exfalso. apply N1. now apply (in_map fst) in I.
  - apply dget_None in E. exfalso. apply E. now apply (in_map fst) in I.
Qed.
Lemma lookup_absent (df : list (string * list R)) ref : ~ In ref (map fst df) -> lookup df ref = Err KeyError.
Proof. intro N. unfold lookup. now rewrite (proj2 (dget_None df ref)). Qed.

(*@ C91 One delay and one mean coherence per column of the table, the reference included, in column order; each is what the pair
    (reference, that column) alone gives: other columns have no influence. *)
Lemma field_delays_separate : forall ls win dtr dt n df ref sig navgs cl fl method ds cs, solver ls -> method = "fit" \/ method = "multi" ->
  NoDup (map fst df) -> In (ref, sig) df ->
  field_compute_delays ls win dtr dt n df ref navgs cl fl method = Ok (ds, cs) ->
  length ds = length df /\ length cs = length df /\
  forall i nm x, nth_error df i = Some (nm, x) -> exists d c ex,
    nth_error ds i = Some d /\ nth_error cs i = Some c /\
    compute_delays_tf ls win dtr dt n [(ref, sig)] [(nm, x)] navgs cl fl method (/ 2) "hamming" false = Ok ([d], ex) /\ te_coh ex = [c].
Proof.
  intros ls win dtr dt n df ref sig navgs cl fl method ds cs S M ND I Q. unfold field_compute_delays in Q. rewrite (lookup_found df ref sig ND I) in Q. cbn [rbind] in Q.
  assert (Ne : df <> []) by (intros ->; easy).
  destruct (one_delays ls win dtr dt n ref sig navgs cl fl method (/ 2) "hamming" S M) as [[e E]|(freqs & col & lim & -> & Hc & _ & E)].
  - rewrite E in Q by easy. discriminate.
  - destruct (E df Ne ND) as [ix E1]. rewrite E1 in Q. cbn [rbind te_coh] in Q.
    match type of Q with Ok (?a, ?b) = Ok _ => assert (Hd : a = ds) by congruence; assert (Hk : b = cs) by congruence end. clear Q. subst ds cs. rewrite !map_length. split; [easy|]. split; [easy|].
    intros i nm x Hx. destruct (E [(nm, x)]) as [ix' E2]; [easy|repeat constructor; easy|].
    do 3 eexists. rewrite !nth_error_map, Hx. cbn [option_map]. split; [reflexivity|]. split; [reflexivity|]. split; [exact E2|]. reflexivity.
Qed.

(*@ C91 The call fails with KeyError exactly for an unknown reference; otherwise it succeeds for a table exactly when it succeeds for
    the reference alone, and then raises the same exception. *)
Lemma field_delays_outcome : forall ls win dtr dt n df ref navgs cl fl method, solver ls -> method = "fit" \/ method = "multi" -> NoDup (map fst df) ->
  (~ In ref (map fst df) -> field_compute_delays ls win dtr dt n df ref navgs cl fl method = Err KeyError) /\
  (forall sig, In (ref, sig) df ->
    ((exists r, field_compute_delays ls win dtr dt n df ref navgs cl fl method = Ok r) <-> exists r, field_compute_delays ls win dtr dt n [(ref, sig)] ref navgs cl fl method = Ok r) /\
    (forall e, field_compute_delays ls win dtr dt n df ref navgs cl fl method = Err e <-> field_compute_delays ls win dtr dt n [(ref, sig)] ref navgs cl fl method = Err e)).
Proof.
  intros ls win dtr dt n df ref navgs cl fl method S M ND. split.
  - intro N. unfold field_compute_delays. now rewrite lookup_absent.
  - intros sig I. unfold field_compute_delays. rewrite (lookup_found df ref sig ND I), (lookup_found [(ref, sig)] ref sig); [|repeat constructor; easy|now left]. cbn [rbind].
    assert (Ne : df <> []) by (intros ->; easy).
    destruct (one_delays ls win dtr dt n ref sig navgs cl fl method (/ 2) "hamming" S M) as [[e E]|(freqs & col & lim & -> & Hc & _ & E)].
    + rewrite (E df), (E [(ref, sig)]) by (try easy; repeat constructor; easy). split; [|reflexivity]. split; intros [r Hr]; discriminate.
    + destruct (E df Ne ND) as [ix ->]. destruct (E [(ref, sig)]) as [ix' ->]; [easy|repeat constructor; easy|]. cbn [rbind]. split; [split; intros _; now eexists|].
      intro e'. split; intro; discriminate.
Qed.

Lemma angle_one : angle (RtoC 1) = 0.
Proof.
  replace (RtoC 1) with (Cmult (RtoC 1) (cis 0)); [|unfold cis; rewrite cos_0, sin_0; unfold RtoC, Cmult; cbn [fst snd]; f_equal; ring].
  apply angle_exact; [lra|]. pose proof PI_RGT_0. lra.
Qed.
Lemma wrap_zero l : (forall p, In p l -> snd p = 0) -> sum_p l = 0.
Proof. intro H. unfold sum_p. induction l as [|p l IH]; cbn [map]; rewrite ?Rsum_nil, ?Rsum_cons; [easy|]. rewrite H by now left. rewrite IH by (intros; apply H; now right). ring. Qed.

Lemma map_repeat_eq {A B} (f : A -> B) a k : map f (repeat a k) = repeat (f a) k.
Proof. induction k; cbn; congruence. Qed.
Lemma unwrap_zeros k : unwrap (repeat 0 k) = repeat 0 k.
Proof.
  pose proof (unwrap_delay (repeat (0, RtoC 1) k) 0) as U. rewrite !map_repeat_eq in U. cbn [fst snd] in U. rewrite angle_one in U.
  rewrite U.
  - f_equal. ring.
  - intros f z I. apply repeat_spec in I. assert (Hz : z = RtoC 1) by congruence. assert (Hf : f = 0) by congruence. subst f z. clear I. exists 1. split; [lra|].
    replace (- (2 * PI * 0 * 0)) with 0 by ring. unfold cis. rewrite cos_0, sin_0. unfold RtoC, Cmult. cbn [fst snd]. f_equal; ring.
  - intros f z r _. replace (f * 0) with 0 by ring. rewrite Rabs_R0. lra.
  - intros i _. replace ((_ - _) * 0) with 0 by ring. rewrite Rabs_R0. lra.
Qed.
Lemma map_repeat_all {A B} (f : A -> B) b l : (forall x, In x l -> f x = b) -> map f l = repeat b (length l).
Proof. induction l as [|a l IH]; intro H; [easy|]. cbn. rewrite H by now left. f_equal. apply IH. intros; apply H; now right. Qed.

(** Bins whose value is missing or 1 have delay 0. *)
Lemma multi_delay_ones cl fl bs : (forall b, In b bs -> b_tf b = None \/ b_tf b = Some (RtoC 1)) -> multi_delay cl fl bs = 0.
Proof.
  intro H. unfold multi_delay. destruct (Req_EM_T _ 0); [easy|]. replace (sum_p (multi_points cl fl bs)) with 0; [unfold Rdiv; ring|]. symmetry. apply wrap_zero.
  intros p I. unfold multi_points in I. set (use := before_gap _) in I. apply in_map_iff in I. destruct I as (q & <- & I). apply filter_In in I. destruct I as [I _]. cbn [snd].
  assert (Hu : forall p, In p use -> snd p = RtoC 1).
  { unfold use. intros [b z] Hp. assert (G : forall l, (forall b, In b l -> b_tf b = None \/ b_tf b = Some (RtoC 1)) -> In (b, z) (before_gap l) -> z = RtoC 1).
    { clear. induction l as [|a l IH]; intros Hl Hi; [easy|]. cbn [before_gap] in Hi. destruct (b_tf a) as [w|] eqn:E; [|easy]. destruct Hi as [Hi|Hi].
      - injection Hi as -> ->. destruct (Hl b (or_introl eq_refl)); congruence.
      - apply IH; [intros; apply Hl; now right|easy]. }
    apply (G _ (fun b' Hb' => H b' (proj1 (proj1 (filter_In _ _ _) Hb'))) Hp). }
  rewrite (map_repeat_all _ 0) in I by (intros x Hx; rewrite (Hu x Hx); apply angle_one). rewrite unwrap_zeros in I.
  destruct q as [q1 q2]. apply in_combine_r in I. now apply repeat_spec in I.
Qed.

(*@ C91 The reference's own delay ('multi') is exactly 0 and its mean coherence is the share of bins below the frequency limit in which
    it has energy; if it has none in any bin (a zero signal) the delay is NaN. *)
Lemma field_delays_self : forall ls win dtr dt n df ref sig navgs cl lim N V K ds cs i,
  solver ls -> windows win -> keeps_length dtr -> (2 <= n)%nat -> dt <> 0 -> welch_grid n navgs (/ 2) N V -> segments_fit n N V K ->
  power (win "hamming" N) <> 0 -> NoDup (map fst df) -> nth_error df i = Some (ref, sig) -> length sig = n ->
  field_compute_delays ls win dtr dt n df ref (Z.of_nat navgs) cl (Some lim) "multi" = Ok (ds, cs) ->
  let energy k := auto K (fun s => seg_spectrum (win "hamming" N) (detrend_by dtr None) sig N V s k) in
  let bins := filter (fun k => if Rlt_dec (INR k / (INR N * dt)) lim then true else false) (seq 0 (N / 2 + 1)) in
  ((forall k, (k <= N / 2)%nat -> energy k = 0) -> nth_error ds i = Some None) /\
  ((exists k, (k <= N / 2)%nat /\ energy k <> 0) -> nth_error ds i = Some (Some 0)) /\
  (bins <> [] -> nth_error cs i = Some (Some (INR (length (filter (fun k => if Req_EM_T (energy k) 0 then false else true) bins)) / INR (length bins)))).
Proof.
  intros ls win dtr dt n df ref sig navgs cl lim N V K ds cs i S Hw Hd Hn D G F P ND Hi Ls Q energy bins.
  assert (I : In (ref, sig) df) by (eapply nth_error_In; eauto).
  destruct (field_delays_separate _ _ _ _ _ _ _ _ _ _ _ _ _ _ S (or_intror eq_refl) ND I Q) as (_ & _ & H).
  destruct (H i ref sig Hi) as (d & c & ex & Hds & Hcs & E & Ec). clear H.
  destruct (one_delays ls win dtr dt n ref sig (Z.of_nat navgs) cl (Some lim) "multi" (/ 2) "hamming" S (or_intror eq_refl)) as [[e E']|(freqs & col & lim' & El & Hc & Ea & E')].
  { rewrite E' in E by (try easy; repeat constructor; easy). discriminate. }
  injection El as <-. destruct (E' [(ref, sig)]) as [ix E2]; [easy|repeat constructor; easy|]. rewrite E2 in E. clear E' E2. cbn [map] in E.
  match type of E with Ok ([?a], ?b) = Ok _ => assert (Hd' : a = d) by congruence; assert (Hk : b = ex) by congruence end. clear E. subst d ex. cbn [te_coh] in Ec. assert (Hc' : mean_coh freqs lim (snd (snd (col (ref, sig)))) = c) by congruence. subst c. clear Ec.
  destruct (tf_value win dtr dt n [(ref, sig)] [(ref, sig)] navgs (/ 2) "hamming" None N V K Hw Hd Hn D G F P) as (out & Eo & Lo & T);
    [repeat constructor; easy|now left|easy|easy|].
  rewrite (Ea [(ref, sig)]) in Eo by discriminate. cbn [map] in Eo.
  assert (Ef : freqs = map (fun k => INR k / (INR N * dt)) (seq 0 (N / 2 + 1))) by congruence.
  assert (Eo' : [col (ref, sig)] = out) by congruence. subst out. clear Eo Lo.
  destruct (T 0%nat ltac:(cbn; lia)) as (a & x & b & y & tf & coh & A1 & A2 & A3 & A4 & A5 & A6). cbn in A1, A2. injection A1 as <- <-. injection A2 as <- <-. cbn [nth_error] in A3.
  assert (Ecol : snd (col (ref, sig)) = (tf, coh)) by (injection A3 as ->; reflexivity). rewrite Ecol in *. cbn [fst snd] in *. clear A3 T.
  assert (B : forall k, (k <= N / 2)%nat -> (energy k = 0 -> nth k tf None = None /\ nth k coh None = None) /\ (energy k <> 0 -> nth k tf None = Some (RtoC 1) /\ nth k coh None = Some 1)).
  { intros k Hk. destruct (A6 k Hk) as [T1 T2]. clear A6. cbv zeta in T1, T2. set (X := fun s => seg_spectrum (win "hamming" N) (detrend_by dtr None) sig N V s k) in *.
    change (energy k) with (auto K X).
    assert (Cr : cross K X X = RtoC (auto K X)) by (rewrite (cross_gain K X X (RtoC 1)) by (intros; ring); ring).
    rewrite Cr in *. split; intro Z.
    - rewrite T1, T2. destruct (Req_EM_T (auto K X) 0); [|easy]. split; [easy|]. destruct (Req_EM_T _ 0) as [|Nz]; [easy|]. exfalso. apply Nz. rewrite Z. ring.
    - rewrite T1, T2. destruct (Req_EM_T (auto K X) 0); [easy|]. split.
      + f_equal. apply Cinv_r. intro Z'. apply Z. now apply RtoC_inj.
      + destruct (Req_EM_T _ 0) as [E0|_]; [exfalso; apply Rmult_integral in E0; tauto|]. f_equal. rewrite Cmod_R. rewrite <- Rsqr_pow2, <- Rsqr_abs. unfold Rsqr. now field. }
  assert (Ntf : forall z, In z tf <-> exists k, (k <= N / 2)%nat /\ nth k tf None = z).
  { intro z. split.
    - intro Iz. apply In_nth with (d := None) in Iz. destruct Iz as (k & Hk & Ek). exists k. split; [lia|easy].
    - intros (k & Hk & <-). apply nth_In. lia. }
  unfold one_delay in Hds. cbn [String.eqb Ascii.eqb Bool.eqb fst snd] in Hds.
  split; [|split].
  - intro Z. rewrite Hds. replace (all_missing tf) with true; [easy|]. symmetry. unfold all_missing. apply forallb_forall. intros z Iz. apply Ntf in Iz. destruct Iz as (k & Hk & <-).
    now rewrite (proj1 (proj1 (B k Hk) (Z k Hk))).
  - intros (k & Hk & Nz). rewrite Hds. destruct (all_missing tf) eqn:Em.
    + unfold all_missing in Em. rewrite forallb_forall in Em. specialize (Em (nth k tf None) ltac:(apply Ntf; eauto)). rewrite (proj1 (proj2 (B k Hk) Nz)) in Em. discriminate.
    + do 2 f_equal. apply multi_delay_ones. intros b' Ib.
      assert (Ib' : In (b_tf b') tf).
      { rewrite <- (bins_tf freqs tf coh) by (rewrite Ef, map_length, seq_length; easy). now apply in_map. }
      apply Ntf in Ib'. destruct Ib' as (k' & Hk' & <-). destruct (Req_EM_T (energy k') 0) as [Z|Z]; [left; now apply (B k' Hk')|right; now apply (B k' Hk')].
  - intro Nb. rewrite Hcs. unfold mean_coh. rewrite Ef, map_map.
    assert (Lb : forall l, length (filter (fun b : bool => b) (map (fun k => Rltb (INR k / (INR N * dt)) lim) l)) = length (filter (fun k => if Rlt_dec (INR k / (INR N * dt)) lim then true else false) l)).
    { clear. induction l as [|k l IH]; [easy|]. cbn [map filter]. destruct (Rltb_spec (INR k / (INR N * dt)) lim), (Rlt_dec (INR k / (INR N * dt)) lim); cbn [length]; rewrite ?IH; easy || lra. }
    rewrite Lb. fold bins. destruct (Nat.eqb_spec (length bins) 0) as [Z|_]; [destruct bins; easy|].
    do 3 f_equal.
    assert (Gk : forall l, (forall k, In k l -> (k <= N / 2)%nat) ->
       Rsum (map (fun c : option R => match c with None => 0 | Some v => v end) (select (map (fun k => Rltb (INR k / (INR N * dt)) lim) l) (map (fun k => nth k coh None) l)))
       = INR (length (filter (fun k => if Req_EM_T (energy k) 0 then false else true) (filter (fun k => if Rlt_dec (INR k / (INR N * dt)) lim then true else false) l)))).
    { induction l as [|k l IH]; intro Hl; [reflexivity|]. cbn [map filter]. rewrite select_cons. specialize (IH (fun k' I' => Hl k' (or_intror I'))).
      destruct (Rltb_spec (INR k / (INR N * dt)) lim), (Rlt_dec (INR k / (INR N * dt)) lim); try lra. cbn [map filter]. rewrite Rsum_cons, IH.
      destruct (Req_EM_T (energy k) 0) as [Z|Z].
      - rewrite (proj2 (proj1 (B k (Hl k (or_introl eq_refl))) Z)). ring.
      - rewrite (proj2 (proj2 (B k (Hl k (or_introl eq_refl))) Z)). cbn [length]. rewrite S_INR. ring. }
    unfold bins. rewrite <- Gk by (intros k Ik; apply in_seq in Ik; lia). do 2 f_equal. f_equal.
    rewrite <- A5. clear. apply (nth_ext _ _ None None); [now rewrite map_length, seq_length|]. intros j Hj. symmetry.
    rewrite (nth_indep (map _ _) None (nth 0%nat coh None)) by (rewrite map_length, seq_length; easy).
    rewrite (map_nth (fun k => nth k coh None)). now rewrite seq_nth.
Qed.

(*@ C91 With a positive number of averages that leaves at least one sample per segment and a finite frequency limit it succeeds. *)
Lemma field_delays_defined : forall ls win dtr dt n df ref sig navgs cl lim method N V K,
  solver ls -> method = "fit" \/ method = "multi" -> windows win -> keeps_length dtr -> (2 <= n)%nat -> dt <> 0 -> welch_grid n navgs (/ 2) N V -> segments_fit n N V K ->
  power (win "hamming" N) <> 0 -> NoDup (map fst df) -> In (ref, sig) df -> length sig = n ->
  exists ds cs, field_compute_delays ls win dtr dt n df ref (Z.of_nat navgs) cl (Some lim) method = Ok (ds, cs).
Proof.
  intros ls win dtr dt n df ref sig navgs cl lim method N V K S M Hw Hd Hn D G F P ND I Ls.
  unfold field_compute_delays. rewrite (lookup_found df ref sig ND I). cbn [rbind].
  destruct (tf_value win dtr dt n [(ref, sig)] [(ref, sig)] navgs (/ 2) "hamming" None N V K Hw Hd Hn D G F P) as (out & Eo & _);
    [repeat constructor; easy|now left|easy|easy|].
  destruct (averaged_one win dtr dt n ref sig (Z.of_nat navgs) (/ 2) "hamming" None) as [[e E]|(freqs & col & E & Hc)]; [rewrite E in Eo by discriminate; discriminate|].
  assert (Ne : df <> []) by (intros ->; easy).
  unfold compute_delays_tf. cbn [length Nat.ltb Nat.leb andb]. rewrite E by exact Ne. cbn [rbind].
  destruct M as [-> | ->]; cbn [String.eqb Ascii.eqb Bool.eqb].
  - rewrite fit_rows by (apply (names_nodup col ref); [apply Hc|easy]). cbn [rbind]. eauto.
  - unfold tf_delay. cbn [String.eqb Ascii.eqb Bool.eqb]. destruct (map snd (map col df)) as [|c0 cs] eqn:Em; [destruct df; easy|]. cbn [rbind]. eauto.
Qed.

(*@ex C91 a one-segment table of two opposite pulses: the call succeeds and the reference's own delay is 0 *)
Lemma field_delays_example : forall ls, solver ls -> exists ds cs,
  field_compute_delays ls box_win no_dtr 1 2 [("a", [1; 0]); ("b", [0; 1])] "a" 1 (Some (/ 2)) (Some 1) "multi" = Ok (ds, cs) /\
  length ds = 2%nat /\ nth_error ds 0 = Some (Some 0).
Proof.
  intros ls S.
  assert (G : welch_grid 2 1 (/ 2) 2 1) by (unfold welch_grid; cbn; repeat split; try lia; lra).
  assert (F : segments_fit 2 2 1 1) by (unfold segments_fit; lia).
  assert (P : power (box_win "hamming" 2) <> 0) by (cbn; lra).
  assert (ND : NoDup (map fst [("a", [1; 0]); ("b", [0; 1])])) by (cbn; repeat constructor; cbn; intuition discriminate).
  assert (Hi : nth_error [("a", [1; 0]); ("b", [0; 1])] 0 = Some ("a", [1; 0])) by reflexivity.
  destruct (field_delays_defined ls box_win no_dtr 1 2 [("a", [1; 0]); ("b", [0; 1])] "a" [1; 0] 1 (Some (/ 2)) 1 "multi" 2 1 1) as (ds & cs & E);
    [easy|now right|apply box_windows|apply no_dtr_keeps|lia|lra|exact G|exact F|exact P|exact ND|now left|reflexivity|].
  exists ds, cs. split; [exact E|].
  destruct (field_delays_separate _ _ _ _ _ _ _ [1; 0] _ _ _ _ _ _ S (or_intror eq_refl) ND (or_introl eq_refl) E) as (L & _). split; [exact L|].
  destruct (field_delays_self ls box_win no_dtr 1 2 _ _ _ 1 (Some (/ 2)) 1 2 1 1 ds cs 0 S box_windows no_dtr_keeps ltac:(lia) ltac:(lra) G F P ND Hi eq_refl E) as (_ & H & _).
  apply H. exists 0%nat. split; [lia|]. unfold auto, avg. cbn [seq map]. rewrite Rsum_cons, Rsum_nil.
  replace (seg_spectrum _ _ _ _ _ _ _) with (RtoC 1).
  - rewrite Cmod_1. cbn. lra.
  - unfold seg_spectrum, fourier, tapered, chunk, detrend_by, box_win. cbn -[cos sin PI]. unfold Rdiv. rewrite !Rmult_0_r, !Rmult_0_l, cos_0, sin_0. unfold RtoC. f_equal; ring.
Qed.
