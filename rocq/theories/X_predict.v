(** compute_predicted_position with its own delays and cloud motion vectors (C99). *)
From Coq Require Import String.
From Verif Require Import Prelude PreludeFacts RealBase Fl RealStat Dft Phase Spec_welch Spec_tfdelay Spec_field_pos M_spatial M_cmv M_signal_corr M_signal_tf M_field_pos M_field_delays M_link M_predict P_list P_dft P_tf P_tfdelay P_welch X_signal_psd X_signal_tf X_signal_tfdelay X_signal_tfx X_field_delays X_field_pos X_signal_wave Spec_cmv Spec_spatial X_cmv_options X_cmv_qc X_cmv_cascade X_cmv_motion X_cmv_rows X_link_delay X_link_good X_link_recover Spec_gap P_gap.
From Coq Require Import Lra Psatz.
From Coquelicot Require Import Complex.
Local Open Scope string_scope.
Local Open Scope R_scope.

(** One call with as many input as output columns, the inputs all named alike. *)
Notation inputs ref ps := (map (fun p : string * (list R * list R) => (ref, fst (snd p))) ps).
Notation outputs ps := (map (fun p : string * (list R * list R) => (fst p, snd (snd p))) ps).
Lemma averaged_pairs win dtr dt n ref navgs overlap window d :
  (exists e, forall ps, ps <> [] -> averaged_tf win dtr dt n (Frame (inputs ref ps)) (Frame (outputs ps)) navgs overlap window d = Err e) \/
  (exists freqs col, (forall ps, ps <> [] -> averaged_tf win dtr dt n (Frame (inputs ref ps)) (Frame (outputs ps)) navgs overlap window d = Ok (freqs, map col ps)) /\
     (exists fr, freqs = 0 :: fr) /\
     (forall p, fst (col p) = pair_name ref (fst p) /\ length (fst (snd (col p))) = length freqs /\ length (snd (snd (col p))) = length freqs) /\
     (d = None -> forall p k, fst (snd p) = repeat 0 k ->
        (forall z, In z (fst (snd (col p))) -> z = None) /\ (forall c, In c (snd (snd (col p))) -> c = None))).
Proof.
  unfold averaged_tf. destruct (sample_rate dt n) as [fs|e]; cbn [rbind]; [|left; now exists e].
  set (mk := fun p : string * (list R * list R) => (pair_name ref (fst p), snd p)).
  assert (Pc : forall ps, pair_columns (inputs ref ps) (outputs ps) = Ok (map mk ps)).
  { intro ps. unfold pair_columns. rewrite !map_length, Nat.eqb_refl. f_equal. induction ps as [|[nm [x y]] ps IH]; [reflexivity|]. cbn. f_equal. exact IH. }
  destruct (segmenting n navgs overlap) as [[np nv]|e] eqn:Es; cbn [rbind]; [|left; exists e; intros ps _; now rewrite Pc].
  destruct (psd_scale win fs window np "density") as [sc|e] eqn:Ep; cbn [rbind]; [|left; exists e; intros ps _; now rewrite Pc].
  right. exists (map (bin_freq fs np) (seq 0 (n_bins np))).
  eexists (fun p : string * (list R * list R) => _). split; [|split; [|split]].
  - intros ps No. rewrite Pc. cbn [rbind].
    replace (some_column (map mk ps)) with (@Ok unit tt) by (destruct ps; [contradiction|reflexivity]). cbn [rbind]. rewrite map_map. unfold mk. apply (f_equal Ok). apply (f_equal (pair _)). apply map_ext. intros [nm [x y]]. cbn [fst snd].
    instantiate (1 := match p with (nm, (x, y)) => _ end). reflexivity.
  - unfold n_bins. assert (Hp : (1 <= np)%Z).
    { unfold segmenting in Es. destruct (Z.eqb navgs 0); [discriminate|]. destruct (Z.ltb_spec (Z.of_nat n / navgs) 1); [discriminate|]. cbn [orb] in Es.
      destruct (Z.leb _ _); [discriminate|]. injection Es as <- _. lia. }
    destruct (Z.to_nat (np / 2 + 1)) as [|m] eqn:Em.
    + exfalso. assert (0 <= np / 2)%Z by (apply Z.div_pos; lia). lia.
    + cbn [seq map]. unfold bin_freq at 1. cbn [INR]. unfold Rdiv. rewrite !Rmult_0_l. eauto.
  - intros [nm [x y]]. cbn [fst snd]. now rewrite !map_length.
  - intros -> [nm [x y]] k. cbn [fst snd]. intros ->.
    assert (Sg : forall s, exists m, segment (repeat 0 k) np nv s = repeat 0 m).
    { intro s. unfold segment. generalize (Z.to_nat (Z.of_nat s * (np - nv))) (Z.to_nat np). intros a b. clear. exists (length (firstn b (skipn a (repeat 0 k)))).
      revert a b. induction k as [|k IH]; intros a b; [rewrite skipn_nil, firstn_nil; reflexivity|]. destruct a; cbn [skipn repeat].
      - destruct b; [reflexivity|]. cbn [firstn length repeat]. f_equal. specialize (IH 0%nat b). exact IH.
      - apply IH. }
    assert (B0 : forall s j, seg_bin win dtr window None (repeat 0 k) np nv s j = RtoC 0).
    { intros s j. unfold seg_bin, detrended. destruct (Sg s) as [m ->]. unfold fft_bin.
      assert (Z : forall w m, Forall (fun v => v = RtoC 0) (map RtoC (map2 Rmult w (repeat 0 m)))).
      { clear. induction w as [|a w IH]; intros [|m]; cbn; constructor; [now rewrite Rmult_0_r|apply IH]. }
      specialize (Z (win window (Z.to_nat np)) m). generalize dependent (map RtoC (map2 Rmult (win window (Z.to_nat np)) (repeat 0 m))). intros l Z.
      apply Csumn_zero. intros i Hi. rewrite (proj1 (Forall_forall _ _) Z (nth i l (RtoC 0))) by now apply nth_In. ring. }
    assert (X0 : forall y j, csd_bin win dtr sc window None (repeat 0 k) y np nv j = RtoC 0).
    { intros w j. unfold csd_bin. cbv zeta. rewrite Csumn_zero; [ring|].
      intros s _. rewrite B0. unfold Cconj. cbn. apply injective_projections; cbn; ring. }
    assert (P0 : forall j, psd_bin win dtr sc window None (repeat 0 k) np nv j = 0) by (intro j; unfold psd_bin; now rewrite X0).
    split; intros z Iz; apply in_map_iff in Iz; destruct Iz as (j & <- & _); unfold tf_bin, coh_bin; rewrite P0, ?Rmult_0_l; unfold Reqb; destruct (Req_EM_T 0 0); easy.
Qed.

Lemma not_short {A} (l l' : list A) : length l = length l' -> (Nat.ltb 1 (length l) && Nat.ltb 1 (length l') && negb (Nat.eqb (length l) (length l')))%bool = false.
Proof. intros ->. rewrite Nat.eqb_refl. cbn. now rewrite andb_false_r. Qed.
Lemma all_pairs ls win dtr dt n ref navgs cl fl method overlap window : solver ls -> method = "fit" \/ method = "multi" ->
  (exists e, forall ps, ps <> [] -> NoDup (map fst ps) -> compute_delays_tf ls win dtr dt n (inputs ref ps) (outputs ps) navgs cl fl method overlap window false = Err e) \/
  (exists freqs col lim, fl = Some lim /\ (exists fr, freqs = 0 :: fr) /\
     (forall p k, fst (snd p) = repeat 0 k -> (forall z, In z (fst (snd (col p))) -> z = None) /\ (forall c, In c (snd (snd (col p))) -> c = None)) /\
     (forall p, length (fst (snd (col p))) = length freqs /\ length (snd (snd (col p))) = length freqs) /\
     (forall ps, ps <> [] -> averaged_tf win dtr dt n (Frame (inputs ref ps)) (Frame (outputs ps)) navgs overlap window None = Ok (freqs, map col ps)) /\
     forall ps, ps <> [] -> NoDup (map fst ps) -> exists ix,
     compute_delays_tf ls win dtr dt n (inputs ref ps) (outputs ps) navgs cl fl method overlap window false =
     Ok (map (fun p => one_delay ls cl fl method freqs (snd (col p))) ps, mkTfExtras (map (fun p => mean_coh freqs lim (snd (snd (col p)))) ps) ix None)).
Proof.
  intros S M. destruct (averaged_pairs win dtr dt n ref navgs overlap window None) as [[e E]|(freqs & col & E & Hf & Hc & Hz)].
  - left. exists e. intros ps No _. unfold compute_delays_tf. rewrite not_short by now rewrite !map_length. now rewrite E by exact No.
  - assert (NN : forall ps, NoDup (map fst ps) -> NoDup (map fst (map col ps))).
    { intros ps ND. rewrite map_map. rewrite (map_ext _ (fun o => pair_name ref (fst o)) (fun p => proj1 (Hc p))).
      rewrite <- (map_map fst (pair_name ref)). apply FinFun.Injective_map_NoDup; [|easy]. intros a b. apply pair_name_inj. }
    destruct fl as [lim|].
    + right. exists freqs, col, lim. split; [easy|]. split; [exact Hf|]. split; [exact (Hz eq_refl)|]. split; [intro o; apply Hc|]. split; [exact E|]. intros outs No ND.
      unfold compute_delays_tf. rewrite not_short by now rewrite !map_length. rewrite E by exact No. cbn [rbind]. destruct M as [-> | ->].
      * cbn [String.eqb Ascii.eqb Bool.eqb]. rewrite fit_rows by now apply NN. cbn [rbind].
        eexists. f_equal. f_equal.
        -- rewrite !map_map. cbn [fst]. clear. induction outs as [|o outs IH]; [reflexivity|]. cbn [map concat app]. now rewrite IH.
        -- rewrite !map_map. reflexivity.
      * cbn [String.eqb Ascii.eqb Bool.eqb]. unfold tf_delay. cbn [String.eqb Ascii.eqb Bool.eqb].
        destruct (map snd (map col outs)) as [|c0 cs] eqn:Em; [destruct outs; easy|]. rewrite <- Em. cbn [rbind].
        eexists. f_equal. f_equal.
        -- rewrite delay_multi_eq; [rewrite !map_map; reflexivity|easy|].
           apply Forall_forall. intros c Ic. apply in_map_iff in Ic. destruct Ic as (c' & <- & Ic). apply in_map_iff in Ic. destruct Ic as (o & <- & _). apply Hc.
        -- rewrite !map_map. reflexivity.
    + left. exists TypeError. intros outs No ND. unfold compute_delays_tf. rewrite not_short by now rewrite !map_length. rewrite E by exact No. cbn [rbind]. destruct M as [-> | ->].
      * cbn [String.eqb Ascii.eqb Bool.eqb]. rewrite fit_rows by now apply NN. reflexivity.
      * cbn [String.eqb Ascii.eqb Bool.eqb]. unfold tf_delay. cbn [String.eqb Ascii.eqb Bool.eqb].
        destruct (map snd (map col outs)) as [|c0 cs] eqn:Em; [destruct outs; easy|]. reflexivity.
Qed.

(** The pairs a table gives. *)
Definition table_pairs (navgs : Z) (r : list (option R)) (df : list (string * list (option R))) : list (string * (list R * list R)) :=
  map (fun c => (fst c, seen_pair (rows_read (length r) navgs (/ 2)) (length r) (r, snd c))) df.
Lemma report_eq ls win dtr dt navgs cl fl method ref r df :
  report_delays ls win dtr dt navgs cl fl method (ref, r) df =
  rbind (compute_delays_tf ls win dtr dt (length r) (inputs ref (table_pairs navgs r df)) (outputs (table_pairs navgs r df)) navgs cl fl method (/ 2) "hamming" false)
    (fun x => Ok (map of_option (fst x), map of_option (te_coh (snd x)))).
Proof.
  unfold report_delays. cbv zeta. cbn [fst snd].
  assert (E1 : seen_pairs (rows_read (length r) navgs (/ 2)) (length r) (map (fun _ => r) df) (map snd df) = map snd (table_pairs navgs r df)).
  { unfold seen_pairs, table_pairs. rewrite map_map. cbn [snd]. generalize (rows_read (length r) navgs (/ 2)) (length r). intros k m. induction df as [|c df IH]; [reflexivity|]. cbn. f_equal. exact IH. }
  rewrite E1, map_map.
  assert (E2 : combine (map fst df) (map snd (map snd (table_pairs navgs r df))) = outputs (table_pairs navgs r df)).
  { unfold table_pairs. rewrite !map_map. cbn [fst snd]. clear. generalize (rows_read (length r) navgs (/ 2)) (length r). intros k m. induction df as [|c df IH]; [reflexivity|]. cbn. f_equal. exact IH. }
  rewrite E2. destruct (compute_delays_tf _ _ _ _ _ _ _ _ _ _ _ _ _ _) as [[d ex]|]; reflexivity.
Qed.
Lemma table_pairs_names navgs r df : map fst (table_pairs navgs r df) = map fst df.
Proof. unfold table_pairs. now rewrite map_map. Qed.
Lemma table_pairs_full navgs sig df :
  table_pairs navgs (map Some sig) (map (fun c : string * list R => (fst c, map Some (snd c))) df) = map (fun c => (fst c, (sig, snd c))) df.
Proof.
  unfold table_pairs. rewrite map_map. apply map_ext. intros [nm x]. cbn [fst snd]. now rewrite seen_some.
Qed.

(*@ C99 On gap-free tables the delays and coherences used are those compute_delays_tf gives for the reference and the whole table, whatever
    the method (an exception is passed on). *)
Lemma predicted_delays_are : forall ls win dtr dt navgs cl fl method ref sig df,
  report_delays ls win dtr dt navgs cl fl method (ref, map Some sig) (map (fun c => (fst c, map Some (snd c))) df) =
  match compute_delays_tf ls win dtr dt (length sig) [(ref, sig)] df navgs cl fl method (/ 2) "hamming" false with
  | Ok (ds, ex) => Ok (map of_option ds, map of_option (te_coh ex))
  | Err e => Err e
  end.
Proof.
  intros. rewrite report_eq, table_pairs_full, map_length.
  assert (A : averaged_tf win dtr dt (length sig) (Frame (inputs ref (map (fun c : string * list R => (fst c, (sig, snd c))) df)))
     (Frame (outputs (map (fun c : string * list R => (fst c, (sig, snd c))) df))) navgs (/ 2) "hamming" None =
     averaged_tf win dtr dt (length sig) (Frame [(ref, sig)]) (Frame df) navgs (/ 2) "hamming" None).
  { unfold averaged_tf. destruct (sample_rate dt (length sig)) as [fs|]; [|reflexivity]. cbn [rbind].
    replace (pair_columns (inputs ref _) (outputs _)) with (pair_columns [(ref, sig)] df); [reflexivity|].
    unfold pair_columns. rewrite !map_length, Nat.eqb_refl, !map_map. cbn [fst snd length].
    destruct df as [|c [|c' df]]; [reflexivity|destruct c; reflexivity|]. cbn [length Nat.eqb map]. f_equal. unfold map2. cbn [map combine]. f_equal. f_equal.
    induction df as [|c0 df IH]; [reflexivity|]. cbn. f_equal. exact IH. }
  unfold compute_delays_tf. rewrite not_short by now rewrite !map_length. cbn [length Nat.ltb Nat.leb andb]. rewrite A. clear A.
  destruct (averaged_tf win dtr dt (length sig) (Frame [(ref, sig)]) (Frame df) navgs (/ 2) "hamming" None) as [[freqs tfs]|]; [|reflexivity]. cbn [rbind].
  match goal with |- context [rbind ?x _] => destruct x as [[d ix]|] end; [|reflexivity]. cbn [rbind]. destruct fl; reflexivity.
Qed.

Lemma present_nones {A B} (l : list A) : present (map (fun _ => @None B) l) = [].
Proof. induction l as [|a l IH]; [reflexivity|exact IH]. Qed.
Lemma delays_separate ls win dtr dt navgs cl lim method ref r df ds cs : solver ls -> method = "fit" \/ method = "multi" -> df <> [] -> NoDup (map fst df) ->
  report_delays ls win dtr dt navgs cl (Some lim) method (ref, r) df = Ok (ds, cs) ->
  let k := rows_read (length r) navgs (/ 2) in
  length ds = length df /\ length cs = length df /\
  forall i nm s, nth_error df i = Some (nm, s) -> exists d c,
    nth_error ds i = Some d /\ nth_error cs i = Some c /\
    (forall x y, length x = length r -> length y = length r -> length s = length r -> (complete (firstn k r) && complete (firstn k s))%bool = true ->
       firstn k (filled r) = firstn k x -> firstn k (filled s) = firstn k y -> exists d' c' ex,
       compute_delays_tf ls win dtr dt (length x) [(ref, x)] [(nm, y)] navgs cl (Some lim) method (/ 2) "hamming" false = Ok ([d'], ex) /\ te_coh ex = [c'] /\
       d = of_option d' /\ c = of_option c') /\
    ((complete (firstn k r) && complete (firstn k s))%bool = false -> d = Nan /\ (c = Fin 0 \/ c = Nan) /\ (0 < lim -> c = Fin 0)).
Proof.
  intros Sl Me Ne ND E k. rewrite report_eq in E.
  destruct (all_pairs ls win dtr dt (length r) ref navgs cl (Some lim) method (/ 2) "hamming" Sl Me) as [[e E']|(freqs & col & lim' & El & (fr & Ef) & Hz & Hl & Ea & E')].
  { rewrite E' in E; [discriminate|destruct df; easy|now rewrite table_pairs_names]. }
  injection El as <-. destruct (E' (table_pairs navgs r df)) as [ix Er]; [destruct df; easy|now rewrite table_pairs_names|]. rewrite Er in E. cbn [rbind fst snd te_coh] in E.
  injection E as <- <-. rewrite !map_map. assert (Lp : length (table_pairs navgs r df) = length df) by (unfold table_pairs; now rewrite map_length). rewrite !map_length, Lp.
  split; [reflexivity|]. split; [reflexivity|]. intros i nm s Hi.
  set (p := (nm, seen_pair k (length r) (r, s))).
  assert (Hp : nth_error (table_pairs navgs r df) i = Some p) by (unfold table_pairs; rewrite nth_error_map, Hi; reflexivity).
  exists (of_option (one_delay ls cl (Some lim) method freqs (snd (col p)))), (of_option (mean_coh freqs lim (snd (snd (col p))))).
  split; [rewrite nth_error_map, Hp; reflexivity|]. split; [rewrite nth_error_map, Hp; reflexivity|]. split.
  - intros x y Lx Ly Ls Cc Fx Fy. set (p' := (nm, (x, y))).
    assert (Ec : col p = col p').
    { pose proof (Ea [p] ltac:(discriminate)) as A1. pose proof (Ea [p'] ltac:(discriminate)) as A2. cbn [map] in A1, A2.
      unfold p in A1 at 1 2 3. unfold seen_pair in A1. cbn [fst snd] in A1. rewrite Cc in A1. cbn [fst snd] in A1. unfold p' in A2 at 1 2 3. cbn [fst snd] in A2.
      rewrite (averaged_same win dtr dt (length r) ref nm (filled r) (filled s) x y navgs (/ 2) "hamming" None) in A1 by (unfold filled; rewrite ?map_length; auto).
      rewrite A2 in A1. injection A1 as A1. now symmetry. }
    destruct (E' [p'] ltac:(discriminate) ltac:(repeat constructor; easy)) as [ix' E1]. cbn [map] in E1. rewrite <- Ec in E1. cbn [fst snd p'] in E1.
    rewrite <- Lx in E1. eexists _, _, _. split; [exact E1|]. now repeat split.
  - intro G. assert (Ep : fst (snd p) = repeat 0 (length r)).
    { unfold p, seen_pair. cbn [fst snd]. now rewrite G. }
    destruct (Hz p _ Ep) as [Zt Zc]. split; [|].
    + replace (one_delay ls cl (Some lim) method freqs (snd (col p))) with (@None R); [reflexivity|]. symmetry. unfold one_delay. destruct (String.eqb_spec method "fit") as [->|Nm].
      * unfold delay_fit. cbv zeta. set (m := mask_col cl (Some lim) freqs (snd (snd (col p)))).
        destruct (Nat.eqb_spec (length (select m freqs)) 0) as [|Nl]; [reflexivity|]. cbn [orb].
        assert (Ls : length (select m (fst (snd (col p)))) = length (select m freqs)) by (apply select_length_eq; apply Hl).
        assert (An : forall z, In z (select m (fst (snd (col p)))) -> z = None).
        { intros z Iz. apply Zt. unfold select in Iz. apply in_map_iff in Iz. destruct Iz as ([b z'] & <- & Iz). apply filter_In in Iz. destruct Iz as [Iz _]. now apply in_combine_r in Iz. }
        destruct (select m (fst (snd (col p)))) as [|z0 zr]; [cbn in Ls; lia|]. rewrite (An z0 (or_introl eq_refl)). cbn [map option_map unwrap_nan present length].
        change (present (@None R :: map (fun _ : option R => None) (map (option_map angle) zr))) with (present (map (fun _ : option R => @None R) (map (option_map angle) zr))).
        rewrite present_nones. cbn [length Nat.eqb negb]. reflexivity.
      * replace (all_missing (fst (snd (col p)))) with true; [reflexivity|]. symmetry. unfold all_missing. apply forallb_forall. intros z Iz. now rewrite (Zt z Iz).
    + assert (Sm : forall m : list bool, Rsum (map (fun c : option R => match c with Some v => v | None => 0 end) (select m (snd (snd (col p))))) = 0).
      { clear -Zc. intro m. revert m Zc. induction (snd (snd (col p))) as [|c l IH]; intros [|b m] Zc; try reflexivity.
        rewrite select_cons. destruct b; [cbn [map]; rewrite Rsum_cons, (Zc c (or_introl eq_refl))|]; rewrite IH by (intros; apply Zc; now right); ring. }
      unfold mean_coh. rewrite Sm. split.
      * destruct (Nat.eqb _ 0); [now right|]. left. cbn. f_equal. unfold Rdiv. ring.
      * intro Pl. rewrite Ef. cbn [map]. rewrite Rltb_true by exact Pl. cbn [filter length Nat.eqb of_option]. f_equal. unfold Rdiv. ring.
Qed.

Lemma half_fits np : (1 <= np)%Z -> Z.leb np (trunc (IZR np * / 2)) = false.
Proof.
  intro H. apply Z.leb_gt. apply IZR_le in H. unfold trunc. destruct (Rlt_dec _ 0) as [L|_]; [exfalso; lra|].
  destruct (base_Int_part (IZR np * / 2)) as [B _]. apply lt_IZR. lra.
Qed.
Lemma averaged_defined win dtr dt n ins outs navgs window d : length ins = length outs -> outs <> [] ->
  (exists r, averaged_tf win dtr dt n (Frame ins) (Frame outs) navgs (/ 2) window d = Ok r) <-> (2 <= n)%nat /\ dt <> 0 /\ (1 <= navgs <= Z.of_nat n)%Z.
Proof.
  intros L No. unfold averaged_tf, sample_rate. destruct (Nat.ltb_spec n 2) as [Hn|Hn]; cbn [rbind]; [split; [intros [r X]; discriminate|intros [X _]; lia]|].
  unfold Reqb. destruct (Req_EM_T dt 0) as [D|D]; cbn [rbind]; [split; [intros [r X]; discriminate|intros (_ & X & _); contradiction]|].
  unfold pair_columns. rewrite L, Nat.eqb_refl. cbn [rbind]. unfold segmenting.
  destruct (Z.eqb_spec navgs 0) as [Z|Z]; [split; [intros [r X]; discriminate|intros (_ & _ & X); lia]|].
  destruct (Z.ltb_spec (Z.of_nat n / navgs) 1) as [B|B]; cbn [orb rbind].
  - split; [intros [r X]; discriminate|]. intros (_ & _ & X). exfalso. assert (1 <= Z.of_nat n / navgs)%Z by (apply Z.div_le_lower_bound; lia). lia.
  - rewrite half_fits by exact B. cbn [rbind psd_scale String.eqb Ascii.eqb Bool.eqb].
    match goal with |- context [some_column ?c] => replace (some_column c) with (@Ok unit tt) by (destruct ins, outs; [contradiction|discriminate L|discriminate L|reflexivity]) end. cbn [rbind]. split; [intros _|eauto]. split; [lia|]. split; [exact D|].
    destruct (Z_lt_le_dec navgs 0) as [Ng|Ng].
    + exfalso. pose proof (Z.div_mod (Z.of_nat n) navgs ltac:(lia)) as Dm. pose proof (Z.mod_neg_bound (Z.of_nat n) navgs Ng). nia.
    + pose proof (Z.mul_div_le (Z.of_nat n) navgs ltac:(lia)). nia.
Qed.

(*@ C99 The delays are found exactly if there are at least two rows with a non-zero time step, at least one average, no more averages than rows,
    a frequency limit and a known delay method. *)
Lemma predicted_delays_defined : forall ls win dtr dt navgs cl fl method ref r df, solver ls -> df <> [] -> NoDup (map fst df) ->
  (exists x, report_delays ls win dtr dt navgs cl fl method (ref, r) df = Ok x) <->
  (2 <= length r)%nat /\ dt <> 0 /\ (1 <= navgs <= Z.of_nat (length r))%Z /\ fl <> None /\ (method = "fit" \/ method = "multi").
Proof.
  intros ls win dtr dt navgs cl fl method ref r df Sl Ne ND. rewrite report_eq. set (ps := table_pairs navgs r df).
  assert (Np : ps <> []) by (unfold ps, table_pairs; destruct df; easy). assert (Dp : NoDup (map fst ps)) by (unfold ps; now rewrite table_pairs_names).
  pose proof (averaged_defined win dtr dt (length r) (inputs ref ps) (outputs ps) navgs "hamming" None ltac:(now rewrite !map_length) ltac:(destruct ps; [contradiction|discriminate])) as Av.
  assert (Me : (method = "fit" \/ method = "multi") \/ (method <> "fit" /\ method <> "multi")) by (destruct (string_dec method "fit"), (string_dec method "multi"); auto).
  destruct Me as [Me|[N1 N2]].
  - assert (X : (exists r', compute_delays_tf ls win dtr dt (length r) (inputs ref ps) (outputs ps) navgs cl fl method (/ 2) "hamming" false = Ok r') <->
      (exists r', averaged_tf win dtr dt (length r) (Frame (inputs ref ps)) (Frame (outputs ps)) navgs (/ 2) "hamming" None = Ok r') /\ fl <> None).
    { destruct (all_pairs ls win dtr dt (length r) ref navgs cl fl method (/ 2) "hamming" Sl Me) as [[e E]|(freqs & col & lim & -> & _ & _ & _ & Ea & E)].
      - rewrite (E ps Np Dp). split; [intros [y Y]; discriminate|]. intros [[[freqs tfs] Y] F]. exfalso. destruct fl as [lim|]; [|easy].
        destruct (averaged_pairs win dtr dt (length r) ref navgs (/ 2) "hamming" None) as [[e' E']|(fr & col & E' & _ & Hc & _)]; [rewrite E' in Y by exact Np; discriminate|].
        specialize (E ps Np Dp). unfold compute_delays_tf in E. rewrite not_short in E by now rewrite !map_length. rewrite E' in E by exact Np. cbn [rbind] in E.
        assert (NN : NoDup (map fst (map col ps))).
        { rewrite map_map. rewrite (map_ext _ (fun o => pair_name ref (fst o)) (fun p => proj1 (Hc p))).
          rewrite <- (map_map fst (pair_name ref)). apply FinFun.Injective_map_NoDup; [|easy]. intros a b. apply pair_name_inj. }
        destruct Me as [-> | ->]; cbn [String.eqb Ascii.eqb Bool.eqb] in E; [rewrite fit_rows in E by exact NN; discriminate|].
        unfold tf_delay in E. cbn [String.eqb Ascii.eqb Bool.eqb] in E. destruct (map snd (map col ps)) eqn:Em; [destruct ps; easy|discriminate].
      - destruct (E ps Np Dp) as [ix ->]. rewrite (Ea ps Np). split; [intros _; split; [eauto|easy]|eauto]. }
    rewrite Av in X. destruct (compute_delays_tf _ _ _ _ _ _ _ _ _ _ _ _ _ _) as [y|e]; cbn [rbind].
    + destruct (proj1 X (ex_intro _ y eq_refl)) as ((A1 & A2 & A3) & A4). split; [auto 6|eauto].
    + split; [intros [y Y]; discriminate|]. intros (A1 & A2 & A3 & A4 & _). destruct (proj2 X (conj (conj A1 (conj A2 A3)) A4)) as [y Y]. discriminate.
  - split; [|intros (_ & _ & _ & _ & [?|?]); contradiction]. intros [y Y]. exfalso. unfold compute_delays_tf in Y. rewrite not_short in Y by now rewrite !map_length.
    destruct (averaged_tf _ _ _ _ _ _ _ _ _ _) as [[freqs tfs]|]; [|discriminate]. cbn [rbind] in Y.
    destruct (String.eqb_spec method "fit"); [contradiction|]. destruct (String.eqb_spec method "multi"); [contradiction|]. discriminate.
Qed.

Lemma half_grid n navgs : (1 <= navgs <= n)%nat -> exists N V, welch_grid n navgs (/ 2) N V.
Proof.
  intro B. exists (n / navgs)%nat, (n / navgs / 2)%nat.
  pose proof (Nat.div_mod n navgs ltac:(lia)) as E1. pose proof (Nat.mod_upper_bound n navgs ltac:(lia)) as B1.
  set (N := (n / navgs)%nat) in *. assert (1 <= N)%nat by (destruct N; nia).
  pose proof (Nat.div_mod N 2 ltac:(lia)) as E2. pose proof (Nat.mod_upper_bound N 2 ltac:(lia)) as B2. set (V := (N / 2)%nat) in *.
  unfold welch_grid. assert (T : INR N = 2 * INR V + INR (N mod 2)) by (rewrite E2 at 1; rewrite plus_INR, mult_INR; reflexivity).
  assert (INR (N mod 2) <= 1) by (apply (le_INR _ 1); lia). pose proof (pos_INR (N mod 2)). repeat split; try nia; lra.
Qed.
(*@ C99 In general there is one delay and one coherence per data column, in column order, and each is what the pair (reference, column) alone
    gives. Samples in rows that no segment reads play no part: they may be missing or hold anything. If the reference or the column has a gap in a row
    that is read, the delay is NaN and the coherence 0 (NaN if no frequency is below the limit). *)
Lemma predicted_delays_separate : forall ls win dtr dt navgs cl lim method ref r df ds cs, solver ls -> method = "fit" \/ method = "multi" -> df <> [] -> NoDup (map fst df) ->
  report_delays ls win dtr dt (Z.of_nat navgs) cl (Some lim) method (ref, r) df = Ok (ds, cs) ->
  length ds = length df /\ length cs = length df /\
  forall i nm s, nth_error df i = Some (nm, s) -> length s = length r -> exists d c,
    nth_error ds i = Some d /\ nth_error cs i = Some c /\
    (forall x y, same_where_read (length r) navgs (/ 2) r x -> same_where_read (length r) navgs (/ 2) s y -> exists d' c' ex,
       compute_delays_tf ls win dtr dt (length x) [(ref, x)] [(nm, y)] (Z.of_nat navgs) cl (Some lim) method (/ 2) "hamming" false = Ok ([d'], ex) /\ te_coh ex = [c'] /\
       d = of_option d' /\ c = of_option c') /\
    (gap_read (length r) navgs (/ 2) r \/ gap_read (length r) navgs (/ 2) s -> d = Nan /\ (c = Fin 0 \/ c = Nan) /\ (0 < lim -> c = Fin 0)).
Proof.
  intros ls win dtr dt navgs cl lim method ref r df ds cs Sl Me Ne ND E.
  destruct (proj1 (predicted_delays_defined ls win dtr dt (Z.of_nat navgs) cl (Some lim) method ref r df Sl Ne ND) (ex_intro _ _ E)) as (A1 & _ & A3 & _).
  destruct (half_grid (length r) navgs ltac:(lia)) as (N & V & G).
  destruct (delays_separate ls win dtr dt (Z.of_nat navgs) cl lim method ref r df ds cs Sl Me Ne ND E) as (L1 & L2 & H). split; [exact L1|]. split; [exact L2|].
  intros i nm s Hi Ls. destruct (H i nm s Hi) as (d & c & D & Cc & F1 & F2). exists d, c. split; [exact D|]. split; [exact Cc|]. split.
  - intros x y Sx Sy. destruct (same_filled _ _ _ _ _ _ _ G eq_refl Sx) as [C1 K1]. destruct (same_filled _ _ _ _ _ _ _ G Ls Sy) as [C2 K2].
    apply F1; auto; [apply Sx|destruct Sy; congruence|now rewrite C1, C2].
  - intro Gp. apply F2. apply andb_false_iff. destruct Gp as [Gp|Gp]; [left|right]; now apply (gap_incomplete _ _ _ _ _ _ G).
Qed.

(** One of the documented ways of selecting points *)
Definition known_mode (mode : string) : Prop := In mode ["coherence"; "preavg"; "global_coherence"; "distance"; "all"].
(** A table fit for the call: it holds the reference, one column for each listed point, and enough rows. *)
Definition usable_table (navgs : Z) (ref : string) (points : nat) (df : list (string * list (option R))) : Prop :=
  NoDup (map fst df) /\ length df = points /\ exists r, dget df ref = Some r /\ (2 <= length r)%nat /\ (1 <= navgs <= Z.of_nat (length r))%Z.

(*@ C99 The call (with CMVs given) succeeds exactly if the reference is listed, both tables are usable, the time step is not zero, there is a frequency
    limit, and delay method and mode are known. *)
Lemma predicted_outcome : forall ls win dtr ms lsq sv dt df1 df2 pos ref va vb mode k navgs cl fl method, solver ls -> sorts sv ->
  NoDup (map fst df1) -> NoDup (map fst df2) ->
  (exists x, predicted_position ls win dtr ms lsq sv dt df1 df2 pos ref (Some (va, vb)) mode k navgs cl fl method = Ok x) <->
  In ref (map fst pos) /\ usable_table navgs ref (length pos) df1 /\ usable_table navgs ref (length pos) df2 /\ dt <> 0 /\ fl <> None /\
  (method = "fit" \/ method = "multi") /\ known_mode mode.
Proof.
  intros ls win dtr ms lsq sv dt df1 df2 pos ref va vb mode k navgs cl fl method Sl So D1 D2. unfold predicted_position. split.
  - intros [[p [s1 s2]] E]. apply cpp_inv in E. destruct E as (d1 & d2 & ix1 & ix2 & rp & E1 & E2 & E3 & _ & _ & Er & _).
    assert (Ut : forall df v d, NoDup (map fst df) -> pp_case (report_delays ls win dtr dt navgs cl fl method) df pos ref v = Ok d ->
      usable_table navgs ref (length pos) df /\ dt <> 0 /\ fl <> None /\ (method = "fit" \/ method = "multi")).
    { intros df v d ND E. apply pp_case_inv in E. destruct E as (r & ds & cs & rp' & Hr & Er' & _ & L1 & _).
      assert (Ne : df <> []) by (intros ->; discriminate).
      destruct (proj1 (predicted_delays_defined ls win dtr dt navgs cl fl method ref r df Sl Ne ND) (ex_intro _ _ Er')) as (A1 & A2 & A3 & A4 & A5).
      destruct fl as [lim|]; [|easy]. destruct (delays_separate ls win dtr dt navgs cl lim method ref r df ds cs Sl A5 Ne ND Er') as (L & _).
      split; [|auto]. split; [exact ND|]. split; [congruence|]. eauto. }
    destruct (Ut _ _ _ D1 E1) as (U1 & A1 & A2 & A3). destruct (Ut _ _ _ D2 E2) as (U2 & _).
    split; [apply dget_In in Er; now apply (in_map fst) in Er|]. split; [exact U1|]. split; [exact U2|]. split; [exact A1|]. split; [exact A2|]. split; [exact A3|].
    unfold known_mode. unfold select_points in E3. cbv zeta in E3.
    destruct (String.eqb_spec mode "coherence"); [subst; cbn; auto|]. destruct (String.eqb_spec mode "preavg"); [subst; cbn; auto|]. cbn [orb] in E3.
    destruct (String.eqb_spec mode "global_coherence"); [subst; cbn; auto|]. destruct (String.eqb_spec mode "distance"); [subst; cbn; auto|].
    destruct (String.eqb_spec mode "all"); [subst; cbn; auto 6|discriminate].
  - intros (Ir & (_ & L1 & r1 & G1 & N1 & V1) & (_ & L2 & r2 & G2 & N2 & V2) & Dt & Fl & Me & Mo).
    assert (Hr : exists rp, dget pos ref = Some rp) by (destruct (dget pos ref) eqn:E; [eauto|apply dget_None in E; contradiction]). destruct Hr as [rp Hr].
    assert (Ne : forall df r, dget df ref = Some r -> df <> [] :> list (string * list (option R))) by (intros df r E ->; discriminate).
    destruct (proj2 (predicted_delays_defined ls win dtr dt navgs cl fl method ref r1 df1 Sl (Ne _ _ G1) D1)) as [[ds1 cs1] B1]; [auto|].
    destruct (proj2 (predicted_delays_defined ls win dtr dt navgs cl fl method ref r2 df2 Sl (Ne _ _ G2) D2)) as [[ds2 cs2] B2]; [auto|].
    destruct fl as [lim|]; [|easy].
    destruct (delays_separate ls win dtr dt navgs cl lim method ref r1 df1 ds1 cs1 Sl Me (Ne _ _ G1) D1 B1) as (M1 & M1' & _).
    destruct (delays_separate ls win dtr dt navgs cl lim method ref r2 df2 ds2 cs2 Sl Me (Ne _ _ G2) D2 B2) as (M2 & M2' & _).
    exact (predicted_success string _ _ sv _ df1 df2 pos ref va vb mode k r1 r2 ds1 ds2 cs1 cs2 rp So G1 G2 Hr B1 B2 ltac:(congruence) ltac:(congruence) ltac:(congruence) ltac:(congruence) Mo).
Qed.

(** The signal has energy in some bin of its segments. *)
Definition sounds (win : string -> nat -> list R) (x : list R) (N V K : nat) : Prop :=
  exists k, (k <= N / 2)%nat /\ auto K (fun s => seg_spectrum (win "hamming" N) (fun v => v) x N V s k) <> 0.

(*@ C99 The reference's own delay ('multi') is exactly 0 whenever the reference is gap-free and has energy, whatever the other columns hold. *)
Lemma predicted_self_delay : forall ls win dtr dt navgs cl lim ref x df ds cs N V K i,
  solver ls -> windows win -> keeps_length dtr -> NoDup (map fst df) -> nth_error df i = Some (ref, map Some x) ->
  welch_grid (length x) navgs (/ 2) N V -> segments_fit (length x) N V K -> power (win "hamming" N) <> 0 -> sounds win x N V K ->
  report_delays ls win dtr dt (Z.of_nat navgs) cl (Some lim) "multi" (ref, map Some x) df = Ok (ds, cs) ->
  nth_error ds i = Some (Fin 0).
Proof.
  intros ls win dtr dt navgs cl lim ref x df ds cs N V K i Sl Hw Hd ND Hi G F P Sx E.
  assert (Ne : df <> []) by (intros ->; destruct i; discriminate).
  destruct (proj1 (predicted_delays_defined ls win dtr dt (Z.of_nat navgs) cl (Some lim) "multi" ref (map Some x) df Sl Ne ND) (ex_intro _ _ E)) as (A1 & A2 & _). rewrite map_length in A1.
  destruct (predicted_delays_separate ls win dtr dt navgs cl lim "multi" ref (map Some x) df ds cs Sl (or_intror eq_refl) Ne ND E) as (_ & _ & Sp).
  destruct (Sp i _ _ Hi eq_refl) as (d & c & D & _ & Fu & _).
  assert (Sw : same_where_read (length (map Some x)) navgs (/ 2) (map Some x) x).
  { split; [now rewrite map_length|]. intros t (N' & V' & s & _ & B1 & B2). rewrite map_length in B1. rewrite nth_error_map.
    destruct (nth_error x t) eqn:Et; [reflexivity|]. apply nth_error_None in Et. lia. }
  destruct (Fu x x Sw Sw) as (d' & c' & ex & T & Tc & -> & _).
  assert (FD : field_compute_delays ls win dtr dt (length x) [(ref, x)] ref (Z.of_nat navgs) cl (Some lim) "multi" = Ok ([d'], te_coh ex)).
  { unfold field_compute_delays. unfold lookup. cbn [dget]. change (lab_eqb ref ref) with (String.eqb ref ref). rewrite String.eqb_refl. cbn [rbind]. rewrite T. reflexivity. }
  pose proof (field_delays_self ls win dtr dt (length x) [(ref, x)] ref x navgs cl lim N V K [d'] (te_coh ex) 0%nat Sl Hw Hd A1 A2 G F P
    ltac:(repeat constructor; easy) eq_refl eq_refl FD) as (_ & Fs & _).
  specialize (Fs Sx). cbn in Fs. injection Fs as ->. exact D.
Qed.

Lemma nth_pos_unique {A B} (l : list (A * B)) i j a b c : NoDup (map fst l) -> nth_error l i = Some (a, b) -> nth_error l j = Some (a, c) -> i = j.
Proof.
  intros ND Hi Hj. rewrite NoDup_nth_error in ND. apply ND.
  - rewrite map_length. apply nth_error_Some. congruence.
  - now rewrite !nth_error_map, Hi, Hj.
Qed.
Lemma dget_nth {B} (l : list (string * B)) i a b : NoDup (map fst l) -> nth_error l i = Some (a, b) -> dget l a = Some b.
Proof.
  intros ND Hi. destruct (dget l a) as [b'|] eqn:E.
  - apply dget_In, In_nth_error in E. destruct E as [j Hj]. assert (i = j) by (eapply nth_pos_unique; eauto). subst j. congruence.
  - apply dget_None in E. exfalso. apply E. apply nth_error_In in Hi. now apply (in_map fst) in Hi.
Qed.

(*@ C99 Self-inclusion bias without any assumption on the reference's own figures: when it is among the used points (mode 'all', 'distance'), and the delays of
    all other used points are the travel times from the sensor's true position x, the result lies short of x by the fraction 1/m. *)
Lemma predicted_own_bias : forall ls win dtr ms lsq sv dt df1 df2 pos ref va vb mode k navgs cl lim p s1 s2 x rp m x1 x2 N1 V1 K1 N2 V2 K2,
  solver ls -> windows win -> keeps_length dtr -> NoDup (map fst pos) -> ~ parallel va vb -> dget pos ref = Some rp ->
  map fst df1 = map fst pos -> map fst df2 = map fst pos -> dget df1 ref = Some (map Some x1) -> dget df2 ref = Some (map Some x2) ->
  welch_grid (length x1) navgs (/ 2) N1 V1 -> segments_fit (length x1) N1 V1 K1 -> power (win "hamming" N1) <> 0 -> sounds win x1 N1 V1 K1 ->
  welch_grid (length x2) navgs (/ 2) N2 V2 -> segments_fit (length x2) N2 V2 K2 -> power (win "hamming" N2) <> 0 -> sounds win x2 N2 V2 K2 ->
  predicted_position ls win dtr ms lsq sv dt df1 df2 pos ref (Some (Some va, Some vb)) mode k (Z.of_nat navgs) cl (Some lim) "multi" = Ok (p, (s1, s2)) ->
  NoDup (map fst s1) -> NoDup (map fst s2) -> In ref (map fst s1) -> In ref (map fst s2) -> length s1 = m -> length s2 = m -> (2 <= m)%nat ->
  (forall q r P, In (q, r) s1 -> q <> ref -> dget pos q = Some P -> pp_delay r = Fin (travel_time va x P)) ->
  (forall q r P, In (q, r) s2 -> q <> ref -> dget pos q = Some P -> pp_delay r = Fin (travel_time vb x P)) ->
  inner (sub2 x rp) va <> 0 -> inner (sub2 x rp) vb <> 0 ->
  p = (Fin (fst rp + (INR m - 1) / INR m * (fst x - fst rp)), Fin (snd rp + (INR m - 1) / INR m * (snd x - snd rp))).
Proof.
  intros ls win dtr ms lsq sv dt df1 df2 pos ref va vb mode k navgs cl lim p s1 s2 x rp m x1 x2 N1 V1 K1 N2 V2 K2 Sl Hw Hd ND NP Hr M1 M2 G1 G2 W1 F1 P1 S1 W2 F2 P2 S2 E U1 U2 I1 I2 L1 L2 Lm T1 T2 Q1 Q2.
  unfold predicted_position in E.
  assert (Na : va <> (0, 0)) by (intros ->; apply NP; unfold parallel, cross; cbn; ring).
  assert (Nb : vb <> (0, 0)) by (intros ->; apply NP; unfold parallel, cross; cbn; ring).
  assert (Z : forall df v s xs N V K, (df, v, s) = (df1, va, s1) \/ (df, v, s) = (df2, vb, s2) -> map fst df = map fst pos -> dget df ref = Some (map Some xs) ->
     welch_grid (length xs) navgs (/ 2) N V -> segments_fit (length xs) N V K -> power (win "hamming" N) <> 0 -> sounds win xs N V K ->
     forall r, In (ref, r) s -> pp_delay r = Fin 0).
  { intros df v s xs N V K Hs M G W F P So r Ir.
    destruct (predicted_report _ _ _ _ _ _ _ _ _ _ _ _ _ _ _ _ Na Nb E df v s Hs) as (sig & ds & cs & rp' & A1 & A2 & A3 & A4).
    rewrite G in A1. injection A1 as <-. destruct (A4 ref r Ir) as (i & P0 & Hi & Hd' & _).
    assert (NDf : NoDup (map fst df)) by now rewrite M.
    assert (Hdf : nth_error df i = Some (ref, map Some xs)).
    { assert (X : nth_error (map fst df) i = Some ref) by (rewrite M, nth_error_map, Hi; reflexivity). rewrite nth_error_map in X.
      destruct (nth_error df i) as [[nm y]|] eqn:Ey; [|discriminate]. cbn in X. injection X as ->. rewrite (dget_nth df i ref y NDf Ey) in G. congruence. }
    rewrite (predicted_self_delay ls win dtr dt navgs cl lim ref xs df ds cs N V K i Sl Hw Hd NDf Hdf W F P So A2) in Hd'. congruence. }
  apply (predicted_self_bias string _ _ sv _ df1 df2 pos ref va vb mode k p s1 s2 x rp m ND NP Hr E U1 U2 I1 I2 L1 L2 Lm); auto.
  - intros q r P Iq Hq. change (lab_eqb q ref) with (String.eqb q ref). destruct (String.eqb_spec q ref) as [->|Nq]; [|eauto].
    eapply (Z df1 va s1 x1 N1 V1 K1); eauto.
  - intros q r P Iq Hq. change (lab_eqb q ref) with (String.eqb q ref). destruct (String.eqb_spec q ref) as [->|Nq]; [|eauto].
    eapply (Z df2 vb s2 x2 N2 V2 K2); eauto.
Qed.

(** The rows of a table *)
Definition rows_of (df : list (string * list (option R))) : nat := match df with c :: _ => length (snd c) | [] => 0%nat end.
(*@ C99 Without given CMVs: if each table shows one disturbance moving with constant velocity over the sites (under the conditions of C94 for its exact
    recovery), the result is that for these velocities. *)
Lemma predicted_own_cmv : forall ls win dtr ms lsq sv dt df1 df2 pos ref mode k navgs cl fl method va vb,
  keeps_count ls -> 0 < dt ->
  (forall df vel, (df, vel) = (df1, va) \/ (df, vel) = (df2, vb) ->
     (2 <= rows_of df)%nat /\ vel <> (0, 0) /\ moving_pattern dt (rows_of df) df pos vel /\
     exists v t w o f, cmv ls win dtr ms lsq dt (rows_of df) df pos RefNone "jamaly" None "xcorr" = Ok ((v, t, w), o) /\ w_fit w = Some f /\
       spanning (good_separations pos (w_allpairs w) (w_pair_flag w)) /\
       minimises ms (speed_variance (good_separations pos (w_allpairs w) (w_pair_flag w)) vel)) ->
  predicted_position ls win dtr ms lsq sv dt df1 df2 pos ref None mode k navgs cl fl method =
  predicted_position ls win dtr ms lsq sv dt df1 df2 pos ref (Some (Some va, Some vb)) mode k navgs cl fl method.
Proof.
  intros ls win dtr ms lsq sv dt df1 df2 pos ref mode k navgs cl fl method va vb KC Hd H.
  assert (C : forall df vel, (df, vel) = (df1, va) \/ (df, vel) = (df2, vb) -> exists a, own_cmv ls win dtr ms lsq dt df pos = Ok (Fin (len vel), Fin a) /\ polar (len vel) a = vel).
  { intros df vel Hc. destruct (H df vel Hc) as (Hn & Nv & MP & v & t & w & o & f & E & Hf & Sp & Mi).
    destruct (pattern_recovered string _ ls win dtr ms lsq dt (rows_of df) df pos RefNone "jamaly" None "xcorr" v t w o f vel KC Hd Hn eq_refl E Hf MP Nv Sp (fun _ => Mi)) as (a & A1 & A2 & _ & A4).
    { intro X. discriminate. }
    exists a. split; [|exact A4]. unfold own_cmv. change (match df with [] => 0%nat | c :: _ => length (snd c) end) with (rows_of df). rewrite E. cbn [rbind fst]. congruence. }
  destruct (C df1 va (or_introl eq_refl)) as (a & Ea & Pa). destruct (C df2 vb (or_intror eq_refl)) as (b & Eb & Pb).
  unfold predicted_position. rewrite (predicted_default_cmv _ _ _ _ _ _ _ _ _ _ _ _ _ _ _ Ea Eb). unfold polar in Pa, Pb. now rewrite Pa, Pb.
Qed.

(*@ C99 If in either table fewer than two pairs of sites pass the quality checks, its velocity is taken as zero and the result is never finite. *)
Lemma predicted_no_cmv : forall ls win dtr ms lsq sv dt df1 df2 pos ref mode k navgs cl fl method p s v1 t1 w1 o1 v2 t2 w2 o2,
  keeps_count ls ->
  cmv ls win dtr ms lsq dt (rows_of df1) df1 pos RefNone "jamaly" None "xcorr" = Ok ((v1, t1, w1), o1) ->
  cmv ls win dtr ms lsq dt (rows_of df2) df2 pos RefNone "jamaly" None "xcorr" = Ok ((v2, t2, w2), o2) ->
  ~ two_good (w_pair_flag w1) \/ ~ two_good (w_pair_flag w2) ->
  predicted_position ls win dtr ms lsq sv dt df1 df2 pos ref None mode k navgs cl fl method = Ok (p, s) ->
  is_finite (fst p) = false /\ is_finite (snd p) = false.
Proof.
  intros ls win dtr ms lsq sv dt df1 df2 pos ref mode k navgs cl fl method p s v1 t1 w1 o1 v2 t2 w2 o2 KC E1 E2 Tg E.
  assert (O1 : own_cmv ls win dtr ms lsq dt df1 pos = Ok (v1, t1)) by (unfold own_cmv; fold (rows_of df1); now rewrite E1).
  assert (O2 : own_cmv ls win dtr ms lsq dt df2 pos = Ok (v2, t2)) by (unfold own_cmv; fold (rows_of df2); now rewrite E2).
  assert (Z : forall df v t w o, cmv ls win dtr ms lsq dt (rows_of df) df pos RefNone "jamaly" None "xcorr" = Ok ((v, t, w), o) -> ~ two_good (w_pair_flag w) -> v = Fin 0 /\ t = Fin 0).
  { intros df v t w o Ec Nt. destruct (backends_answer dt (rows_of df) ls win dtr) as [Ax At]. specialize (At KC). unfold cmv in Ec.
    destruct (cmv_failure_exit string _ _ _ ms lsq df pos RefNone "jamaly" None "xcorr" v t w o Ax At Ec) as (_ & F1 & F2). apply F1 in Nt. destruct (F2 Nt) as (A & B & _). auto. }
  unfold predicted_position, compute_predicted_position in E. rewrite O1, O2 in E. cbn [rbind] in E.
  set (as_vec := fun p : Fl.fl * Fl.fl => match p with (Fin s, Fin t) => Some (pol2rect s t) | _ => None end) in *.
  assert (E' : predicted_position ls win dtr ms lsq sv dt df1 df2 pos ref (Some (as_vec (v1, t1), as_vec (v2, t2))) mode k navgs cl fl method = Ok (p, s)) by exact E.
  clear E. unfold predicted_position in E'. destruct s as [s1 s2].
  assert (NV : as_vec (v1, t1) = None \/ as_vec (v2, t2) = None \/ exists va vb, as_vec (v1, t1) = Some va /\ as_vec (v2, t2) = Some vb).
  { destruct (as_vec (v1, t1)) as [qa|]; [|now left]. destruct (as_vec (v2, t2)) as [qb|]; [|right; now left]. right. right. exists qa, qb. now split. }
  destruct NV as [X|[X|(va & vb & X1 & X2)]].
  - apply cpp_inv in E'. destruct E' as (d1 & d2 & ix1 & ix2 & rp & _ & _ & _ & _ & _ & _ & ->). rewrite X. unfold pp_position. repeat match goal with |- context [match ?a with _ => _ end] => destruct a; try (split; reflexivity) end.
  - apply cpp_inv in E'. destruct E' as (d1 & d2 & ix1 & ix2 & rp & _ & _ & _ & _ & _ & _ & ->). rewrite X. unfold pp_position. repeat match goal with |- context [match ?a with _ => _ end] => destruct a; try (split; reflexivity) end.
  - rewrite X1, X2 in E'. refine (predicted_parallel string _ _ _ _ df1 df2 pos ref va vb mode k p (s1, s2) _ E').
    assert (Z0 : pol2rect 0 0 = (0, 0)) by (unfold pol2rect; f_equal; ring).
    destruct Tg as [Nt|Nt].
    + destruct (Z _ _ _ _ _ E1 Nt) as [-> ->]. cbn [as_vec] in X1. rewrite Z0 in X1. injection X1 as <-. unfold parallel, cross. cbn. ring.
    + destruct (Z _ _ _ _ _ E2 Nt) as [-> ->]. cbn [as_vec] in X2. rewrite Z0 in X2. injection X2 as <-. unfold parallel, cross. cbn. ring.
Qed.

(** Pulses every four samples, arriving at each of three sensors at its own time; the sensor labelled a is listed at the origin but stands at (1, 1). *)
Definition pulses (lates : list (string * Z)) : list (string * list (option R)) := map (fun c => (fst c, map Some (arriving pulse 8 (snd c) 1))) lates.
Definition three_sites : list (string * (R * R)) := [("a", (0, 0)); ("b", (2, 0)); ("c", (0, 2))].
Definition eastward : list (string * Z) := [("a", 0%Z); ("b", 1%Z); ("c", (-1)%Z)].
Definition northward : list (string * Z) := [("a", 0%Z); ("b", (-1)%Z); ("c", 1%Z)].

Lemma pulses_delays ls lates : solver ls -> lates = eastward \/ lates = northward ->
  exists cs, report_delays ls box_win no_dtr 1 2 (Some (6 / 10)) (Some (1 / 2)) "multi" ("a", map Some (arriving pulse 8 0 1)) (pulses lates)
  = Ok (map (fun c => Fin (IZR (snd c) * 1)) lates, cs).
Proof.
  intros Sl Hl. destruct wave_example as (_ & _ & P & En & _ & F & _). change (box_win "boxcar" 4) with (box_win "hamming" 4) in F.
  assert (G : welch_grid 8 2 (/ 2) 4 2) by (unfold welch_grid; cbn [INR]; repeat split; try lia; lra).
  set (cols := map (fun c : string * Z => (fst c, (snd c, 0%Z, 1))) lates).
  destruct (wave_table ls box_win no_dtr 1 8 pulse "a" 2 (/ 2) "hamming" 4 2 (Some (6 / 10)) (1 / 2) "multi" cols
    Sl box_windows no_dtr_keeps F ltac:(lia) ltac:(lra) ltac:(lia) G P ltac:(cbn; lra) ltac:(cbn; lra) ltac:(now right) ltac:(intros; apply En)) as (ex & E & C).
  - destruct Hl as [-> | ->]; discriminate.
  - destruct Hl as [-> | ->]; repeat constructor; cbn; intuition discriminate.
  - intros nm m q g I. destruct Hl as [-> | ->]; destruct I as [I|[I|[I|[]]]]; apply (f_equal snd) in I; cbn in I; injection I as <- <- <-; split; try lra; cbn; lia.
  - exists (map of_option (te_coh ex)).
    pose proof (predicted_delays_are ls box_win no_dtr 1 2 (Some (6 / 10)) (Some (1 / 2)) "multi" "a" (arriving pulse 8 0 1) (map (fun c => (fst c, arriving pulse 8 (snd c) 1)) lates)) as A.
    rewrite map_map in A. cbn [fst snd] in A. unfold pulses. etransitivity; [exact A|]. clear A.
    replace (length (arriving pulse 8 0 1)) with 8%nat by reflexivity.
    replace (map (fun c : string * Z => (fst c, arriving pulse 8 (snd c) 1)) lates) with (map (fun c : string * (Z * Z * R) => let '(nm, (m, q, g)) := c in (nm, arriving pulse 8 (m + q * Z.of_nat 4) g)) cols).
    + change (Z.of_nat 2) with 2%Z in E. rewrite E. f_equal. f_equal. unfold cols. rewrite !map_map. apply map_ext. intros [nm m]. reflexivity.
    + unfold cols. rewrite map_map. apply map_ext. intros [nm m]. cbn. now rewrite Z.add_0_r.
Qed.
(*@ex C99 Clouds moving east and then north over the three sensors, mode 'all' (a rectangular window standing in for the Hamming window): all hypotheses of
    the bias theorem hold, and the result is (2/3, 2/3) instead of (1, 1). *)
Lemma predicted_joined_example : forall ls ms lsq, solver ls -> exists p s1 s2 K,
  predicted_position ls box_win no_dtr ms lsq (sort_by rank_leb) 1 (pulses eastward) (pulses northward) three_sites "a" (Some (Some (1, 0), Some (0, 1))) "all" 8
    2 (Some (6 / 10)) (Some (1 / 2)) "multi" = Ok (p, (s1, s2)) /\
  p = (Fin (2 / 3), Fin (2 / 3)) /\
  dget (pulses eastward) "a" = Some (map Some (arriving pulse 8 0 1)) /\ welch_grid 8 2 (/ 2) 4 2 /\ segments_fit 8 4 2 K /\ sounds box_win (arriving pulse 8 0 1) 4 2 K /\
  map fst s1 = ["a"; "b"; "c"] /\ map fst s2 = ["a"; "b"; "c"] /\
  (forall q r P, In (q, r) s1 -> q <> "a" -> dget three_sites q = Some P -> pp_delay r = Fin (travel_time (1, 0) (1, 1) P)) /\
  (forall q r P, In (q, r) s2 -> q <> "a" -> dget three_sites q = Some P -> pp_delay r = Fin (travel_time (0, 1) (1, 1) P)).
Proof.
  intros ls ms lsq Sl.
  assert (G : welch_grid 8 2 (/ 2) 4 2) by (unfold welch_grid; cbn [INR]; repeat split; try lia; lra).
  assert (Fi : segments_fit 8 4 2 3) by (unfold segments_fit; lia).
  assert (Na : (1, 0) <> (0, 0)) by (intro F; injection F; lra). assert (Nb : (0, 1) <> (0, 0)) by (intro F; injection F; lra).
  assert (NP : ~ parallel (1, 0) (0, 1)) by (unfold parallel, cross; cbn; lra).
  assert (Nd : NoDup (map fst three_sites)) by (cbn; repeat constructor; cbn; intuition discriminate).
  assert (So : sounds box_win (arriving pulse 8 0 1) 4 2 3).
  { exists 0%nat. split; [lia|]. intro Z. apply auto_zero with (s := 0%nat) in Z; [|lia|lia]. revert Z. unfold seg_spectrum.
    destruct wave_example as (_ & _ & _ & En & _ & F & _). rewrite flat_tapered; [|exact F|reflexivity].
    replace (chunk (arriving pulse 8 0 1) (0 * (4 - 2)) 4) with (map (fun i => pulse (Z.of_nat i)) (seq 0 4)); [exact (En 0%nat)|].
    unfold chunk, arriving. cbn. now rewrite !Rmult_1_l. }
  destruct (proj2 (predicted_outcome ls box_win no_dtr ms lsq (sort_by rank_leb) 1 (pulses eastward) (pulses northward) three_sites "a" (Some (1, 0)) (Some (0, 1)) "all" 8
     2 (Some (6 / 10)) (Some (1 / 2)) "multi" Sl stable_sorts Nd Nd)) as [[p [s1 s2]] E].
  { split; [now left|]. split; [|split; [|split; [lra|split; [easy|split; [now right|cbn; auto 6]]]]];
    (split; [exact Nd|split; [reflexivity|eexists; split; [reflexivity|]; rewrite map_length; cbn; split; lia]]). }
  exists p, s1, s2, 3%nat. split; [exact E|].
  pose proof E as Eu. unfold predicted_position in Eu. pose proof Eu as E0. apply cpp_inv in E0. destruct E0 as (d1 & d2 & ix1 & ix2 & rp & E1 & E2 & E3 & E4 & E5 & _).
  cbn in E3. injection E3 as <- <-. apply loc_rows_fst in E4. apply loc_rows_fst in E5.
  assert (T : forall df v s lates, (df, v, s) = (pulses eastward, (1, 0), s1) /\ lates = eastward \/ (df, v, s) = (pulses northward, (0, 1), s2) /\ lates = northward ->
     forall q r P, In (q, r) s -> q <> "a" -> dget three_sites q = Some P -> pp_delay r = Fin (travel_time v (1, 1) P)).
  { intros df v s lates Hc q r P Iq Nq Hq.
    assert (Hs : (df, v, s) = (pulses eastward, (1, 0), s1) \/ (df, v, s) = (pulses northward, (0, 1), s2)) by tauto.
    destruct (predicted_report _ _ _ _ _ _ _ _ _ _ _ _ _ _ _ _ Na Nb Eu df v s Hs) as (sig & ds & cs & rp' & A1 & A2 & A3 & A4).
    destruct (A4 q r Iq) as (i & P0 & Hi & Hd & _). rewrite (dget_nth three_sites i q P0 Nd Hi) in Hq. injection Hq as ->.
    assert (Edf : df = pulses lates /\ (lates = eastward \/ lates = northward)) by (destruct Hc as [[Hc ->]|[Hc ->]]; injection Hc as -> -> ->; auto). destruct Edf as [-> Hl].
    assert (sig = map Some (arriving pulse 8 0 1)) by (destruct Hl as [-> | ->]; cbn [dget pulses] in A1; injection A1 as <-; reflexivity). subst sig.
    destruct (pulses_delays ls lates Sl Hl) as [cs' B]. rewrite B in A2. injection A2 as <- <-.
    destruct Hc as [[Hc ->]|[Hc ->]]; apply (f_equal (fun t => snd (fst t))) in Hc; cbn [fst snd] in Hc; subst v;
    (destruct i as [|[|[|i]]]; [apply (f_equal (option_map fst)) in Hi; cbn in Hi; congruence| | |destruct i; discriminate]; cbn [three_sites nth_error] in Hi; injection Hi as <- <-;
     cbn [nth_error map eastward northward snd] in Hd; injection Hd as <-; f_equal; unfold travel_time, inner, sub2; cbn [fst snd]; field). }
  assert (T1 := T (pulses eastward) (1, 0) s1 eastward (or_introl (conj eq_refl eq_refl))). assert (T2 := T (pulses northward) (0, 1) s2 northward (or_intror (conj eq_refl eq_refl))). clear T.
  split; [|split; [reflexivity|split; [exact G|split; [exact Fi|split; [exact So|split; [exact E4|split; [exact E5|split; [exact T1|exact T2]]]]]]]].
  assert (Pw : power (box_win "hamming" 4) <> 0) by (cbn; lra).
  rewrite (predicted_own_bias ls box_win no_dtr ms lsq (sort_by rank_leb) 1 (pulses eastward) (pulses northward) three_sites "a" (1, 0) (0, 1) "all" 8 2 (Some (6 / 10)) (1 / 2) p s1 s2
    (1, 1) (0, 0) 3 (arriving pulse 8 0 1) (arriving pulse 8 0 1) 4 2 3 4 2 3 Sl box_windows no_dtr_keeps Nd NP eq_refl eq_refl eq_refl eq_refl eq_refl G Fi Pw So G Fi Pw So E); auto.
  - f_equal; f_equal; cbn; field.
  - rewrite E4; exact Nd.
  - rewrite E5; exact Nd.
  - rewrite E4; now left.
  - rewrite E5; now left.
  - apply (f_equal (@length _)) in E4. rewrite map_length in E4. exact E4.
  - apply (f_equal (@length _)) in E5. rewrite map_length in E5. exact E5.
  - unfold inner, sub2. cbn. lra.
  - unfold inner, sub2. cbn. lra.
Qed.

Definition tail_gap : list (option R) := (map Some (arriving pulse 8 1 1) ++ [None])%list.
Definition inner_gap : list (option R) := None :: map Some (arriving pulse 8 1 1).
(*@ex C99 Nine rows cut into segments of four: no segment reads the last row, so a sample missing there does no harm, while one missing in the first row makes
    the delay NaN. *)
Lemma predicted_gaps_example : forall ls, solver ls -> exists ds cs d c,
  report_delays ls box_win no_dtr 1 2 (Some (6 / 10)) (Some (1 / 2)) "multi" ("a", tail_gap) [("a", tail_gap); ("b", inner_gap)] = Ok (ds, cs) /\
  (forall z, same_where_read 9 2 (/ 2) tail_gap (arriving pulse 8 1 1 ++ [z])%list) /\ ~ gap_read 9 2 (/ 2) tail_gap /\ gap_read 9 2 (/ 2) inner_gap /\
  nth_error ds 0 = Some d /\
  (forall z, exists d' ex, compute_delays_tf ls box_win no_dtr 1 9 [("a", (arriving pulse 8 1 1 ++ [z])%list)] [("a", (arriving pulse 8 1 1 ++ [z])%list)] 2 (Some (6 / 10)) (Some (1 / 2)) "multi" (/ 2)
     "hamming" false = Ok ([d'], ex) /\ d = of_option d') /\
  nth_error ds 1 = Some Nan /\ nth_error cs 1 = Some c /\ c = Fin 0.
Proof.
  intros ls Sl.
  assert (U : forall N V, welch_grid 9 2 (/ 2) N V -> N = 4%nat /\ V = 2%nat).
  { intros N V (B & C1 & C2 & C3 & C4 & C5). assert (N = 4%nat) by lia. subst N. split; [reflexivity|]. cbn [INR] in C4, C5.
    assert (V < 3)%nat by (apply INR_lt; cbn; lra). assert (1 < V)%nat by (apply INR_lt; cbn; lra). lia. }
  assert (G : welch_grid 9 2 (/ 2) 4 2) by (unfold welch_grid; cbn [INR]; repeat split; try lia; lra).
  assert (Rd : forall t, row_read 9 2 (/ 2) t -> (t < 8)%nat) by (intros t (N & V & s & Gw & B1 & B2); apply U in Gw; lia).
  assert (Sw : forall z, same_where_read 9 2 (/ 2) tail_gap (arriving pulse 8 1 1 ++ [z])).
  { intro z. split; [reflexivity|]. intros t Rt. apply Rd in Rt. do 8 (destruct t as [|t]; [reflexivity|]). lia. }
  assert (Gp : gap_read 9 2 (/ 2) inner_gap) by (exists 0%nat; split; [exists 4%nat, 2%nat, 0%nat; split; [exact G|lia]|reflexivity]).
  destruct (proj2 (predicted_delays_defined ls box_win no_dtr 1 2 (Some (6 / 10)) (Some (1 / 2)) "multi" "a" tail_gap [("a", tail_gap); ("b", inner_gap)] Sl ltac:(discriminate)
    ltac:(repeat constructor; cbn; intuition discriminate))) as [[ds cs] E].
  { repeat split; try lra; try (cbn; lia); try discriminate; now right. }
  destruct (predicted_delays_separate ls box_win no_dtr 1 2 (Some (6 / 10)) (1 / 2) "multi" "a" tail_gap [("a", tail_gap); ("b", inner_gap)] ds cs Sl (or_intror eq_refl) ltac:(discriminate)
    ltac:(repeat constructor; cbn; intuition discriminate) E) as (_ & _ & H).
  destruct (H 0%nat "a" tail_gap eq_refl eq_refl) as (d & c0 & D0 & _ & F & _).
  destruct (H 1%nat "b" inner_gap eq_refl eq_refl) as (d1 & c & D1 & C1 & _ & F1). destruct (F1 (or_intror Gp)) as (-> & _ & Cz). specialize (Cz ltac:(lra)).
  exists ds, cs, d, c. repeat split; try assumption.
  - apply Sw.
  - intros (t & Rt & Ht). destruct (Sw 0) as [_ S]. rewrite (S t Rt) in Ht. injection Ht as Ht. apply nth_error_None in Ht. apply Rd in Rt. cbn in Ht. lia.
  - intro z. destruct (F _ _ (Sw z) (Sw z)) as (d' & c' & ex & T & _ & -> & _). exists d', ex. split; [exact T|reflexivity].
Qed.
