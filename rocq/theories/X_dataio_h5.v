(** Building the combined data file, its refusal to overwrite, its crash points, and the command line around it. *)
From Coq Require Import String Reals Lra.
From Verif Require Import Prelude PreludeFacts P_list RealBase M_iotools M_hope Spec_dataio X_dataio_files X_dataio_clean.

Section R.
  Context {T K W : Type} `{Label K}.
  Implicit Types (t : target T K W) (ops : list (h5op T K W)).
  Lemma same_columns_eq (a b : list K) : same_columns a b = true <-> a = b.
  Proof.
    unfold same_columns. rewrite Bool.andb_true_iff, Nat.eqb_eq. revert b. induction a as [|x a IH]; intros [|y b]; cbn [length combine forallb fst snd].
    - split; auto.
    - split; [intros [? _]|]; discriminate.
    - split; [intros [? _]|]; discriminate.
    - rewrite Bool.andb_true_iff, lab_eqb_eq. split.
      + intros [E [-> F]]. f_equal. apply IH. split; [congruence|exact F].
      + intro E. assert (a = b) by congruence. assert (x = y) by congruence. subst. destruct (proj2 (IH b) eq_refl). auto.
  Qed.
  Lemma run_nil k t : h5_run k [] t = (t, Finished).
  Proof. destruct k; reflexivity. Qed.
  Lemma run_enough ops : forall k t, length ops <= k -> h5_run k ops t = h5_run (length ops) ops t.
  Proof.
    induction ops as [|o ops IH]; intros k t L; [now rewrite !run_nil|]. cbn [length] in L. destruct k as [|k]; [lia|]. cbn [length h5_run].
    destruct (h5_step t o); [|reflexivity]. apply IH. lia.
  Qed.
  Lemma run_cat a b : forall t t' k, h5_run (length a) a t = (t', Finished) -> length a <= k -> h5_run k (a ++ b) t = h5_run (k - length a) b t'.
  Proof.
    induction a as [|o a IH]; intros t t' k E L.
    - cbn in E. assert (t = t') by congruence. subst. cbn [app length]. now rewrite Nat.sub_0_r.
    - destruct k as [|k]; [cbn in L; lia|]. cbn [length h5_run app] in *. destruct (h5_step t o) as [t1|]; [|discriminate].
      rewrite (IH t1 t' k E) by lia. reflexivity.
  Qed.
  Variable parse : string -> result (frame K W * frame K W * T).
  Definition later (fs : list string) : list (h5op T K W) :=
    concat (map (fun f => match parse f with Err e => [Raise e] | Ok (d, g, s) => [AppendData d; AppendFlag g] end) fs).
  Definition first_ops (f : string) : list (h5op T K W) :=
    match parse f with Err e => [Raise e] | Ok (d, g, s) => [PutLatlon s; AppendData d; AppendFlag g] end.
  Lemma file_ops_tail fs : forall n, 0 < n ->
    concat (map (fun p => match parse (snd p) with
                          | Err e => [Raise e]
                          | Ok (data, flag, latlon) => (if (fst p =? 0)%nat then [PutLatlon latlon] else []) ++ [AppendData data; AppendFlag flag]
                          end) (combine (seq n (length fs)) fs)) = later fs.
  Proof.
    induction fs as [|f fs IH]; intros n N; [reflexivity|]. cbn [length seq combine map concat]. rewrite (IH (S n)) by lia. unfold later. cbn [map concat fst snd].
    f_equal. destruct (parse f) as [[[d g] s]|]; [|reflexivity]. destruct (Nat.eqb_spec n 0); [lia|reflexivity].
  Qed.
  Lemma file_ops_cons f fs : file_ops parse (f :: fs) = first_ops f ++ later fs.
  Proof. unfold file_ops. cbn [length seq combine map concat]. rewrite file_ops_tail by lia. cbn [fst snd]. unfold first_ops. destruct (parse f) as [[[d g] s]|]; reflexivity. Qed.
  Lemma later_length fs : length (later fs) <= 2 * length fs.
  Proof.
    unfold later. induction fs as [|f fs IH]; cbn [map concat length]; [lia|]. rewrite app_length. destruct (parse f) as [[[d g] s]|]; cbn [length]; lia.
  Qed.
  Lemma file_ops_length fs : length (file_ops parse fs) <= 3 * length fs.
  Proof.
    destruct fs as [|f fs]; [cbn; lia|]. rewrite file_ops_cons, app_length. pose proof (later_length fs). cbn [length].
    unfold first_ops. destruct (parse f) as [[[d g] s]|]; cbn [length]; lia.
  Qed.
  Lemma later_app a b : later (a ++ b) = later a ++ later b.
  Proof. unfold later. now rewrite map_app, concat_app. Qed.

  Variables (data flag : string -> frame K W) (stations : string -> T) (dcols fcols : list K).
  Definition fine (f : string) : Prop := parse f = Ok (data f, flag f, stations f) /\ columns (data f) = dcols /\ columns (flag f) = fcols.
  Definition built (files : list string) : target T K W :=
    match files with
    | [] => None
    | f :: _ => Some (H5 (Some (stations f)) (Some (Frame dcols (flat_map (fun x => rows (data x)) files))) (Some (Frame fcols (flat_map (fun x => rows (flag x)) files))))
    end.
  Lemma frame_eta (f : frame K W) : f = Frame (columns f) (rows f).
  Proof. now destruct f. Qed.
  Lemma later_run fs : forall s D F, (forall f, In f fs -> fine f) ->
    h5_run (length (later fs)) (later fs) (Some (H5 (Some s) (Some (Frame dcols D)) (Some (Frame fcols F)))) =
    (Some (H5 (Some s) (Some (Frame dcols (D ++ flat_map (fun x => rows (data x)) fs))) (Some (Frame fcols (F ++ flat_map (fun x => rows (flag x)) fs)))), Finished).
  Proof.
    induction fs as [|f fs IH]; intros s D F HF; [cbn; now rewrite !app_nil_r|].
    destruct (HF f (or_introl eq_refl)) as (EP & ED & EF). unfold later. cbn [map concat]. rewrite EP. fold (later fs).
    cbn [app length h5_run h5_step contents h_latlon h_data h_flag append_frame columns rows].
    rewrite ED, (proj2 (same_columns_eq dcols dcols) eq_refl). cbn [rbind].
    cbn [h5_run h5_step contents h_latlon h_data h_flag append_frame columns rows].
    rewrite EF, (proj2 (same_columns_eq fcols fcols) eq_refl). cbn [rbind].
    rewrite IH by (intros; apply HF; now right). cbn [flat_map]. now rewrite <- !app_assoc.
  Qed.
  Lemma files_run fs : (forall f, In f fs -> fine f) -> h5_run (length (file_ops parse fs)) (file_ops parse fs) None = (built fs, Finished).
  Proof.
    destruct fs as [|f fs]; intro HF; [reflexivity|]. rewrite file_ops_cons. destruct (HF f (or_introl eq_refl)) as (EP & ED & EF). unfold first_ops. rewrite EP.
    cbn [app length h5_run h5_step contents h_latlon h_data h_flag append_frame rbind].
    rewrite (frame_eta (data f)), (frame_eta (flag f)), ED, EF, later_run by (intros; apply HF; now right).
    cbn [built flat_map rows]. reflexivity.
  Qed.
End R.

(*@ C82 Without overwrite an existing target is refused and left as it is. *)
Lemma h5_refuses : forall {T K W} `{Label K} (parse : string -> result (frame K W * frame K W * T)) k listing old,
  dataset_to_h5 parse k listing (Some old) false = (Some old, Raised ValueError).
Proof. reflexivity. Qed.
(*@ C82 With overwrite or without a target, files that can be read and agree on their columns give the rows of all .nc files in name
    order with the first file's station table; with no .nc file there is no target. *)
Lemma h5_builds : forall {T K W} `{Label K} (parse : string -> result (frame K W * frame K W * T)) data flag stations dcols fcols k listing old overwrite,
  let files := getfiles listing (Some ".nc"%string) true in
  (forall f, In f files -> parse f = Ok (data f, flag f, stations f) /\ columns (data f) = dcols /\ columns (flag f) = fcols) ->
  old = None \/ overwrite = true -> 3 * length files < k ->
  dataset_to_h5 parse k listing old overwrite =
    (match files with
     | [] => None
     | f :: _ => Some (H5 (Some (stations f)) (Some (Frame dcols (flat_map (fun x => rows (data x)) files)))
                                              (Some (Frame fcols (flat_map (fun x => rows (flag x)) files))))
     end, Finished).
Proof.
  intros T K W L parse data flag stations dcols fcols k listing old ow files HF HO HK. unfold dataset_to_h5. fold files.
  pose proof (files_run parse data flag stations dcols fcols files HF) as FR. pose proof (file_ops_length parse files) as FL.
  destruct old as [h|].
  - destruct HO as [ | -> ]; [discriminate|]. destruct k as [|k]; [lia|]. cbn [h5_run h5_step]. rewrite run_enough by lia. exact FR.
  - rewrite run_enough by lia. exact FR.
Qed.
(*@ C82 An overwriting run first removes the target and then behaves, at every crash point and whatever the files hold, like a run
    without a target: nothing of the old contents survives. *)
Lemma h5_fresh : forall {T K W} `{Label K} (parse : string -> result (frame K W * frame K W * T)) k listing old overwrite,
  dataset_to_h5 parse (S k) listing (Some old) true = dataset_to_h5 parse k listing None overwrite /\
  dataset_to_h5 parse 0 listing (Some old) true = (Some old, Crashed).
Proof. intros. split; reflexivity. Qed.
Lemma run_some {T K W} `{Label K} (ops : list (h5op T K W)) : forall k t, (forall o, In o ops -> o <> Remove) -> t <> None -> fst (h5_run k ops t) <> None.
Proof.
  induction ops as [|o ops IH]; intros k t HO HT; [now rewrite run_nil|]. destruct k as [|k]; [exact HT|]. cbn [h5_run].
  destruct (h5_step t o) as [t'|e] eqn:ES; [|exact HT]. apply IH; [intros; apply HO; now right|].
  destruct o as [|s|f|f|e]; cbn in ES.
  - exfalso. apply (HO Remove); [now left|reflexivity].
  - intro Q. subst. discriminate.
  - destruct (append_frame (h_data (contents t)) f); [|discriminate]. cbn in ES. intro Q. subst. discriminate.
  - destruct (append_frame (h_flag (contents t)) f); [|discriminate]. cbn in ES. intro Q. subst. discriminate.
  - discriminate.
Qed.
(*@ C82 After an interrupted run the file is incomplete but exists as soon as one write was made, so that a plain re-run refuses it and
    keeps it incomplete, while an overwriting re-run gives the complete result. *)
Lemma h5_crash : forall {T K W} `{Label K} (parse : string -> result (frame K W * frame K W * T)) k k' listing old overwrite,
  let files := getfiles listing (Some ".nc"%string) true in
  let left := fst (dataset_to_h5 parse k listing old overwrite) in
  (old = None -> 0 < k -> (exists f r x, files = f :: r /\ parse f = Ok x) ->
     exists part, left = Some part /\ dataset_to_h5 parse k' listing left false = (Some part, Raised ValueError)) /\
  (3 * length files < k' -> dataset_to_h5 parse k' listing left true = dataset_to_h5 parse k' listing None false).
Proof.
  intros T K W L parse k k' listing old ow files left. split.
  - intros -> HK (f & r & x & EF & EP). assert (N : left <> None).
    { unfold left, dataset_to_h5. fold files. rewrite EF, file_ops_cons. unfold first_ops. rewrite EP. destruct x as [[d g] s]. destruct k as [|k]; [lia|].
      cbn [app h5_run h5_step]. apply run_some; [|discriminate]. intros o [<-|[<-|Q]]; try discriminate.
      unfold later in Q. apply in_concat in Q. destruct Q as (l & Q & QL). apply in_map_iff in Q. destruct Q as (y & <- & _).
      destruct (parse y) as [[[d' g'] s']|]; [destruct QL as [<-|[<-|[]]]; discriminate|destruct QL as [<-|[]]; discriminate]. }
    destruct left as [p|]; [|contradiction]. exists p. split; [reflexivity|]. reflexivity.
  - intro HK. pose proof (file_ops_length parse files) as FL. unfold dataset_to_h5. fold files. destruct left as [p|]; [|reflexivity].
    destruct k' as [|k']; [lia|]. rewrite (run_enough (file_ops parse files) (S k') None) by lia. cbn [h5_run h5_step]. apply run_enough. lia.
Qed.
(*@ C82 A file that cannot be read, or whose columns differ from the first one's, stops the run with the files before it in place;
    when only the flag columns differ, its data rows stay without their flags. *)
Lemma h5_stops : forall {T K W} `{Label K} (parse : string -> result (frame K W * frame K W * T)) data flag stations dcols fcols k listing f good bad rest,
  getfiles listing (Some ".nc"%string) true = (f :: good) ++ bad :: rest -> 3 * length listing < k ->
  (forall f', In f' (f :: good) -> parse f' = Ok (data f', flag f', stations f') /\ columns (data f') = dcols /\ columns (flag f') = fcols) ->
  let drows := flat_map (fun x => rows (data x)) (f :: good) in
  let frows := flat_map (fun x => rows (flag x)) (f :: good) in
  let before := Some (H5 (Some (stations f)) (Some (Frame dcols drows)) (Some (Frame fcols frows))) in
  (forall e, parse bad = Err e -> dataset_to_h5 parse k listing None false = (before, Raised e)) /\
  (forall d g s, parse bad = Ok (d, g, s) -> columns d <> dcols -> dataset_to_h5 parse k listing None false = (before, Raised ValueError)) /\
  (forall d g s, parse bad = Ok (d, g, s) -> columns d = dcols -> columns g <> fcols ->
     dataset_to_h5 parse k listing None false =
       (Some (H5 (Some (stations f)) (Some (Frame dcols (drows ++ rows d))) (Some (Frame fcols frows))), Raised ValueError)).
Proof.
  intros T K W L parse data flag stations dcols fcols k listing f good bad rest EF HK HG drows frows before.
  assert (LL : length (getfiles listing (Some ".nc"%string) true) <= length listing).
  { unfold getfiles. rewrite sort_by_length. apply filter_le_length. }
  assert (FR : h5_run (length (file_ops parse (f :: good))) (file_ops parse (f :: good)) None = (before, Finished)) by exact (files_run parse data flag stations dcols fcols (f :: good) HG).
  assert (FO : file_ops parse ((f :: good) ++ bad :: rest) = file_ops parse (f :: good) ++ later parse (bad :: rest)).
  { cbn [app]. rewrite !file_ops_cons, later_app, app_assoc. reflexivity. }
  pose proof (file_ops_length parse (f :: good)) as FL.
  rewrite EF, app_length in LL. cbn [length] in LL, FL.
  assert (RUN : dataset_to_h5 parse k listing None false = h5_run (k - length (file_ops parse (f :: good))) (later parse (bad :: rest)) before).
  { unfold dataset_to_h5. rewrite EF, FO. apply run_cat; [exact FR|lia]. }
  rewrite RUN. assert (KB : exists j, k - length (file_ops parse (f :: good)) = S (S j)) by (exists (k - length (file_ops parse (f :: good)) - 2); lia).
  destruct KB as [j ->]. unfold later. cbn [map concat]. repeat split.
  - intros e ->. reflexivity.
  - intros d g s -> NE. cbn [app h5_run h5_step contents before h_latlon h_data h_flag append_frame columns rows].
    destruct (same_columns dcols (columns d)) eqn:ES; [apply same_columns_eq in ES; congruence|reflexivity].
  - intros d g s -> ED NE. cbn [app h5_run h5_step contents before h_latlon h_data h_flag append_frame columns rows].
    rewrite ED, (proj2 (same_columns_eq dcols dcols) eq_refl). cbn [rbind].
    cbn [h5_run h5_step contents h_latlon h_data h_flag append_frame columns rows].
    destruct (same_columns fcols (columns g)) eqn:ES; [apply same_columns_eq in ES; congruence|reflexivity].
Qed.

Definition demo_parse (f : string) : result (frame nat nat * frame nat nat * nat) :=
  if String.eqb f "a.nc" then Ok (Frame [1; 2] [10; 11], Frame [1; 2] [0; 0], 7)
  else if String.eqb f "b.nc" then Ok (Frame [1; 2] [12], Frame [1; 2] [1], 8)
  else Ok (Frame [1; 3] [13], Frame [1; 3] [1], 9).
(*@ex C82 *)
Lemma h5_ex :
  dataset_to_h5 demo_parse 10 ["b.nc"; "readme.txt"; "a.nc"]%string None false =
    (Some (H5 (Some 7) (Some (Frame [1; 2] [10; 11; 12])) (Some (Frame [1; 2] [0; 0; 1]))), Finished) /\
  dataset_to_h5 demo_parse 2 ["b.nc"; "readme.txt"; "a.nc"]%string None false = (Some (H5 (Some 7) (Some (Frame [1; 2] [10; 11])) None), Crashed) /\
  dataset_to_h5 demo_parse 10 ["b.nc"; "c.nc"; "a.nc"]%string None false =
    (Some (H5 (Some 7) (Some (Frame [1; 2] [10; 11; 12])) (Some (Frame [1; 2] [0; 0; 1]))), Raised ValueError).
Proof. repeat split; reflexivity. Qed.

(** ** The command line *)
(*@ C85 The -h5 option: without a target it builds one; an existing target is rebuilt from the files if the user agrees and kept
    untouched otherwise. *)
Lemma main_h5 : forall {T K W} `{Label K} (parse : string -> result (frame K W * frame K W * T)) k k2 yes listing old,
  main_makeh5 parse k k2 false listing (Some old) = (Some old, Finished) /\
  main_makeh5 parse k (S k2) true listing (Some old) = dataset_to_h5 parse k2 listing None false /\
  (snd (dataset_to_h5 parse k listing None false) <> Raised ValueError ->
     main_makeh5 parse k k2 yes listing None = dataset_to_h5 parse k listing None false).
Proof.
  intros. repeat split; try reflexivity. intro N. unfold main_makeh5.
  destruct (dataset_to_h5 parse k listing None false) as [t [|[]|]]; try reflexivity. cbn in N. congruence.
Qed.
(*@ C85 An inconsistent dataset is mistaken for an existing target: when the user declines the question, the run ends normally and
    leaves the incomplete file of the files before the inconsistency; when the user agrees, the same error is raised again. *)
Lemma main_h5_inconsistent : forall {T K W} `{Label K} (parse : string -> result (frame K W * frame K W * T)) k listing part,
  3 * length listing < k -> dataset_to_h5 parse k listing None false = (part, Raised ValueError) ->
  main_makeh5 parse k k false listing None = (part, Finished) /\ main_makeh5 parse k k true listing None = (part, Raised ValueError).
Proof.
  intros T K W L parse k listing part HK E. unfold main_makeh5. rewrite E. split; [reflexivity|].
  assert (LL : length (getfiles listing (Some ".nc"%string) true) <= length listing).
  { unfold getfiles. rewrite sort_by_length. apply filter_le_length. }
  pose proof (h5_crash parse k k listing None false) as [_ C]. rewrite E in C. cbn [fst] in C. apply C. lia.
Qed.
(*@ C85 The quality control step: 'null' and 'flag' clean the values with null_qc and with flag_qc at level 2; any other option but
    'interp' raises ValueError. Column labels and time stamps are kept. *)
Lemma main_qc_values : forall {K} (data flag : series_frame K) qc,
  (qc = "null"%string -> exists out, main_qc_step qc data flag = Ok out /\ columns out = columns data /\
     map fst (rows out) = map fst (rows data) /\ map snd (rows out) = null_qc (map snd (rows data))) /\
  (qc = "flag"%string -> length (rows data) = length (rows flag) -> exists out, main_qc_step qc data flag = Ok out /\ columns out = columns data /\
     map fst (rows out) = map fst (rows data) /\ map snd (rows out) = flag_qc (map snd (rows data)) (map snd (rows flag)) 2) /\
  (qc <> "null"%string -> qc <> "flag"%string -> qc <> "interp"%string -> main_qc_step qc data flag = Err ValueError).
Proof.
  intros K data flag qc.
  assert (SV : forall t : table, length t = length (rows data) -> map fst (rows (set_values data t)) = map fst (rows data) /\ map snd (rows (set_values data t)) = t).
  { intros t E. unfold set_values. cbn [rows]. revert t E. induction (rows data) as [|r rs IH]; intros [|v t] E; try discriminate; [split; reflexivity|].
    cbn [length] in E. assert (E' : length t = length rs) by congruence. destruct (IH t E') as [A B]. unfold map2 in *. cbn [combine map fst snd]. rewrite A, B. split; reflexivity. }
  split; [|split].
  - intros ->. exists (set_values data (null_qc (map snd (rows data)))). split; [reflexivity|]. split; [reflexivity|]. apply SV.
    unfold null_qc. now rewrite !map_length.
  - intros -> E. exists (set_values data (flag_qc (map snd (rows data)) (map snd (rows flag)) 2)). split; [reflexivity|]. split; [reflexivity|]. apply SV.
    unfold flag_qc. rewrite map2_len, !map_length. lia.
  - intros N1 N2 N3. unfold main_qc_step. destruct (String.eqb_spec qc "interp"); [contradiction|]. destruct (String.eqb_spec qc "null"); [contradiction|].
    destruct (String.eqb_spec qc "flag"); [contradiction|]. reflexivity.
Qed.
Lemma nth_combine {A B} (l : list A) (m : list B) : forall j x y, nth_error l j = Some x -> nth_error m j = Some y -> nth_error (combine l m) j = Some (x, y).
Proof. revert m. induction l as [|a l IH]; intros [|b m] [|j] x y E1 E2; try discriminate; cbn in *; [congruence|auto]. Qed.
Lemma numbered_fst {A B} (l : list (A * B)) : forall n, map (fun p => fst (snd p)) (combine (seq n (length l)) l) = map fst l.
Proof. induction l as [|x l IH]; intro n; [reflexivity|]. cbn [length seq combine map snd]. now rewrite IH. Qed.
(*@ C85 'interp' first blanks the sentinel values and then treats the gaps of each column with the default limit of 5; it raises
    ValueError when there are fewer than 10 rows. *)
Lemma main_qc_interp : forall {K} (data flag out null : series_frame K),
  main_qc_step "null" data flag = Ok null ->
  (main_qc_step "interp" data flag = Ok out ->
     columns out = columns data /\ map fst (rows out) = map fst (rows data) /\
     interp_nan (map (column null) (seq 0 (length (columns data)))) 5 = Ok (map (column out) (seq 0 (length (columns data))))) /\
  (columns data <> [] -> length (rows data) < 10 -> main_qc_step "interp" data flag = Err ValueError).
Proof.
  intros K data flag out null EN.
  assert (E0 : null = set_values data (null_qc (map snd (rows data)))) by (cbn in EN; congruence).
  destruct (main_qc_values data flag "null") as [Q _]. destruct (Q eq_refl) as (null' & E1 & CN & TN & _). assert (null' = null) by congruence. subst null'.
  assert (ES : main_qc_step "interp" data flag = (let! cols := interp_nan (map (column null) (seq 0 (length (columns null)))) 5 in Ok (of_columns null cols))).
  { rewrite E0. reflexivity. }
  clear E0. rewrite ES, CN. assert (LR : length (rows null) = length (rows data)) by (rewrite <- (map_length fst (rows null)), TN; apply map_length). split.
  - destruct (interp_nan (map (column null) (seq 0 (length (columns data)))) 5) as [cols|] eqn:EI; [|discriminate]. cbn [rbind]. intro E.
    assert (EO : out = of_columns null cols) by congruence. subst out. split; [exact CN|].
    assert (TO : map fst (rows (of_columns null cols)) = map fst (rows null)).
    { unfold of_columns. cbn [rows]. rewrite map_map. cbn [fst]. apply numbered_fst. }
    split; [now rewrite TO|]. f_equal. apply nth_error_ext. intro j.
    pose proof (gaps_value _ _ _ EI) as [LC GV]. rewrite map_length, seq_length in LC. rewrite nth_error_map.
    destruct (Nat.lt_ge_cases j (length (columns data))) as [C|C].
    2:{ rewrite (proj2 (nth_error_None cols j)), (proj2 (nth_error_None (seq 0 (length (columns data))) j)); [reflexivity|now rewrite seq_length|lia]. }
    rewrite nth_error_seq by exact C. cbn [option_map]. destruct (nth_error cols j) as [c|] eqn:EC; [|apply nth_error_None in EC; lia]. f_equal.
    assert (LC' : length c = length (rows null)).
    { assert (I : In (column null j, c) (combine (map (column null) (seq 0 (length (columns data)))) cols)).
      { apply (nth_error_In _ j). assert (NM : nth_error (map (column null) (seq 0 (length (columns data)))) j = Some (column null j)) by (rewrite nth_error_map, nth_error_seq by exact C; reflexivity).
        now apply nth_combine. }
      destruct (GV _ _ I) as [Q1 _]. rewrite Q1. unfold column. apply map_length. }
    unfold column, of_columns. cbn [rows]. rewrite map_map. cbn [snd]. apply nth_error_ext. intro i. rewrite nth_error_map.
    destruct (Nat.lt_ge_cases i (length (rows null))) as [D|D].
    + destruct (nth_error (rows null) i) as [r|] eqn:ER; [|apply nth_error_None in ER; lia].
      assert (NC : nth_error (combine (seq 0 (length (rows null))) (rows null)) i = Some (i, r)).
      { apply nth_combine; [now apply nth_error_seq|exact ER]. }
      rewrite NC. cbn [option_map fst]. destruct (nth_error c i) as [v|] eqn:EV; [|apply nth_error_None in EV; lia]. f_equal.
      assert (NM : nth j (map (fun c0 : list (option R) => nth i c0 None) cols) None = nth i c None).
      { erewrite nth_error_nth; [reflexivity|]. rewrite nth_error_map, EC. reflexivity. }
      rewrite NM. symmetry. now apply nth_error_nth.
    + rewrite (proj2 (nth_error_None c i)) by lia. rewrite (proj2 (nth_error_None (combine (seq 0 (length (rows null))) (rows null)) i)); [reflexivity|]. rewrite combine_length. lia.
  - intros NE LT. destruct (gaps_ok (map (column null) (seq 0 (length (columns data)))) 5) as [GO GE].
    destruct (interp_nan (map (column null) (seq 0 (length (columns data)))) 5) as [cols|e]; cbn [rbind].
    + exfalso. destruct (proj1 GO (ex_intro _ cols eq_refl) (column null 0)) as [_ Q2].
      * apply in_map. apply in_seq. destruct (columns data); [contradiction|cbn; lia].
      * unfold column in Q2. rewrite map_length in Q2. lia.
    + f_equal. now apply GE.
Qed.
(*@ C85 The -q option writes the cleaned data with the source's flags and stations, whatever the target held before; declining keeps
    the target; a failing step or an incomplete source leaves it untouched. *)
Lemma main_qc_target : forall {T K} `{Label K} k yes qc latlon data flag (src old : target T K (Z * list (option R))),
  (forall out, src = Some (H5 (Some latlon) (Some data) (Some flag)) -> main_qc_step qc data flag = Ok out -> 4 <= k ->
     old = None \/ yes = true -> main_qc k yes qc src old = (Some (H5 (Some latlon) (Some out) (Some flag)), Finished)) /\
  (forall h, old = Some h -> yes = false -> fst (main_qc k yes qc src old) = old) /\
  (forall e, src = Some (H5 (Some latlon) (Some data) (Some flag)) -> main_qc_step qc data flag = Err e -> main_qc k yes qc src old = (old, Raised e)) /\
  (src = None \/ (exists h, src = Some h /\ (h_latlon h = None \/ h_data h = None \/ h_flag h = None)) -> main_qc k yes qc src old = (old, Raised OtherError)).
Proof.
  intros T K L k yes qc latlon data flag src old. repeat split.
  - intros out -> EQ HK HO. unfold main_qc. rewrite EQ. destruct k as [|[|[|[|k]]]]; try lia.
    destruct old as [h|]; [destruct HO as [ | -> ]; [discriminate|]|]; destruct k; reflexivity.
  - intros h -> ->. unfold main_qc. destruct src as [[[s|] [d|] [f|]]|]; try reflexivity. destruct (main_qc_step qc d f); reflexivity.
  - intros e -> EQ. unfold main_qc. now rewrite EQ.
  - intros [->|([s d f] & -> & Q)]; [reflexivity|]. cbn in Q. unfold main_qc. destruct s; [|reflexivity]. destruct d; [|reflexivity]. destruct f; [|reflexivity].
    destruct Q as [Q|[Q|Q]]; discriminate.
Qed.
(*@ C85 The crash window of the -q option: interrupted right after the old target was removed nothing is left of it, and interrupted
    later the target lacks its last tables; repeating the command and agreeing gives the complete result. *)
Lemma main_qc_crash : forall {T K} `{Label K} k k' qc latlon data flag out (old : target T K (Z * list (option R))),
  let src := Some (H5 (Some latlon) (Some data) (Some flag)) in
  main_qc_step qc data flag = Ok out -> 4 <= k' ->
  (forall h, old = Some h ->
     main_qc 1 true qc src old = (None, Crashed) /\
     main_qc 2 true qc src old = (Some (H5 None (Some out) None), Crashed) /\
     main_qc 3 true qc src old = (Some (H5 None (Some out) (Some flag)), Crashed)) /\
  main_qc k' true qc src (fst (main_qc k true qc src old)) = (Some (H5 (Some latlon) (Some out) (Some flag)), Finished).
Proof.
  intros T K L k k' qc latlon data flag out old src EQ HK. split.
  - intros h ->. unfold main_qc, src. rewrite EQ. repeat split.
  - apply (proj1 (main_qc_target k' true qc latlon data flag src _)); auto.
Qed.
(*@ex C85 *)
Lemma main_ex :
  main_makeh5 demo_parse 10 10 false ["b.nc"; "c.nc"; "a.nc"]%string None =
    (Some (H5 (Some 7) (Some (Frame [1; 2] [10; 11; 12])) (Some (Frame [1; 2] [0; 0; 1]))), Finished) /\
  main_qc_step "flag" (Frame [1] [(0%Z, [Some 5%R])]) (Frame [1] [(0%Z, [Some 3%R])]) = Ok (Frame [1] [(0%Z, [None])]).
Proof.
  split; [reflexivity|]. cbn. unfold set_values, flag_qc, map2, Rleb. cbn. destruct (Rle_dec 2 3); [reflexivity|exfalso; lra].
Qed.
