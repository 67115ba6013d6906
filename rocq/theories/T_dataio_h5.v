(** Property theorems. Building the combined data file, its refusal to overwrite, its crash points, and the command line around it.
    Proofs are in the X_ file of the same name. *)
From Coq Require Import String Reals Lra.
From Verif Require Import Prelude PreludeFacts P_list RealBase M_iotools M_hope Spec_dataio X_dataio_files X_dataio_clean.
From Verif Require Import X_dataio_h5.

(** C82. Without overwrite an existing target is refused and left as it is. *)
Theorem C82_h5_refuses :
  forall {T K W} `{Label K} (parse : string -> result (frame K W * frame K W * T)) k listing old,
  dataset_to_h5 parse k listing (Some old) false = (Some old, Raised ValueError).
Proof. exact (@h5_refuses). Qed.
Print Assumptions C82_h5_refuses.

(** C82. With overwrite or without a target, files that can be read and agree on their columns give the rows of all .nc files in name
    order with the first file's station table; with no .nc file there is no target. *)
Theorem C82_h5_builds :
  forall {T K W} `{Label K} (parse : string -> result (frame K W * frame K W * T)) data flag stations dcols fcols k listing old overwrite,
  let files := getfiles listing (Some ".nc"%string) true in
  (forall f, In f files -> parse f = Ok (data f, flag f, stations f) /\ columns (data f) = dcols /\ columns (flag f) = fcols) ->
  old = None \/ overwrite = true -> 3 * length files < k ->
  dataset_to_h5 parse k listing old overwrite =
    (match files with
     | [] => None
     | f :: _ => Some (H5 (Some (stations f)) (Some (Frame dcols (flat_map (fun x => rows (data x)) files)))
                                              (Some (Frame fcols (flat_map (fun x => rows (flag x)) files))))
     end, Finished).
Proof. exact (@h5_builds). Qed.
Print Assumptions C82_h5_builds.

(** C82. An overwriting run first removes the target and then behaves, at every crash point and whatever the files hold, like a run
    without a target: nothing of the old contents survives. *)
Theorem C82_h5_fresh :
  forall {T K W} `{Label K} (parse : string -> result (frame K W * frame K W * T)) k listing old overwrite,
  dataset_to_h5 parse (S k) listing (Some old) true = dataset_to_h5 parse k listing None overwrite /\
  dataset_to_h5 parse 0 listing (Some old) true = (Some old, Crashed).
Proof. exact (@h5_fresh). Qed.
Print Assumptions C82_h5_fresh.

(** C82. After an interrupted run the file is incomplete but exists as soon as one write was made, so that a plain re-run refuses it and
    keeps it incomplete, while an overwriting re-run gives the complete result. *)
Theorem C82_h5_crash :
  forall {T K W} `{Label K} (parse : string -> result (frame K W * frame K W * T)) k k' listing old overwrite,
  let files := getfiles listing (Some ".nc"%string) true in
  let left := fst (dataset_to_h5 parse k listing old overwrite) in
  (old = None -> 0 < k -> (exists f r x, files = f :: r /\ parse f = Ok x) ->
     exists part, left = Some part /\ dataset_to_h5 parse k' listing left false = (Some part, Raised ValueError)) /\
  (3 * length files < k' -> dataset_to_h5 parse k' listing left true = dataset_to_h5 parse k' listing None false).
Proof. exact (@h5_crash). Qed.
Print Assumptions C82_h5_crash.

(** C82. A file that cannot be read, or whose columns differ from the first one's, stops the run with the files before it in place;
    when only the flag columns differ, its data rows stay without their flags. *)
Theorem C82_h5_stops :
  forall {T K W} `{Label K} (parse : string -> result (frame K W * frame K W * T)) data flag stations dcols fcols k listing f good bad rest,
  getfiles listing (Some ".nc"%string) true = (f :: good) ++ bad :: rest -> 3 * length listing < k ->
  (forall f', In f' (f :: good) -> parse f' = Ok (data f', flag f', stations f') /\ columns (data f') = dcols /\ columns (flag f') = fcols) ->
  let drows := flat_map (fun x => rows (data x)) (f :: good) in
  let frows := flat_map (fun x => rows (flag x)) (f :: good) in
  let before := Some (H5 (Some (stations f)) (Some (Frame dcols drows)) (Some (Frame fcols frows))) in
  (forall e, parse bad = Err e -> dataset_to_h5 parse k listing None false = (before, Raised e)) /\
  (forall d g s, parse bad = Ok (d, g, s) -> columns d <> dcols -> dataset_to_h5 parse k listing None false = (before, Raised ValueError)) /\
  (forall d g s, parse bad = Ok (d, g, s) -> columns d = dcols -> columns g <> fcols ->
     dataset_to_h5 parse k listing None false =
       (Some (H5 (Some (stations f)) (Some (Frame dcols (drows ++ rows d))) (Some (Frame fcols frows))), Raised ValueError)).
Proof. exact (@h5_stops). Qed.
Print Assumptions C82_h5_stops.

Example C82_h5_ex :
  dataset_to_h5 demo_parse 10 ["b.nc"; "readme.txt"; "a.nc"]%string None false =
    (Some (H5 (Some 7) (Some (Frame [1; 2] [10; 11; 12])) (Some (Frame [1; 2] [0; 0; 1]))), Finished) /\
  dataset_to_h5 demo_parse 2 ["b.nc"; "readme.txt"; "a.nc"]%string None false = (Some (H5 (Some 7) (Some (Frame [1; 2] [10; 11])) None), Crashed) /\
  dataset_to_h5 demo_parse 10 ["b.nc"; "c.nc"; "a.nc"]%string None false =
    (Some (H5 (Some 7) (Some (Frame [1; 2] [10; 11; 12])) (Some (Frame [1; 2] [0; 0; 1]))), Raised ValueError).
Proof. exact (@h5_ex). Qed.

(** C85. The -h5 option: without a target it builds one; an existing target is rebuilt from the files if the user agrees and kept
    untouched otherwise. *)
Theorem C85_main_h5 :
  forall {T K W} `{Label K} (parse : string -> result (frame K W * frame K W * T)) k k2 yes listing old,
  main_makeh5 parse k k2 false listing (Some old) = (Some old, Finished) /\
  main_makeh5 parse k (S k2) true listing (Some old) = dataset_to_h5 parse k2 listing None false /\
  (snd (dataset_to_h5 parse k listing None false) <> Raised ValueError ->
     main_makeh5 parse k k2 yes listing None = dataset_to_h5 parse k listing None false).
Proof. exact (@main_h5). Qed.
Print Assumptions C85_main_h5.

(** C85. An inconsistent dataset is mistaken for an existing target: when the user declines the question, the run ends normally and
    leaves the incomplete file of the files before the inconsistency; when the user agrees, the same error is raised again. *)
Theorem C85_main_h5_inconsistent :
  forall {T K W} `{Label K} (parse : string -> result (frame K W * frame K W * T)) k listing part,
  3 * length listing < k -> dataset_to_h5 parse k listing None false = (part, Raised ValueError) ->
  main_makeh5 parse k k false listing None = (part, Finished) /\ main_makeh5 parse k k true listing None = (part, Raised ValueError).
Proof. exact (@main_h5_inconsistent). Qed.
Print Assumptions C85_main_h5_inconsistent.

(** C85. The quality control step: 'null' and 'flag' clean the values with null_qc and with flag_qc at level 2; any other option but
    'interp' raises ValueError. Column labels and time stamps are kept. *)
Theorem C85_main_qc_values :
  forall {K} (data flag : series_frame K) qc,
  (qc = "null"%string -> exists out, main_qc_step qc data flag = Ok out /\ columns out = columns data /\
     map fst (rows out) = map fst (rows data) /\ map snd (rows out) = null_qc (map snd (rows data))) /\
  (qc = "flag"%string -> length (rows data) = length (rows flag) -> exists out, main_qc_step qc data flag = Ok out /\ columns out = columns data /\
     map fst (rows out) = map fst (rows data) /\ map snd (rows out) = flag_qc (map snd (rows data)) (map snd (rows flag)) 2) /\
  (qc <> "null"%string -> qc <> "flag"%string -> qc <> "interp"%string -> main_qc_step qc data flag = Err ValueError).
Proof. exact (@main_qc_values). Qed.
Print Assumptions C85_main_qc_values.

(** C85. 'interp' first blanks the sentinel values and then treats the gaps of each column with the default limit of 5; it raises
    ValueError when there are fewer than 10 rows. *)
Theorem C85_main_qc_interp :
  forall {K} (data flag out null : series_frame K),
  main_qc_step "null" data flag = Ok null ->
  (main_qc_step "interp" data flag = Ok out ->
     columns out = columns data /\ map fst (rows out) = map fst (rows data) /\
     interp_nan (map (column null) (seq 0 (length (columns data)))) 5 = Ok (map (column out) (seq 0 (length (columns data))))) /\
  (columns data <> [] -> length (rows data) < 10 -> main_qc_step "interp" data flag = Err ValueError).
Proof. exact (@main_qc_interp). Qed.
Print Assumptions C85_main_qc_interp.

(** C85. The -q option writes the cleaned data with the source's flags and stations, whatever the target held before; declining keeps
    the target; a failing step or an incomplete source leaves it untouched. *)
Theorem C85_main_qc_target :
  forall {T K} `{Label K} k yes qc latlon data flag (src old : target T K (Z * list (option R))),
  (forall out, src = Some (H5 (Some latlon) (Some data) (Some flag)) -> main_qc_step qc data flag = Ok out -> 4 <= k ->
     old = None \/ yes = true -> main_qc k yes qc src old = (Some (H5 (Some latlon) (Some out) (Some flag)), Finished)) /\
  (forall h, old = Some h -> yes = false -> fst (main_qc k yes qc src old) = old) /\
  (forall e, src = Some (H5 (Some latlon) (Some data) (Some flag)) -> main_qc_step qc data flag = Err e -> main_qc k yes qc src old = (old, Raised e)) /\
  (src = None \/ (exists h, src = Some h /\ (h_latlon h = None \/ h_data h = None \/ h_flag h = None)) -> main_qc k yes qc src old = (old, Raised OtherError)).
Proof. exact (@main_qc_target). Qed.
Print Assumptions C85_main_qc_target.

(** C85. The crash window of the -q option: interrupted right after the old target was removed nothing is left of it, and interrupted
    later the target lacks its last tables; repeating the command and agreeing gives the complete result. *)
Theorem C85_main_qc_crash :
  forall {T K} `{Label K} k k' qc latlon data flag out (old : target T K (Z * list (option R))),
  let src := Some (H5 (Some latlon) (Some data) (Some flag)) in
  main_qc_step qc data flag = Ok out -> 4 <= k' ->
  (forall h, old = Some h ->
     main_qc 1 true qc src old = (None, Crashed) /\
     main_qc 2 true qc src old = (Some (H5 None (Some out) None), Crashed) /\
     main_qc 3 true qc src old = (Some (H5 None (Some out) (Some flag)), Crashed)) /\
  main_qc k' true qc src (fst (main_qc k true qc src old)) = (Some (H5 (Some latlon) (Some out) (Some flag)), Finished).
Proof. exact (@main_qc_crash). Qed.
Print Assumptions C85_main_qc_crash.

Example C85_main_ex :
  main_makeh5 demo_parse 10 10 false ["b.nc"; "c.nc"; "a.nc"]%string None =
    (Some (H5 (Some 7) (Some (Frame [1; 2] [10; 11; 12])) (Some (Frame [1; 2] [0; 0; 1]))), Finished) /\
  main_qc_step "flag" (Frame [1] [(0%Z, [Some 5%R])]) (Frame [1] [(0%Z, [Some 3%R])]) = Ok (Frame [1] [(0%Z, [None])]).
Proof. exact (@main_ex). Qed.

