(** Property theorems. The whole command line of hope_campaign.py: downloads, h5 file, quality control, crashes and repetition.
    Proofs are in the X_ file of the same name. *)
From Coq Require Import String Ascii Permutation Sorted.
From Verif Require Import Prelude PreludeFacts RealBase P_list M_cmv M_iotools M_paths M_hope M_hope_cli Spec_dataio Spec_paths X_dataio_files X_dataio_wget X_dataio_paths X_dataio_h5 X_dataio_parse.
From Verif Require Import X_dataio_cli.

(** C97. A dataset other than the three known ones (in any letter case) is a ValueError and nothing is touched. *)
Theorem C97_main_unknown :
  forall (K B : Type) (HK : Label K) decode b (v : server B) u a (s : state K B),
  ~ known_dataset (a_dataset a) -> main decode b v u a s = (s, Raised ValueError).
Proof. exact (@main_unknown). Qed.
Print Assumptions C97_main_unknown.

(** C97. A run without -q, nothing in its way, every file served and readable: it finishes; the directory exists and holds
    every file it held before and every file of the script (and the fresh metadata if asked for); with -h5 the h5 file then
    holds all netCDF files of the directory in name order, unless there was one before and the user keeps it. No other h5
    file changes. *)
Theorem C97_main_runs :
  forall (K B : Type) (HK : Label K) decode (v : server B) u a (s : state K B) lines mb ids data flag stations,
  known_dataset (a_dataset a) -> free_way (st_tree s) (a_target a) -> NoDup (dkeys (st_disk s)) -> serves v a lines mb (dget (st_disk s)) ->
  let final := served (s_web v) lines (with_metadata a mb (dget (st_disk s))) in
  readable decode ids data flag stations (fun name blocks => final name (Some blocks)) -> a_qc a = None ->
  exists N, forall b, roomy N b -> exists s' files, main decode b v u a s = (s', Finished) /\
    kind_of (st_tree s') (a_target a) = Some Folder /\ (forall name, final name (dget (st_disk s') name)) /\
    nc_names (dget (st_disk s')) files /\
    dget (st_h5 s') (h5_name a) =
      (if a_makeh5 a then
         match dget (st_h5 s) (h5_name a) with Some old => if u_h5 u then summary ids data flag stations files else Some old
                                             | None => summary ids data flag stations files end
       else dget (st_h5 s) (h5_name a)) /\
    forall name, name <> h5_name a -> dget (st_h5 s') name = dget (st_h5 s) name.
Proof. exact (@main_runs). Qed.
Print Assumptions C97_main_runs.

(** C97. Interrupted anywhere and repeated with agreement to overwrite: provided no data file was cut off in the middle, the
    second run leads to the same files and the same h5 file as a run that was never interrupted. *)
Theorem C97_main_resume :
  forall (K B : Type) (HK : Label K) decode (v : server B) u u0 b0 a (s : state K B) lines mb ids data flag stations,
  known_dataset (a_dataset a) -> free_way (st_tree s) (a_target a) -> NoDup (dkeys (st_disk s)) -> serves v a lines mb (dget (st_disk s)) ->
  let final := served (s_web v) lines (with_metadata a mb (dget (st_disk s))) in
  readable decode ids data flag stations (fun name blocks => final name (Some blocks)) -> a_qc a = None -> u_h5 u = true ->
  let left := fst (main decode b0 v u0 a s) in
  (forall name blocks, ~ (a_meta a = true /\ name = metadata_name a) -> dget (st_disk left) name = Some blocks -> final name (Some blocks)) ->
  exists N, forall b b', roomy N b -> roomy N b' -> exists s' s2,
    main decode b v u a s = (s', Finished) /\ main decode b' v u a left = (s2, Finished) /\
    (forall name, dget (st_disk s2) name = dget (st_disk s') name) /\
    (a_makeh5 a = true -> dget (st_h5 s2) (h5_name a) = dget (st_h5 s') (h5_name a)).
Proof. exact (@main_resume). Qed.
Print Assumptions C97_main_resume.

(** C97. With -q the run first does what it does without -q; if that does not finish, it ends the same way. Otherwise the cleaned
    values are written to a second h5 file, next to the flags and stations of the first, unless the user wants to keep an old
    one; when the cleaning raises or the first h5 file is absent or incomplete, it raises and nothing more is written. The first
    h5 file, the other h5 files and the downloads stay as they are. *)
Theorem C97_main_cleans :
  forall (K B : Type) (HK : Label K) decode b (v : server B) u a (s s1 : state K B) e qc,
  a_qc a = Some qc -> main decode b v u (Args (a_dataset a) (a_target a) (a_meta a) (a_makeh5 a) None) s = (s1, e) ->
  (e <> Finished -> main decode b v u a s = (s1, e)) /\
  (e = Finished -> exists s2 e2, main decode b v u a s = (s2, e2) /\ st_tree s2 = st_tree s1 /\ st_disk s2 = st_disk s1 /\
     (forall name, name <> qc_name a qc -> dget (st_h5 s2) name = dget (st_h5 s1) name) /\ qc_name a qc <> h5_name a /\
     let src := dget (st_h5 s1) (h5_name a) in
     let old := dget (st_h5 s1) (qc_name a qc) in
     let new := dget (st_h5 s2) (qc_name a qc) in
     (forall stations data flag out, src = Some (H5 (Some stations) (Some data) (Some flag)) -> main_qc_step qc data flag = Ok out ->
        (old <> None -> u_qc u = false -> new = old /\ e2 = Finished) /\
        (old = None \/ u_qc u = true -> 4 <= b_qc b -> new = Some (H5 (Some stations) (Some out) (Some flag)) /\ e2 = Finished)) /\
     (forall stations data flag er, src = Some (H5 (Some stations) (Some data) (Some flag)) -> main_qc_step qc data flag = Err er -> new = old /\ e2 = Raised er) /\
     (src = None \/ (exists h, src = Some h /\ (h_latlon h = None \/ h_data h = None \/ h_flag h = None)) -> new = old /\ e2 = Raised OtherError)).
Proof. exact (@main_cleans). Qed.
Print Assumptions C97_main_cleans.

(** C97. A run without -m that has finished can be repeated: whatever is served then (the script being the same), answering no to
    the questions, it finishes again and changes nothing at all. *)
Theorem C97_main_repeat :
  forall (K B : Type) (HK : Label K) decode b (v : server B) u a (s s1 : state K B),
  a_meta a = false -> main decode b v u a s = (s1, Finished) ->
  forall b' (v' : server B), s_script v' (upper (a_dataset a)) = s_script v (upper (a_dataset a)) -> 1 <= b_h5 b' ->
  main decode b' v' (User false false) a s1 = (s1, Finished).
Proof. exact (@main_repeat). Qed.
Print Assumptions C97_main_repeat.

(** C97. A download cut off in the middle is not noticed by the next run: there are a run and a point of interruption after which every
    repetition, whatever the user answers and wherever it stops, fails to finish, although the uninterrupted run finishes. *)
Theorem C97_main_truncated_refuted :
  exists decode (v : server nat) a (s : state nat nat) b0,
  snd (main decode many v (User true true) a s) = Finished /\
  forall b u, snd (main decode b v u a (fst (main decode b0 v (User true true) a s))) <> Finished.
Proof. exact (@main_truncated_refuted). Qed.
Print Assumptions C97_main_truncated_refuted.

(** C97. A run from an empty directory: both h5 files are written; repeating it declining changes nothing; the hypotheses of the theorems hold. *)
Example C97_main_example :
  main demo_decode many demo_server (User false false) demo_args demo_state =
    (State [(["data"; "home"]%string, Folder); (["home"]%string, Folder)] [("a.nc"%string, [1; 2])]
       [("hope.h5"%string, H5 (Some [(7%nat, (50, 6)%R); (3%nat, (51, 7)%R)])
                               (Some (Frame [7; 3]%nat [(100000000000%Z, [Some 200; Some (-999)]%R); (101000000000%Z, [Some 300%R; None])]))
                               (Some (Frame [7; 3]%nat [(100000000000%Z, [Some 1; Some 4]%R); (101000000000%Z, [Some 1; Some 3]%R)])));
        ("hope-qcnull.h5"%string, H5 (Some [(7%nat, (50, 6)%R); (3%nat, (51, 7)%R)])
                               (Some (Frame [7; 3]%nat [(100000000000%Z, [Some 200%R; None]); (101000000000%Z, [Some 300%R; None])]))
                               (Some (Frame [7; 3]%nat [(100000000000%Z, [Some 1; Some 4]%R); (101000000000%Z, [Some 1; Some 3]%R)])))], Finished) /\
  known_dataset (a_dataset demo_args) /\ free_way (st_tree demo_state) (a_target demo_args) /\ serves demo_server demo_args demo_lines [] (dget (st_disk demo_state)) /\
  (exists data flag stations, readable demo_decode [7; 3] data flag stations
     (fun name blocks => served (s_web demo_server) demo_lines (with_metadata demo_args [] (dget (st_disk demo_state))) name (Some blocks))) /\
  ~ known_dataset "melpitz".
Proof. exact (@main_example). Qed.

