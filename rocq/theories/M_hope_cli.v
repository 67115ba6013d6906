(** Model of dataio/hope_campaign.py: parse_file on the variables of a netCDF file, and the whole command line _main. *)
From Coq Require Import String Ascii.
From Verif Require Import Prelude RealBase M_cmv M_iotools M_paths M_hope.
Local Open Scope Z_scope.

(** A two-dimensional array: the number of its columns and its rows; None is NaN. *)
Record grid : Type := Grid { g_width : nat; g_rows : list (list (option R)) }.
(** The variables of a netCDF file that parse_file reads; [None] for an absent variable. Times are whole seconds since 1970
    (simplification: in the range of pandas time stamps). Values come unmasked (set_auto_mask(False)), fill values included. *)
Record ncfile (K : Type) : Type := NcFile {
  nc_ids : option (list K); nc_lat : option (list R); nc_lon : option (list R);
  nc_time : option (list Z); nc_rsds : option grid; nc_flag : option grid }.
Arguments NcFile {K}. Arguments nc_ids {K}. Arguments nc_lat {K}. Arguments nc_lon {K}.
Arguments nc_time {K}. Arguments nc_rsds {K}. Arguments nc_flag {K}.
(** data['name']: IndexError for an absent variable *)
Definition variable {A} (v : option A) : result A := match v with Some x => Ok x | None => Err IndexError end.
(** pd.DataFrame(array, columns=ids, index=timeindex): the shape must fit. Stamps in nanoseconds. *)
Definition nanoseconds (t : Z) : Z := t * 1000000000.
Definition build_frame {K} (ids : list K) (times : list Z) (g : grid) : result (series_frame K) :=
  if (Nat.eqb (length (g_rows g)) (length times) && Nat.eqb (g_width g) (length ids))%bool
  then Ok (Frame ids (combine (map nanoseconds times) (g_rows g)))
  else Err ValueError.
(** hope_campaign.py:201-264 parse_file, after opening *)
Definition parse_nc {K} (f : ncfile K) : result (series_frame K * series_frame K * list (K * (R * R))) :=
  let! ids := variable (nc_ids f) in
  let! lat := variable (nc_lat f) in
  let! lon := variable (nc_lon f) in
  if negb (Nat.eqb (length lat) (length ids) && Nat.eqb (length lon) (length ids))%bool then Err ValueError else
  let stationdat := combine ids (combine lat lon) in
  let! time := variable (nc_time f) in
  let! irrad := variable (nc_rsds f) in
  let! irrad_flag := variable (nc_flag f) in
  let! data := build_frame ids time irrad in
  let! flag := build_frame ids time irrad_flag in
  Ok (data, flag, stationdat).

(** str.upper on ASCII *)
Definition upper_char (c : ascii) : ascii :=
  let n := nat_of_ascii c in if (Nat.leb 97 n && Nat.leb n 122)%bool then ascii_of_nat (n - 32) else c.
Fixpoint upper (s : string) : string := match s with EmptyString => EmptyString | String c r => String (upper_char c) (upper r) end.

Section Cli.
  Context {K B : Type} `{Label K}.
  (** netCDF4.Dataset on the blocks of a file: None when they are not a netCDF file (OSError) *)
  Variable decode : list B -> option (ncfile K).
  Let stations : Type := list (K * (R * R)).
  Let h5file : Type := h5 stations K (Z * list (option R)).

  (** hope_campaign.py:326-343 the parsed arguments (argparse itself is not modelled; --silent only affects printing). *)
  Record args : Type := Args { a_dataset : string; a_target : path; a_meta : bool; a_makeh5 : bool; a_qc : option string }.
  (** hope_campaign.py:93-113 the keys of URLS *)
  Definition datasets : list string := ["HOPE"; "HOPE-MELPITZ"; "LINDENBERG"]%string.

  (** Directories, the plain files of the target directory, and its h5 files by name. Simplification: no downloaded file has
      the name of an h5 file, and the target directory has no sub-directories. *)
  Record state : Type := State { st_tree : tree; st_disk : dir (B := B); st_h5 : list (string * h5file) }.
  (** The server: what each URL serves, the URLs of the two files of a dataset, the lines of its wget script. *)
  Record server : Type := Server { s_web : web (B := B); s_meta : string -> string; s_script : string -> option (list string) }.
  (** The user: answers to the two questions. *)
  Record user : Type := User { u_h5 : bool; u_qc : bool }.
  (** Where the run is cut off: the number of operations each phase may perform. *)
  Record budget : Type := Budget { b_dirs : nat; b_meta : nat; b_wget : nat; b_h5 : nat; b_h5_again : nat; b_qc : nat }.

  Definition file_of (d : dir (B := B)) (name : string) : result (series_frame K * series_frame K * stations) :=
    match dget d name with
    | None => Err OtherError
    | Some blocks => match decode blocks with None => Err OtherError | Some f => parse_nc f end
    end.
  (** At most [k] of the operations *)
  Definition cut {A} (k : nat) (ops : list A) (r : result unit) : list A * ending :=
    if Nat.ltb k (length ops) then (firstn k ops, Crashed)
    else (ops, match r with Ok _ => Finished | Err e => Raised e end).
  (** Writing back an h5 file *)
  Definition put_h5 (l : list (string * h5file)) (name : string) (t : target stations K (Z * list (option R))) : list (string * h5file) :=
    match t with Some h => dset l name h | None => filter (fun p => negb (String.eqb (fst p) name)) l end.
  (** Going on after a phase that finished *)
  Definition after (p : state * ending) (next : state -> state * ending) : state * ending :=
    match p with (s, Finished) => next s | r => r end.

  (** hope_campaign.py:348 ensurepath(args.target). Simplification: a file in the place of the target directory makes the
      run raise here rather than at its first access. *)
  Definition phase_dirs (k : nat) (a : args) (s : state) : state * ending :=
    let (ops, r) := ensurepath (st_tree s) (a_target a) in
    let (ops, e) := cut k ops r in
    let s' := State (made ops (st_tree s)) (st_disk s) (st_h5 s) in
    (s', match e, kind_of (st_tree s') (a_target a) with Finished, Some Folder => Finished | Finished, _ => Raised OtherError | _, _ => e end).
  (** hope_campaign.py:349-353 *)
  Definition phase_meta (k : nat) (v : server) (a : args) (s : state) : state * ending :=
    if a_meta a then
      let (ops, r) := download (s_web v) (s_meta v (upper (a_dataset a))) (a_dataset a ++ "_metadata.xml")%string in
      let (ops, e) := cut k ops r in
      (State (st_tree s) (apply_ops ops (st_disk s)) (st_h5 s), e)
    else (s, Finished).
  (** hope_campaign.py:354-355 *)
  Definition phase_wget (k : nat) (v : server) (a : args) (s : state) : state * ending :=
    match s_script v (upper (a_dataset a)) with
    | None => (s, Raised OtherError)
    | Some lines =>
      let (ops, r) := wget_fromurl (s_web v) lines (st_disk s) in
      let (ops, e) := cut k ops r in
      (State (st_tree s) (apply_ops ops (st_disk s)) (st_h5 s), e)
    end.
  Definition h5_name (a : args) : string := (lower (a_dataset a) ++ ".h5")%string.
  Definition qc_name (a : args) (qc : string) : string := (lower (a_dataset a) ++ "-qc" ++ lower qc ++ ".h5")%string.
  (** hope_campaign.py:357-373 *)
  Definition phase_h5 (b : budget) (u : user) (a : args) (s : state) : state * ending :=
    if a_makeh5 a then
      let (t, e) := main_makeh5 (file_of (st_disk s)) (b_h5 b) (b_h5_again b) (u_h5 u) (dkeys (st_disk s)) (dget (st_h5 s) (h5_name a)) in
      (State (st_tree s) (st_disk s) (put_h5 (st_h5 s) (h5_name a) t), e)
    else (s, Finished).
  (** hope_campaign.py:375-401 *)
  Definition phase_qc (k : nat) (u : user) (a : args) (s : state) : state * ending :=
    match a_qc a with
    | None => (s, Finished)
    | Some qc =>
      let (t, e) := main_qc k (u_qc u) qc (dget (st_h5 s) (h5_name a)) (dget (st_h5 s) (qc_name a qc)) in
      (State (st_tree s) (st_disk s) (put_h5 (st_h5 s) (qc_name a qc) t), e)
    end.
  (** hope_campaign.py:341-342 the check of _parse_args, and 346-401 _main *)
  Definition main (b : budget) (v : server) (u : user) (a : args) (s : state) : state * ending :=
    if negb (lab_mem (upper (a_dataset a)) datasets) then (s, Raised ValueError)
    else
      after (phase_dirs (b_dirs b) a s) (fun s =>
      after (phase_meta (b_meta b) v a s) (fun s =>
      after (phase_wget (b_wget b) v a s) (fun s =>
      after (phase_h5 b u a s) (fun s =>
      phase_qc (b_qc b) u a s)))).
End Cli.
Arguments state : clear implicits.
Arguments server : clear implicits.
