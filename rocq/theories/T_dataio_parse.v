(** Property theorems. parse_file: what is read from a netCDF file, and when it cannot be.
    Proofs are in the X_ file of the same name. *)
From Coq Require Import String.
From Verif Require Import Prelude PreludeFacts RealBase M_hope M_hope_cli.
From Verif Require Import X_dataio_parse.

(** C96. parse_file succeeds exactly when all six variables are there and their shapes fit. *)
Theorem C96_parse_succeeds :
  forall (K : Type) (f : ncfile K),
  (exists out, parse_nc f = Ok out) <->
  exists ids lat lon time rsds flags,
    nc_ids f = Some ids /\ nc_lat f = Some lat /\ nc_lon f = Some lon /\ nc_time f = Some time /\ nc_rsds f = Some rsds /\ nc_flag f = Some flags /\
    fitting ids lat lon time rsds flags.
Proof. exact (@parse_succeeds). Qed.
Print Assumptions C96_parse_succeeds.

(** C96. What a successful parse_file returns: the columns of data and flag are the station identifiers in file order; row i
    of each is stamped with time i in nanoseconds and holds the unchanged row i of rsds, respectively rsds_flag; line j of
    the station table is station j with its latitude and longitude. Nothing else is returned. *)
Theorem C96_parse_reads :
  forall (K : Type) (f : ncfile K) data flag stations, parse_nc f = Ok (data, flag, stations) ->
  exists ids lat lon time rsds flags,
    nc_ids f = Some ids /\ nc_lat f = Some lat /\ nc_lon f = Some lon /\ nc_time f = Some time /\ nc_rsds f = Some rsds /\ nc_flag f = Some flags /\
    columns data = ids /\ columns flag = ids /\
    length (rows data) = length time /\ length (rows flag) = length time /\ length stations = length ids /\
    (forall i st vs, nth_error (rows data) i = Some (st, vs) <->
       exists t, nth_error time i = Some t /\ st = (t * 10 ^ 9)%Z /\ nth_error (g_rows rsds) i = Some vs) /\
    (forall i st vs, nth_error (rows flag) i = Some (st, vs) <->
       exists t, nth_error time i = Some t /\ st = (t * 10 ^ 9)%Z /\ nth_error (g_rows flags) i = Some vs) /\
    (forall j k la lo, nth_error stations j = Some (k, (la, lo)) <->
       nth_error ids j = Some k /\ nth_error lat j = Some la /\ nth_error lon j = Some lo).
Proof. exact (@parse_reads). Qed.
Print Assumptions C96_parse_reads.

(** C96. The errors: an absent station or position variable is an IndexError; then positions that do not match the stations a
    ValueError; then an absent time, value or flag variable an IndexError; then rows or columns that do not match a ValueError. *)
Theorem C96_parse_fails :
  forall (K : Type) (f : ncfile K),
  (nc_ids f = None \/ nc_lat f = None \/ nc_lon f = None -> parse_nc f = Err IndexError) /\
  (forall ids lat lon, nc_ids f = Some ids -> nc_lat f = Some lat -> nc_lon f = Some lon ->
    (length lat <> length ids \/ length lon <> length ids -> parse_nc f = Err ValueError) /\
    (length lat = length ids -> length lon = length ids ->
      (nc_time f = None \/ nc_rsds f = None \/ nc_flag f = None -> parse_nc f = Err IndexError) /\
      (forall time rsds flags, nc_time f = Some time -> nc_rsds f = Some rsds -> nc_flag f = Some flags ->
        ~ fitting ids lat lon time rsds flags -> parse_nc f = Err ValueError))).
Proof. exact (@parse_fails). Qed.
Print Assumptions C96_parse_fails.

(** C96. Two stations, two seconds, a fill value. *)
Example C96_parse_example :
  parse_nc demo_nc = Ok (Frame [7; 3]%nat [(100000000000%Z, [Some 200; Some (-999)]%R); (101000000000%Z, [Some 300%R; None])],
                         Frame [7; 3]%nat [(100000000000%Z, [Some 1; Some 4]%R); (101000000000%Z, [Some 1; Some 3]%R)],
                         [(7%nat, (50, 6)%R); (3%nat, (51, 7)%R)]) /\
  parse_nc (NcFile (Some [7; 3]%nat) (Some [50]%R) (Some [6; 7]%R) None None None) = Err ValueError /\
  parse_nc (NcFile (Some [7; 3]%nat) (Some [50; 51]%R) (Some [6; 7]%R) None None None) = Err IndexError.
Proof. exact (@parse_example). Qed.

