(** parse_file: what is read from a netCDF file, and when it cannot be. *)
From Coq Require Import String.
From Verif Require Import Prelude PreludeFacts RealBase M_hope M_hope_cli.

(** The shapes fit together: one position per station, one row of values and of flags per time, one value per station. *)
Definition fitting {K} (ids : list K) (lat lon : list R) (time : list Z) (rsds flags : grid) : Prop :=
  length lat = length ids /\ length lon = length ids /\
  length (g_rows rsds) = length time /\ g_width rsds = length ids /\
  length (g_rows flags) = length time /\ g_width flags = length ids.

Lemma nth_combine_both {A B} (l : list A) (m : list B) : forall j x y,
  nth_error (combine l m) j = Some (x, y) <-> nth_error l j = Some x /\ nth_error m j = Some y.
Proof.
  revert m. induction l as [|a l IH]; intros m [|j] x y; cbn.
  - split; [discriminate|]. intros [E _]. discriminate.
  - split; [discriminate|]. intros [E _]. discriminate.
  - destruct m as [|b m]; cbn; split; try discriminate; [intros [_ E]; discriminate| |]; intro E; [injection E as -> ->; auto|destruct E as [E1 E2]; congruence].
  - destruct m as [|b m]; cbn; [split; [discriminate|]; intros [_ E]; discriminate|]. apply IH.
Qed.

(*@ C96 parse_file succeeds exactly when all six variables are there and their shapes fit. *)
Lemma parse_succeeds : forall (K : Type) (f : ncfile K),
  (exists out, parse_nc f = Ok out) <->
  exists ids lat lon time rsds flags,
    nc_ids f = Some ids /\ nc_lat f = Some lat /\ nc_lon f = Some lon /\ nc_time f = Some time /\ nc_rsds f = Some rsds /\ nc_flag f = Some flags /\
    fitting ids lat lon time rsds flags.
Proof.
  intros K [ids lat lon time rsds flags]. unfold parse_nc, fitting. cbn [nc_ids nc_lat nc_lon nc_time nc_rsds nc_flag]. split.
  - intros [out E]. destruct ids as [ids|], lat as [lat|], lon as [lon|]; cbn in E; try discriminate.
    destruct (Nat.eqb_spec (length lat) (length ids)) as [E1|]; [|discriminate]. destruct (Nat.eqb_spec (length lon) (length ids)) as [E2|]; [|discriminate].
    cbn in E. destruct time as [time|], rsds as [rsds|], flags as [flags|]; cbn in E; try discriminate. unfold build_frame in E.
    destruct (Nat.eqb_spec (length (g_rows rsds)) (length time)) as [E3|]; [|discriminate]. destruct (Nat.eqb_spec (g_width rsds) (length ids)) as [E4|]; [|discriminate].
    destruct (Nat.eqb_spec (length (g_rows flags)) (length time)) as [E5|]; [|discriminate]. destruct (Nat.eqb_spec (g_width flags) (length ids)) as [E6|]; [|discriminate].
    exists ids, lat, lon, time, rsds, flags. repeat (split; [first [reflexivity|assumption]|]). assumption.
  - intros (i & la & lo & t & r & g & E1 & E2 & E3 & E4 & E5 & E6 & F1 & F2 & F3 & F4 & F5 & F6). subst. cbn [variable rbind].
    unfold build_frame. rewrite F1, F2, F3, F4, F5, F6, !Nat.eqb_refl. cbn. eauto.
Qed.

(*@ C96 What a successful parse_file returns: the columns of data and flag are the station identifiers in file order; row i
    of each is stamped with time i in nanoseconds and holds the unchanged row i of rsds, respectively rsds_flag; line j of
    the station table is station j with its latitude and longitude. Nothing else is returned. *)
Lemma parse_reads : forall (K : Type) (f : ncfile K) data flag stations, parse_nc f = Ok (data, flag, stations) ->
  exists ids lat lon time rsds flags,
    nc_ids f = Some ids /\ nc_lat f = Some lat /\ nc_lon f = Some lon /\ nc_time f = Some time /\ nc_rsds f = Some rsds /\ nc_flag f = Some flags /\
    columns data = ids /\ columns flag = ids /\
    length (rows data) = length time /\ length (rows flag) = length time /\ length stations = length ids /\
    (forall i st vs, nth_error (rows data) i = Some (st, vs) <->
       exists t, nth_error time i = Some t /\ st = (t * 10 ^ 9)%Z /\ nth_error (g_rows rsds) i = Some vs) /\
    (forall i st vs, nth_error (rows flag) i = Some (st, vs) <->
       exists t, nth_error time i = Some t /\ st = (t * 10 ^ 9)%Z /\ nth_error (g_rows flags) i = Some vs) /\
    (forall j k la lo, nth_error stations j = Some (k, (la, lo)) <->
       nth_error ids j = Some k /\ nth_error lat j = Some la /\ nth_error lon j = Some lo).
Proof.
  intros K f data flag stations E. destruct (proj1 (parse_succeeds K f) (ex_intro _ _ E)) as (ids & lat & lon & time & rsds & flags & E1 & E2 & E3 & E4 & E5 & E6 & F1 & F2 & F3 & F4 & F5 & F6).
  exists ids, lat, lon, time, rsds, flags. unfold parse_nc in E. rewrite E1, E2, E3, E4, E5, E6 in E. cbn [variable rbind] in E.
  unfold build_frame in E. rewrite F1, F2, F3, F4, F5, F6, !Nat.eqb_refl in E. cbn [andb negb rbind] in E. injection E as <- <- <-.
  cbn [columns rows]. repeat (split; [first [reflexivity|assumption]|]).
  rewrite !combine_length, !map_length, F3, F5, F1, F2, !Nat.min_id. repeat (split; [reflexivity|]).
  assert (G : forall (g : list (list (option R))) i st vs, nth_error (combine (map nanoseconds time) g) i = Some (st, vs) <->
     exists t, nth_error time i = Some t /\ st = (t * 10 ^ 9)%Z /\ nth_error g i = Some vs).
  { intros g i st vs. rewrite nth_combine_both, nth_error_map. destruct (nth_error time i) as [t|]; cbn.
    - split; [intros [Et Eg]; injection Et as <-; exists t; auto|]. intros (t' & Et & -> & Eg). injection Et as <-. auto.
    - split; [intros [Et _]; discriminate|]. intros (t' & Et & _). discriminate. }
  split; [apply G|]. split; [apply G|]. intros j k la lo. now rewrite !nth_combine_both.
Qed.

(*@ C96 The errors: an absent station or position variable is an IndexError; then positions that do not match the stations a
    ValueError; then an absent time, value or flag variable an IndexError; then rows or columns that do not match a ValueError. *)
Lemma parse_fails : forall (K : Type) (f : ncfile K),
  (nc_ids f = None \/ nc_lat f = None \/ nc_lon f = None -> parse_nc f = Err IndexError) /\
  (forall ids lat lon, nc_ids f = Some ids -> nc_lat f = Some lat -> nc_lon f = Some lon ->
    (length lat <> length ids \/ length lon <> length ids -> parse_nc f = Err ValueError) /\
    (length lat = length ids -> length lon = length ids ->
      (nc_time f = None \/ nc_rsds f = None \/ nc_flag f = None -> parse_nc f = Err IndexError) /\
      (forall time rsds flags, nc_time f = Some time -> nc_rsds f = Some rsds -> nc_flag f = Some flags ->
        ~ fitting ids lat lon time rsds flags -> parse_nc f = Err ValueError))).
Proof.
  intros K [ids lat lon time rsds flags]. unfold parse_nc, fitting. cbn [nc_ids nc_lat nc_lon nc_time nc_rsds nc_flag]. split.
  - intros [-> | [-> | ->]]; [reflexivity|destruct ids; reflexivity|destruct ids, lat; reflexivity].
  - intros i la lo -> -> ->. cbn [variable rbind]. split; [|intros E1 E2; rewrite E1, E2, Nat.eqb_refl; cbn [andb negb]; split].
    + intros [N|N]; apply Nat.eqb_neq in N; rewrite N; [|rewrite Bool.andb_false_r]; reflexivity.
    + intros [-> | [-> | ->]]; [reflexivity|destruct time; reflexivity|destruct time, rsds; reflexivity].
    + intros t r g -> -> -> N. cbn [variable rbind]. unfold build_frame.
      destruct (Nat.eqb_spec (length (g_rows r)) (length t)) as [E3|]; [|reflexivity]. destruct (Nat.eqb_spec (g_width r) (length i)) as [E4|]; [|reflexivity].
      destruct (Nat.eqb_spec (length (g_rows g)) (length t)) as [E5|]; [|reflexivity]. destruct (Nat.eqb_spec (g_width g) (length i)) as [E6|]; [|reflexivity].
      exfalso. apply N. repeat split; assumption.
Qed.

Definition demo_nc : ncfile nat :=
  NcFile (Some [7; 3]%nat) (Some [50; 51]%R) (Some [6; 7]%R) (Some [100; 101]%Z)
         (Some (Grid 2 [[Some 200; Some (-999)]; [Some 300; None]]%R)) (Some (Grid 2 [[Some 1; Some 4]; [Some 1; Some 3]]%R)).
(*@ex C96 Two stations, two seconds, a fill value. *)
Lemma parse_example :
  parse_nc demo_nc = Ok (Frame [7; 3]%nat [(100000000000%Z, [Some 200; Some (-999)]%R); (101000000000%Z, [Some 300%R; None])],
                         Frame [7; 3]%nat [(100000000000%Z, [Some 1; Some 4]%R); (101000000000%Z, [Some 1; Some 3]%R)],
                         [(7%nat, (50, 6)%R); (3%nat, (51, 7)%R)]) /\
  parse_nc (NcFile (Some [7; 3]%nat) (Some [50]%R) (Some [6; 7]%R) None None None) = Err ValueError /\
  parse_nc (NcFile (Some [7; 3]%nat) (Some [50; 51]%R) (Some [6; 7]%R) None None None) = Err IndexError.
Proof. repeat split. Qed.
