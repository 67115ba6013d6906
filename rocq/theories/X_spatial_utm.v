(** spatial.py latlon2utm, utm2latlon, latlon2lcs, lcs2latlon: element-wise behaviour,
    round trips and the zone rule. *)
From Verif Require Import Prelude PreludeFacts RealBase Fl M_spatial Spec_spatial.
Local Open Scope R_scope.

(*@ C02 One point: the zone is the caller's or that of the longitude, the hemisphere is
    southern exactly for negative latitude. *)
Lemma utm_point : forall (K : Type) fwd (lat lon : R) (zone : option Z),
  exists z s e n, latlon2utm (K := K) fwd (CScalar lat) (CScalar lon) zone = Ok (SScalar (e, n, z)) /\
    (zone = Some z \/ zone = None /\ z = calc_zone lon) /\ southern lat s /\ (e, n) = fwd z s lon lat.
Proof.
  intros K fwd lat lon zone. unfold latlon2utm, latlon2utm1.
  set (z := match zone with None => calc_zone lon | Some z => z end).
  destruct (fwd z (Rltb lat 0) lon lat) as [e n] eqn:E.
  exists z, (Rltb lat 0), e, n. split; [easy|]. split; [unfold z; destruct zone; tauto|].
  split; [|now rewrite E]. unfold southern. destruct (Rltb_spec lat 0); intuition discriminate.
Qed.

(*@ C02 Sequences: same number of rows, in order, each equal to the scalar call; the index of a
    Series is kept. *)
Lemma utm_elementwise : forall (K : Type) fwd (lat lon : coord K) (zone : option Z),
  is_sequence lat -> is_sequence lon -> length (coord_vals lat) = length (coord_vals lon) -> ~ empty_series lat ->
  exists s, latlon2utm fwd lat lon zone = Ok s /\ same_shape lat s /\
    length (rows_of s) = length (coord_vals lat) /\
    forall i la lo, nth_error (coord_vals lat) i = Some la -> nth_error (coord_vals lon) i = Some lo ->
      exists r, nth_error (rows_of s) i = Some r /\
                latlon2utm (K := K) fwd (CScalar la) (CScalar lo) zone = Ok (SScalar r).
Proof.
  intros K fwd lat lon zone Sa So EL NE.
  assert (EM : forall i la lo, nth_error (coord_vals lat) i = Some la -> nth_error (coord_vals lon) i = Some lo ->
     nth_error (map (fun p => latlon2utm1 fwd zone (fst p) (snd p)) (combine (coord_vals lat) (coord_vals lon))) i
     = Some (latlon2utm1 fwd zone la lo)).
  { intros i la lo Ha Ho.
    assert (Hc : nth_error (combine (coord_vals lat) (coord_vals lon)) i = Some (la, lo)).
    { revert i Ha Ho. generalize (coord_vals lat) (coord_vals lon). induction l as [|a l IH]; intros [|b l'] [|i]; cbn; try easy.
      - now intros [= ->] [= ->].
      - apply IH. }
    now rewrite (map_nth_error _ _ _ Hc). }
  assert (LM : length (map (fun p => latlon2utm1 fwd zone (fst p) (snd p)) (combine (coord_vals lat) (coord_vals lon)))
               = length (coord_vals lat)) by (rewrite map_length, combine_length, EL; apply Nat.min_id).
  destruct lat as [|la|ia la]; [easy| |]; (destruct lon as [|lo|io lo]; [easy| |]);
    cbn [coord_vals] in *; unfold latlon2utm; cbn [coord_len coord_vals];
    rewrite (proj2 (Nat.eqb_eq _ _) EL); cbn [negb];
    try (destruct (map _ (combine la lo)) as [|r0 rs] eqn:EMap;
         [destruct la as [|x la]; [elim NE; now exists ia|]; destruct lo; discriminate|rewrite <- EMap in *]);
    (eexists; split; [reflexivity|]; split; [reflexivity|]; split; [exact LM|]);
    intros i a o Ha Ho; exists (latlon2utm1 fwd zone a o); split; auto; now apply EM.
Qed.

(*@ C02 Sequences of different lengths and an empty Series raise ValueError, and nothing else does. *)
Lemma utm_length_mismatch : forall (K : Type) fwd (lat lon : coord K) (zone : option Z),
  is_sequence lat -> is_sequence lon ->
  (latlon2utm fwd lat lon zone = Err ValueError <-> length (coord_vals lat) <> length (coord_vals lon) \/ empty_series lat).
Proof.
  intros K fwd lat lon zone Sa So.
  destruct lat as [|la|ia la]; [easy| |]; (destruct lon as [|lo|io lo]; [easy| |]);
  unfold latlon2utm; cbn [coord_len coord_vals]; destruct (Nat.eqb_spec (length la) (length lo)) as [E|E]; cbn [negb]; try (split; [now left|reflexivity]).
  1, 2: split; [discriminate|]; intros [X|[i X]]; [contradiction|discriminate].
  all: destruct la as [|a la]; [destruct lo; [|discriminate]; split; [right; now exists ia|reflexivity]|].
  all: destruct lo as [|b lo]; [discriminate|]; cbn [combine map]; split; [discriminate|]; intros [X|[i X]]; [contradiction|discriminate].
Qed.

(*@ C02 A sequence with a single number, either way round, raises TypeError. *)
Lemma utm_mixed : forall (K : Type) fwd (lat lon : coord K) (zone : option Z),
  (is_sequence lat <-> ~ is_sequence lon) -> latlon2utm fwd lat lon zone = Err TypeError.
Proof. intros K fwd [la|la|ia la] [lo|lo|io lo] zone H; cbn in H; try reflexivity; exfalso; tauto. Qed.

(** A concrete invertible projection: equirectangular about the central meridian, with the
    10 000 km false northing of the southern UTM zones. *)
Definition eq_fwd (z : Z) (s : bool) (lon lat : R) : R * R :=
  (100000 * (lon - (6 * IZR z - 183)), 100000 * lat + (if s then 10000000 else 0)).
Definition eq_inv (z : Z) (s : bool) (e n : R) : R * R :=
  (e / 100000 + (6 * IZR z - 183), (n - (if s then 10000000 else 0)) / 100000).
Lemma eq_undoes z s lat lon : undoes eq_fwd eq_inv z s lat lon.
Proof. unfold undoes, eq_fwd, eq_inv. cbn [fst snd]. f_equal; field. Qed.

(*@ex C02 *)
Lemma utm_two_sites :
  exists s, latlon2utm (K := nat) eq_fwd (CSeries [7; 9]%nat [40; -30]) (CArray [-105; 10]) None = Ok (SFrame [7; 9]%nat s) /\ length s = 2%nat.
Proof. eexists. split; reflexivity. Qed.

(*@ C03 utm2latlon of sequences: one row per position, in order, each the scalar call; a Series keeps its index and anything else
    gives a list; other lengths raise ValueError, a sequence with a scalar TypeError. *)
Lemma utm_inverse_rows : forall (K : Type) inv (e n : coord K) z s,
  (forall ee nn, utm2latlon (K := K) inv (CScalar ee) (CScalar nn) z s = Ok (SScalar (snd (inv z s ee nn), fst (inv z s ee nn)))) /\
  (is_sequence e -> is_sequence n -> length (coord_vals e) = length (coord_vals n) ->
     exists out, utm2latlon inv e n z s = Ok out /\ same_shape e out /\ length (rows_of out) = length (coord_vals e) /\
       forall i ee nn, nth_error (coord_vals e) i = Some ee -> nth_error (coord_vals n) i = Some nn ->
         nth_error (rows_of out) i = Some (snd (inv z s ee nn), fst (inv z s ee nn))) /\
  (is_sequence e -> is_sequence n -> length (coord_vals e) <> length (coord_vals n) -> utm2latlon inv e n z s = Err ValueError) /\
  (is_sequence e <-> ~ is_sequence n -> utm2latlon inv e n z s = Err TypeError).
Proof.
  intros K inv e n z s.
  assert (P1 : forall a b, utm2latlon1 inv z s a b = (snd (inv z s a b), fst (inv z s a b))).
  { intros a b. unfold utm2latlon1. now destruct (inv z s a b). }
  split; [intros; unfold utm2latlon; now rewrite P1|].
  assert (EM : forall es ns i ee nn, nth_error es i = Some ee -> nth_error ns i = Some nn ->
     nth_error (map (fun p => utm2latlon1 inv z s (fst p) (snd p)) (combine es ns)) i = Some (snd (inv z s ee nn), fst (inv z s ee nn))).
  { induction es as [|a es IH]; intros [|b ns] [|i] ee nn; cbn; try easy; [|apply IH]. intros [= ->] [= ->]. now rewrite P1. }
  split; [|split].
  - intros Se Sn L. destruct e as [|es|ie es]; [easy| |]; (destruct n as [|ns|ix ns]; [easy| |]); cbn [coord_vals] in *; unfold utm2latlon; cbn [coord_len coord_vals];
      rewrite (proj2 (Nat.eqb_eq _ _) L); cbn [negb]; (eexists; split; [reflexivity|]; split; [reflexivity|]; split; [|intros; now apply EM]);
      cbn [rows_of]; rewrite map_length, combine_length, L; apply Nat.min_id.
  - intros Se Sn L. destruct e as [|es|ie es]; [easy| |]; (destruct n as [|ns|ix ns]; [easy| |]); cbn [coord_vals] in *; unfold utm2latlon; cbn [coord_len];
      rewrite (proj2 (Nat.eqb_neq _ _) L); reflexivity.
  - intros H. destruct e as [|es|ie es]; destruct n as [|ns|ix ns]; unfold utm2latlon; cbn in *; tauto || reflexivity.
Qed.

(*@ C03 Scalar round trip, for the matching hemisphere. *)
Lemma utm_round_trip : forall (K : Type) fwd inv (lat lon : R) (zone : option Z) e n z s,
  latlon2utm (K := K) fwd (CScalar lat) (CScalar lon) zone = Ok (SScalar (e, n, z)) ->
  southern lat s -> undoes fwd inv z s lat lon ->
  utm2latlon (K := K) inv (CScalar e) (CScalar n) z s = Ok (SScalar (lat, lon)).
Proof.
  intros K fwd inv lat lon zone e n z s E S U. unfold latlon2utm, latlon2utm1 in E.
  set (zz := match zone with None => calc_zone lon | Some z => z end) in E.
  assert (Es : Rltb lat 0 = s).
  { unfold southern in S. destruct (Rltb_spec lat 0); destruct s; try easy; [symmetry; tauto|].
    exfalso. intuition. }
  rewrite Es in E. destruct (fwd zz s lon lat) as [e' n'] eqn:F. injection E as <- <- <-.
  unfold utm2latlon, utm2latlon1. unfold undoes in U. rewrite F in U. cbn [fst snd] in U. now rewrite U.
Qed.

(*@ C03 Sequence round trip: all sites in one hemisphere, converted in one explicit zone. *)
Lemma utm_round_trip_sequence : forall (K : Type) fwd inv (lats lons : list R) z s,
  length lats = length lons ->
  (forall la lo, In (la, lo) (combine lats lons) -> southern la s /\ undoes fwd inv z s la lo) ->
  exists rows, latlon2utm (K := K) fwd (CArray lats) (CArray lons) (Some z) = Ok (SArray rows) /\
    utm2latlon (K := K) inv (CArray (map (fun r => fst (fst r)) rows)) (CArray (map (fun r => snd (fst r)) rows)) z s
      = Ok (SArray (combine lats lons)).
Proof.
  intros K fwd inv lats lons z s EL H. unfold latlon2utm. cbn [coord_len coord_vals].
  rewrite EL, Nat.eqb_refl. cbn [negb]. eexists. split; [reflexivity|].
  unfold utm2latlon. cbn [coord_len coord_vals]. rewrite !map_length, Nat.eqb_refl. cbn [negb].
  do 2 f_equal. clear EL. induction (combine lats lons) as [|[la lo] l IH]; [easy|].
  destruct (H la lo (or_introl eq_refl)) as [S U].
  assert (Es : Rltb la 0 = s).
  { unfold southern in S. destruct (Rltb_spec la 0); destruct s; try easy; [symmetry; tauto|].
    exfalso. intuition. }
  cbn [map combine fst snd]. rewrite IH by (intros a b Hab; apply H; now right). f_equal.
  unfold latlon2utm1. rewrite Es. unfold undoes in U. destruct (fwd z s lo la) as [e n].
  cbn [fst snd] in *. unfold utm2latlon1. now rewrite U.
Qed.

(*@ C03 With the default south=False a southern site does not come back, even for a
    perfectly invertible projection. *)
Lemma utm_default_hemisphere_refuted : exists fwd inv, (forall z s lat lon, undoes fwd inv z s lat lon) /\
  exists lat lon e n z, latlon2utm (K := nat) fwd (CScalar lat) (CScalar lon) None = Ok (SScalar (e, n, z)) /\
    utm2latlon (K := nat) inv (CScalar e) (CScalar n) z false <> Ok (SScalar (lat, lon)).
Proof.
  exists eq_fwd, eq_inv. split; [intros; apply eq_undoes|].
  exists (-30), 10. unfold latlon2utm, latlon2utm1. rewrite Rltb_true by lra. do 3 eexists.
  split; [unfold eq_fwd; reflexivity|]. unfold utm2latlon, utm2latlon1, eq_inv. intro F. injection F. intros _ F'. lra.
Qed.

(*@ex C03 *)
Lemma utm_round_trip_hyp : southern (-30) true /\ southern 40 false /\ undoes eq_fwd eq_inv 13 true (-30) (-105).
Proof.
  split; [|split]; [unfold southern; split; intro; [lra|easy]|unfold southern; split; intro; [easy|lra]|apply eq_undoes].
Qed.

(*@ C04 LCS coordinates are the target's UTM coordinates minus the origin's, element by element;
    each point is projected in the explicit zone or else in its own. *)
Lemma lcs_is_utm_minus_origin : forall (K : Type) fwd (lat lon : coord K) (olat olon : R) (zone : option Z) oe on oz s,
  latlon2utm (K := K) fwd (CScalar olat) (CScalar olon) zone = Ok (SScalar (oe, on, oz)) ->
  latlon2utm fwd lat lon zone = Ok s -> rows_of s <> [] ->
  exists out, latlon2lcs fwd lat lon olat olon zone = Ok out /\ same_shape lat out /\
    length (rows_of out) = length (rows_of s) /\
    forall i e n z, nth_error (rows_of s) i = Some (e, n, z) ->
      nth_error (rows_of out) i = Some (e - oe, n - on).
Proof.
  intros K fwd lat lon olat olon zone oe on oz s EO ES NE. unfold latlon2lcs. rewrite ES. cbn [rbind].
  cbn in EO. injection EO as EO. rewrite EO.
  assert (Sh : same_shape lat s).
  { destruct lat as [x|l|ix l]; cbn in ES.
    - destruct lon; try discriminate. now injection ES as <-.
    - destruct (coord_len lon); try discriminate. destruct (negb _); try discriminate. now injection ES as <-.
    - destruct (coord_len lon); try discriminate. destruct (negb _); try discriminate. destruct (map _ _); [discriminate|]. now injection ES as <-. }
  destruct s as [r|[|r l]|idx l]; [| easy | | ]; (eexists; split; [reflexivity|]);
  cbn [rows_of] in *; (split; [now destruct lat|]); rewrite ?map_length; (split; [reflexivity|]);
  intros i e n z Hi.
  - destruct i as [|[|]]; cbn in Hi; try discriminate. injection Hi as ->. reflexivity.
  - now rewrite (map_nth_error _ _ _ Hi).
  - now rewrite (map_nth_error _ _ _ Hi).
Qed.

(*@ C04 The origin maps to (0, 0). *)
Lemma lcs_origin_zero : forall (K : Type) fwd (olat olon : R) (zone : option Z),
  latlon2lcs (K := K) fwd (CScalar olat) (CScalar olon) olat olon zone = Ok (SScalar (0, 0)).
Proof.
  intros. unfold latlon2lcs, latlon2utm. destruct (latlon2utm1 fwd zone olat olon) as [[e n] z]. cbn [rbind].
  do 3 f_equal; lra.
Qed.

(*@ C04 The displacement between two targets does not depend on the origin. *)
Lemma lcs_displacement_origin_free : forall (K : Type) fwd (a b o p : R * R) (zone : option Z) xa xb ya yb,
  let lcs := fun t g => latlon2lcs (K := K) fwd (CScalar (fst t)) (CScalar (snd t)) (fst g) (snd g) zone in
  lcs a o = Ok (SScalar xa) -> lcs b o = Ok (SScalar xb) ->
  lcs a p = Ok (SScalar ya) -> lcs b p = Ok (SScalar yb) ->
  sub2 xa xb = sub2 ya yb.
Proof.
  intros K fwd a b o p zone xa xb ya yb lcs. unfold lcs, latlon2lcs, latlon2utm.
  destruct (latlon2utm1 fwd zone (fst a) (snd a)) as [[ea na] za], (latlon2utm1 fwd zone (fst b) (snd b)) as [[eb nb] zb],
    (latlon2utm1 fwd zone (fst o) (snd o)) as [[eo no] zo], (latlon2utm1 fwd zone (fst p) (snd p)) as [[ep np] zp].
  cbn [rbind]. intros [= <-] [= <-] [= <-] [= <-]. unfold sub2. cbn [fst snd]. f_equal; lra.
Qed.

(*@ C04 The documented rule "zone obtained from origin longitude if not specified" is false: a
    target in the next zone is projected in its own zone. *)
Lemma lcs_zone_from_origin_refuted : exists fwd inv, (forall z s lat lon, undoes fwd inv z s lat lon) /\
  exists lat lon olat olon,
    latlon2lcs (K := nat) fwd (CScalar lat) (CScalar lon) olat olon None <>
    latlon2lcs (K := nat) fwd (CScalar lat) (CScalar lon) olat olon (Some (calc_zone olon)).
Proof.
  exists eq_fwd, eq_inv. split; [intros; apply eq_undoes|].
  exists 40, (-101), 40, (-103).
  assert (Z1 : calc_zone (-103) = 13%Z).
  { unfold calc_zone. replace (py_int _) with 13%Z; [reflexivity|]. symmetry. unfold py_int. rewrite Rleb_true by lra.
    destruct (base_Int_part ((-103 - -180) / 6 + 1)).
    set (k := Int_part ((-103 - -180) / 6 + 1)) in *.
    assert (12 < k < 14)%Z by (split; apply lt_IZR; lra). lia. }
  assert (Z2 : calc_zone (-101) = 14%Z).
  { unfold calc_zone. replace (py_int _) with 14%Z; [reflexivity|]. symmetry. unfold py_int. rewrite Rleb_true by lra.
    destruct (base_Int_part ((-101 - -180) / 6 + 1)).
    set (k := Int_part ((-101 - -180) / 6 + 1)) in *.
    assert (13 < k < 15)%Z by (split; apply lt_IZR; lra). lia. }
  unfold latlon2lcs, latlon2utm, latlon2utm1. rewrite Z1, Z2. rewrite Rltb_false by lra.
  unfold eq_fwd. cbn [rbind]. intro F. injection F. lra.
Qed.

(*@ex C04 *)
Lemma lcs_example : exists oe on s,
  latlon2utm (K := nat) eq_fwd (CScalar 40) (CScalar (-103)) (Some 13%Z) = Ok (SScalar (oe, on, 13%Z)) /\
  latlon2utm (K := nat) eq_fwd (CArray [41; 39]) (CArray [-102; -104]) (Some 13%Z) = Ok s /\ rows_of s <> [].
Proof. do 3 eexists. split; [reflexivity|]. split; [reflexivity|]. easy. Qed.

(*@ C05 Round trip when target and origin share the hemisphere and the zone used for both is the
    origin's own zone (none given and target in the same zone, or given explicitly). *)
Lemma lcs_round_trip : forall (K : Type) fwd inv (lat lon olat olon : R) (zone : option Z) e n s,
  southern lat s -> southern olat s ->
  (zone = None /\ calc_zone lon = calc_zone olon \/ zone = Some (calc_zone olon)) ->
  undoes fwd inv (calc_zone olon) s lat lon ->
  latlon2lcs (K := K) fwd (CScalar lat) (CScalar lon) olat olon zone = Ok (SScalar (e, n)) ->
  lcs2latlon (K := K) fwd inv (CScalar e) (CScalar n) olat olon zone = Ok (LPoint lat lon).
Proof.
  intros K fwd inv lat lon olat olon zone e n s S SO Z U E.
  assert (Es : forall l, southern l s -> Rltb l 0 = s).
  { intros l Sl. unfold southern in Sl. destruct (Rltb_spec l 0); destruct s; try easy; [symmetry; tauto|].
    exfalso. intuition. }
  unfold latlon2lcs, latlon2utm, latlon2utm1 in E. unfold lcs2latlon, latlon2utm1.
  rewrite (Es _ S), (Es _ SO) in E. rewrite (Es _ SO).
  assert (Zt : match zone with None => calc_zone lon | Some z => z end = calc_zone olon) by (destruct Z as [[-> ->]| ->]; easy).
  assert (Zo : match zone with None => calc_zone olon | Some z => z end = calc_zone olon) by (destruct Z as [[-> _]| ->]; easy).
  rewrite Zt, Zo in E. rewrite Zo. unfold undoes in U.
  destruct (fwd (calc_zone olon) s olon olat) as [eo no]. destruct (fwd (calc_zone olon) s lon lat) as [et nt].
  cbn [rbind] in E. injection E as <- <-. cbn [fst snd] in U.
  unfold utm2latlon, utm2latlon1. replace (eo + (et - eo)) with et by lra. replace (no + (nt - no)) with nt by lra.
  now rewrite U.
Qed.

(*@ C05 With an explicit zone other than the origin's, the round trip fails even for a
    perfectly invertible projection: the origin is converted in its own zone. *)
Lemma lcs_explicit_zone_refuted : exists fwd inv, (forall z s lat lon, undoes fwd inv z s lat lon) /\
  exists lat lon olat olon z e n,
    latlon2lcs (K := nat) fwd (CScalar lat) (CScalar lon) olat olon (Some z) = Ok (SScalar (e, n)) /\
    lcs2latlon (K := nat) fwd inv (CScalar e) (CScalar n) olat olon (Some z) <> Ok (LPoint lat lon).
Proof.
  exists eq_fwd, eq_inv. split; [intros; apply eq_undoes|].
  exists 40, (-103), 40, (-101), 13%Z.
  unfold latlon2lcs, latlon2utm, latlon2utm1, lcs2latlon, latlon2utm1, eq_fwd. rewrite Rltb_false by lra.
  do 2 eexists. split; [reflexivity|]. cbn [rbind].
  unfold utm2latlon, utm2latlon1, eq_inv. intro F. injection F. intros F' _.
  assert (Z2 : calc_zone (-101) = 14%Z).
  { unfold calc_zone. replace (py_int _) with 14%Z; [reflexivity|]. symmetry. unfold py_int. rewrite Rleb_true by lra.
    destruct (base_Int_part ((-101 - -180) / 6 + 1)).
    set (k := Int_part ((-101 - -180) / 6 + 1)) in *.
    assert (13 < k < 15)%Z by (split; apply lt_IZR; lra). lia. }
  rewrite Z2 in F'. lra.
Qed.

(*@ C05 lcs2latlon is not vectorised: an array of targets is rejected unless it has exactly two
    rows, in which case the two rows are returned in place of (lats, lons). *)
Lemma lcs_array_unsupported : forall (K : Type) fwd inv (es ns : list R) (olat olon : R) (zone : option Z),
  length es = length ns ->
  (length es <> 2%nat -> lcs2latlon (K := K) fwd inv (CArray es) (CArray ns) olat olon zone = Err ValueError) /\
  (forall e1 e2 n1 n2, es = [e1; e2] -> ns = [n1; n2] ->
     exists p q, lcs2latlon (K := K) fwd inv (CScalar e1) (CScalar n1) olat olon zone = Ok (LPoint (fst p) (snd p)) /\
       lcs2latlon (K := K) fwd inv (CScalar e2) (CScalar n2) olat olon zone = Ok (LPoint (fst q) (snd q)) /\
       lcs2latlon (K := K) fwd inv (CArray es) (CArray ns) olat olon zone = Ok (LTwoRows p q)).
Proof.
  intros K fwd inv es ns olat olon zone EL. split.
  - intro N2. unfold lcs2latlon. destruct (latlon2utm1 fwd None olat olon) as [[eo no] zo].
    unfold utm2latlon. cbn [coord_len coord_vals]. rewrite !map_length, EL, Nat.eqb_refl. cbn [negb rbind].
    destruct es as [|? [|? [|? ?]]]; destruct ns as [|? [|? [|? ?]]]; cbn in EL, N2 |- *; easy || lia.
  - intros e1 e2 n1 n2 -> ->. unfold lcs2latlon. destruct (latlon2utm1 fwd None olat olon) as [[eo no] zo].
    unfold utm2latlon. cbn [coord_len coord_vals length map combine negb Nat.eqb fst snd].
    set (zz := match zone with None => _ | Some z => z end).
    destruct (utm2latlon1 inv zz (Rltb olat 0) (eo + e1) (no + n1)) as [la1 lo1],
             (utm2latlon1 inv zz (Rltb olat 0) (eo + e2) (no + n2)) as [la2 lo2].
    exists (la1, lo1), (la2, lo2). cbn [rbind fst snd]. easy.
Qed.

(*@ex C05 *)
Lemma lcs_round_trip_hyp : southern 40 false /\ southern 41 false /\
  Some (calc_zone (-103)) = Some (calc_zone (-103)) /\ undoes eq_fwd eq_inv (calc_zone (-103)) false 41 (-101).
Proof. repeat split; try apply eq_undoes; unfold southern; intro; try easy; lra. Qed.
