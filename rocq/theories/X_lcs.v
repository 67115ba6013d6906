(** latlon2lcs with one origin, one origin per target, and labelled origins. *)
From Coq Require Import Lia Lra.
From Verif Require Import Prelude PreludeFacts RealBase Fl M_spatial Spec_spatial Spec_lcs M_lcs.
Local Open Scope R_scope.

Section Aux.
  Context {K : Type} `{Label K}.
  Variable fwd : Z -> bool -> R -> R -> R * R.

  Definition upts (zone : option Z) (lat lon : coord K) : list (R * R) :=
    map fst (map (fun p => latlon2utm1 fwd zone (fst p) (snd p)) (combine (coord_vals lat) (coord_vals lon))).

  Definition reshape {A} (c : coord K) (d : list A) (a : A) : shaped K A :=
    match c with CScalar _ => SScalar (hd a d) | CArray _ => SArray d | CSeries i _ => SFrame i d end.

  Lemma conv_ok lat lon zone a : points lat lon ->
    exists u, latlon2utm fwd lat lon zone = Ok u /\ extract_en u = Ok (reshape lat (upts zone lat lon) a).
  Proof.
    unfold upts. destruct lat as [la|la|ia la], lon as [lo|lo|io lo]; cbn [points]; try easy; unfold latlon2utm; cbn [coord_len coord_vals].
    - intros _. eexists. split; [reflexivity|]. cbn. reflexivity.
    - intros [E N]. rewrite (proj2 (Nat.eqb_eq _ _) E). cbn [negb]. eexists. split; [reflexivity|].
      destruct la as [|x la]; [easy|]. destruct lo as [|y lo]; [discriminate|]. reflexivity.
    - intros [E N]. rewrite (proj2 (Nat.eqb_eq _ _) E). cbn [negb]. eexists. split; [reflexivity|].
      destruct la as [|x la]; [easy|]. destruct lo as [|y lo]; [discriminate|]. reflexivity.
    - intros [E N]. rewrite (proj2 (Nat.eqb_eq _ _) E). cbn [negb].
      destruct la as [|x la]; [easy|]. destruct lo as [|y lo]; [discriminate|]. eexists. split; reflexivity.
    - intros [E N]. rewrite (proj2 (Nat.eqb_eq _ _) E). cbn [negb].
      destruct la as [|x la]; [easy|]. destruct lo as [|y lo]; [discriminate|]. eexists. split; reflexivity.
  Qed.

  (* What the conversion and the extraction do on anything that is not [points]. *)
  Lemma conv_bad (lat lon : coord K) zone : ~ points lat lon ->
    (mixed lat lon /\ latlon2utm fwd lat lon zone = Err TypeError) \/
    (~ mixed lat lon /\ latlon2utm fwd lat lon zone = Err ValueError) \/
    (~ mixed lat lon /\ latlon2utm fwd lat lon zone = Ok (SArray []) /\ coord_vals lat = [] /\ coord_vals lon = []).
  Proof.
    destruct lat as [la|la|ia la], lon as [lo|lo|io lo]; cbn [points mixed]; try (intros; left; easy); try tauto;
      unfold latlon2utm; cbn [coord_len coord_vals]; intro N; right; destruct (Nat.eqb_spec (length la) (length lo)) as [E|E]; cbn [negb];
      try (left; easy).
    1, 2: right; (destruct la; [|elim N; split; [exact E|discriminate]]); destruct lo; [|discriminate]; split; [easy|]; split; [reflexivity|]; easy.
    all: left; (destruct la; [|elim N; split; [exact E|discriminate]]); destruct lo; [|discriminate]; easy.
  Qed.

  Lemma upts_length lat lon zone : points lat lon -> length (upts zone lat lon) = length (coord_vals lat).
  Proof.
    unfold upts. intro P. rewrite !map_length, combine_length.
    destruct lat, lon; cbn [points coord_vals] in *; try easy; destruct P as [E _]; rewrite E; apply Nat.min_id.
  Qed.


  Definition en_at (zone : option Z) (lat lon : coord K) (i : nat) : option (R * R) :=
    match value_at lat i, value_at lon i with Some a, Some b => Some (fst (latlon2utm1 fwd zone a b)) | _, _ => None end.

  Lemma upts_nth lat lon zone i : is_sequence lat -> points lat lon -> nth_error (upts zone lat lon) i = en_at zone lat lon i.
  Proof.
    intros S P.
    assert (V : forall (la lo : list R), nth_error (map fst (map (fun p => latlon2utm1 fwd zone (fst p) (snd p)) (combine la lo))) i =
      match nth_error la i, nth_error lo i with Some a, Some b => Some (fst (latlon2utm1 fwd zone a b)) | _, _ => None end).
    { clear. induction i as [|i IH]; intros [|a la] [|b lo]; cbn [combine map nth_error]; try reflexivity; [now destruct (nth_error la i)|apply IH]. }
    unfold upts, en_at. destruct lat as [|la|ia la], lon as [|lo|io lo]; try easy; cbn [coord_vals value_at]; apply V.
  Qed.

  Lemma lcs_point (a b oa ob : R) zone e n :
    latlon2lcs (K := K) fwd (CScalar a) (CScalar b) oa ob zone = Ok (SScalar (e, n)) <->
    sub_en (fst (latlon2utm1 fwd zone a b)) (fst (latlon2utm1 fwd zone oa ob)) = Some (e, n).
  Proof.
    unfold latlon2lcs, latlon2utm, sub_en. destruct (latlon2utm1 fwd zone a b) as [[x y] z], (latlon2utm1 fwd zone oa ob) as [[x' y'] z'].
    cbn [rbind fst snd]. split; intros [= <- <-]; reflexivity.
  Qed.

  Lemma seq_ok (lat lon olat olon : coord K) zone s a : latlon2lcs_seq fwd lat lon olat olon zone = Ok s ->
    points lat lon /\ points olat olon /\
    shift_en (reshape lat (upts zone lat lon) a) (reshape olat (upts zone olat olon) a) = Ok s.
  Proof.
    unfold latlon2lcs_seq. intro E.
    assert (Dec : forall x y : coord K, points x y \/ ~ points x y).
    { intros x y. destruct x as [|lx|ix lx], y as [|ly|iy ly]; cbn [points coord_vals]; try tauto;
        destruct (Nat.eq_dec (length lx) (length ly)), lx; (left; split; [assumption|discriminate]) || (right; intros [? ?]; congruence). }
    destruct (Dec olat olon) as [PO|PO].
    - destruct (conv_ok olat olon zone a PO) as (uo & Eo & Xo). rewrite Eo in E. cbn [rbind] in E.
      destruct (Dec lat lon) as [PT|PT].
      + destruct (conv_ok lat lon zone a PT) as (ut & Et & Xt). rewrite Et in E. cbn [rbind] in E.
        rewrite Xo in E. cbn [rbind] in E. rewrite Xt in E. cbn [rbind] in E. auto.
      + destruct (conv_bad lat lon zone PT) as [[_ X]|[[_ X]|[_ [X _]]]]; rewrite X in E; cbn [rbind] in E; try discriminate.
        rewrite Xo in E. cbn in E. discriminate.
    - destruct (conv_bad olat olon zone PO) as [[_ X]|[[_ X]|[_ [X _]]]]; rewrite X in E; cbn [rbind] in E; try discriminate.
      destruct (latlon2utm fwd lat lon zone); cbn in E; discriminate.
  Qed.

  Lemma combine_nth2 {A B} (l : list A) (m : list B) i :
    nth_error (combine l m) i = match nth_error l i, nth_error m i with Some a, Some b => Some (a, b) | _, _ => None end.
  Proof.
    revert m i. induction l as [|a l IH]; intros [|b m] [|i]; cbn; try reflexivity; [now destruct (nth_error l i)|apply IH].
  Qed.

  Lemma sub_rows_nth t o d i : sub_rows t o = Ok d ->
    length d = length t /\
    nth_error d i = match nth_error t i with
                    | Some x => match nth_error o (if Nat.eqb (length t) (length o) then i else 0%nat) with
                                | Some y => Some (sub_en x y) | None => None end
                    | None => None end.
  Proof.
    unfold sub_rows. destruct (Nat.eqb_spec (length t) (length o)) as [E|E].
    - intros [= <-]. rewrite map_length, combine_length, E, Nat.min_id. split; [reflexivity|].
      rewrite nth_error_map, combine_nth2. destruct (nth_error t i), (nth_error o i); reflexivity.
    - destruct o as [|y [|? ?]]; try discriminate. intros [= <-]. rewrite map_length. split; [reflexivity|].
      rewrite nth_error_map. cbn. now destruct (nth_error t i).
  Qed.
End Aux.

Lemma rows_char {K} `{Label K} fwd (lat lon olat olon : coord K) zone s :
  well_labelled lat -> well_labelled olat -> latlon2lcs_seq fwd lat lon olat olon zone = Ok s ->
  same_shape (leading lat olat) s /\ length (rows_of s) = length (coord_vals (leading lat olat)) /\
  forall i x, nth_error (rows_of s) i = Some x -> forall v,
    x = Some v <-> exists j t o, own_origin lat olat i j /\ en_at fwd zone lat lon i = Some t /\
      en_at fwd zone olat olon j = Some o /\ sub_en t o = Some v.
Proof.
  intros WT WO E. apply (seq_ok fwd _ _ _ _ _ _ (0, 0)) in E. destruct E as (PT & PO & E).
  pose proof (upts_length fwd lat lon zone PT) as LT. pose proof (upts_length fwd olat olon zone PO) as LO.
  pose proof (fun i => upts_nth fwd lat lon zone i) as NT. pose proof (fun i => upts_nth fwd olat olon zone i) as NO.
  assert (Fin1 : forall (f : R * R) v, Some f = Some v <-> Some f = Some v) by tauto.
  destruct lat as [a|la|ia la].
  - (* one target *)
    assert (ET : forall i, en_at fwd zone (CScalar a) lon i = Some (hd (0, 0) (upts fwd zone (CScalar a) lon))).
    { intro i. destruct lon; cbn in PT; try contradiction. reflexivity. }
    destruct olat as [oa|loa|io loa]; cbn [reshape shift_en] in E; injection E as <-; cbn [rows_of leading same_shape coord_vals length].
    + split; [exact I|]. split; [reflexivity|]. intros [|i] x; [|destruct i; discriminate]. cbn [nth_error]. intros [= <-] v.
      assert (EO : forall i, en_at fwd zone (CScalar oa) olon i = Some (hd (0, 0) (upts fwd zone (CScalar oa) olon))).
      { intro i. destruct olon; cbn in PO; try contradiction. reflexivity. }
      split.
      * intro V. exists 0%nat. do 2 eexists. split; [reflexivity|]. split; [first [apply ET|reflexivity]|]. split; [apply EO|]. exact V.
      * intros (j & t & o & _ & A & B & V). try rewrite ET in A. rewrite EO in B. injection A as <-. injection B as <-. exact V.
    + split; [exact I|]. rewrite map_length. split; [exact LO|]. intros i x Hx v. rewrite nth_error_map, (NO i I PO) in Hx.
      destruct (en_at fwd zone (CArray loa) olon i) as [o|] eqn:EO; [|discriminate]. injection Hx as <-. split.
      * intro V. exists i. do 2 eexists. split; [reflexivity|]. split; [first [apply ET|reflexivity]|]. split; [apply EO|]. exact V.
      * intros (j & t & o' & -> & A & B & V). try rewrite ET in A. rewrite EO in B. injection A as <-. injection B as <-. exact V.
    + split; [reflexivity|]. rewrite map_length. split; [exact LO|]. intros i x Hx v. rewrite nth_error_map, (NO i I PO) in Hx.
      destruct (en_at fwd zone (CSeries io loa) olon i) as [o|] eqn:EO; [|discriminate]. injection Hx as <-. split.
      * intro V. exists i. do 2 eexists. split; [reflexivity|]. split; [first [apply ET|reflexivity]|]. split; [apply EO|]. exact V.
      * intros (j & t & o' & -> & A & B & V). try rewrite ET in A. rewrite EO in B. injection A as <-. injection B as <-. exact V.
  - (* an array of targets *)
    specialize (fun i => NT i I PT).
    destruct olat as [oa|loa|io loa]; cbn [reshape shift_en] in E; cbn [leading coord_vals].
    + injection E as <-. cbn [rows_of same_shape]. split; [exact I|]. rewrite map_length. split; [exact LT|].
      intros i x Hx v. rewrite nth_error_map, NT in Hx.
      assert (EO : forall i, en_at fwd zone (CScalar oa) olon i = Some (hd (0, 0) (upts fwd zone (CScalar oa) olon))).
      { intro k. destruct olon; cbn in PO; try contradiction. reflexivity. }
      destruct (en_at fwd zone (CArray la) lon i) as [t|] eqn:ET; [|discriminate]. injection Hx as <-. split.
      * intro V. exists i. do 2 eexists. split; [reflexivity|]. split; [first [apply ET|reflexivity]|]. split; [apply EO|]. exact V.
      * intros (j & t' & o' & _ & A & B & V). try rewrite ET in A. rewrite EO in B. injection A as <-. injection B as <-. exact V.
    + destruct (sub_rows _ _) as [d|er] eqn:ES; cbn [rmap rbind] in E; [|discriminate]. injection E as <-. cbn [rows_of same_shape].
      split; [exact I|]. split; [etransitivity; [apply (sub_rows_nth _ _ _ 0 ES)|exact LT]|].
      intros i x Hx v. rewrite (proj2 (sub_rows_nth _ _ _ i ES)), NT in Hx. rewrite LT, LO in Hx. cbn [coord_vals] in Hx.
      destruct (en_at fwd zone (CArray la) lon i) as [t|] eqn:ET; [|discriminate].
      rewrite (NO _ I PO) in Hx. 
      set (jj := if Nat.eqb (length la) (length loa) then i else 0%nat) in *.
      destruct (en_at fwd zone (CArray loa) olon jj) as [o|] eqn:EO; [|discriminate]. injection Hx as <-.
      assert (Lt : (i < length la)%nat) by (change (length la) with (length (coord_vals (CArray (K := K) la))); rewrite <- LT; apply nth_error_Some; rewrite NT, ET; discriminate).
      assert (C1 : Nat.eqb (length la) (length loa) = false -> length loa = 1%nat).
      { intro Q. unfold sub_rows in ES. rewrite LT, LO in ES. cbn [coord_vals] in ES. rewrite Q in ES.
        destruct (upts fwd zone (CArray loa) olon) as [|? [|? ?]]; try discriminate. cbn in LO. now rewrite <- LO. }
      split.
      * intro V. exists jj, t, o. split; [|auto]. unfold jj. cbn [own_origin]. destruct (Nat.eqb _ _) eqn:Q; [now left|right]. split; [now apply C1|reflexivity].
      * intros (j & t' & o' & OO & A & B & V). try rewrite ET in A. injection A as <-.
        enough (j = jj) as -> by (rewrite EO in B; injection B as <-; exact V).
        assert (Lj : (j < length loa)%nat).
        { change (length loa) with (length (coord_vals (CArray (K := K) loa))). rewrite <- LO. apply nth_error_Some. rewrite (NO _ I PO), B. discriminate. }
        unfold jj. destruct (Nat.eqb_spec (length la) (length loa)) as [Q|Q].
        -- destruct OO as [OO|[O1 ->]]; [exact OO|]. lia.
        -- destruct OO as [->|[O1 ->]]; [|reflexivity]. specialize (C1 eq_refl). lia.
    + destruct (Nat.eqb_spec (length (upts fwd zone (CArray la) lon)) (length (upts fwd zone (CSeries io loa) olon))) as [Q|Q]; [|discriminate].
      destruct (sub_rows _ _) as [d|er] eqn:ES; cbn [rmap rbind] in E; [|discriminate]. injection E as <-. cbn [rows_of same_shape].
      split; [exact I|]. split; [etransitivity; [apply (sub_rows_nth _ _ _ 0 ES)|exact LT]|].
      intros i x Hx v. rewrite (proj2 (sub_rows_nth _ _ _ i ES)), NT in Hx. rewrite (proj2 (Nat.eqb_eq _ _) Q) in Hx.
      destruct (en_at fwd zone (CArray la) lon i) as [t|] eqn:ET; [|discriminate]. rewrite (NO _ I PO) in Hx.
      destruct (en_at fwd zone (CSeries io loa) olon i) as [o|] eqn:EO; [|discriminate]. injection Hx as <-. split.
      * intro V. exists i, t, o. split; [reflexivity|auto].
      * intros (j & t' & o' & -> & A & B & V). try rewrite ET in A. rewrite EO in B. injection A as <-. injection B as <-. exact V.
  - (* a Series of targets *)
    specialize (fun i => NT i I PT). destruct WT as [WT DT].
    destruct olat as [oa|loa|io loa]; cbn [reshape shift_en] in E; cbn [leading coord_vals].
    + injection E as <-. cbn [rows_of same_shape]. split; [reflexivity|]. rewrite map_length. split; [exact LT|].
      intros i x Hx v. rewrite nth_error_map, NT in Hx.
      assert (EO : forall i, en_at fwd zone (CScalar oa) olon i = Some (hd (0, 0) (upts fwd zone (CScalar oa) olon))).
      { intro k. destruct olon; cbn in PO; try contradiction. reflexivity. }
      destruct (en_at fwd zone (CSeries ia la) lon i) as [t|] eqn:ET; [|discriminate]. injection Hx as <-. split.
      * intro V. exists i. do 2 eexists. split; [reflexivity|]. split; [first [apply ET|reflexivity]|]. split; [apply EO|]. exact V.
      * intros (j & t' & o' & _ & A & B & V). try rewrite ET in A. rewrite EO in B. injection A as <-. injection B as <-. exact V.
    + destruct (sub_rows _ _) as [d|er] eqn:ES; cbn [rmap rbind] in E; [|discriminate]. injection E as <-. cbn [rows_of same_shape].
      split; [reflexivity|]. split; [etransitivity; [apply (sub_rows_nth _ _ _ 0 ES)|exact LT]|].
      intros i x Hx v. rewrite (proj2 (sub_rows_nth _ _ _ i ES)), NT in Hx. rewrite LT, LO in Hx. cbn [coord_vals] in Hx.
      destruct (en_at fwd zone (CSeries ia la) lon i) as [t|] eqn:ET; [|discriminate].
      rewrite (NO _ I PO) in Hx. 
      set (jj := if Nat.eqb (length la) (length loa) then i else 0%nat) in *.
      destruct (en_at fwd zone (CArray loa) olon jj) as [o|] eqn:EO; [|discriminate]. injection Hx as <-.
      assert (Lt : (i < length la)%nat).
      { change (length la) with (length (coord_vals (CSeries ia la))). rewrite <- LT. apply nth_error_Some. rewrite NT, ET. discriminate. }
      assert (C1 : Nat.eqb (length la) (length loa) = false -> length loa = 1%nat).
      { intro Q. unfold sub_rows in ES. rewrite LT, LO in ES. cbn [coord_vals] in ES. rewrite Q in ES.
        destruct (upts fwd zone (CArray loa) olon) as [|? [|? ?]]; try discriminate. cbn in LO. now rewrite <- LO. }
      split.
      * intro V. exists jj, t, o. split; [|auto]. unfold jj. cbn [own_origin]. destruct (Nat.eqb _ _) eqn:Q; [now left|right]. split; [now apply C1|reflexivity].
      * intros (j & t' & o' & OO & A & B & V). try rewrite ET in A. injection A as <-.
        enough (j = jj) as -> by (rewrite EO in B; injection B as <-; exact V).
        assert (Lj : (j < length loa)%nat).
        { change (length loa) with (length (coord_vals (CArray (K := K) loa))). rewrite <- LO. apply nth_error_Some. rewrite (NO _ I PO), B. discriminate. }
        unfold jj. destruct (Nat.eqb_spec (length la) (length loa)) as [Q|Q].
        -- destruct OO as [OO|[O1 ->]]; [exact OO|]. lia.
        -- destruct OO as [->|[O1 ->]]; [|reflexivity]. specialize (C1 eq_refl). lia.
    + destruct WO as [WO DO]. injection E as <-. cbn [rows_of same_shape]. split; [reflexivity|].
      rewrite map_length, combine_length, LT, WT. cbn [coord_vals]. rewrite Nat.min_id. split; [reflexivity|].
      intros i x Hx v. rewrite nth_error_map, combine_nth2, NT in Hx.
      destruct (nth_error ia i) as [k|] eqn:Ek; [|discriminate].
      destruct (en_at fwd zone (CSeries ia la) lon i) as [t|] eqn:ET; [|discriminate]. cbn [option_map fst snd] in Hx.
      assert (Hx' : x = match at_label io (upts fwd zone (CSeries io loa) olon) k with Some b => sub_en t b | None => None end) by congruence.
      clear Hx. subst x. unfold at_label.
      destruct (pos_of k io) as [j0|] eqn:Ep.
      * rewrite (NO _ I PO). assert (Lj : (j0 < length loa)%nat) by (rewrite <- WO; now apply pos_of_lt with k).
        destruct (en_at fwd zone (CSeries io loa) olon j0) as [o|] eqn:EO.
        2: { rewrite <- (NO _ I PO) in EO. apply nth_error_None in EO. rewrite LO in EO. cbn [coord_vals] in EO. lia. }
        split.
        -- intro V. exists j0, t, o. split; [|auto]. exists k. split; [exact Ek|now apply pos_of_nth].
        -- intros (j & t' & o' & (k' & A1 & A2) & A & B & V). rewrite Ek in A1. injection A1 as <-.
           rewrite (pos_of_NoDup io k j DO A2) in Ep. injection Ep as ->. congruence.
      * split; [discriminate|]. intros (j & t' & o' & (k' & A1 & A2) & _). rewrite Ek in A1. injection A1 as <-.
        rewrite (pos_of_NoDup io k j DO A2) in Ep. discriminate.
Qed.

(*@ C106 Every answered row is the target measured from its own origin, exactly as the one-point call would
    measure it; a row is NaN exactly when the target has no origin of its own. The answer has the targets' shape
    and index (the origins' for a single target). *)
Lemma lcs_rows : forall (K : Type) (LK : Label K) fwd (lat lon olat olon : coord K) (zone : option Z) s,
  well_labelled lat -> well_labelled olat -> latlon2lcs_seq fwd lat lon olat olon zone = Ok s ->
  same_shape (leading lat olat) s /\ length (rows_of s) = length (coord_vals (leading lat olat)) /\
  forall i x, nth_error (rows_of s) i = Some x -> forall e n,
    x = Some (e, n) <-> exists j a b oa ob, own_origin lat olat i j /\
      value_at lat i = Some a /\ value_at lon i = Some b /\ value_at olat j = Some oa /\ value_at olon j = Some ob /\
      latlon2lcs (K := K) fwd (CScalar a) (CScalar b) oa ob zone = Ok (SScalar (e, n)).
Proof.
  intros K LK fwd lat lon olat olon zone s WT WO E. destruct (rows_char fwd lat lon olat olon zone s WT WO E) as (A & B & C).
  split; [exact A|]. split; [exact B|]. intros i x Hx e n. rewrite (C i x Hx (e, n)). unfold en_at. split.
  - intros (j & t & o & OO & X & Y & V). destruct (value_at lat i) as [a|] eqn:E1; [|discriminate].
    destruct (value_at lon i) as [b|] eqn:E2; [|discriminate]. destruct (value_at olat j) as [oa|] eqn:E3; [|discriminate].
    destruct (value_at olon j) as [ob|] eqn:E4; [|discriminate]. injection X as <-. injection Y as <-.
    exists j, a, b, oa, ob. apply (lcs_point (K := K)) in V. first [auto 8 | (split; [exact OO|]; repeat (split; [first [assumption|reflexivity]|]); exact V)].
  - intros (j & a & b & oa & ob & OO & -> & -> & E3 & E4 & V). exists j. do 2 eexists. split; [exact OO|]. split; [reflexivity|].
    rewrite E3, E4. split; [reflexivity|]. now apply lcs_point in V.
Qed.

Lemma points_dec {K} (x y : coord K) : points x y \/ ~ points x y.
Proof.
  destruct x as [|lx|ix lx], y as [|ly|iy ly]; cbn [points coord_vals]; try tauto;
    destruct (Nat.eq_dec (length lx) (length ly)), lx; (left; split; [assumption|discriminate]) || (right; intros [? ?]; congruence).
Qed.

Lemma sub_rows_ok t o : (exists d, sub_rows t o = Ok d) /\ (length t = length o \/ length o = 1%nat) \/
  sub_rows t o = Err ValueError /\ ~ (length t = length o \/ length o = 1%nat).
Proof.
  unfold sub_rows. destruct (Nat.eqb_spec (length t) (length o)) as [E|E]; [left; split; [eexists; reflexivity|now left]|].
  destruct o as [|y [|? ?]].
  - right. split; [reflexivity|]. cbn in *. lia.
  - left. split; [eexists; reflexivity|now right].
  - right. split; [reflexivity|]. cbn in *. lia.
Qed.

Lemma shift_ok {K} `{Label K} fwd (lat lon olat olon : coord K) zone a : points lat lon -> points olat olon ->
  let r := shift_en (reshape lat (upts fwd zone lat lon) a) (reshape olat (upts fwd zone olat olon) a) in
  (exists s, r = Ok s) /\ compatible lat olat \/ r = Err ValueError /\ ~ compatible lat olat.
Proof.
  intros PT PO. pose proof (upts_length fwd lat lon zone PT) as LT. pose proof (upts_length fwd olat olon zone PO) as LO.
  destruct lat as [x|la|ia la], olat as [y|lo|io lo]; cbn [reshape shift_en compatible coord_vals] in *; cbv zeta;
    try (left; split; [eexists; reflexivity|exact I]).
  - destruct (sub_rows_ok (upts fwd zone (CArray la) lon) (upts fwd zone (CArray lo) olon)) as [[[d ->] C]|[-> C]]; rewrite LT, LO in C; cbn;
      [left|right]; split; [eexists; reflexivity|exact C|reflexivity|exact C].
  - rewrite LT, LO. destruct (Nat.eqb_spec (length la) (length lo)) as [E|E]; [|right; split; [reflexivity|exact E]].
    left. split; [|exact E].
    destruct (sub_rows_ok (upts fwd zone (CArray la) lon) (upts fwd zone (CSeries io lo) olon)) as [[[d ->] C]|[-> C]]; rewrite LT, LO in C; cbn;
      [eexists; reflexivity|]. elim C. now left.
  - destruct (sub_rows_ok (upts fwd zone (CSeries ia la) lon) (upts fwd zone (CArray lo) olon)) as [[[d ->] C]|[-> C]]; rewrite LT, LO in C; cbn;
      [left|right]; split; [eexists; reflexivity|exact C|reflexivity|exact C].
Qed.

(*@ C106 When there is an answer, and what is raised when there is none: a number given together with a sequence is
    a TypeError (the origin is looked at first), everything else a ValueError. *)
Lemma lcs_outcome : forall (K : Type) (LK : Label K) fwd (lat lon olat olon : coord K) (zone : option Z),
  ((exists s, latlon2lcs_seq fwd lat lon olat olon zone = Ok s) <->
     points lat lon /\ points olat olon /\ compatible lat olat) /\
  (latlon2lcs_seq fwd lat lon olat olon zone = Err TypeError <->
     mixed olat olon \/ mixed lat lon /\ length (coord_vals olat) = length (coord_vals olon) /\ ~ empty_series olat) /\
  (forall e, latlon2lcs_seq fwd lat lon olat olon zone = Err e -> e = TypeError \/ e = ValueError).
Proof.
  intros K LK fwd lat lon olat olon zone.
  assert (PM : forall x y : coord K, points x y -> ~ mixed x y) by (intros [|lx|ix lx] [|ly|iy ly]; cbn; tauto).
  unfold latlon2lcs_seq.
  destruct (points_dec olat olon) as [PO|PO].
  - assert (EL : length (coord_vals olat) = length (coord_vals olon) /\ ~ empty_series olat).
    { destruct olat as [|lx|ix lx], olon as [|ly|iy ly]; cbn in PO |- *; try tauto; (split; [tauto|]); intros [k X]; try discriminate;
        injection X as <- ->; tauto. }
    destruct (conv_ok fwd olat olon zone (0, 0) PO) as (uo & Eo & Xo). rewrite Eo. cbn [rbind].
    destruct (points_dec lat lon) as [PT|PT].
    + destruct (conv_ok fwd lat lon zone (0, 0) PT) as (ut & Et & Xt). rewrite Et. cbn [rbind]. rewrite Xo. cbn [rbind]. rewrite Xt. cbn [rbind].
      destruct (shift_ok fwd lat lon olat olon zone (0, 0) PT PO) as [[[s Es] C]|[Es C]]; rewrite Es.
      * split; [split; [auto|intros _; now exists s]|]. split; [|discriminate]. split; [discriminate|]. intros [M|[M _]]; [now apply PM in PO|now apply PM in PT].
      * split; [split; [intros [s X]; discriminate|tauto]|]. split; [|intros e [= <-]; auto].
        split; [discriminate|]. intros [M|[M _]]; [now apply PM in PO|now apply PM in PT].
    + destruct (conv_bad fwd lat lon zone PT) as [[M X]|[[M X]|[M [X _]]]]; rewrite X; cbn [rbind].
      * split; [split; [intros [s Y]; discriminate|tauto]|]. split; [|intros e [= <-]; auto]. split; [tauto|reflexivity].
      * split; [split; [intros [s Y]; discriminate|tauto]|]. split; [|intros e [= <-]; auto]. split; [discriminate|].
        intros [Q|[Q _]]; [now apply PM in PO|contradiction].
      * rewrite Xo. cbn. split; [split; [intros [s Y]; discriminate|tauto]|]. split; [|intros e [= <-]; auto]. split; [discriminate|].
        intros [Q|[Q _]]; [now apply PM in PO|contradiction].
  - destruct (conv_bad fwd olat olon zone PO) as [[M X]|[[M X]|[M [X [V1 V2]]]]]; rewrite X; cbn [rbind].
    + split; [split; [intros [s Y]; discriminate|tauto]|]. split; [|intros e [= <-]; auto]. split; [tauto|reflexivity].
    + split; [split; [intros [s Y]; discriminate|tauto]|]. split; [|intros e [= <-]; auto]. split; [discriminate|].
      intros [Q|(_ & Q1 & Q2)]; [contradiction|]. exfalso.
      destruct olat as [|lx|ix lx], olon as [|ly|iy ly]; cbn in M, PO, Q1, Q2, X; try tauto; rewrite Q1, Nat.eqb_refl in X; try discriminate;
        (destruct lx; [now apply Q2; exists ix|]); apply PO; (split; [exact Q1|discriminate]).
    + assert (ES : ~ empty_series olat).
      { intros [ix ->]. destruct olon; cbn in X; try discriminate; destruct l; discriminate. }
      destruct (points_dec lat lon) as [PT|PT].
      * destruct (conv_ok fwd lat lon zone (0, 0) PT) as (ut & Et & Xt). rewrite Et. cbn.
        split; [split; [intros [s Y]; discriminate|tauto]|]. split; [|intros e [= <-]; auto]. split; [discriminate|].
        intros [Q|[Q _]]; [contradiction|now apply PM in PT].
      * destruct (conv_bad fwd lat lon zone PT) as [[M2 X2]|[[M2 X2]|[M2 [X2 _]]]]; rewrite X2; cbn.
        -- split; [split; [intros [s Y]; discriminate|tauto]|]. split; [|intros e [= <-]; auto]. split; [|reflexivity].
           intros _. right. rewrite V1, V2. auto.
        -- split; [split; [intros [s Y]; discriminate|tauto]|]. split; [|intros e [= <-]; auto]. split; [discriminate|]. tauto.
        -- split; [split; [intros [s Y]; discriminate|tauto]|]. split; [|intros e [= <-]; auto]. split; [discriminate|]. tauto.
Qed.

(*@ C106 With a single origin this is the one-origin function, errors included. *)
Lemma lcs_one_origin : forall (K : Type) (LK : Label K) fwd (lat lon : coord K) (olat olon : R) (zone : option Z),
  latlon2lcs_seq fwd lat lon (CScalar olat) (CScalar olon) zone =
  match latlon2lcs fwd lat lon olat olon zone with
  | Ok (SScalar p) => Ok (SScalar (Some p))
  | Ok (SArray l) => Ok (SArray (map Some l))
  | Ok (SFrame idx l) => Ok (SFrame idx (map Some l))
  | Err e => Err e
  end.
Proof.
  intros K LK fwd lat lon olat olon zone. unfold latlon2lcs_seq, latlon2lcs. cbn [latlon2utm rbind].
  destruct (latlon2utm1 fwd zone olat olon) as [[x y] z]. destruct (latlon2utm fwd lat lon zone) as [[r|[|r l]|idx l]|e]; cbn [rbind extract_en fst]; try reflexivity.
  - destruct r as [[x' y'] z']. reflexivity.
  - cbn [shift_en map]. destruct r as [[x' y'] z']. cbn [sub_en fst snd]. do 3 f_equal. rewrite !map_map. apply map_ext. intros [[? ?] ?]. reflexivity.
  - cbn [shift_en]. do 2 f_equal. rewrite !map_map. apply map_ext. intros [[? ?] ?]. reflexivity.
Qed.

(*@ C106 Origins given as Series are not matched by position: with the same number of targets and origins but
    disjoint labels, every answer is NaN, and with the same labels in another order each target is measured from
    the origin that carries its label. *)
Lemma lcs_position_refuted : exists (lat lon olat olon olat2 olon2 : coord Z),
  length (coord_vals lat) = length (coord_vals olat) /\ coord_vals olat2 = coord_vals olat /\
  well_labelled lat /\ well_labelled olat /\ well_labelled olat2 /\
  (forall fwd zone, exists s, latlon2lcs_seq fwd lat lon olat olon zone = Ok s /\ rows_of s = [None; None]) /\
  (forall fwd zone, exists s, latlon2lcs_seq fwd lat lon olat2 olon2 zone = Ok s /\ rows_of s = [Some (0, 0); Some (0, 0)]).
Proof.
  exists (CSeries [0; 1]%Z [40; 41]), (CSeries [0; 1]%Z [-103; -104]), (CSeries [2; 3]%Z [41; 40]), (CSeries [2; 3]%Z [-104; -103]),
    (CSeries [1; 0]%Z [41; 40]), (CSeries [1; 0]%Z [-104; -103]).
  assert (ND : forall a b : Z, a <> b -> NoDup [a; b]).
  { intros a b N. repeat constructor; cbn; intuition. }
  split; [reflexivity|]. split; [reflexivity|]. do 3 (split; [split; [reflexivity|apply ND; lia]|]). split; intros fwd zone.
  - eexists. split; [reflexivity|]. reflexivity.
  - eexists. split; [reflexivity|].
    assert (Z0 : forall p : R * R, sub_en p p = Some (0, 0)) by (intros [u v]; unfold sub_en; cbn [fst snd]; do 2 f_equal; ring).
    cbn [rows_of combine map fst snd coord_vals]. unfold at_label. cbn [pos_of lab_eqb]. cbn. now rewrite !Z0.
Qed.

(*@ex C106 *)
Lemma lcs_rows_example : exists s, latlon2lcs_seq (K := Z) (fun z s lon lat => (lon, lat)) (CArray [41; 42]) (CArray [-103; -102])
    (CSeries [5; 7]%Z [40; 40]) (CSeries [5; 7]%Z [-104; -104]) None = Ok s /\ rows_of s = [Some (1, 1); Some (2, 2)].
Proof.
  eexists. split; [reflexivity|]. cbn. unfold sub_en. cbn. repeat (apply f_equal2; [do 2 f_equal; lra|]). reflexivity.
Qed.
