(** NRCAN conversion: columns, common time base, repeated runs, and the 10 ms resampling. *)
From Coq Require Import String Ascii Reals Lra Sorting.Sorted Sorting.Permutation.
From Verif Require Import Prelude PreludeFacts P_list RealBase M_iotools M_hope M_nrcan Spec_dataio X_dataio_files X_dataio_clean X_dataio_h5.
Local Open Scope Z_scope.

Lemma starts_spec p l : starts_with p l = true <-> exists b, l = p ++ b.
Proof.
  revert l. induction p as [|a p IH]; intros l; cbn [starts_with].
  - split; [intros _; now exists l|reflexivity].
  - destruct l as [|c l]; [split; [discriminate|intros [b E]; discriminate]|].
    rewrite Bool.andb_true_iff, Ascii.eqb_eq, IH. split.
    + intros [-> [b ->]]. exists b. reflexivity.
    + intros [b E]. cbn in E. split; [congruence|]. exists b. congruence.
Qed.
Lemma contains_spec p l : contains p l = true <-> exists a b, l = a ++ p ++ b.
Proof.
  induction l as [|c l IH]; cbn [contains]; rewrite Bool.orb_true_iff, starts_spec.
  - split.
    + intros [[b E]|]; [|discriminate]. exists [], b. exact E.
    + intros (a & b & E). left. destruct a as [|x a]; [eauto|discriminate].
  - rewrite IH. split.
    + intros [[b E]|(a & b & ->)]; [exists [], b; exact E|exists (c :: a), b; reflexivity].
    + intros ([|x a] & b & E); [left; eauto|]. right. exists a, b. cbn in E. congruence.
Qed.
Lemma includes_contains s p : contains (chars p) (chars s) = true <-> includes s p.
Proof.
  rewrite contains_spec. change (chars p) with (letters p). change (chars s) with (letters s). unfold includes. split.
  - intros (a & b & E). exists (text a), (text b). apply letters_inj. now rewrite !letters_app, !letters_text.
  - intros (a & b & ->). exists (letters a), (letters b). now rewrite !letters_app.
Qed.
Lemma pieces_spec c l : exists w r, pieces c l = w :: r /\ ~ In c w /\
  ((r = [] /\ l = w) \/ exists l', l = w ++ c :: l' /\ r = pieces c l').
Proof.
  induction l as [|x l (w & r & E & N & H)]; cbn [pieces].
  - exists [], []. repeat split; auto.
  - destruct (Ascii.eqb_spec x c) as [->|D].
    + exists [], (pieces c l). repeat split; auto. right. exists l. auto.
    + rewrite E. exists (x :: w), r. split; [reflexivity|]. split; [intros [Q|Q]; congruence|]. destruct H as [[-> ->]|(l' & -> & ->)]; [left; auto|right; exists l'; auto].
Qed.
Lemma first_split_unique {A} (c : A) a b a' b' : ~ In c a -> ~ In c a' -> a ++ c :: b = a' ++ c :: b' -> a = a' /\ b = b'.
Proof.
  revert a'. induction a as [|x a IH]; intros [|x' a'] N N' E; cbn in E.
  - split; congruence.
  - exfalso. apply N'. left. congruence.
  - exfalso. apply N. left. congruence.
  - assert (x = x') by congruence. assert (E' : a ++ c :: b = a' ++ c :: b') by congruence. destruct (IH a') as [-> ->]; auto.
    + intro Q. apply N. now right.
    + intro Q. apply N'. now right.
    + now subst.
Qed.
Lemma stem_spec file : exists stem e, splitext file = (stem, e) /\ file = (stem ++ e)%string /\ extension file e.
Proof.
  destruct (splitext_spec file) as [(st & s & D & ->)|[N ->]].
  - exists st, ("." ++ s)%string. split; [reflexivity|]. split; [apply D|]. left. eauto.
  - exists file, EmptyString. split; [reflexivity|]. split; [|now right]. clear. induction file as [|c f IH]; [reflexivity|]. cbn. congruence.
Qed.
(*@ C83 A file name is taken as a sensor's unless it contains both 'latlon' and '.csv'; the sensor's label is the part of the stem between
    its first underscore and the next, and a stem without underscore raises IndexError. *)
Lemma nrcan_names : forall file stem e w, file = (stem ++ e)%string -> extension file e ->
  (is_latlon file = true <-> includes file "latlon" /\ includes file ".csv") /\
  (column_of file = Ok w <-> second_piece stem w) /\
  (lacks "_" stem -> column_of file = Err IndexError).
Proof.
  intros file stem e w EF HE. split; [unfold is_latlon; now rewrite Bool.andb_true_iff, !includes_contains|].
  assert (ES : fst (splitext file) = stem).
  { destruct (stem_spec file) as (st & e' & -> & EF' & HE'). cbn [fst]. assert (e' = e) by now apply (extension_unique file). subst e'. rewrite EF in EF'.
    apply letters_inj. apply (f_equal letters) in EF'. rewrite !letters_app in EF'. now apply app_inv_tail in EF'. }
  unfold column_of. rewrite ES. change (chars stem) with (letters stem).
  destruct (pieces_spec "_" (letters stem)) as (a & r & EP & NA & H). rewrite EP. cbn [nth_error]. split.
  - destruct H as [[-> EL]|(l' & EL & ->)].
    + split; [discriminate|]. intros (NW & b & NB & Q). exfalso. apply NA. rewrite <- EL.
      destruct Q as [->|(rest & ->)]; rewrite !letters_app; apply in_or_app; right; now left.
    + destruct (pieces_spec "_" l') as (x & r' & EP' & NX & H'). rewrite EP'. split.
      * intro Q. assert (EW : w = text x) by congruence. split; [unfold lacks; now rewrite EW, letters_text|].
        exists (text a). split; [unfold lacks; now rewrite letters_text|]. destruct H' as [[-> ->]|(l2 & -> & ->)].
        -- left. apply letters_inj. rewrite !letters_app, letters_text, EW, letters_text, EL. reflexivity.
        -- right. exists (text l2). apply letters_inj. rewrite !letters_app, EW, !letters_text, EL. reflexivity.
      * intros (NW & b & NB & Q). f_equal. apply letters_inj. rewrite letters_text.
        assert (EL3 : letters stem = letters b ++ "_"%char :: letters w \/ exists rest, letters stem = letters b ++ "_"%char :: letters w ++ "_"%char :: rest).
        { destruct Q as [->|(rest & ->)]; [left; now rewrite !letters_app|right; exists (letters rest); now rewrite !letters_app]. }
        clear Q. rewrite EL in EL3. destruct EL3 as [Q|(rest & Q)]; apply first_split_unique in Q; auto; destruct Q as [_ Q].
        -- destruct H' as [[-> ->]|(l2 & E2 & ->)]; [exact Q|]. exfalso. apply NW. rewrite <- Q, E2. apply in_or_app. right. now left.
        -- destruct H' as [[-> E2]|(l2 & E2 & ->)].
           ++ exfalso. apply NX. rewrite <- E2, Q. apply in_or_app. right. now left.
           ++ rewrite E2 in Q. apply first_split_unique in Q; auto. now destruct Q.
  - intro LK. destruct H as [[-> EL]|(l' & EL & ->)]; [reflexivity|]. exfalso. apply LK. rewrite EL. apply in_or_app. right. now left.
Qed.

(** ** Resampling *)
Lemma bin_spec t : bin t <= t < bin t + step.
Proof. unfold bin, step. pose proof (Z.mod_pos_bound t 10000000 ltac:(lia)). pose proof (Z.div_mod t 10000000 ltac:(lia)). lia. Qed.
Lemma bin_grid t : on_grid (bin t).
Proof. exists (t / step). reflexivity. Qed.
Lemma evenly_spec ts : evenly ts = true <-> every_ten_ms ts.
Proof.
  unfold every_ten_ms. induction ts as [|a ts IH]; [cbn; split; [intros _ [|i] ? ? Q; discriminate|reflexivity]|].
  destruct ts as [|b ts]; [cbn; split; [intros _ [|[|i]] ? ? Q Q'; discriminate|reflexivity]|].
  change (evenly (a :: b :: ts)) with ((b - a =? step) && evenly (b :: ts)). rewrite Bool.andb_true_iff, Z.eqb_eq, IH. change step with ten_ms. split.
  - intros [E H] [|i] x y Q Q'; [cbn in Q, Q'; assert (a = x) by congruence; assert (b = y) by congruence; subst; lia|]. exact (H i x y Q Q').
  - intro H. split; [specialize (H 0%nat a b eq_refl eq_refl); lia|]. intros i x y Q Q'. exact (H (S i) x y Q Q').
Qed.
Lemma last_at_app {V} (l : list (Z * option V)) x t : last_at (l ++ [x]) t = if fst x <=? t then snd x else last_at l t.
Proof. unfold last_at. now rewrite fold_left_app. Qed.
Lemma last_at_spec {V} (l : list (Z * option V)) t : latest l t (last_at l t).
Proof.
  induction l as [|x l IH] using rev_ind; [right; split; [reflexivity|intros ? []]|]. rewrite last_at_app.
  destruct (Z.leb_spec (fst x) t) as [C|C].
  - left. exists l, (fst x), []. split; [now destruct x|]. split; [exact C|intros ? []].
  - destruct IH as [(l1 & s & l2 & E & Hs & Hl)|[E Hl]].
    + left. exists l1, s, (l2 ++ [x]). split; [rewrite E at 1; now rewrite <- app_assoc|]. split; [exact Hs|]. intros y Q. apply in_app_or in Q. destruct Q as [Q|[<-|[]]]; auto.
    + right. split; [exact E|]. intros y Q. apply in_app_or in Q. destruct Q as [Q|[<-|[]]]; auto.
Qed.
Lemma latest_unique {V} (l : list (Z * option V)) t v v' : latest l t v -> latest l t v' -> v = v'.
Proof.
  intros [(l1 & s & l2 & E & Hs & Hl)|[-> Hl]] [(l1' & s' & l2' & E' & Hs' & Hl')|[-> Hl']].
  - rewrite E in E'. clear E. revert l1' E'. induction l1 as [|x l1 IH]; intros [|x' l1'] E; cbn in E.
    + congruence.
    + exfalso. assert (E2 : l2 = l1' ++ (s', v') :: l2') by congruence. assert (Q : t < fst (s', v')) by (apply Hl; rewrite E2; apply in_or_app; right; now left). cbn in Q. lia.
    + exfalso. assert (E2 : l2' = l1 ++ (s, v) :: l2) by congruence. assert (Q : t < fst (s, v)) by (apply Hl'; rewrite E2; apply in_or_app; right; now left). cbn in Q. lia.
    + apply (IH l1'). congruence.
  - exfalso. assert (Q : t < fst (s, v)) by (apply Hl'; rewrite E; apply in_or_app; right; now left). cbn in Q. lia.
  - exfalso. assert (Q : t < fst (s', v')) by (apply Hl; rewrite E'; apply in_or_app; right; now left). cbn in Q. lia.
  - reflexivity.
Qed.
Lemma grid_step t m : on_grid t -> on_grid (t + m * step).
Proof. intros [k ->]. exists (k + m). change step with ten_ms. lia. Qed.
Lemma grid_diff a b : on_grid a -> on_grid b -> a <= b -> exists i : nat, b = a + Z.of_nat i * step.
Proof. intros [m ->] [n ->] L. change step with ten_ms. unfold ten_ms in *. exists (Z.to_nat (n - m)). rewrite Z2Nat.id by lia. lia. Qed.
(*@ C86 Irregular samples: the labels are the multiples of 10 ms from the one at or before the first sample to the one at or before
    the last, and each holds the value of the latest sample at or before it, missing when there is none. *)
Lemma resample_value : forall {V} (l : list (Z * option V)) first last,
  hd_error l = Some first -> nth_error l (length l - 1) = Some last -> fst first <= fst last ->
  ((length l < 3)%nat \/ ~ every_ten_ms (map fst l)) ->
  (forall t v, In (t, v) (resample l) <-> on_grid t /\ fst first < t + ten_ms /\ t <= fst last /\ latest l t v) /\
  every_ten_ms (map fst (resample l)).
Proof.
  intros V l first last EF EL HFL HN. destruct l as [|p l]; [discriminate|]. cbn in EF. assert (p = first) by congruence. subst p.
  assert (ELA : List.last (first :: l) first = last).
  { assert (G : forall (m : list (Z * option V)) d x, nth_error (d :: m) (length m) = Some x -> List.last (d :: m) first = x).
    { induction m as [|y m IH]; intros d x Q; [cbn in *; congruence|]. cbn [length nth_error] in Q. exact (IH y x Q). }
    apply G. cbn [length] in EL. now rewrite Nat.sub_1_r in EL. }
  unfold resample. rewrite ELA.
  assert (EC : ((3 <=? length (first :: l))%nat && evenly (map fst (first :: l)))%bool = false).
  { destruct (Nat.leb_spec 3 (length (first :: l))) as [C|C]; [|reflexivity]. destruct (evenly (map fst (first :: l))) eqn:EE; [|reflexivity].
    apply evenly_spec in EE. destruct HN as [HN|HN]; [lia|contradiction]. }
  rewrite EC. clear EC. set (L := first :: l) in *. clearbody L.
  pose proof (bin_spec (fst first)) as B1. pose proof (bin_spec (fst last)) as B2. pose proof (bin_grid (fst first)) as G1. pose proof (bin_grid (fst last)) as G2.
  set (a := bin (fst first)) in *. set (b := bin (fst last)) in *.
  assert (AB : a <= b).
  { destruct G1 as [m Em], G2 as [n En]. rewrite Em, En in *. change step with ten_ms in *. unfold ten_ms in *. lia. }
  destruct (grid_diff a b G1 G2 AB) as [N EN].
  assert (EQ : Z.to_nat ((b - a) / step + 1) = S N).
  { rewrite EN. replace (a + Z.of_nat N * step - a) with (Z.of_nat N * step) by lia. rewrite Z.div_mul by (unfold step; lia). lia. }
  rewrite EQ. change (@fst Z (option V)) with (@fst Z (option V)) in *. split.
  - intros t v. rewrite in_map_iff. split.
    + intros (i & E & I). apply in_seq in I. assert (Et : t = a + Z.of_nat i * step) by congruence. assert (Ev : v = last_at L t) by (rewrite Et; congruence).
      split; [rewrite Et; now apply grid_step|]. change ten_ms with step. unfold step in *. split; [lia|]. split; [lia|]. rewrite Ev. apply last_at_spec.
    + intros (G & C1 & C2 & LT). change ten_ms with step in *.
      assert (AT : a <= t). { destruct G1 as [m Em], G as [n En]. rewrite Em, En in *. change step with ten_ms in *. unfold ten_ms in *. lia. }
      assert (TB : t <= b). { destruct G2 as [m Em], G as [n En]. rewrite Em, En in *. change step with ten_ms in *. unfold ten_ms in *. lia. }
      destruct (grid_diff a t G1 G AT) as [i Ei]. exists i. split.
      * rewrite <- Ei. f_equal. apply (latest_unique L t); [apply last_at_spec|exact LT].
      * apply in_seq. rewrite Ei, EN in TB. unfold step in TB. lia.
  - intros i x y Q Q'. rewrite map_map in Q, Q'. cbn [fst] in Q, Q'. rewrite nth_error_map in Q, Q'.
    destruct (nth_error (seq 0 (S N)) i) as [u|] eqn:E1; [|discriminate]. destruct (nth_error (seq 0 (S N)) (S i)) as [u'|] eqn:E2; [|discriminate].
    assert (H1 : (i < S N)%nat) by (rewrite <- (seq_length (S N) 0); apply nth_error_Some; congruence).
    assert (H2 : (S i < S N)%nat) by (rewrite <- (seq_length (S N) 0); apply nth_error_Some; congruence).
    rewrite nth_error_seq in E1, E2 by assumption. assert (u = i) by congruence. assert (u' = S i) by congruence. subst.
    cbn [option_map] in Q, Q'. assert (x = a + Z.of_nat i * step) by congruence. assert (y = a + Z.of_nat (S i) * step) by congruence. subst. change ten_ms with step. lia.
Qed.
(*@ C86 Three or more samples already exactly 10 ms apart keep their values; only their stamps move down to multiples of 10 ms. *)
Lemma resample_regular : forall {V} (l : list (Z * option V)), (3 <= length l)%nat -> every_ten_ms (map fst l) ->
  length (resample l) = length l /\
  forall i t v, nth_error l i = Some (t, v) -> exists t', nth_error (resample l) i = Some (t', v) /\ on_grid t' /\ t' <= t < t' + ten_ms.
Proof.
  intros V l HL HE. assert (E : resample l = map (fun q => (bin (fst q), snd q)) l).
  { unfold resample. destruct l as [|p l]; [reflexivity|]. apply evenly_spec in HE. rewrite HE. destruct (Nat.leb_spec 3 (length (p :: l))); [reflexivity|lia]. }
  rewrite E. split; [apply map_length|]. intros i t v Q. rewrite nth_error_map, Q. exists (bin t). split; [reflexivity|]. split; [apply bin_grid|apply bin_spec].
Qed.
(*@ C86 So the rule "a label holds the last measurement up to it" fails there: the label before an off-grid sample gets its value. *)
Lemma resample_lookahead_refuted : exists (l : list (Z * option R)) t v, In (t, v) (resample l) /\ ~ latest l t v.
Proof.
  exists [(5000000, Some 1%R); (15000000, Some 2%R); (25000000, Some 3%R)], 0, (Some 1%R). split; [left; reflexivity|].
  intro H. assert (Q : Some 1%R = None).
  { apply (latest_unique _ _ _ _ H). right. split; [reflexivity|]. intros x [<-|[<-|[<-|[]]]]; cbn; lia. }
  discriminate.
Qed.
(*@ex C86 *)
Lemma resample_ex :
  resample [(5000000, Some 1%R); (31000000, Some 2%R)] = [(0, None); (10000000, Some 1%R); (20000000, Some 1%R); (30000000, Some 1%R)].
Proof. reflexivity. Qed.

(** Labels of a resampled series never repeat. *)
Lemma evenly_increasing : forall ts i j a b, every_ten_ms ts -> nth_error ts i = Some a -> nth_error ts j = Some b -> (i <= j)%nat -> b = a + Z.of_nat (j - i) * ten_ms.
Proof.
  intros ts i j a b HE Ha Hb L. remember (j - i)%nat as d eqn:Ed. revert j b Hb L Ed. induction d as [|d IH]; intros j b Hb L Ed.
  - replace j with i in Hb by lia. assert (a = b) by congruence. lia.
  - destruct j as [|j]; [lia|]. destruct (nth_error ts j) as [c|] eqn:Ec.
    + rewrite (HE j c b Ec Hb), (IH j c Ec) by lia. lia.
    + apply nth_error_None in Ec. assert (S j < length ts)%nat by (apply nth_error_Some; congruence). lia.
Qed.
Lemma evenly_NoDup ts : every_ten_ms ts -> NoDup ts.
Proof.
  intro HE. apply NoDup_nth_error. intros i j Hi E. destruct (nth_error ts i) as [a|] eqn:Ea; [|apply nth_error_None in Ea; lia].
  destruct (Nat.le_gt_cases i j) as [C|C].
  - pose proof (evenly_increasing ts i j a a HE Ea (eq_sym E) C) as Q. unfold ten_ms in Q. lia.
  - pose proof (evenly_increasing ts j i a a HE (eq_sym E) Ea ltac:(lia)) as Q. unfold ten_ms in Q. lia.
Qed.
Lemma resample_labels {V} (l : list (Z * option V)) : every_ten_ms (map fst (resample l)).
Proof.
  destruct l as [|p l]; [intros [|i] ? ? Q; discriminate|]. unfold resample.
  destruct ((3 <=? length (p :: l))%nat && evenly (map fst (p :: l)))%bool eqn:EC.
  - apply Bool.andb_true_iff in EC. destruct EC as [_ EC]. apply evenly_spec in EC. intros i a b Qa Qb. rewrite map_map in Qa, Qb. cbn [fst] in Qa, Qb. rewrite nth_error_map in Qa, Qb.
    specialize (EC i). rewrite !nth_error_map in EC.
    destruct (nth_error (p :: l) i) as [x|]; [|discriminate]. destruct (nth_error (p :: l) (S i)) as [y|]; [|discriminate]. cbn [option_map] in *.
    specialize (EC _ _ eq_refl eq_refl). assert (bin (fst x) = a) by congruence. assert (bin (fst y) = b) by congruence. subst. rewrite EC. unfold bin. change step with ten_ms.
    replace (fst x + ten_ms) with (fst x + 1 * ten_ms) by lia. rewrite Z.div_add by (unfold ten_ms; lia). lia.
  - intros i x y Q Q'. rewrite map_map in Q, Q'. cbn [fst] in Q, Q'. rewrite nth_error_map in Q, Q'. set (M := Z.to_nat _) in *. 
    destruct (nth_error (seq 0 M) i) as [u|] eqn:E1; [|discriminate]. destruct (nth_error (seq 0 M) (S i)) as [u'|] eqn:E2; [|discriminate].
    assert (H1 : (i < M)%nat) by (rewrite <- (seq_length M 0); apply nth_error_Some; congruence).
    assert (H2 : (S i < M)%nat) by (rewrite <- (seq_length M 0); apply nth_error_Some; congruence).
    rewrite nth_error_seq in E1, E2 by assumption. assert (u = i) by congruence. assert (u' = S i) by congruence. subst u u'.
    cbn [option_map] in Q, Q'. assert (x = bin (fst p) + Z.of_nat i * step) by congruence. assert (y = bin (fst p) + Z.of_nat (S i) * step) by congruence. subst. change ten_ms with step. lia.
Qed.
Lemma lookup_spec {V} (l : list (Z * option V)) t : value_at l t (lookup l t).
Proof.
  unfold lookup, value_at. destruct (find (fun p => fst p =? t) l) as [p|] eqn:E.
  - left. apply find_some in E. destruct E as [I E]. apply Z.eqb_eq in E. subst. now destruct p.
  - right. split; [reflexivity|]. intro I. apply in_map_iff in I. destruct I as (p & E2 & I). pose proof (find_none _ _ E p I) as Q. cbn in Q. apply Z.eqb_neq in Q. contradiction.
Qed.
Lemma lookup_self {V} (l : list (Z * option V)) p : NoDup (map fst l) -> In p l -> lookup l (fst p) = snd p.
Proof.
  intros N I. unfold lookup. induction l as [|x l IH]; [destruct I|]. cbn [find]. inversion N as [|? ? N1 N2]; subst.
  destruct (Z.eqb_spec (fst x) (fst p)) as [E|E].
  - destruct I as [->|I]; [reflexivity|]. exfalso. apply N1. rewrite E. now apply in_map.
  - destruct I as [->|I]; [congruence|]. now apply IH.
Qed.

(** ** The conversion *)
Definition join (series : list (list (Z * option R))) : list (Z * list (option R)) :=
  match series with [] => [] | base :: _ => map (fun p => (fst p, map (fun l => lookup l (fst p)) series)) base end.
Lemma join_joined series : joined series (join series).
Proof.
  destruct series as [|base series]; [reflexivity|]. unfold join, joined. split.
  - rewrite map_map. reflexivity.
  - intros i t vs E. rewrite nth_error_map in E. destruct (nth_error base i) as [p|]; [|discriminate]. cbn [option_map] in E.
    assert (Et : t = fst p) by congruence. assert (Ev : vs = map (fun l => lookup l (fst p)) (base :: series)) by congruence. subst.
    generalize (base :: series) as ls. induction ls as [|l ls IH]; [constructor|]. cbn [map]. constructor; [apply lookup_spec|exact IH].
Qed.
Lemma add_first (col : string) (l : list (Z * option R)) : NoDup (map fst l) -> add_sensor None col l = ([col], join [l]).
Proof. intro N. unfold add_sensor, join. f_equal. apply map_ext_in. intros p I. cbn [map]. now rewrite lookup_self. Qed.
Lemma add_next cols col l b series : add_sensor (Some (cols, join (b :: series))) col l = (cols ++ [col], join ((b :: series) ++ [l])).
Proof.
  unfold add_sensor, join. cbn [app]. f_equal. rewrite map_map. apply map_ext. intro p. cbn [fst snd]. f_equal. cbn [map app]. now rewrite map_app.
Qed.
Lemma rise_spec (s : samples) : stamps_rise (map fst s) = true <-> StronglySorted (fun a b => fst a < fst b) s.
Proof.
  induction s as [|a s IH]; [split; [constructor|reflexivity]|]. destruct s as [|b s].
  - split; [intros _; repeat constructor|reflexivity].
  - change (stamps_rise (map fst (a :: b :: s))) with ((fst a <? fst b) && stamps_rise (map fst (b :: s)))%bool. rewrite Bool.andb_true_iff, IH, Z.ltb_lt. split.
    + intros [L S]. constructor; [exact S|]. constructor; [exact L|]. apply StronglySorted_inv in S. destruct S as [_ F]. eapply Forall_impl; [|exact F]. intros x Q. cbn beta in Q. lia.
    + intro S. apply StronglySorted_inv in S. destruct S as [S F]. split; [|exact S]. apply Forall_inv in F. exact F.
Qed.
Lemma sorted_unique {V} (s t : list (Z * V)) : StronglySorted (fun a b => fst a < fst b) s -> StronglySorted (fun a b => fst a < fst b) t -> Permutation s t -> s = t.
Proof.
  revert t. induction s as [|a s IH]; intros t Hs Ht P; [now apply Permutation_nil in P|].
  destruct t as [|b t]; [apply Permutation_sym, Permutation_nil in P; discriminate|].
  apply StronglySorted_inv in Hs. destruct Hs as [Hs Fs]. apply StronglySorted_inv in Ht. destruct Ht as [Ht Ft]. rewrite Forall_forall in Fs, Ft.
  assert (a = b). { assert (Ia : In a (b :: t)) by (apply (Permutation_in _ P); now left). assert (Ib : In b (a :: s)) by (apply (Permutation_in _ (Permutation_sym P)); now left).
    destruct Ia as [->|Ia]; [reflexivity|]. destruct Ib as [->|Ib]; [reflexivity|]. specialize (Fs _ Ib). specialize (Ft _ Ia). cbn in *. lia. }
  subst b. f_equal. apply IH; auto. now apply Permutation_cons_inv in P.
Qed.
Lemma in_order_ok r s : in_order r = Ok s <-> in_time_order r s.
Proof.
  unfold in_order, in_time_order. cbv zeta. split.
  - destruct (stamps_rise _) eqn:E; [|discriminate]. intro Q. assert (s = sort_by (fun a b => fst a <=? fst b) r) by congruence. subst. split; [apply sort_by_perm|now apply rise_spec].
  - intros [P S]. assert (E : sort_by (fun a b => fst a <=? fst b) r = s).
    { apply sorted_unique; [|exact S|rewrite <- P; apply Permutation_sym, sort_by_perm].
      assert (N : NoDup (map fst (sort_by (fun a b => fst a <=? fst b) r))).
      { apply (Permutation_NoDup (l := map fst s)); [apply Permutation_map; rewrite <- P; apply sort_by_perm|]. clear -S.
        induction S as [|a s S IH F]; cbn [map]; constructor; [|exact IH]. intro I. apply in_map_iff in I. destruct I as (b & E & I). rewrite Forall_forall in F. specialize (F b I). cbn in F. lia. }
      assert (W : StronglySorted (fun a b => (fst a <=? fst b) = true) (sort_by (fun a b => fst a <=? fst b) r)) by (apply sort_by_sorted; intros; lia).
      revert N W. generalize (sort_by (fun a b => fst a <=? fst b) r). clear. intro l. induction l as [|a l IH]; intros N W; [constructor|]. apply StronglySorted_inv in W. destruct W as [W F]. cbn [map] in N. inversion N as [|? ? N1 N2]; subst.
      constructor; [now apply IH|]. rewrite Forall_forall in *. intros b I. specialize (F b I). assert (fst a <> fst b) by (intro Q; apply N1; rewrite Q; now apply in_map). cbn in *. lia. }
    rewrite E, (proj2 (rise_spec s) S). reflexivity.
Qed.
Lemma in_order_err r : in_order r = Err ValueError <-> ~ NoDup (map fst r).
Proof.
  split.
  - intros E N. assert (Q : exists s, in_time_order r s); [|destruct Q as [s Q]; apply in_order_ok in Q; congruence].
    exists (sort_by (fun a b => fst a <=? fst b) r). split; [apply sort_by_perm|].
    assert (N' : NoDup (map fst (sort_by (fun a b => fst a <=? fst b) r))) by (eapply Permutation_NoDup; [apply Permutation_map, sort_by_perm|exact N]).
    assert (W : StronglySorted (fun a b => (fst a <=? fst b) = true) (sort_by (fun a b => fst a <=? fst b) r)) by (apply sort_by_sorted; intros; lia).
    revert N' W. generalize (sort_by (fun a b => fst a <=? fst b) r). clear. intro l. induction l as [|a l IH]; intros N W; [constructor|]. apply StronglySorted_inv in W. destruct W as [W F]. cbn [map] in N. inversion N as [|? ? N1 N2]; subst.
    constructor; [now apply IH|]. rewrite Forall_forall in *. intros b I. specialize (F b I). assert (fst a <> fst b) by (intro Q; apply N1; rewrite Q; now apply in_map). cbn in *. lia.
  - intro N. destruct (in_order r) as [s|e] eqn:E.
    + exfalso. apply in_order_ok in E. destruct E as [P S]. apply N. eapply Permutation_NoDup; [apply Permutation_map, Permutation_sym, P|]. clear -S.
      induction S as [|a s S IH F]; cbn [map]; constructor; [|exact IH]. intro I. apply in_map_iff in I. destruct I as (b & E & I). rewrite Forall_forall in F. specialize (F b I). cbn in F. lia.
    + unfold in_order in E. destruct (stamps_rise _); [discriminate|]. congruence.
Qed.
Section Fold.
  Variables (read : string -> result samples) (r s : string -> samples) (c : string -> string).
  Definition state (fs : list string) : option (table_of * table_of) :=
    match fs with
    | [] => None
    | _ => Some ((map c fs, join (map (fun f => resample (ghi (s f))) fs)), (map c fs, join (map (fun f => resample (gti (s f))) fs)))
    end.
  Lemma fold_files files : forall done, (forall f, In f files -> is_latlon f = false -> read f = Ok (r f) /\ in_time_order (r f) (s f) /\ column_of f = Ok (c f)) ->
    foldM (process_file read) files (state done) = Ok (state (done ++ filter (fun f => negb (is_latlon f)) files)).
  Proof.
    induction files as [|f files IH]; intros done HF; [cbn; now rewrite app_nil_r|]. cbn [foldM filter]. unfold process_file at 1.
    assert (HF' : forall f', In f' files -> is_latlon f' = false -> read f' = Ok (r f') /\ in_time_order (r f') (s f') /\ column_of f' = Ok (c f')) by (intros f' Q; apply HF; now right).
    destruct (is_latlon f) eqn:EL; cbn [negb rbind]; [now apply IH|].
    destruct (HF f (or_introl eq_refl) EL) as (-> & HO & ->). cbn [rbind]. apply in_order_ok in HO. rewrite HO. cbn [rbind].
    assert (ES : Some (add_sensor (option_map fst (state done)) (c f) (resample (ghi (s f))), add_sensor (option_map snd (state done)) (c f) (resample (gti (s f)))) = state (done ++ [f])).
    { destruct done as [|d done].
      - cbn [state option_map app map]. rewrite !add_first by (apply evenly_NoDup, resample_labels). reflexivity.
      - cbn [state option_map fst snd app map]. rewrite !add_next. rewrite !map_app. reflexivity. }
    rewrite ES, IH by exact HF'. rewrite <- app_assoc. reflexivity.
  Qed.
End Fold.

(*@ C83 One column per sensor file in name order, labelled by the sensor, on the resampled time base of the first sensor, for horizontal
    and for tilted irradiance. A fresh target holds these tables and the stations; a target with the same columns gets the rows appended
    and its stations replaced, whatever the order of the rows in the files; with other columns ValueError is raised after the stations were replaced. *)
Lemma nrcan_value : forall {T} read (latlon : T) listing r s c sensor,
  let sensors := filter (fun f => negb (is_latlon f)) (getfiles listing (Some ".csv"%string) true) in
  In sensor sensors -> (forall f, In f sensors -> read f = Ok (r f) /\ in_time_order (r f) (s f) /\ column_of f = Ok (c f)) ->
  exists g t, joined (map (fun f => resample (ghi (s f))) sensors) g /\ joined (map (fun f => resample (gti (s f))) sensors) t /\
  forall k, (3 <= k)%nat ->
    process_files k read latlon listing None = (Some (H5 (Some latlon) (Some (Frame (map c sensors) g)) (Some (Frame (map c sensors) t))), Finished) /\
    (forall old D F, process_files k read latlon listing (Some (H5 old (Some (Frame (map c sensors) D)) (Some (Frame (map c sensors) F)))) =
       (Some (H5 (Some latlon) (Some (Frame (map c sensors) (D ++ g))) (Some (Frame (map c sensors) (F ++ t)))), Finished)) /\
    (forall old cols D F, cols <> map c sensors ->
       process_files k read latlon listing (Some (H5 old (Some (Frame cols D)) F)) = (Some (H5 (Some latlon) (Some (Frame cols D)) F), Raised ValueError)).
Proof.
  intros T read latlon listing r s c sensor sensors HS HF.
  exists (join (map (fun f => resample (ghi (s f))) sensors)), (join (map (fun f => resample (gti (s f))) sensors)).
  split; [apply join_joined|]. split; [apply join_joined|]. intros k HK.
  assert (FF : foldM (process_file read) (getfiles listing (Some ".csv"%string) true) None = Ok (state s c sensors)).
  { pose proof (fold_files read r s c (getfiles listing (Some ".csv"%string) true) []) as Q. cbn [app state] in Q. apply Q. intros f I L. apply HF. apply filter_In. split; [exact I|]. now rewrite L. }
  unfold process_files. rewrite FF. assert (ST : state s c sensors = Some ((map c sensors, join (map (fun f => resample (ghi (s f))) sensors)), (map c sensors, join (map (fun f => resample (gti (s f))) sensors)))).
  { unfold state. destruct sensors; [destruct HS|reflexivity]. }
  rewrite ST. clear ST FF. destruct k as [|[|[|k]]]; try lia. repeat split.
  - destruct k; reflexivity.
  - intros old D F. cbn [h5_run h5_step contents h_latlon h_data h_flag append_frame columns rows].
    rewrite (proj2 (same_columns_eq (map c sensors) (map c sensors)) eq_refl). cbn [rbind h5_run h5_step contents h_latlon h_data h_flag append_frame columns rows].
    rewrite (proj2 (same_columns_eq (map c sensors) (map c sensors)) eq_refl). cbn [rbind]. apply run_nil.
  - intros old cols D F NE. cbn [h5_run h5_step contents h_latlon h_data h_flag append_frame columns rows].
    destruct (same_columns cols (map c sensors)) eqn:ES; [apply same_columns_eq in ES; contradiction|]. reflexivity.
Qed.
(*@ C83 Running it n + 1 times on the same input stores n + 1 copies of every row. *)
Lemma nrcan_repeats : forall {T} read (latlon : T) listing r s c sensor n,
  let sensors := filter (fun f => negb (is_latlon f)) (getfiles listing (Some ".csv"%string) true) in
  In sensor sensors -> (forall f, In f sensors -> read f = Ok (r f) /\ in_time_order (r f) (s f) /\ column_of f = Ok (c f)) ->
  exists g t, fst (process_files 3 read latlon listing None) = Some (H5 (Some latlon) (Some (Frame (map c sensors) g)) (Some (Frame (map c sensors) t))) /\
  Nat.iter (S n) (fun target => fst (process_files 3 read latlon listing target)) None =
    Some (H5 (Some latlon) (Some (Frame (map c sensors) (concat (repeat g (S n))))) (Some (Frame (map c sensors) (concat (repeat t (S n)))))).
Proof.
  intros T read latlon listing r s c sensor n sensors HS HF. destruct (nrcan_value read latlon listing r s c sensor HS HF) as (g & t & _ & _ & HV). fold sensors in HV.
  destruct (HV 3%nat ltac:(lia)) as (V1 & V2 & _). exists g, t. split; [now rewrite V1|].
  assert (RC : forall {A} (x : list A) m, concat (repeat x m) ++ x = concat (repeat x (S m))).
  { intros A x m. induction m as [|m IH]; [cbn; now rewrite app_nil_r|]. cbn [repeat concat] in *. rewrite <- app_assoc, IH. reflexivity. }
  induction n as [|n IH].
  - cbn [Nat.iter nat_rect repeat concat]. rewrite V1. cbn [fst]. now rewrite !app_nil_r.
  - change (Nat.iter (S (S n)) (fun target => fst (process_files 3 read latlon listing target)) None)
      with (fst (process_files 3 read latlon listing (Nat.iter (S n) (fun target => fst (process_files 3 read latlon listing target)) None))).
    rewrite IH, V2. cbn [fst]. now rewrite !RC.
Qed.
(*@ C83 Failures: an unreadable or unlabelled sensor file, or one with a repeated stamp, stops the run before anything is written, with the error of the first bad file
    in name order; without sensor files the stations are written before the run fails. *)
Lemma nrcan_errors : forall {T} k read (latlon : T) listing old,
  (forall files1 bad files2 r s c, getfiles listing (Some ".csv"%string) true = files1 ++ bad :: files2 ->
     (forall f, In f files1 -> is_latlon f = false -> read f = Ok (r f) /\ in_time_order (r f) (s f) /\ column_of f = Ok (c f)) -> is_latlon bad = false ->
     (forall e, read bad = Err e -> process_files k read latlon listing old = (old, Raised e)) /\
     (forall x e, read bad = Ok x -> column_of bad = Err e -> process_files k read latlon listing old = (old, Raised e)) /\
     (forall x c, read bad = Ok x -> column_of bad = Ok c -> ~ NoDup (map fst x) -> process_files k read latlon listing old = (old, Raised ValueError))) /\
  ((forall f, In f (getfiles listing (Some ".csv"%string) true) -> is_latlon f = true) -> (2 <= k)%nat ->
     process_files k read latlon listing old = (Some (H5 (Some latlon) (h_data (contents old)) (h_flag (contents old))), Raised OtherError)).
Proof.
  intros T k read latlon listing old. split.
  - intros f1 bad f2 r s c EF HF LB.
    assert (FA : forall st, foldM (process_file read) (f1 ++ bad :: f2) st = let! st' := foldM (process_file read) f1 st in foldM (process_file read) (bad :: f2) st').
    { clear -T. induction f1 as [|f f1 IH]; intro st; [reflexivity|]. cbn [app foldM]. destruct (process_file read st f); cbn [rbind]; [apply IH|reflexivity]. }
    pose proof (fold_files read r s c f1 [] HF) as F1. cbn [app state] in F1.
    unfold process_files. rewrite EF, FA, F1. cbn [rbind foldM]. unfold process_file at 1 3 5. rewrite LB. split; [|split].
    + intros e ->. reflexivity.
    + intros x e -> ->. reflexivity.
    + intros x q -> -> N. cbn [rbind]. apply in_order_err in N. rewrite N. reflexivity.
  - intros HA HK. assert (FF : foldM (process_file read) (getfiles listing (Some ".csv"%string) true) None = Ok None).
    { revert HA. generalize (getfiles listing (Some ".csv"%string) true) as fs. induction fs as [|f fs IH]; intro HA; [reflexivity|]. cbn [foldM]. unfold process_file at 1.
      rewrite (HA f (or_introl eq_refl)). cbn [rbind]. apply IH. intros; apply HA. now right. }
    unfold process_files. rewrite FF. destruct k as [|[|k]]; try lia. reflexivity.
Qed.
(*@ex C83 *)
Lemma nrcan_ex :
  let read := fun f => if String.eqb f "d_s1.csv" then Ok [(20000000, (Some 3%R, None)); (0, (Some 1%R, Some 2%R))] else Ok [(10000000, (Some 5%R, Some 6%R))] in
  process_files 3 read tt ["d_s2.csv"; "latlon.csv"; "d_s1.csv"]%string None =
    (Some (H5 (Some tt)
      (Some (Frame ["s1"; "s2"]%string [(0, [Some 1%R; None]); (10000000, [Some 1%R; Some 5%R]); (20000000, [Some 3%R; None])]))
      (Some (Frame ["s1"; "s2"]%string [(0, [Some 2%R; None]); (10000000, [Some 2%R; Some 6%R]); (20000000, [None; None])]))), Finished).
Proof. reflexivity. Qed.
