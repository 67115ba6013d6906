(** Reading one pair's column out of the tables averaged_tf returns (C138). *)
From Coq Require Import String Ascii.
From Verif Require Import Prelude PreludeFacts RealBase Fl RealStat Dft Phase Spec_welch Spec_dataio M_cmv M_signal_corr M_signal_tf M_tf_names P_signal P_corr P_dft P_welch P_parseval P_tf X_signal_psd X_signal_tf X_signal_tfdelay X_signal_tfx X_field_delays.
From Coq Require Import Lra Psatz.
From Coquelicot Require Import Complex.
Local Open Scope R_scope.

Lemma letters_cat a b : letters (a ++ b)%string = letters a ++ letters b.
Proof. unfold letters. induction a as [|c a IH]; cbn; [reflexivity|]. now rewrite IH. Qed.
Lemma letters_eq a b : letters a = letters b -> a = b.
Proof. unfold letters. intro E. rewrite <- (string_of_list_ascii_of_string a), <- (string_of_list_ascii_of_string b). now f_equal. Qed.
Lemma split_first (c : ascii) (l1 l2 r1 r2 : list ascii) : ~ In c l1 -> ~ In c l2 -> l1 ++ c :: r1 = l2 ++ c :: r2 -> l1 = l2 /\ r1 = r2.
Proof.
  revert l2. induction l1 as [|x l1 IH]; intros [|y l2] N1 N2 E; cbn in *.
  - injection E as ->. auto.
  - injection E as -> _. exfalso. apply N2. now left.
  - injection E as -> _. exfalso. apply N1. now left.
  - injection E as -> E. destruct (IH l2) as [-> ->]; auto.
Qed.
Lemma split_last (c : ascii) (l1 l2 r1 r2 : list ascii) : ~ In c r1 -> ~ In c r2 -> l1 ++ c :: r1 = l2 ++ c :: r2 -> l1 = l2 /\ r1 = r2.
Proof.
  intros N1 N2 E. apply (f_equal (@rev ascii)) in E. rewrite !rev_app_distr in E. cbn in E. rewrite <- !app_assoc in E. cbn in E.
  destruct (split_first c (rev r1) (rev r2) (rev l1) (rev l2)) as [A B]; [now rewrite <- in_rev|now rewrite <- in_rev|exact E|].
  split; [rewrite <- (rev_involutive l1), B|rewrite <- (rev_involutive r1), A]; apply rev_involutive.
Qed.
Lemma split_here (l1 l2 r1 r2 : list ascii) : l1 = l2 -> l1 ++ r1 = l2 ++ r2 -> r1 = r2.
Proof. intros -> E. now apply app_inv_head in E. Qed.

(** Column labels that tell the pairs apart: the labels of a table are distinct, and either the other table has one
    column or both have equally many and none of those labels contains an underscore. *)
Definition telling {A B} (ins : list (string * A)) (outs : list (string * B)) : Prop :=
  (length outs = 1%nat /\ NoDup (map fst ins)) \/
  (length ins = 1%nat /\ NoDup (map fst outs)) \/
  (length ins = length outs /\ NoDup (map fst ins) /\ Forall (lacks "_") (map fst ins)) \/
  (length ins = length outs /\ NoDup (map fst outs) /\ Forall (lacks "_") (map fst outs)).

Lemma name_same_out a a' b : (a ++ "_" ++ b = a' ++ "_" ++ b)%string -> a = a'.
Proof.
  intro E. apply (f_equal letters) in E. rewrite !letters_cat in E. apply letters_eq.
  apply app_inv_tail in E. exact E.
Qed.
Lemma name_same_in a b b' : (a ++ "_" ++ b = a ++ "_" ++ b')%string -> b = b'.
Proof.
  intro E. apply (f_equal letters) in E. rewrite !letters_cat in E. apply letters_eq.
  apply app_inv_head in E. apply app_inv_head in E. exact E.
Qed.
Lemma name_in a a' b b' : lacks "_" a -> lacks "_" a' -> (a ++ "_" ++ b = a' ++ "_" ++ b')%string -> a = a'.
Proof.
  intros N1 N2 E. apply (f_equal letters) in E. rewrite !letters_cat in E. apply letters_eq.
  now apply (split_first "_"%char) in E.
Qed.
Lemma name_out a a' b b' : lacks "_" b -> lacks "_" b' -> (a ++ "_" ++ b = a' ++ "_" ++ b')%string -> b = b'.
Proof.
  intros N1 N2 E. apply (f_equal letters) in E. rewrite !letters_cat in E. apply letters_eq.
  now apply (split_last "_"%char) in E.
Qed.

Lemma nodup_label {A} (l : list (string * A)) i j a x x' :
  NoDup (map fst l) -> nth_error l i = Some (a, x) -> nth_error l j = Some (a, x') -> i = j.
Proof.
  intros N E1 E2. rewrite NoDup_nth_error in N. apply N.
  - rewrite map_length. apply nth_error_Some. now rewrite E1.
  - now rewrite !nth_error_map, E1, E2.
Qed.
Lemma partner_many {A} (l : list A) i : (i < length l)%nat -> partner l i = nth_error l i.
Proof.
  intro Hi. unfold partner. destruct (Nat.eqb_spec (length l) 1) as [E|]; [|reflexivity].
  replace i with 0%nat by lia. reflexivity.
Qed.
Lemma label_in {A} (P : string -> Prop) (l : list (string * A)) i a x : Forall P (map fst l) -> partner l i = Some (a, x) -> P a.
Proof.
  intros F E. rewrite Forall_forall in F. apply F. unfold partner in E. apply nth_error_In in E. apply in_map_iff. now exists (a, x).
Qed.
Lemma pairs_made (ins outs : list (string * list R)) ps : pair_columns ins outs = Ok ps -> ps <> [] -> matchable ins outs /\ ins <> [] /\ outs <> [].
Proof.
  intros E N. unfold pair_columns in E. destruct (Nat.eqb_spec (length outs) (length ins)) as [L|L].
  - injection E as <-. split; [left; auto|]. split; intros ->; apply N; [reflexivity|]. destruct ins; [reflexivity|discriminate L].
  - destruct outs as [|o [|o' outs]]; destruct ins as [|i0 [|i1 ins]]; try discriminate E;
      injection E as <-; try (exfalso; now apply N); try (now cbn in L); (split; [unfold matchable; cbn; auto|split; discriminate]).
Qed.
Lemma pairs_nodup (ins outs : list (string * list R)) ps : telling ins outs -> pair_columns ins outs = Ok ps -> ps <> [] -> NoDup (map fst ps).
Proof.
  intros T E Np. destruct (pairs_made ins outs ps E Np) as (M & N1 & N2).
  destruct (pair_columns_ok ins outs M N1 N2) as (ps' & E1 & E2 & E3). rewrite E in E1. injection E1 as <-.
  assert (L1 : (0 < length ins)%nat) by (destruct ins; [contradiction|cbn; lia]).
  assert (L2 : (0 < length outs)%nat) by (destruct outs; [contradiction|cbn; lia]).
  apply NoDup_nth_error. intros i j Hi Q. rewrite map_length in Hi.
  assert (Hj : (j < length ps)%nat).
  { destruct (Nat.lt_ge_cases j (length ps)) as [|G]; [assumption|]. exfalso.
    rewrite (proj2 (nth_error_None (map fst ps) j)) in Q by (rewrite map_length; lia).
    apply nth_error_None in Q. rewrite map_length in Q. lia. }
  destruct (E3 i Hi) as (a & x & b & y & P1 & P2 & P3). destruct (E3 j Hj) as (a' & x' & b' & y' & P1' & P2' & P3').
  rewrite !nth_error_map, P3, P3' in Q. cbn in Q. injection Q as Q. unfold pair_name in Q. rewrite E2 in Hi, Hj.
  destruct T as [[L N]|[[L N]|[(L & N & F)|(L & N & F)]]].
  - unfold partner in P2, P2'. rewrite L, Nat.eqb_refl in P2, P2'. rewrite P2 in P2'. injection P2' as <- <-.
    apply name_same_out in Q. subst a'. rewrite partner_many in P1, P1' by lia. eapply nodup_label; eauto.
  - unfold partner in P1, P1'. rewrite L, Nat.eqb_refl in P1, P1'. rewrite P1 in P1'. injection P1' as <- <-.
    apply name_same_in in Q. subst b'. rewrite partner_many in P2, P2' by lia. eapply nodup_label; eauto.
  - apply name_in in Q; [|now apply (label_in _ ins i a x)|now apply (label_in _ ins j a' x')]. subst a'.
    rewrite partner_many in P1, P1' by lia. eapply nodup_label; eauto.
  - apply name_out in Q; [|now apply (label_in _ outs i b y)|now apply (label_in _ outs j b' y')]. subst b'.
    rewrite partner_many in P2, P2' by lia. eapply nodup_label; eauto.
Qed.

(** averaged_tf treats each pair by itself. *)
Lemma tf_core win dtr dt n navgs overlap window d :
  (exists e, forall ins outs, averaged_tf win dtr dt n (Frame ins) (Frame outs) navgs overlap window d = Err e) \/
  (exists (c : result (list R * (list R * list R -> list (option C) * list (option R)))), forall ins outs,
     averaged_tf win dtr dt n (Frame ins) (Frame outs) navgs overlap window d =
     (let! ps := pair_columns ins outs in let! r := c in let! _ := some_column ps in
      Ok (fst r, map (fun p => (fst p, snd r (snd p))) ps))).
Proof.
  destruct (sample_rate dt n) as [fs|e] eqn:E1; [right|left; exists e; intros; unfold averaged_tf; now rewrite E1].
  exists (let! (nperseg, noverlap) := segmenting n navgs overlap in
          let! sc := psd_scale win fs window nperseg "density" in
          let ks := seq 0 (n_bins nperseg) in
          Ok (map (bin_freq fs nperseg) ks, fun ab : list R * list R =>
                   let sxx := psd_bin win dtr sc window d (fst ab) nperseg noverlap in
                   let syy := psd_bin win dtr sc window d (snd ab) nperseg noverlap in
                   let sxy := csd_bin win dtr sc window d (fst ab) (snd ab) nperseg noverlap in
                   (map (fun k => tf_bin (sxx k) (sxy k)) ks, map (fun k => coh_bin (sxx k) (syy k) (sxy k)) ks))).
  intros ins outs. unfold averaged_tf. rewrite E1. cbn [rbind].
  destruct (pair_columns ins outs) as [ps|]; cbn [rbind]; [|reflexivity].
  destruct (segmenting n navgs overlap) as [[nperseg noverlap]|]; cbn [rbind]; [|reflexivity].
  destruct (psd_scale win fs window nperseg "density") as [sc|]; cbn [rbind]; [|reflexivity].
  destruct (some_column ps); cbn [rbind]; [|reflexivity]. do 2 f_equal. cbn [fst snd]. apply map_ext. intros [nm [u v]]. reflexivity.
Qed.
Lemma tf_parts win dtr dt n ins outs navgs overlap window d fr out :
  averaged_tf win dtr dt n (Frame ins) (Frame outs) navgs overlap window d = Ok (fr, out) ->
  exists ps (f : list R * list R -> list (option C) * list (option R)), pair_columns ins outs = Ok ps /\ ps <> [] /\ out = map (fun p => (fst p, f (snd p))) ps /\
    forall ins' outs' ps', pair_columns ins' outs' = Ok ps' -> ps' <> [] ->
      averaged_tf win dtr dt n (Frame ins') (Frame outs') navgs overlap window d = Ok (fr, map (fun p => (fst p, f (snd p))) ps').
Proof.
  intro E. destruct (tf_core win dtr dt n navgs overlap window d) as [[e Q]|[c Q]]; [rewrite Q in E; discriminate|].
  rewrite Q in E. destruct (pair_columns ins outs) as [ps|]; [|discriminate E]. cbn [rbind] in E.
  destruct c as [[fr' f]|]; [|discriminate E]. cbn [rbind] in E.
  destruct ps as [|p ps]; [discriminate E|]. cbn [some_column rbind fst snd] in E. injection E as <- <-.
  exists (p :: ps), f. split; [reflexivity|]. split; [discriminate|]. split; [reflexivity|].
  intros ins' outs' ps' E' N'. rewrite Q, E'. cbn [rbind]. destruct ps'; [contradiction|]. reflexivity.
Qed.
Lemma pair_here (ins outs : list (string * list R)) ps i a x b y : pair_columns ins outs = Ok ps -> ps <> [] -> (i < length ps)%nat ->
  partner ins i = Some (a, x) -> partner outs i = Some (b, y) -> nth_error ps i = Some (pair_name a b, (x, y)).
Proof.
  intros E Np Hi P1 P2. destruct (pairs_made ins outs ps E Np) as (M & N1 & N2).
  destruct (pair_columns_ok ins outs M N1 N2) as (ps' & E1 & E2 & E3). rewrite E in E1. injection E1 as <-.
  destruct (E3 i Hi) as (a' & x' & b' & y' & Q1 & Q2 & Q3). rewrite P1 in Q1. rewrite P2 in Q2. injection Q1 as <- <-. injection Q2 as <- <-. exact Q3.
Qed.
Lemma pick_one (l : list (string * (list (option C) * list (option R)))) i c : NoDup (map fst l) -> nth_error l i = Some c -> pick (fst c) l = Ok (OneColumn (snd c)).
Proof. intros N E. unfold pick. rewrite (named_one l i c N E). reflexivity. Qed.

(*@ C138 With labels that tell the pairs apart, tf["in_out"] is one column, and it is what averaged_tf gives for that input and that output on their own. *)
Lemma names_pick : forall win dtr dt n ins outs navgs overlap window d fr out, telling ins outs ->
  averaged_tf win dtr dt n (Frame ins) (Frame outs) navgs overlap window d = Ok (fr, out) ->
  forall i a x b y, (i < length out)%nat -> partner ins i = Some (a, x) -> partner outs i = Some (b, y) ->
  exists c, pick (a ++ "_" ++ b)%string out = Ok (OneColumn c) /\
    averaged_tf win dtr dt n (Ser a x) (Ser b y) navgs overlap window d = Ok (fr, [((a ++ "_" ++ b)%string, c)]).
Proof.
  intros win dtr dt n ins outs navgs overlap window d fr out T E i a x b y Hi P1 P2.
  destruct (tf_parts _ _ _ _ _ _ _ _ _ _ _ _ E) as (ps & f & Ep & Np & -> & F). rewrite map_length in Hi.
  pose proof (pair_here ins outs ps i a x b y Ep Np Hi P1 P2) as H. exists (f (x, y)). split.
  - apply (pick_one _ i (pair_name a b, f (x, y))).
    + rewrite map_map. cbn [fst]. now apply (pairs_nodup ins outs).
    + now rewrite nth_error_map, H.
  - apply (F [(a, x)] [(b, y)] [(pair_name a b, (x, y))]); [reflexivity|discriminate].
Qed.

(*@ C138 A name that no pair has is a KeyError. *)
Lemma names_unknown : forall win dtr dt n ins outs navgs overlap window d fr out nm,
  averaged_tf win dtr dt n (Frame ins) (Frame outs) navgs overlap window d = Ok (fr, out) ->
  (forall i a x b y, partner ins i = Some (a, x) -> partner outs i = Some (b, y) -> nm <> (a ++ "_" ++ b)%string) ->
  pick nm out = Err KeyError.
Proof.
  intros win dtr dt n ins outs navgs overlap window d fr out nm E H.
  destruct (tf_parts _ _ _ _ _ _ _ _ _ _ _ _ E) as (ps & f & Ep & Np & -> & F).
  destruct (pairs_made ins outs ps Ep Np) as (M & N1 & N2).
  destruct (pair_columns_ok ins outs M N1 N2) as (ps' & E1 & E2 & E3). rewrite Ep in E1. injection E1 as <-.
  unfold pick. destruct (filter _ _) as [|c cs] eqn:Q; [reflexivity|]. exfalso.
  assert (I : In c (c :: cs)) by now left. rewrite <- Q in I. apply filter_In in I. destruct I as [I B]. apply String.eqb_eq in B.
  apply in_map_iff in I. destruct I as (p & <- & I). apply In_nth_error in I. destruct I as (i & I).
  assert (Hi : (i < length ps)%nat) by (apply nth_error_Some; now rewrite I).
  destruct (E3 i Hi) as (a & x & b & y & P1 & P2 & P3). rewrite I in P3. injection P3 as ->. cbn in B. now apply (H i a x b y P1 P2).
Qed.

Lemma two_named {A} (l : list (string * A)) i j nm c c' : i <> j -> nth_error l i = Some (nm, c) -> nth_error l j = Some (nm, c') ->
  (2 <= length (filter (fun p => String.eqb (fst p) nm) l))%nat.
Proof.
  revert i j. induction l as [|p l IH]; intros i j D E1 E2; [destruct i; discriminate|].
  assert (one : forall k z, nth_error l k = Some (nm, z) -> (1 <= length (filter (fun q => String.eqb (fst q) nm) l))%nat).
  { intros k z Ek. apply nth_error_In in Ek. assert (I : In (nm, z) (filter (fun q => String.eqb (fst q) nm) l)).
    { apply filter_In. split; [exact Ek|]. apply String.eqb_refl. }
    destruct (filter _ l); [destruct I|cbn; lia]. }
  cbn [filter]. destruct i as [|i], j as [|j]; [contradiction| | | ]; cbn [nth_error] in E1, E2.
  - injection E1 as ->. cbn [fst]. rewrite String.eqb_refl. cbn [length]. specialize (one j c' E2). lia.
  - injection E2 as ->. cbn [fst]. rewrite String.eqb_refl. cbn [length]. specialize (one i c E1). lia.
  - specialize (IH i j ltac:(congruence) E1 E2). destruct (String.eqb (fst p) nm); cbn [length]; lia.
Qed.

(*@ C138 When two pairs get the same name, tf[name] is a table of at least two columns, and compute_delays_tf with method 'fit' raises. *)
Lemma names_clash : forall ls win dtr dt n ins outs navgs overlap window fr out,
  averaged_tf win dtr dt n (Frame ins) (Frame outs) navgs overlap window None = Ok (fr, out) ->
  forall i j a x b y a' x' b' y', (i < length out)%nat -> (j < length out)%nat -> i <> j ->
  partner ins i = Some (a, x) -> partner outs i = Some (b, y) -> partner ins j = Some (a', x') -> partner outs j = Some (b', y') ->
  (a ++ "_" ++ b)%string = (a' ++ "_" ++ b')%string ->
  (exists cs, pick (a ++ "_" ++ b)%string out = Ok (Columns cs) /\ (2 <= length cs)%nat) /\
  forall cl fl xcorr, compute_delays_tf ls win dtr dt n ins outs navgs cl fl "fit" overlap window xcorr
    = Err (if Nat.eqb (length fr) 1 then IndexError else ValueError).
Proof.
  intros ls win dtr dt n ins outs navgs overlap window fr out E i j a x b y a' x' b' y' Hi Hj D P1 P2 P1' P2' Q.
  destruct (tf_parts _ _ _ _ _ _ _ _ _ _ _ _ E) as (ps & f & Ep & Np & Eo & F). rewrite Eo, map_length in Hi, Hj.
  pose proof (pair_here ins outs ps i a x b y Ep Np Hi P1 P2) as H. pose proof (pair_here ins outs ps j a' x' b' y' Ep Np Hj P1' P2') as H'.
  assert (H1 : nth_error out i = Some ((a ++ "_" ++ b)%string, f (x, y))) by now rewrite Eo, nth_error_map, H.
  assert (H2 : nth_error out j = Some ((a ++ "_" ++ b)%string, f (x', y'))) by (rewrite Eo, nth_error_map, H', Q; reflexivity).
  pose proof (two_named out i j _ _ _ D H1 H2) as T. split.
  - unfold pick. destruct (filter _ out) as [|c1 [|c2 cs]]; cbn [length] in T; try lia. cbn [map]. eexists. split; [reflexivity|]. cbn. lia.
  - intros cl fl xcorr. apply (delays_tf_collision ls win dtr dt n ins outs navgs cl fl overlap window xcorr fr out); [now apply (pairs_made ins outs ps)|exact E|].
    intro N. apply D. apply (nodup_label out i j _ _ _ N H1 H2).
Qed.

Lemma fit_ok ls win dtr dt n ins outs navgs cl lim overlap window fr out : matchable ins outs -> NoDup (map fst out) ->
  averaged_tf win dtr dt n (Frame ins) (Frame outs) navgs overlap window None = Ok (fr, out) ->
  exists ex, compute_delays_tf ls win dtr dt n ins outs navgs cl (Some lim) "fit" overlap window false
    = Ok (map (fun c => delay_fit ls cl (Some lim) fr (fst (snd c)) (snd (snd c))) out, ex).
Proof.
  intros M N E. unfold compute_delays_tf. cbv zeta.
  replace (_ && _ && _)%bool with false.
  2:{ symmetry. destruct M as [M|[M|M]]; rewrite M; [|reflexivity|now rewrite Bool.andb_false_r]. now rewrite Nat.eqb_refl, Bool.andb_false_r. }
  rewrite E. cbn [rbind String.eqb Ascii.eqb Bool.eqb]. rewrite fit_rows by exact N. cbn [rbind]. eexists. f_equal. f_equal.
  rewrite map_map. cbn [fst]. clear. induction out as [|c out IH]; [reflexivity|]. cbn [map concat app]. now rewrite IH.
Qed.
(*@ C138 With labels that tell the pairs apart and a frequency limit, method 'fit' gives every pair the delay it has on its own. *)
Lemma names_fit : forall ls win dtr dt n ins outs navgs overlap window cl lim fr out, telling ins outs ->
  averaged_tf win dtr dt n (Frame ins) (Frame outs) navgs overlap window None = Ok (fr, out) ->
  exists ds ex, compute_delays_tf ls win dtr dt n ins outs navgs cl (Some lim) "fit" overlap window false = Ok (ds, ex) /\
    length ds = Nat.max (length ins) (length outs) /\
    forall i a x b y, (i < length ds)%nat -> partner ins i = Some (a, x) -> partner outs i = Some (b, y) ->
    exists v ex', nth_error ds i = Some v /\
      compute_delays_tf ls win dtr dt n [(a, x)] [(b, y)] navgs cl (Some lim) "fit" overlap window false = Ok ([v], ex').
Proof.
  intros ls win dtr dt n ins outs navgs overlap window cl lim fr out T E.
  destruct (tf_parts _ _ _ _ _ _ _ _ _ _ _ _ E) as (ps & f & Ep & Np & Eo & F). destruct (pairs_made ins outs ps Ep Np) as (M & N1 & N2).
  destruct (pair_columns_ok ins outs M N1 N2) as (ps' & E1 & E2 & E3). rewrite Ep in E1. injection E1 as <-.
  destruct (fit_ok ls win dtr dt n ins outs navgs cl lim overlap window fr out M) as (ex & Q); [|exact E|].
  { rewrite Eo, map_map. cbn [fst]. now apply (pairs_nodup ins outs). }
  eexists _, ex. split; [exact Q|]. rewrite Eo, !map_length. split; [exact E2|]. intros i a x b y Hi P1 P2.
  pose proof (pair_here ins outs ps i a x b y Ep Np Hi P1 P2) as H.
  destruct (fit_ok ls win dtr dt n [(a, x)] [(b, y)] navgs cl lim overlap window fr [(pair_name a b, f (x, y))]) as (ex' & Q').
  - left. reflexivity.
  - repeat constructor. intros [].
  - apply (F [(a, x)] [(b, y)] [(pair_name a b, (x, y))]); [reflexivity|discriminate].
  - eexists _, ex'. split; [|exact Q']. now rewrite !nth_error_map, H.
Qed.

Lemma pairs_relabelled (ins outs ins' outs' : list (string * list R)) : map snd ins' = map snd ins -> map snd outs' = map snd outs ->
  match pair_columns ins outs with
  | Ok ps => exists ps', pair_columns ins' outs' = Ok ps' /\ map snd ps' = map snd ps
  | Err e => pair_columns ins' outs' = Err e
  end.
Proof.
  intros Ei Eo. assert (Li : length ins' = length ins) by (rewrite <- (map_length snd), Ei; apply map_length).
  assert (Lo : length outs' = length outs) by (rewrite <- (map_length snd), Eo; apply map_length).
  unfold pair_columns. rewrite Li, Lo. destruct (Nat.eqb_spec (length outs) (length ins)) as [L|L].
  - eexists. split; [reflexivity|]. clear - Ei Eo. revert outs ins' outs' Ei Eo.
    induction ins as [|i ins IH]; intros outs [|i' ins'] outs' Ei Eo; try discriminate Ei; [reflexivity|].
    destruct outs as [|o outs], outs' as [|o' outs']; try discriminate Eo; [reflexivity|]. cbn [map map2 snd] in *. injection Ei as I1 I2. injection Eo as O1 O2.
    unfold map2 in *. cbn [combine map fst snd]. rewrite I1, O1. f_equal. now apply IH.
  - assert (W : forall (l l' : list (string * list R)) (g : list R -> list R * list R) (h h' : string * list R -> string * (list R * list R)),
      map snd l' = map snd l -> (forall z, snd (h z) = g (snd z)) -> (forall z, snd (h' z) = g (snd z)) -> map snd (map h' l') = map snd (map h l)).
    { intros l l' g h h' Q H H'. rewrite !map_map. rewrite (map_ext _ (fun z => g (snd z)) H), (map_ext _ (fun z => g (snd z)) H').
      rewrite <- !(map_map snd g). now rewrite Q. }
    destruct outs as [|o [|o2 outs]], outs' as [|o' [|o2' outs']]; try discriminate Eo; try discriminate Lo.
    + destruct ins as [|i [|i2 ins]], ins' as [|i' [|i2' ins']]; try discriminate Ei; try discriminate Li; try reflexivity. eexists. split; reflexivity.
    + assert (O : snd o' = snd o) by (now injection Eo).
      destruct ins as [|i [|i2 ins]], ins' as [|i' [|i2' ins']]; try discriminate Ei; try discriminate Li; (eexists; split; [reflexivity|]);
      apply (W _ _ (fun z => (z, snd o))); try exact Ei; intro z; cbn; now rewrite ?O.
    + destruct ins as [|i [|i2 ins]], ins' as [|i' [|i2' ins']]; try discriminate Ei; try discriminate Li; try reflexivity.
      assert (O : snd i' = snd i) by (now injection Ei). eexists. split; [reflexivity|]. apply (W _ _ (fun z => (snd i, z))); [exact Eo| |]; intro z; cbn; now rewrite ?O.
Qed.
(*@ C138 Method 'multi' does not look at the labels: relabelling the columns of either table changes neither the delays nor the quality metrics. *)
Lemma names_multi : forall ls win dtr dt n ins outs ins' outs' navgs cl fl overlap window xcorr,
  map snd ins' = map snd ins -> map snd outs' = map snd outs ->
  compute_delays_tf ls win dtr dt n ins' outs' navgs cl fl "multi" overlap window xcorr =
  compute_delays_tf ls win dtr dt n ins outs navgs cl fl "multi" overlap window xcorr.
Proof.
  intros ls win dtr dt n ins outs ins' outs' navgs cl fl overlap window xcorr Ei Eo.
  assert (Li : length ins' = length ins) by (rewrite <- (map_length snd), Ei; apply map_length).
  assert (Lo : length outs' = length outs) by (rewrite <- (map_length snd), Eo; apply map_length).
  assert (G : forall k (l l' : list (string * list R)), map snd l' = map snd l -> snd (nth k l' (""%string, [])) = snd (nth k l (""%string, []))).
  { intros k l l' Q. change (snd (nth k l' (""%string, []))) with (snd (nth k l' (""%string, @nil R))).
    rewrite <- !(map_nth snd). cbn [snd]. now rewrite Q. }
  unfold compute_delays_tf. cbv zeta. rewrite Li, Lo. destruct (_ && _ && _)%bool; [reflexivity|]. cbn [String.eqb Ascii.eqb Bool.eqb].
  assert (T : match averaged_tf win dtr dt n (Frame ins) (Frame outs) navgs overlap window None with
     | Ok (fr, t) => exists t', averaged_tf win dtr dt n (Frame ins') (Frame outs') navgs overlap window None = Ok (fr, t') /\ map snd t' = map snd t
     | Err e => averaged_tf win dtr dt n (Frame ins') (Frame outs') navgs overlap window None = Err e end).
  { destruct (tf_core win dtr dt n navgs overlap window None) as [[e Q]|[c Q]]; [now rewrite !Q|]. rewrite !Q.
    pose proof (pairs_relabelled ins outs ins' outs' Ei Eo) as P. destruct (pair_columns ins outs) as [ps|e]; [|now rewrite P].
    destruct P as (ps' & -> & P). cbn [rbind]. destruct c as [[fr f]|]; cbn [rbind]; [|reflexivity].
    destruct ps as [|p ps], ps' as [|p' ps']; try discriminate P; cbn [some_column rbind fst snd]; [reflexivity|].
    eexists. split; [reflexivity|]. rewrite !map_map. cbn [snd]. rewrite <- !(map_map snd f). now rewrite P. }
  destruct (averaged_tf win dtr dt n (Frame ins) (Frame outs) navgs overlap window None) as [[fr t]|e]; [|now rewrite T].
  destruct T as (t' & -> & T). cbn [rbind]. rewrite T.
  destruct (tf_delay ls fr (map snd t) cl fl "multi") as [[delay ix]|]; cbn [rbind]; [|reflexivity].
  destruct fl as [lim|]; [|reflexivity].
  replace (map (fun c => mean_coh fr lim (snd (snd c))) t') with (map (fun c => mean_coh fr lim (snd (snd c))) t).
  2:{ rewrite <- !(map_map snd (fun c => mean_coh fr lim (snd c))). now rewrite T. }
  destruct xcorr; [|reflexivity].
  match goal with |- rbind (mapM ?f ?l) _ = rbind (mapM ?g ?l) _ => replace (mapM f l) with (mapM g l); [reflexivity|] end.
  generalize (seq 0 (Nat.max (length ins) (length outs))). intro l. induction l as [|k l IH]; [reflexivity|]. cbn [mapM]. rewrite IH.
  now rewrite !(G _ ins ins' Ei), !(G _ outs outs' Eo).
Qed.

Definition first_in : list (string * list R) := [("a"%string, [1; 0; 1; 0]); ("a_b"%string, [1; 2; 1; 0])].
Definition first_out : list (string * list R) := [("b_c"%string, [1; 0; -1; 0]); ("c"%string, [0; 1; 1; 0])].
Lemma demo_tf ins outs : matchable ins outs -> ins <> [] -> outs <> [] -> Forall (fun col => length (snd col) = 4%nat) (ins ++ outs) ->
  exists fr out, averaged_tf box_win no_dtr 1 4 (Frame ins) (Frame outs) 2 0 "boxcar" None = Ok (fr, out) /\ length fr = 2%nat /\
    length out = Nat.max (length ins) (length outs).
Proof.
  intros M N1 N2 F. destruct (tf_value box_win no_dtr 1 4 ins outs 2 0 "boxcar" None 2 0 2) as (out & E & L & _);
    [exact box_windows|exact no_dtr_keeps|lia|lra|exact demo_grid2|exact demo_fit2|cbn; lra|exact F|exact M|exact N1|exact N2|].
  eexists _, out. split; [exact E|]. split; [reflexivity|exact L].
Qed.
(*@ C138 Four different labels can still clash: the pairs (a, b_c) and (a_b, c) are both called a_b_c. Then tf["a_b_c"] is a table, and method 'fit' raises ValueError. *)
Lemma names_refuted :
  NoDup (map fst first_in ++ map fst first_out) /\ length first_in = length first_out /\
  exists fr out, averaged_tf box_win no_dtr 1 4 (Frame first_in) (Frame first_out) 2 0 "boxcar" None = Ok (fr, out) /\
    (exists cs, pick "a_b_c" out = Ok (Columns cs) /\ (2 <= length cs)%nat) /\
    forall ls cl fl xcorr, compute_delays_tf ls box_win no_dtr 1 4 first_in first_out 2 cl fl "fit" 0 "boxcar" xcorr = Err ValueError.
Proof.
  split; [|split; [reflexivity|]].
  { cbn. repeat (constructor; [cbn; intuition discriminate|]). constructor. }
  destruct (demo_tf first_in first_out) as (fr & out & E & L & L'); [left; reflexivity|discriminate|discriminate|repeat constructor|].
  exists fr, out. split; [exact E|].
  assert (W := fun ls => names_clash ls _ _ _ _ _ _ _ _ _ _ _ E 0%nat 1%nat _ _ _ _ _ _ _ _ ltac:(rewrite L'; cbn; lia) ltac:(rewrite L'; cbn; lia) ltac:(lia) eq_refl eq_refl eq_refl eq_refl eq_refl).
  rewrite L in W. split; [exact (proj1 (W (fun _ g => g)))|]. intro ls. exact (proj2 (W ls)).
Qed.
(*@ex C138 two inputs against one output: the labels may contain underscores, and every pair can be read by its name *)
Lemma names_example : telling first_in [("c"%string, [0; 1; 1; 0])] /\
  exists fr out, averaged_tf box_win no_dtr 1 4 (Frame first_in) (Frame [("c"%string, [0; 1; 1; 0])]) 2 0 "boxcar" None = Ok (fr, out) /\
    (exists c, pick "a_b_c" out = Ok (OneColumn c)) /\ pick "a_b" out = Err KeyError.
Proof.
  assert (T : telling first_in [("c"%string, [0; 1; 1; 0])]).
  { left. split; [reflexivity|]. cbn. repeat (constructor; [cbn; intuition discriminate|]). constructor. }
  split; [exact T|].
  destruct (demo_tf first_in [("c"%string, [0; 1; 1; 0])]) as (fr & out & E & L & L'); [right; right; reflexivity|discriminate|discriminate|repeat constructor|].
  exists fr, out. split; [exact E|]. split.
  - destruct (names_pick _ _ _ _ _ _ _ _ _ _ _ _ T E 1%nat _ _ _ _
      ltac:(rewrite L'; cbn; lia) eq_refl eq_refl) as (c & Q & _). exists c. exact Q.
  - destruct (tf_parts _ _ _ _ _ _ _ _ _ _ _ _ E) as (ps & f & Ep & Np & -> & F). injection Ep as <-. reflexivity.
Qed.
