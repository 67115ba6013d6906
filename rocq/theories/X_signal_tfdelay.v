(** Delays from transfer-function phase: tf_delay and apply_delay (C51, C52, C54). *)
From Coq Require Import String.
From Verif Require Import Prelude PreludeFacts RealBase Fl RealStat Dft Phase Spec_tfdelay M_cmv M_signal_corr M_signal_tf P_signal P_dft P_phase P_list P_tfdelay.
From Coq Require Import Lra Psatz ClassicalEpsilon.
From Coquelicot Require Import Complex.
Local Open Scope string_scope.
Local Open Scope R_scope.

(** A column has one value and one coherence per frequency. *)
Definition table (freqs : list R) (cols : list (list (option C) * list (option R))) : Prop :=
  Forall (fun c => length (fst c) = length freqs /\ length (snd c) = length freqs) cols.

(*@ C51 There is a least-squares solver in the sense the theorems below assume. *)
Lemma solver_exists : exists ls, solver ls.
Proof.
  set (opt := fun (res : list R -> list R) start x => length x = length start /\
    forall y, length y = length start -> y <> x ->
     squares (res x) < squares (res y) \/ (squares (res x) = squares (res y) /\ dist2 x start < dist2 y start)).
  exists (fun res start => epsilon (inhabits (@nil R)) (opt res start)).
  intros res start x Lx Hx.
  assert (E : opt res start (epsilon (inhabits (@nil R)) (opt res start))) by (apply epsilon_spec; exists x; split; auto).
  destruct E as [L1 H1]. set (e := epsilon _ _) in *. destruct (list_eq_dec Req_EM_T e x) as [|N]; [auto|exfalso].
  destruct (Hx e L1 N) as [A|[A B]]; destruct (H1 x Lx ltac:(auto)) as [A'|[A' B']]; lra.
Qed.

(*@ C51 Method 'multi': one delay per column; missing exactly when the whole column is missing; otherwise the delay
    at which the phase residuals over the used bins sum to zero, or 0 when the used frequencies sum to zero. *)
Lemma multi_value : forall ls freqs cols cl fl, solver ls -> table freqs cols -> cols <> [] ->
  exists ds ix, tf_delay ls freqs cols cl fl "multi" = Ok (ds, ix) /\ length ds = length cols /\
  forall i tf coh, nth_error cols i = Some (tf, coh) ->
    (Forall (fun z => z = None) tf -> nth_error ds i = Some None) /\
    (~ Forall (fun z => z = None) tf -> exists d, nth_error ds i = Some (Some d) /\
      let pts := multi_points cl fl (bins_of freqs tf coh) in
      (sum_f pts <> 0 -> Rsum (map (fun p => snd p - - (2 * PI * fst p * d)) pts) = 0 /\ d = - sum_p pts / (2 * PI * sum_f pts)) /\
      (sum_f pts = 0 -> d = 0)).
Proof.
  intros ls freqs cols cl fl S F N. unfold tf_delay. cbn [String.eqb Ascii.eqb Bool.eqb].
  destruct cols as [|c0 cs]; [easy|]. set (cols := c0 :: cs) in *. clearbody cols. do 2 eexists. split; [reflexivity|].
  rewrite delay_multi_eq by auto. split; [now rewrite map_length|]. intros i tf coh Hi.
  erewrite map_nth_error by exact Hi. cbn [fst snd].
  assert (A : all_missing tf = true <-> Forall (fun z => z = None) tf).
  { unfold all_missing. rewrite forallb_forall, Forall_forall. split; intros H z Hz; specialize (H z Hz); destruct z; congruence. }
  split; [intro H; now rewrite (proj2 A H)|]. intro H. destruct (all_missing tf) eqn:E; [exfalso; apply H; now apply A|].
  eexists. split; [reflexivity|]. cbv zeta. set (pts := multi_points cl fl _). unfold multi_delay. fold pts. pose proof PI_RGT_0 as P. split; intro Z.
  - destruct (Req_EM_T (sum_f pts) 0); [easy|]. split; [|reflexivity].
    assert (Q : forall d l, Rsum (map (fun p => snd p - - (2 * PI * fst p * d)) l) = sum_p l + 2 * PI * d * sum_f l).
    { intros d l. unfold sum_p, sum_f. induction l as [|p l IH]; cbn [map]; rewrite ?Rsum_nil, ?Rsum_cons; [ring|]. rewrite IH. ring. }
    rewrite Q. field. split; lra.
  - destruct (Req_EM_T (sum_f pts) 0); [reflexivity|easy].
Qed.

Lemma before_gap_all (bs : list bin) : (forall b, In b bs -> b_tf b <> None) -> map fst (before_gap bs) = bs /\ map (fun p => Some (snd p)) (before_gap bs) = map b_tf bs.
Proof.
  induction bs as [|b bs IH]; intro H; [split; reflexivity|]. cbn [before_gap]. destruct (b_tf b) as [z|] eqn:E.
  - destruct IH as [I1 I2]; [intros; apply H; now right|]. cbn [map fst snd]. rewrite I1, I2, E. auto.
  - exfalso. apply (H b); [now left|exact E].
Qed.
Lemma multi_points_delay cl fl bs d :
  let bl := filter (fun b => if below_dec fl b then true else false) bs in
  (forall b, In b bl -> exists r, 0 < r /\ b_tf b = Some (Cmult (RtoC r) (cis (- (2 * PI * b_freq b * d))))) ->
  (forall b r, bl = b :: r -> Rabs (b_freq b * d) < / 2) ->
  (forall i b b', nth_error bl i = Some b -> nth_error bl (S i) = Some b' -> Rabs ((b_freq b' - b_freq b) * d) < / 2) ->
  multi_points cl fl bs = map (fun b => (b_freq b, - (2 * PI * b_freq b * d))) (used cl fl bs).
Proof.
  intros bl H1 H2 H3. unfold multi_points. fold bl. set (use := before_gap bl).
  destruct (before_gap_all bl) as [G1 G2]. { intros b Hb. destruct (H1 b Hb) as (r & _ & ->). discriminate. }
  fold use in G1, G2.
  assert (Lu : length use = length bl) by (rewrite <- G1; now rewrite map_length).
  assert (Nu : forall i b, nth_error bl i = Some b -> exists z, nth_error use i = Some (b, z) /\ b_tf b = Some z).
  { intros i b Hb. destruct (nth_error use i) as [[b' z]|] eqn:E.
    - exists z. pose proof (map_nth_error fst i use E) as M1. pose proof (map_nth_error (fun p => Some (snd p)) i use E) as M2. cbn in M1, M2.
      rewrite G1, Hb in M1. injection M1 as ->. rewrite G2, (map_nth_error b_tf i bl Hb) in M2. injection M2 as M2. auto.
    - apply nth_error_None in E. assert (i < length bl)%nat by (apply nth_error_Some; now rewrite Hb). lia. }
  pose (fz := map (fun p : bin * C => (b_freq (fst p), snd p)) use).
  assert (U : unwrap (map (fun p => angle (snd p)) use) = map (fun b => - (2 * PI * b_freq b * d)) bl).
  { replace (map (fun p : bin * C => angle (snd p)) use) with (map (fun p : R * C => angle (snd p)) fz) by (unfold fz; rewrite map_map; reflexivity).
    rewrite (unwrap_delay fz d).
    - unfold fz. rewrite map_map. rewrite <- G1. rewrite map_map. reflexivity.
    - intros f z Hi. unfold fz in Hi. apply in_map_iff in Hi. destruct Hi as [[b z'] [E Hi]]. cbn in E. injection E as <- <-.
      apply In_nth_error in Hi. destruct Hi as [i Hi]. pose proof (map_nth_error fst i use Hi) as M1. rewrite G1 in M1. cbn in M1.
      destruct (Nu i b M1) as (z2 & Z1 & Z2). rewrite Hi in Z1. injection Z1 as <-. destruct (H1 b (nth_error_In _ _ M1)) as (r & Pr & Er). exists r. rewrite Z2 in Er. injection Er as <-. auto.
    - intros f z r E. unfold fz in E. destruct use as [|[b z'] u]; [discriminate|]. cbn in E. injection E as <- _ _. cbn in G1. apply (H2 b (map fst u)). auto.
    - intros i Hi. unfold fz in Hi. rewrite map_length, Lu in Hi.
      destruct (nth_error bl i) as [b|] eqn:B1; [|apply nth_error_None in B1; lia]. destruct (nth_error bl (S i)) as [b'|] eqn:B2; [|apply nth_error_None in B2; lia].
      destruct (Nu i b B1) as (z1 & Z1 & _). destruct (Nu (S i) b' B2) as (z2 & Z2 & _).
      apply (map_nth_error (fun p : bin * C => (b_freq (fst p), snd p))) in Z1, Z2. fold fz in Z1, Z2. cbn [fst snd] in Z1, Z2.
      rewrite (nth_error_nth _ _ _ Z1), (nth_error_nth _ _ _ Z2). cbn [fst]. apply (H3 i b b'); auto. }
  rewrite U. unfold used. assert (Q : filter (fun b => if below_dec fl b then if coherent_dec cl b then true else false else false) bs
      = filter (fun b => if coherent_dec cl b then true else false) bl).
  { unfold bl. clear. induction bs as [|b bs IH]; [reflexivity|]. cbn [filter]. destruct (below_dec fl b); cbn [filter]; [|exact IH]. destruct (coherent_dec cl b); now rewrite IH. }
  rewrite Q, <- G1. clear. clearbody use. induction use as [|[b z] use IH]; [reflexivity|]. cbn [map combine filter fst snd].
  destruct (coherent_dec cl b); cbn [map fst snd]; now rewrite IH.
Qed.

(*@ C51 Method 'multi' recovers an exactly linear phase: if the values below the frequency limit are those of a pure
    delay d (times positive gains), the first phase and all phase steps staying below half a turn, the result
    is d, unless the used frequencies sum to zero. *)
Lemma multi_recovers : forall ls freqs tf coh cl fl d, solver ls -> table freqs [(tf, coh)] ->
  let bl := filter (fun b => if below_dec fl b then true else false) (bins_of freqs tf coh) in
  (forall b, In b bl -> exists r, 0 < r /\ b_tf b = Some (Cmult (RtoC r) (cis (- (2 * PI * b_freq b * d))))) ->
  (forall b r, bl = b :: r -> Rabs (b_freq b * d) < / 2) ->
  (forall i b b', nth_error bl i = Some b -> nth_error bl (S i) = Some b' -> Rabs ((b_freq b' - b_freq b) * d) < / 2) ->
  Rsum (map b_freq (used cl fl (bins_of freqs tf coh))) <> 0 ->
  exists ix, tf_delay ls freqs [(tf, coh)] cl fl "multi" = Ok ([Some d], ix).
Proof.
  intros ls freqs tf coh cl fl d S F bl H1 H2 H3 Z.
  destruct (multi_value ls freqs [(tf, coh)] cl fl S F ltac:(discriminate)) as (ds & ix & E & L & V).
  destruct (V 0%nat tf coh eq_refl) as [_ V2]. pose proof (multi_points_delay cl fl (bins_of freqs tf coh) d H1 H2 H3) as M. fold bl in M.
  set (us := used cl fl (bins_of freqs tf coh)) in *.
  assert (N : ~ Forall (fun z => z = None) tf).
  { intro A. inversion F as [|? ? [F1 F2] _]; subst. cbn in F1, F2. destruct us as [|b us'] eqn:U; [cbn in Z; now apply Z|].
    assert (Hb : In b us) by (rewrite U; now left). unfold us, used in Hb. rewrite filter_In in Hb. destruct Hb as [Hb Hq].
    assert (Hl : In b bl). { unfold bl. apply filter_In. split; [auto|]. destruct (below_dec fl b); auto. }
    destruct (H1 b Hl) as (r & _ & Er). assert (Ht : In (b_tf b) tf) by (rewrite <- (bins_tf freqs tf coh F1 F2); now apply in_map).
    rewrite Forall_forall in A. rewrite (A _ Ht) in Er. discriminate. }
  destruct (V2 N) as (d' & D1 & D2 & D3). cbv zeta in D2, D3. rewrite M in D2, D3.
  assert (Sf : sum_f (map (fun b => (b_freq b, - (2 * PI * b_freq b * d))) us) = Rsum (map b_freq us)) by (unfold sum_f; now rewrite map_map).
  assert (Sp : sum_p (map (fun b => (b_freq b, - (2 * PI * b_freq b * d))) us) = - (2 * PI * d) * Rsum (map b_freq us)).
  { unfold sum_p. rewrite map_map. cbn [snd]. clear. induction us as [|b us IH]; cbn [map]; rewrite ?Rsum_nil, ?Rsum_cons; [ring|]. rewrite IH. ring. }
  rewrite Sf in D2. destruct (D2 Z) as [_ D4]. rewrite Sp in D4. assert (Dd : d' = d). { rewrite D4. pose proof PI_RGT_0. field. split; [exact Z|lra]. }
  exists ix. rewrite E. destruct ds as [|x [|? ?]]; cbn in L; try lia. cbn in D1. injection D1 as ->. now rewrite Dd.
Qed.

(*@ C51 Method 'multi' ignores everything after the first missing value below the frequency limit, whatever the
    coherence there: two columns that agree up to a missing value get the same delay. *)
Lemma multi_gap : forall ls cl fl (pre post post' : list bin) gap gap', solver ls ->
  b_tf gap = None -> b_tf gap' = None -> below fl gap -> below fl gap' ->
  (exists b, In b pre /\ b_tf b <> None) ->
  let col bs := [(map b_tf bs, map b_coh bs)] in
  rmap fst (tf_delay ls (map b_freq (pre ++ gap :: post)) (col (pre ++ gap :: post)%list) cl fl "multi")
  = rmap fst (tf_delay ls (map b_freq (pre ++ gap' :: post')) (col (pre ++ gap' :: post')%list) cl fl "multi").
Proof.
  intros ls cl fl pre post post' gap gap' S G G' B B' N col.
  assert (K : forall g p, b_tf g = None -> below fl g ->
     rmap fst (tf_delay ls (map b_freq (pre ++ g :: p)) (col (pre ++ g :: p)%list) cl fl "multi") = Ok [Some (multi_delay cl fl pre)]).
  { clear G G' B B' gap gap' post post'. intros g p G B. set (bs := (pre ++ g :: p)%list).
    assert (F : table (map b_freq bs) (col bs)). { constructor; [|constructor]. cbn. now rewrite !map_length. }
    unfold tf_delay. cbn [String.eqb Ascii.eqb Bool.eqb]. unfold col at 1. cbn [rmap fst]. rewrite delay_multi_eq by auto. unfold col. cbn [map fst snd].
    assert (BE : forall l, bins_of (map b_freq l) (map b_tf l) (map b_coh l) = l).
    { induction l as [|b l IH]; [reflexivity|]. unfold bins_of in *. cbn. rewrite IH. now destruct b. }
    rewrite BE.
    assert (A : all_missing (map b_tf bs) = false).
    { destruct (all_missing (map b_tf bs)) eqn:E; [|reflexivity]. exfalso. destruct N as (b & Hb & Nb). unfold all_missing in E. rewrite forallb_forall in E.
      specialize (E (b_tf b)). destruct (b_tf b) as [z|] eqn:Eb; [|now apply Nb]. discriminate E. rewrite <- Eb. apply in_map. unfold bs. apply in_or_app. auto. }
    rewrite A. do 3 f_equal. unfold multi_delay, multi_points.
    replace (before_gap (filter (fun b => if below_dec fl b then true else false) bs))
       with (before_gap (filter (fun b => if below_dec fl b then true else false) pre)); [reflexivity|].
    unfold bs. rewrite filter_app. cbn [filter]. destruct (below_dec fl g); [|easy].
    generalize (filter (fun b => if below_dec fl b then true else false) pre). intro l. clear -G. induction l as [|b l IH]; cbn; [now rewrite G|].
    destruct (b_tf b); [now rewrite IH|reflexivity]. }
  now rewrite (K gap post), (K gap' post').
Qed.

(*@ C51 When no bin, or only frequency zero, is used, 'multi' returns 0 (for a column with some value) while 'fit'
    returns NaN without bins and its starting value 1 with only frequency zero. *)
Lemma nothing_used : forall ls freqs tf coh cl fl, solver ls -> table freqs [(tf, coh)] -> ~ Forall (fun z => z = None) tf ->
  (forall b, In b (used cl fl (bins_of freqs tf coh)) -> b_freq b = 0) ->
  (exists ix, tf_delay ls freqs [(tf, coh)] cl fl "multi" = Ok ([Some 0], ix)) /\
  (used cl fl (bins_of freqs tf coh) = [] -> exists ix, tf_delay ls freqs [(tf, coh)] cl fl "fit" = Ok ([None], ix)) /\
  (used cl fl (bins_of freqs tf coh) <> [] -> (forall b, In b (used cl fl (bins_of freqs tf coh)) -> b_tf b <> None) ->
    exists ix, tf_delay ls freqs [(tf, coh)] cl fl "fit" = Ok ([Some 1], ix)).
Proof.
  intros ls freqs tf coh cl fl S F N H. inversion F as [|? ? [F1 F2] _]; subst. cbn in F1, F2.
  set (bs := bins_of freqs tf coh) in *.
  assert (E1 : map b_freq bs = freqs) by (now apply bins_freq). assert (E2 : map b_tf bs = tf) by (now apply bins_tf). assert (E3 : map b_coh bs = coh) by (now apply bins_coh).
  split; [|split].
  - destruct (multi_value ls freqs [(tf, coh)] cl fl S F ltac:(discriminate)) as (ds & ix & E & L & V).
    destruct (V 0%nat tf coh eq_refl) as [_ V2]. destruct (V2 N) as (d & D1 & D2 & D3). exists ix. rewrite E.
    destruct ds as [|x [|? ?]]; cbn in L; try lia. cbn in D1. injection D1 as ->. rewrite D3; [reflexivity|]. fold bs.
    unfold sum_f. transitivity (Rsum (map (fun _ : R * R => 0) (multi_points cl fl bs))); [|rewrite Rsum_map_const; ring].
    apply Rsum_map_ext. intros p Hp. unfold multi_points in Hp. apply in_map_iff in Hp. destruct Hp as [[[b z] q] [<- Hp]]. cbn [fst].
    apply filter_In in Hp. destruct Hp as [Hp Hc]. cbn [fst snd] in Hc. apply in_combine_l in Hp. apply H. unfold used. apply filter_In.
    assert (Hb : In b (filter (fun b => if below_dec fl b then true else false) bs)).
    { clear -Hp. induction (filter (fun b => if below_dec fl b then true else false) bs) as [|x l IH]; [easy|]. cbn in Hp. destruct (b_tf x); [|easy].
      destruct Hp as [Hp|Hp]; [injection Hp as -> _; now left|right; auto]. }
    apply filter_In in Hb. destruct Hb as [Hb Hl]. split; [exact Hb|]. destruct (below_dec fl b); [exact Hc|discriminate].
  - intro U. eexists. unfold tf_delay. cbn [String.eqb Ascii.eqb Bool.eqb fst snd]. rewrite <- E1 at 1. rewrite <- E2 at 1. rewrite <- E3 at 1.
    rewrite delay_fit_nan by auto. reflexivity.
  - intros U M. eexists. unfold tf_delay. cbn [String.eqb Ascii.eqb Bool.eqb fst snd]. rewrite <- E1 at 1. rewrite <- E2 at 1. rewrite <- E3 at 1.
    destruct (before_gap_all _ M) as [_ G2].
    rewrite (delay_fit_eq ls cl fl bs (map snd (before_gap (used cl fl bs)))).
    + do 3 f_equal. f_equal. unfold line_best. destruct (Req_EM_T _ 0) as [_|Q]; [reflexivity|exfalso; apply Q]. unfold sum_ff.
      transitivity (Rsum (map (fun _ : R * R => 0) (fit_points (used cl fl bs) (map snd (before_gap (used cl fl bs)))))); [|rewrite Rsum_map_const; ring].
      apply Rsum_map_ext. intros [f p] Hp. apply in_combine_l in Hp. apply in_map_iff in Hp. destruct Hp as [b [<- Hb]]. cbn. rewrite (H b Hb). ring.
    + exact S.
    + rewrite <- G2. now rewrite map_map.
    + intro Z. apply U. apply (f_equal (@length _)) in Z, G2. rewrite !map_length in *. cbn in Z. apply length_zero_iff_nil. lia.
Qed.

(*@ C51 Method 'fit' on one column: NaN when no bin is used or a used bin has no value; otherwise the least-squares
    slope through the origin of the phases of the used bins, unwrapped among themselves. *)
Lemma fit_value : forall ls freqs tf coh cl fl, solver ls -> table freqs [(tf, coh)] ->
  let us := used cl fl (bins_of freqs tf coh) in
  exists o ix, tf_delay ls freqs [(tf, coh)] cl fl "fit" = Ok ([o], ix) /\
  (o = None <-> us = [] \/ exists b, In b us /\ b_tf b = None) /\
  (forall zs d, map b_tf us = map Some zs -> o = Some d ->
     let pts := combine (map b_freq us) (unwrap (map angle zs)) in
     forall d', squares (map (fun p => snd p - - (2 * PI * fst p * d)) pts) <= squares (map (fun p => snd p - - (2 * PI * fst p * d')) pts)) /\
  (forall zs d, map b_tf us = map Some zs -> o = Some d ->
     let pts := combine (map b_freq us) (unwrap (map angle zs)) in
     sum_ff pts <> 0 -> d = - sum_fp pts / (2 * PI * sum_ff pts)).
Proof.
  intros ls freqs tf coh cl fl S F us. inversion F as [|? ? [F1 F2] _]; subst. cbn in F1, F2.
  set (bs := bins_of freqs tf coh) in *.
  assert (E1 : map b_freq bs = freqs) by (now apply bins_freq). assert (E2 : map b_tf bs = tf) by (now apply bins_tf). assert (E3 : map b_coh bs = coh) by (now apply bins_coh).
  unfold tf_delay. cbn [String.eqb Ascii.eqb Bool.eqb fst snd]. rewrite <- E1, <- E2, <- E3.
  do 2 eexists. split; [reflexivity|].
  assert (Bad : us = [] \/ (exists b, In b us /\ b_tf b = None) -> delay_fit ls cl fl (map b_freq bs) (map b_tf bs) (map b_coh bs) = None).
  { intros [H|(b & H1 & H2)]; apply delay_fit_nan; [now left|right]. rewrite <- H2. now apply in_map. }
  assert (Good : forall zs, map b_tf us = map Some zs -> us <> [] -> delay_fit ls cl fl (map b_freq bs) (map b_tf bs) (map b_coh bs) = Some (line_best (fit_points us zs))).
  { intros zs Z U. apply delay_fit_eq; [exact S|exact Z|]. intros ->. apply U. now destruct us. }
  assert (Dich : (us = [] \/ exists b, In b us /\ b_tf b = None) \/ (us <> [] /\ exists zs, map b_tf us = map Some zs)).
  { clear. induction us as [|b us IH]; [left; now left|]. destruct (b_tf b) as [z|] eqn:Eb; [|left; right; exists b; split; [now left|auto]].
    destruct IH as [[-> |(b' & H1 & H2)]|[_ [zs Z]]].
    - right. split; [discriminate|]. exists [z]. cbn. now rewrite Eb.
    - left. right. exists b'. split; [now right|auto].
    - right. split; [discriminate|]. exists (z :: zs). cbn. now rewrite Eb, Z. }
  split; [split|split].
  - intro H. destruct Dich as [D|[U [zs Z]]]; [exact D|]. rewrite (Good zs Z U) in H. discriminate.
  - exact Bad.
  - intros zs d Z E d'. clearbody us. destruct us as [|b0 us0] eqn:Eu; [rewrite Bad in E by auto; discriminate|]. rewrite <- Eu in *.
    rewrite (Good zs Z ltac:(rewrite Eu; discriminate)) in E. injection E as <-. set (pts := combine (map b_freq us) (unwrap (map angle zs))).
    assert (Q : forall e, squares (map (fun p => snd p - - (2 * PI * fst p * e)) pts) = squares (map (fun p => 2 * PI * fst p * - e - snd p) pts)).
    { intro e. unfold squares. rewrite !map_map. apply Rsum_map_ext. intros p _. ring. }
    rewrite !Q, !line_squares. unfold line_best, fit_points. fold pts. pose proof (sum_ff_nonneg pts) as P. pose proof PI_RGT_0 as PP.
    destruct (Req_EM_T (sum_ff pts) 0) as [Z0|Z0].
    + assert (W : sum_fp pts = 0).
      { assert (G : forall p, In p pts -> fst p = 0).
        { intros p Hp. assert (Y : fst p ^ 2 = 0); [|nra]. apply (Rsum_zero_all (map (fun p => fst p ^ 2) pts)); auto.
          - intros z Hz. apply in_map_iff in Hz. destruct Hz as [u [<- _]]. apply pow2_ge_0.
          - apply in_map_iff. eauto. }
        unfold sum_fp. rewrite (Rsum_map_ext _ (fun _ => 0)); [rewrite Rsum_map_const; ring|]. intros p Hp. rewrite (G p Hp). ring. }
      rewrite Z0, W. apply Req_le. ring.
    + set (X := sum_ff pts) in *. set (Y := sum_fp pts) in *. set (b := - Y / (2 * PI * X)) in *.
      assert (Yb : Y = - (2 * PI * X) * b) by (unfold b; field; split; lra). clearbody b. rewrite Yb.
      assert (0 <= 4 * PI ^ 2 * X * (d' - b) ^ 2) by (apply Rmult_le_pos; [apply Rmult_le_pos; [apply Rmult_le_pos; [lra|apply pow_le; lra]|lra]|apply pow2_ge_0]).
      enough (Q2 : 4 * PI ^ 2 * X * d' ^ 2 + 4 * PI * (- (2 * PI * X) * b) * d' + Rsum (map (fun p => snd p ^ 2) pts)
            - (4 * PI ^ 2 * X * b ^ 2 + 4 * PI * (- (2 * PI * X) * b) * b + Rsum (map (fun p => snd p ^ 2) pts)) = 4 * PI ^ 2 * X * (d' - b) ^ 2) by lra. ring.
  - intros zs d Z E W. clearbody us. destruct us as [|b0 us0] eqn:Eu; [rewrite Bad in E by auto; discriminate|]. rewrite <- Eu in *.
    rewrite (Good zs Z ltac:(rewrite Eu; discriminate)) in E. injection E as <-. unfold line_best, fit_points.
    destruct (Req_EM_T _ 0); [easy|reflexivity].
Qed.

(*@ C51 Method 'fit' recovers a pure delay too; here only the used bins need values, and the phase steps that must
    stay below half a turn are those between successive used bins. *)
Lemma fit_recovers : forall ls freqs tf coh cl fl d, solver ls -> table freqs [(tf, coh)] ->
  let us := used cl fl (bins_of freqs tf coh) in
  (forall b, In b us -> exists r, 0 < r /\ b_tf b = Some (Cmult (RtoC r) (cis (- (2 * PI * b_freq b * d))))) ->
  (forall b r, us = b :: r -> Rabs (b_freq b * d) < / 2) ->
  (forall i b b', nth_error us i = Some b -> nth_error us (S i) = Some b' -> Rabs ((b_freq b' - b_freq b) * d) < / 2) ->
  (exists b, In b us /\ b_freq b <> 0) ->
  exists ix, tf_delay ls freqs [(tf, coh)] cl fl "fit" = Ok ([Some d], ix).
Proof.
  intros ls freqs tf coh cl fl d S F us H1 H2 H3 (b0 & B1 & B2).
  destruct (fit_value ls freqs tf coh cl fl S F) as (o & ix & E & N & _ & V). fold us in N, V.
  destruct (before_gap_all us) as [G1 G2]. { intros b Hb. destruct (H1 b Hb) as (r & _ & ->). discriminate. }
  set (use := before_gap us) in *. set (zs := map snd use).
  assert (Z : map b_tf us = map Some zs) by (rewrite <- G2; unfold zs; now rewrite map_map).
  destruct o as [d'|].
  2:{ exfalso. destruct (proj1 N eq_refl) as [U|(b & Hb & Nb)]; [rewrite U in B1; easy|]. destruct (H1 b Hb) as (r & _ & Er). congruence. }
  specialize (V zs d' Z eq_refl). cbv zeta in V.
  pose (fz := map (fun p : bin * C => (b_freq (fst p), snd p)) use).
  assert (Lu : length use = length us) by (rewrite <- (map_length fst use), G1; reflexivity).
  assert (Nu : forall i b z, nth_error use i = Some (b, z) -> nth_error us i = Some b /\ b_tf b = Some z).
  { intros i b z Hi. pose proof (map_nth_error fst i use Hi) as M1. pose proof (map_nth_error (fun p => Some (snd p)) i use Hi) as M2.
    rewrite G1 in M1. rewrite G2 in M2. cbn in M1, M2. split; [auto|]. rewrite (map_nth_error b_tf i us M1) in M2. now injection M2. }
  assert (U : unwrap (map angle zs) = map (fun b => - (2 * PI * b_freq b * d)) us).
  { replace (map angle zs) with (map (fun p : R * C => angle (snd p)) fz) by (unfold fz, zs; rewrite !map_map; reflexivity).
    rewrite (unwrap_delay fz d).
    - unfold fz. rewrite map_map. rewrite <- G1. rewrite map_map. reflexivity.
    - intros f z Hi. unfold fz in Hi. apply in_map_iff in Hi. destruct Hi as [[b z'] [Eq Hi]]. cbn in Eq. injection Eq as <- <-.
      apply In_nth_error in Hi. destruct Hi as [i Hi]. destruct (Nu i b z' Hi) as [M1 M2]. destruct (H1 b (nth_error_In _ _ M1)) as (r & Pr & Er). exists r. rewrite M2 in Er. injection Er as <-. auto.
    - intros f z r Eq. unfold fz in Eq. destruct use as [|[b z'] u]; [discriminate|]. cbn in Eq. injection Eq as <- _ _. cbn in G1. apply (H2 b (map fst u)). auto.
    - intros i Hi. unfold fz in Hi. rewrite map_length in Hi.
      destruct (nth_error use i) as [[b z1]|] eqn:Q1; [|apply nth_error_None in Q1; lia]. destruct (nth_error use (Datatypes.S i)) as [[b' z2]|] eqn:Q2; [|apply nth_error_None in Q2; lia].
      destruct (Nu _ _ _ Q1) as [M1 _]. destruct (Nu _ _ _ Q2) as [M2 _].
      apply (map_nth_error (fun p : bin * C => (b_freq (fst p), snd p))) in Q1, Q2. fold fz in Q1, Q2. cbn [fst snd] in Q1, Q2.
      rewrite (nth_error_nth _ _ _ Q1), (nth_error_nth _ _ _ Q2). cbn [fst]. apply (H3 i b b'); auto. }
  rewrite U in V.
  assert (C : combine (map b_freq us) (map (fun b => - (2 * PI * b_freq b * d)) us) = map (fun b => (b_freq b, - (2 * PI * b_freq b * d))) us).
  { clear. induction us as [|b us IH]; [reflexivity|]. cbn. now rewrite IH. }
  rewrite C in V.
  assert (Sf : sum_ff (map (fun b => (b_freq b, - (2 * PI * b_freq b * d))) us) = Rsum (map (fun b => b_freq b ^ 2) us)) by (unfold sum_ff; now rewrite map_map).
  assert (Sp : sum_fp (map (fun b => (b_freq b, - (2 * PI * b_freq b * d))) us) = - (2 * PI * d) * Rsum (map (fun b => b_freq b ^ 2) us)).
  { unfold sum_fp. rewrite map_map. cbn [fst snd]. clear. induction us as [|b us IH]; cbn [map]; rewrite ?Rsum_nil, ?Rsum_cons; [ring|]. rewrite IH. ring. }
  rewrite Sf, Sp in V.
  assert (W : Rsum (map (fun b => b_freq b ^ 2) us) <> 0).
  { intro W. apply B2. assert (Y : b_freq b0 ^ 2 = 0); [|nra]. apply (Rsum_zero_all (map (fun b => b_freq b ^ 2) us)); auto.
    - intros z Hz. apply in_map_iff in Hz. destruct Hz as [u [<- _]]. apply pow2_ge_0.
    - apply in_map_iff. eauto. }
  specialize (V W). pose proof PI_RGT_0. assert (Dd : d' = d) by (rewrite V; field; split; [exact W|lra]). exists ix. rewrite <- Dd at 1. exact E.
Qed.

(** Group delay between two successive bins, and the group delays 'diff' averages: bin k uses the step from
    k to k+1, the last bin the last step again. *)
Definition step_delay (freqs : list R) (zs : list C) (k : nat) : R :=
  - (nth (S k) (unwrap (map angle zs)) 0 - nth k (unwrap (map angle zs)) 0) / (nth (S k) freqs 0 - nth k freqs 0) / (2 * PI).
Definition bin_delay (freqs : list R) (zs : list C) (k : nat) : R := step_delay freqs zs (Nat.min k (length freqs - 2)).

Lemma Rdiff_nth (l : list R) : forall k, (S k < length l)%nat -> nth k (Rdiff l) 0 = nth (S k) l 0 - nth k l 0.
Proof.
  induction l as [|a [|b l] IH]; intros k Hk; cbn [length] in Hk; try lia. cbn [Rdiff]. destruct k as [|k]; [reflexivity|]. cbn [nth]. rewrite IH by (cbn [length]; lia). reflexivity.
Qed.
Lemma Rdiff_len (l : list R) : length (Rdiff l) = (length l - 1)%nat.
Proof. induction l as [|a [|b l] IH]; [reflexivity|reflexivity|]. cbn [Rdiff length] in *. rewrite IH. lia. Qed.
Lemma last_nth {A} (l : list A) d : last l d = nth (length l - 1) l d.
Proof. induction l as [|a [|b l] IH]; [reflexivity|reflexivity|]. change (last (a :: b :: l) d) with (last (b :: l) d). rewrite IH. replace (length (a :: b :: l) - 1)%nat with (S (length (b :: l) - 1)) by (cbn [length]; lia). reflexivity. Qed.

Lemma filter_mask_shift (x : bool) (r : list bool) (l : list nat) :
  filter (fun j => nth j (x :: r) false) (map S l) = map S (filter (fun j => nth j r false) l).
Proof.
  assert (FC : forall (p : nat -> bool) y m, filter p (y :: m) = if p y then y :: filter p m else filter p m) by reflexivity.
  induction l as [|j l IHl]; [reflexivity|]. cbn [map]. rewrite !FC, IHl. cbn [nth]. destruct (nth j r false); reflexivity.
Qed.
Lemma filter_mask_zero (x : bool) (r : list bool) (l : list nat) :
  filter (fun j => nth j (x :: r) false) (0%nat :: l) = if x then 0%nat :: filter (fun j => nth j (x :: r) false) l else filter (fun j => nth j (x :: r) false) l.
Proof. reflexivity. Qed.

(*@ C51 Method 'diff' on one complete column with at least two frequencies: the average over the used bins of the
    group delay (phase step over frequency step, over two pi), the last bin repeating the step before it;
    NaN (0/0) when no bin is used. A single frequency raises IndexError. A missing value anywhere, used or
    not, makes the result NaN. *)
Lemma diff_value : forall ls freqs zs coh cl fl, table freqs [(map Some zs, coh)] ->
  ((2 <= length freqs)%nat ->
    exists o ix m, tf_delay ls freqs [(map Some zs, coh)] cl fl "diff" = Ok ([o], ix) /\ ix = [m] /\
    (o = None <-> used cl fl (bins_of freqs (map Some zs) coh) = []) /\
    (forall d, o = Some d -> d = Rsum (map (bin_delay freqs zs) (filter (fun k => nth k m false) (seq 0 (length freqs)))) / INR (length (used cl fl (bins_of freqs (map Some zs) coh))))) /\
  (length freqs = 1%nat -> tf_delay ls freqs [(map Some zs, coh)] cl fl "diff" = Err IndexError).
Proof.
  intros ls freqs zs coh cl fl F. inversion F as [|? ? [F1 F2] _]; subst. cbn in F1, F2. rewrite map_length in F1.
  unfold tf_delay. cbn [String.eqb Ascii.eqb Bool.eqb fst snd]. rewrite present_map_Some, map_length, Nat.eqb_refl.
  set (gd := map2 (fun p f => - p / f) (Rdiff (unwrap (map angle zs))) (Rdiff freqs)).
  assert (Lg : length gd = (length freqs - 1)%nat) by (unfold gd; rewrite map2_length by (rewrite !Rdiff_len, unwrap_length, map_length; lia); rewrite Rdiff_len, unwrap_length, map_length; lia).
  set (bs := bins_of freqs (map Some zs) coh).
  assert (E1 : map b_freq bs = freqs) by (apply bins_freq; rewrite ?map_length; auto). assert (E3 : map b_coh bs = coh) by (apply bins_coh; rewrite ?map_length; auto).
  unfold delay_diff. fold gd.
  assert (M : mask_col cl fl freqs coh = map (fun b => if below_dec fl b then if coherent_dec cl b then true else false else false) bs) by (rewrite <- E1, <- E3; apply mask_bins).
  set (m := mask_col cl fl freqs coh) in *.
  assert (Lm : length m = length freqs) by (rewrite M, map_length, <- E1, map_length; reflexivity).
  assert (Lc : length (filter (fun b : bool => b) m) = length (used cl fl bs)).
  { rewrite M. unfold used. clear. induction bs as [|b bs IH]; [reflexivity|]. cbn [map filter]. destruct (below_dec fl b); [destruct (coherent_dec cl b)|]; cbn [length]; now rewrite ?IH. }
  split.
  - intro H. destruct gd as [|g0 gr] eqn:Eg; [cbn in Lg; lia|]. rewrite <- Eg in *. clear g0 gr Eg. cbv zeta.
    set (k := length (filter (fun b : bool => b) m)) in *.
    destruct (Nat.eqb_spec k 0) as [K|K].
    + exists None, [m], m. split; [reflexivity|]. split; [reflexivity|]. split; [|intros; discriminate]. split; [intros _; apply length_zero_iff_nil; congruence|auto].
    + eexists (Some _), [m], m. split; [reflexivity|]. split; [reflexivity|]. split.
      { split; [discriminate|]. intro U. rewrite U in Lc. cbn in Lc. lia. }
      intros d Ed. injection Ed as <-. rewrite <- Lc. set (G := map (fun g => g / (2 * PI)) (gd ++ [last gd 0])).
      assert (LG : length G = length freqs) by (unfold G; rewrite map_length, app_length; cbn; lia).
      assert (NG : forall j, (j < length freqs)%nat -> nth j G 0 = bin_delay freqs zs j).
      { intros j Hj. unfold G. rewrite nth_indep with (d' := 0 / (2 * PI)) by (rewrite map_length, app_length; cbn; lia).
        rewrite (map_nth (fun g => g / (2 * PI))).
        assert (NN : forall i, (S i < length freqs)%nat -> nth i gd 0 / (2 * PI) = step_delay freqs zs i).
        { intros i Hi. unfold step_delay, gd. rewrite (map2_nth _ _ _ i 0 0) by (rewrite ?Rdiff_len, ?unwrap_length, ?map_length; lia). rewrite !Rdiff_nth by (rewrite ?unwrap_length, ?map_length; lia). reflexivity. }
        unfold bin_delay. destruct (Nat.lt_ge_cases (S j) (length freqs)) as [J|J].
        - rewrite app_nth1 by lia. rewrite NN by auto. f_equal. lia.
        - rewrite app_nth2 by lia. replace (j - length gd)%nat with 0%nat by lia. cbn [nth]. rewrite last_nth, Lg.
          replace (length freqs - 1 - 1)%nat with (length freqs - 2)%nat by lia. rewrite NN by lia. f_equal. lia. }
      rewrite <- LG in *. clearbody G m k. assert (Kr : INR k <> 0) by (apply not_0_INR; auto).
      transitivity (Rsum (map (fun j => nth j G 0) (filter (fun j => nth j m false) (seq 0 (length G)))) / INR k).
      * clear -Lm Kr. revert m Lm. induction G as [|g G IH]; intros [|b m] Lm; try discriminate Lm; [unfold map2; cbn; field; auto|].
        injection Lm as Lm. unfold map2 in *. cbn [combine map fst snd length seq]. rewrite Rsum_cons, (IH m Lm), <- seq_shift.
        rewrite filter_mask_zero, filter_mask_shift. destruct b; cbn [map nth]; rewrite ?Rsum_cons, map_map; cbn [nth]; field; auto.
      * f_equal. apply Rsum_map_ext. intros j Hj. apply filter_In in Hj. destruct Hj as [Hj _]. apply in_seq in Hj. apply NG. lia.
  - intro H. destruct gd as [|g0 gr]; [reflexivity|]. cbn in Lg. lia.
Qed.

(*@ C51 *)
Lemma diff_missing : forall ls freqs tf coh cl fl, table freqs [(tf, coh)] -> In None tf ->
  ((2 <= length freqs)%nat -> exists ix, tf_delay ls freqs [(tf, coh)] cl fl "diff" = Ok ([None], ix)) /\
  (length freqs = 1%nat -> tf_delay ls freqs [(tf, coh)] cl fl "diff" = Err IndexError).
Proof.
  intros ls freqs tf coh cl fl F N. unfold tf_delay. cbn [String.eqb Ascii.eqb Bool.eqb fst snd]. apply present_short in N.
  destruct (Nat.eqb_spec (length (present tf)) (length tf)); [lia|].
  split; intro H; destruct (Nat.eqb_spec (length freqs) 1); try lia; eauto.
Qed.

(*@ C51 Method 'diff' recovers a pure delay wherever at least one bin is used. *)
Lemma diff_recovers : forall ls freqs zs coh cl fl d, table freqs [(map Some zs, coh)] -> (2 <= length freqs)%nat ->
  used cl fl (bins_of freqs (map Some zs) coh) <> [] ->
  (forall k, (S k < length freqs)%nat -> nth k freqs 0 < nth (S k) freqs 0) ->
  (forall k, (k < length freqs)%nat -> exists r, 0 < r /\ nth k zs (RtoC 0) = Cmult (RtoC r) (cis (- (2 * PI * nth k freqs 0 * d)))) ->
  (forall k, (S k < length freqs)%nat -> Rabs ((nth (S k) freqs 0 - nth k freqs 0) * d) < / 2) ->
  exists ix, tf_delay ls freqs [(map Some zs, coh)] cl fl "diff" = Ok ([Some d], ix).
Proof.
  intros ls freqs zs coh cl fl d F Hn U I P St. destruct (diff_value ls freqs zs coh cl fl F) as [V _].
  destruct (V Hn) as (o & ix & m & E & Em & N & D). exists ix. rewrite E. destruct o as [d'|]; [|exfalso; apply U; now apply N].
  do 4 f_equal. rewrite (D d' eq_refl). inversion F as [|? ? [F1 F2] _]; subst. cbn in F1, F2. rewrite map_length in F1.
  assert (Sd : forall k, (S k < length freqs)%nat -> step_delay freqs zs k = d).
  { intros k Hk. unfold step_delay. pose proof PI_RGT_0 as PP.
    rewrite !(unwrap_recovers (map angle zs) (fun j => - (2 * PI * nth j freqs 0 * d))).
    - pose proof (I k Hk). field. split; lra.
    - intros i Hi. rewrite map_length in Hi. rewrite nth_indep with (d' := angle (RtoC 0)) by (now rewrite map_length). rewrite map_nth.
      destruct (P i ltac:(lia)) as (r & Pr & ->). now apply angle_of.
    - intros i Hi. rewrite map_length in Hi. specialize (St i ltac:(lia)). apply Rabs_def2 in St. apply Rabs_def1; nra.
    - rewrite map_length; lia.
    - intros i Hi. rewrite map_length in Hi. rewrite nth_indep with (d' := angle (RtoC 0)) by (now rewrite map_length). rewrite map_nth.
      destruct (P i ltac:(lia)) as (r & Pr & ->). now apply angle_of.
    - intros i Hi. rewrite map_length in Hi. specialize (St i ltac:(lia)). apply Rabs_def2 in St. apply Rabs_def1; nra.
    - rewrite map_length; lia. }
  assert (Bd : forall k, bin_delay freqs zs k = d) by (intro k; unfold bin_delay; apply Sd; lia).
  rewrite (Rsum_map_ext _ (fun _ => d)) by (intros; apply Bd). rewrite Rsum_map_const.
  assert (L : length (filter (fun k => nth k m false) (seq 0 (length freqs))) = length (used cl fl (bins_of freqs (map Some zs) coh))).
  { unfold tf_delay in E. cbn [String.eqb Ascii.eqb Bool.eqb fst snd] in E. rewrite present_map_Some, map_length, Nat.eqb_refl in E.
    destruct (delay_diff cl fl freqs zs coh) as [x|x]; [|discriminate]. cbn in E. injection E as _ E.
    set (bs := bins_of freqs (map Some zs) coh) in *.
    assert (E1 : map b_freq bs = freqs) by (apply bins_freq; rewrite ?map_length; auto). assert (E3 : map b_coh bs = coh) by (apply bins_coh; rewrite ?map_length; auto).
    rewrite <- E1, <- E3, mask_bins in E. rewrite <- E1, map_length. rewrite <- E. unfold used. clear. induction bs as [|b bs IH]; [reflexivity|].
    cbn [length seq map]. rewrite <- seq_shift, filter_mask_zero, filter_mask_shift. cbn [filter]. destruct (below_dec fl b); [destruct (coherent_dec cl b)|]; cbn [length]; now rewrite map_length, IH. }
  rewrite L. field. apply not_0_INR. rewrite <- L. intro Z. apply U. apply length_zero_iff_nil. congruence.
Qed.

(*@ C51 'fit' and 'diff' accept one column only; an unknown method raises ValueError; a table without columns
    raises IndexError under 'multi'. *)
Lemma tf_delay_errors : forall ls freqs cols cl fl,
  ((2 <= length freqs)%nat -> length cols <> 1%nat ->
     tf_delay ls freqs cols cl fl "fit" = Err ValueError /\ tf_delay ls freqs cols cl fl "diff" = Err ValueError) /\
  (length freqs = 1%nat -> (2 <= length cols)%nat ->
     tf_delay ls freqs cols cl fl "fit" = Err IndexError /\
     tf_delay ls freqs cols cl fl "diff" = Err (if Nat.eqb (length cols) 2 then IndexError else ValueError)) /\
  (forall method, method <> "fit" -> method <> "diff" -> method <> "multi" -> tf_delay ls freqs cols cl fl method = Err ValueError) /\
  tf_delay ls freqs [] cl fl "multi" = Err IndexError.
Proof.
  intros ls freqs cols cl fl. unfold tf_delay. split; [|split; [|split]].
  - intros H L. destruct (Nat.eqb_spec (length freqs) 1); [lia|]. cbn. destruct cols as [|c [|c' cols]]; [auto|easy|auto].
  - intros H L. rewrite H. cbn [String.eqb Ascii.eqb Bool.eqb]. destruct cols as [|c [|c' cols]]; cbn in L; try lia. split; [reflexivity|]. destruct cols; reflexivity.
  - intros method M1 M2 M3. apply String.eqb_neq in M1, M2, M3. now rewrite M1, M2, M3.
  - reflexivity.
Qed.

(*@ C52 With every method the reported mask says for each column and bin whether the coherence exceeds coh_limit
    (or that is None) and the frequency is below freq_limit (or that is None). *)
Lemma mask_value : forall ls freqs cols cl fl method ds ix, table freqs cols ->
  tf_delay ls freqs cols cl fl method = Ok (ds, ix) ->
  length ix = length cols /\
  forall i tf coh, nth_error cols i = Some (tf, coh) ->
    exists m, nth_error ix i = Some m /\ length m = length freqs /\
    forall k f c, nth_error freqs k = Some f -> nth_error coh k = Some c ->
      exists b, nth_error m k = Some b /\
      (b = true <-> (forall l, cl = Some l -> exists v, c = Some v /\ l < v) /\ (forall l, fl = Some l -> f < l)).
Proof.
  intros ls freqs cols cl fl method ds ix F E.
  assert (Eix : ix = map (fun c => mask_col cl fl freqs (snd c)) cols).
  { unfold tf_delay in E. destruct (String.eqb method "diff").
    - destruct cols as [|c [|c' cols]]; try (destruct (_ && _)%bool; discriminate).
      destruct (Nat.eqb (length (present (fst c))) (length (fst c))); [destruct (delay_diff _ _ _ _ _); cbn [rbind] in E; congruence|]. destruct (Nat.eqb (length freqs) 1); congruence.
    - destruct (String.eqb method "fit"); [destruct cols as [|c [|c' cols]]; try (destruct (Nat.eqb (length freqs) 1); discriminate); congruence|].
      destruct (String.eqb method "multi"); [destruct cols; [discriminate|congruence]|discriminate]. }
  subst ix. split; [now rewrite map_length|]. intros i tf coh Hi. erewrite map_nth_error by exact Hi. eexists. split; [reflexivity|]. cbn [snd].
  unfold table in F. rewrite Forall_forall in F. destruct (F _ (nth_error_In _ _ Hi)) as [F1 F2]. cbn in F1, F2.
  set (bs := bins_of freqs tf coh).
  assert (E1 : map b_freq bs = freqs) by (apply bins_freq; auto). assert (E3 : map b_coh bs = coh) by (apply bins_coh; auto).
  assert (M : mask_col cl fl freqs coh = map (fun b => if below_dec fl b then if coherent_dec cl b then true else false else false) bs) by (rewrite <- E1, <- E3; apply mask_bins).
  rewrite M. split; [rewrite map_length, <- E1, map_length; reflexivity|]. intros k f c Hf Hc.
  destruct (nth_error bs k) as [b|] eqn:Eb; [|apply nth_error_None in Eb; assert (k < length freqs)%nat by (apply nth_error_Some; congruence); rewrite <- E1, map_length in H; lia].
  rewrite <- E1, (map_nth_error b_freq k bs Eb) in Hf. rewrite <- E3, (map_nth_error b_coh k bs Eb) in Hc. injection Hf as <-. injection Hc as <-.
  eexists. split; [apply map_nth_error; exact Eb|]. cbv beta.
  destruct (below_dec fl b) as [B|B]; [destruct (coherent_dec cl b) as [Q|Q]|].
  - split; [intros _|reflexivity]. split; [intros l ->; exact Q|intros l ->; exact B].
  - split; [discriminate|]. intros [H1 _]. exfalso. apply Q. destruct cl as [l|]; [apply (H1 l eq_refl)|exact I].
  - split; [discriminate|]. intros [_ H2]. exfalso. apply B. destruct fl as [l|]; [apply (H2 l eq_refl)|exact I].
Qed.

(*@ C54 apply_delay gives one value per frequency, keeps every magnitude, and leaves the value at frequency zero. *)
Lemma apply_delay_magnitude : forall tf d, length (apply_delay tf d) = length tf /\
  forall k f z, nth_error tf k = Some (f, z) -> exists y, nth_error (apply_delay tf d) k = Some y /\
    Cmod y = Cmod z /\ (f = 0 -> y = z) /\ y = Cmult z (cis (- (2 * PI * f * d))).
Proof.
  intros tf d. unfold apply_delay. split; [now rewrite map_length|]. intros k f z E. erewrite map_nth_error by exact E. eexists. split; [reflexivity|]. cbn [fst snd].
  replace (2 * PI * f * - d) with (- (2 * PI * f * d)) by ring. split; [|split; [|reflexivity]].
  - rewrite Cmod_mult, cis_mod. ring.
  - intros ->. replace (- (2 * PI * 0 * d)) with 0 by ring. rewrite cis_0. ring.
Qed.

(*@ C54 Delays add up; a zero delay changes nothing; a negative delay undoes a positive one. *)
Lemma apply_delay_group : forall tf d d',
  apply_delay (combine (map fst tf) (apply_delay tf d)) d' = apply_delay tf (d + d') /\
  apply_delay tf 0 = map snd tf /\
  apply_delay (combine (map fst tf) (apply_delay tf d)) (- d) = map snd tf.
Proof.
  assert (A : forall tf d d', apply_delay (combine (map fst tf) (apply_delay tf d)) d' = apply_delay tf (d + d')).
  { intros tf d d'. unfold apply_delay. induction tf as [|[f z] tf IH]; [reflexivity|]. cbn [map combine fst snd]. rewrite IH. f_equal.
    replace (2 * PI * f * - (d + d')) with (2 * PI * f * - d + 2 * PI * f * - d') by ring. rewrite cis_plus. ring. }
  assert (Z : forall tf, apply_delay tf 0 = map snd tf).
  { intro tf. unfold apply_delay. apply map_ext. intros [f z]. cbn. replace (2 * PI * f * - 0) with 0 by ring. rewrite cis_0. ring. }
  intros tf d d'. split; [apply A|]. split; [apply Z|]. rewrite A. replace (d + - d) with 0 by ring. apply Z.
Qed.

(*@ C54 Measuring a flat (positive) transfer function delayed by d with method 'multi' returns d, when the first
    phase and the phase steps stay below half a turn. *)
Lemma apply_delay_measured : forall ls (fs : list R) g d, solver ls -> 0 < g ->
  (forall f r, fs = f :: r -> Rabs (f * d) < / 2) ->
  (forall i, (S i < length fs)%nat -> Rabs ((nth (S i) fs 0 - nth i fs 0) * d) < / 2) ->
  Rsum fs <> 0 ->
  exists ix, tf_delay ls fs [(map Some (apply_delay (map (fun f => (f, RtoC g)) fs) d), map (fun _ => Some 1) fs)] None None "multi" = Ok ([Some d], ix).
Proof.
  intros ls fs g d S G H1 H2 Z. set (tf := map Some _). set (coh := map _ fs).
  assert (Lt : length tf = length fs) by (unfold tf, apply_delay; now rewrite !map_length).
  assert (Lc : length coh = length fs) by (unfold coh; now rewrite map_length).
  assert (B : bins_of fs tf coh = map (fun f => mkBin f (Some (Cmult (RtoC g) (cis (2 * PI * f * - d)))) (Some 1)) fs).
  { unfold tf, coh, bins_of, apply_delay. clear. induction fs as [|f fs IH]; [reflexivity|]. cbn [map combine fst snd]. now rewrite IH. }
  assert (Fl : filter (fun b => if below_dec None b then true else false) (bins_of fs tf coh) = bins_of fs tf coh).
  { generalize (bins_of fs tf coh). induction l as [|b l IH]; [reflexivity|]. cbn [filter]. destruct (below_dec None b) as [|n]; [now rewrite IH|exfalso; apply n; exact I]. }
  assert (Us : used None None (bins_of fs tf coh) = bins_of fs tf coh).
  { unfold used. generalize (bins_of fs tf coh). induction l as [|b l IH]; [reflexivity|]. cbn [filter]. destruct (below_dec None b) as [|n]; [|exfalso; apply n; exact I].
    destruct (coherent_dec None b) as [|n]; [now rewrite IH|exfalso; apply n; exact I]. }
  apply multi_recovers; auto.
  - repeat constructor; cbn; auto.
  - rewrite Fl, B. intros b Hb. apply in_map_iff in Hb. destruct Hb as [f [<- _]]. exists g. split; [auto|]. cbn. do 3 f_equal. ring.
  - rewrite Fl, B. intros b r E. destruct fs as [|f fr]; [discriminate|]. injection E as <- _. cbn. eapply H1. reflexivity.
  - rewrite Fl, B. intros i b b' Hb Hb'. rewrite nth_error_map in Hb, Hb'.
    destruct (nth_error fs i) as [f|] eqn:Ef; [|discriminate]. destruct (nth_error fs (Datatypes.S i)) as [f'|] eqn:Ef'; [|discriminate].
    cbn in Hb, Hb'. injection Hb as <-. injection Hb' as <-. cbn [b_freq].
    assert (Hi : (Datatypes.S i < length fs)%nat) by (apply nth_error_Some; congruence). specialize (H2 i Hi).
    rewrite (nth_error_nth _ _ 0 Ef), (nth_error_nth _ _ 0 Ef') in H2. exact H2.
  - rewrite Us, B, map_map. cbn [b_freq]. now rewrite map_id.
Qed.

(*@ex C54 *)
Lemma measured_example : exists ls ix, solver ls /\
  tf_delay ls [0; 1; 2; 3] [(map Some (apply_delay (map (fun f => (f, RtoC 2)) [0; 1; 2; 3]) (/ 4)), map (fun _ => Some 1) [0; 1; 2; 3])] None None "multi" = Ok ([Some (/ 4)], ix).
Proof.
  destruct solver_exists as [ls S]. exists ls.
  destruct (apply_delay_measured ls [0; 1; 2; 3] 2 (/ 4) S ltac:(lra)) as [ix E].
  - intros f r H. injection H as <- _. rewrite Rabs_pos_eq; lra.
  - intros [|[|[|i]]] Hi; cbn in *; try lia; rewrite Rabs_pos_eq; lra.
  - cbn. lra.
  - exists ix. auto.
Qed.
