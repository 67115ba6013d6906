(** scatter_hist: the histograms cover the data. *)
From Coq Require Import String.
From Verif Require Import Prelude PreludeFacts RealBase Fl RealStat M_signal_plant P_list P_plant M_vis.
Local Open Scope R_scope.

Lemma int_part_nonneg x : 0 <= x -> (0 <= Int_part x)%Z.
Proof. intro H. destruct (base_Int_part x) as [A B]. assert (K : IZR (-1) < IZR (Int_part x)) by lra. apply lt_IZR in K. lia. Qed.

Definition quarters (k : nat) : list R := map (fun i => - (INR k / 4) + INR i * (1 / 4)) (seq 0 (2 * k + 1)).

Lemma quarters_arange k : arange (- (INR k / 4)) (INR k / 4 + 1 / 4) (1 / 4) = Ok (quarters k).
Proof.
  unfold arange. rewrite Reqb_false by lra. unfold quarters. do 3 f_equal.
  replace ((INR k / 4 + 1 / 4 - - (INR k / 4)) / (1 / 4)) with (INR (2 * k + 1)) by (rewrite plus_INR, mult_INR; cbn; field).
  apply Nat.le_antisymm.
  - destruct (Nat.le_gt_cases (ceil_nat (INR (2 * k + 1))) (2 * k + 1)) as [L|L]; [easy|].
    apply ceil_nat_lt in L. lra.
  - destruct (Nat.le_gt_cases (2 * k + 1) (ceil_nat (INR (2 * k + 1)))) as [L|L]; [easy|exfalso].
    assert (H : INR (ceil_nat (INR (2 * k + 1))) < INR (2 * k + 1)) by (now apply lt_INR). apply ceil_nat_lt in H. lia.
Qed.

Lemma all_present (v : list (option R)) : existsb (fun o => match o with None => true | Some _ => false end) v = false -> v = map Some (present v).
Proof.
  induction v as [|[x|] v IH]; cbn; [easy| |discriminate]. intro H. f_equal. now apply IH.
Qed.
Lemma no_missing l : existsb (fun o => match o with None => true | Some _ => false end) (map (@Some R) l) = false.
Proof. induction l; cbn; easy. Qed.
Lemma present_somes (l : list R) : present (map Some l) = l.
Proof. induction l as [|a l IH]; cbn; [easy|]. f_equal. exact IH. Qed.

Lemma absmax_somes l : l <> [] -> np_absmax (map Some l) = Ok (Some (Rmaxl 0 (map Rabs l))).
Proof. intro N. unfold np_absmax. destruct (map Some l) eqn:E; [destruct l; easy|]. rewrite <- E, no_missing. now rewrite present_somes. Qed.

Lemma bins_somes lx ly : lx <> [] -> length lx = length ly -> exists k m,
  m = Rmax (Rmaxl 0 (map Rabs lx)) (Rmaxl 0 (map Rabs ly)) /\ INR k / 4 - 1 / 4 <= m < INR k / 4 /\
  scatter_bins (map Some lx) (map Some ly) = Ok (quarters k).
Proof.
  intros N L. set (mx := Rmaxl 0 (map Rabs lx)). set (my := Rmaxl 0 (map Rabs ly)). set (m := Rmax mx my).
  assert (P : 0 <= m). { unfold m. eapply Rle_trans; [apply (Rmaxl_ge_d 0 (map Rabs lx))|apply Rmax_l]. }
  set (z := Int_part (m / (1 / 4))). assert (Z0 : (0 <= z)%Z) by (apply int_part_nonneg; apply Rmult_le_pos; lra).
  destruct (base_Int_part (m / (1 / 4))) as [A B]. fold z in A, B.
  assert (Em : m / (1 / 4) = 4 * m) by field. rewrite Em in A, B.
  exists (Z.to_nat (z + 1)), m. split; [easy|].
  assert (Ek : INR (Z.to_nat (z + 1)) = IZR z + 1) by (rewrite INR_IZR_INZ, Z2Nat.id, plus_IZR by lia; easy).
  rewrite Ek. split; [lra|]. unfold scatter_bins. rewrite !map_length, L, Nat.eqb_refl. cbn [negb].
  rewrite !absmax_somes by (try easy; intros ->; destruct lx; easy). cbn [rbind]. fold mx my. unfold py_max.
  assert (Epy : (if Rltb mx my then Some my else Some mx) = Some m).
  { unfold m, Rmax. destruct (Rle_dec mx my) as [H|H].
    - destruct (Rlt_le_dec mx my) as [H'|H']; [now rewrite (Rltb_true mx my)|].
      assert (mx = my) as -> by lra. now destruct (Rltb my my).
    - rewrite Rltb_false by lra. easy. }
  rewrite Epy. fold z. replace ((IZR z + 1) * (1 / 4)) with (INR (Z.to_nat (z + 1)) / 4) by (rewrite Ek; field).
  apply quarters_arange.
Qed.

(** Samples in [lo, hi). *)
Definition samples_in (lo hi : R) (l : list R) : nat := length (filter (fun v => Rleb lo v && Rltb v hi)%bool l).

Lemma hist_length edges v : length (hist_counts edges v) = (length edges - 1)%nat.
Proof. induction edges as [|a [|b r] IH]; [easy|easy|]. cbn [hist_counts length] in *. rewrite IH. cbn. lia. Qed.

Lemma filter_some (p : option R -> bool) (q : R -> bool) l : (forall x, In x l -> p (Some x) = q x) -> length (filter p (map Some l)) = length (filter q l).
Proof.
  induction l as [|a l IH]; intro H; [easy|]. cbn [map filter]. rewrite (H a (or_introl eq_refl)).
  destruct (q a); cbn [length]; rewrite IH; auto; intros; apply H; now right.
Qed.

Lemma hist_nth edges l j lo hi : (forall x e, In x l -> nth_error edges (length edges - 1) = Some e -> x < e) ->
  nth_error edges j = Some lo -> nth_error edges (S j) = Some hi -> nth_error (hist_counts edges (map Some l)) j = Some (samples_in lo hi l).
Proof.
  revert j. induction edges as [|a rest IH]; intros j Up Hl Hh; [now destruct j|]. destruct rest as [|b r]; [destruct j as [|[|]]; discriminate|].
  change (hist_counts (a :: b :: r) (map Some l)) with
    (length (filter (fun o => match o with None => false | Some x => (Rleb a x && match r with [] => Rleb x b | _ => Rltb x b end)%bool end) (map Some l)) :: hist_counts (b :: r) (map Some l)).
  destruct j as [|j]; cbn [nth_error] in Hl, Hh |- *.
  - injection Hl as <-. injection Hh as <-. f_equal. unfold samples_in. apply filter_some. intros x Hx. destruct r as [|c r]; [|easy].
    f_equal. assert (x < b) by (now apply (Up x b)). rewrite Rleb_true, Rltb_true by lra. easy.
  - apply IH; [|exact Hl|exact Hh]. intros x e Hx He. apply (Up x e Hx). rewrite <- He. cbn [length]. replace (S (S (length r)) - 1)%nat with (S (S (length r) - 1)) by lia. reflexivity.
Qed.

Lemma quarters_length k : length (quarters k) = (2 * k + 1)%nat.
Proof. unfold quarters. now rewrite map_length, seq_length. Qed.
Lemma quarters_nth k i e : nth_error (quarters k) i = Some e <-> (i <= 2 * k)%nat /\ e = (INR i - INR k) / 4.
Proof.
  unfold quarters. rewrite nth_error_map. destruct (Nat.le_gt_cases i (2 * k)) as [L|L].
  - rewrite nth_error_seq by lia. cbn [option_map Nat.add]. split.
    + intro H. injection H as <-. split; [easy|field].
    + intros [_ ->]. f_equal. field.
  - rewrite (proj2 (nth_error_None _ _)) by (rewrite seq_length; lia). cbn. split; [discriminate|lia].
Qed.

(** Totals over consecutive half-open intervals add up. *)
Lemma samples_split a b c l : a <= b -> b <= c -> samples_in a c l = (samples_in a b l + samples_in b c l)%nat.
Proof.
  intros H1 H2. unfold samples_in. induction l as [|x l IH]; [easy|]. cbn [filter].
  destruct (Rleb_spec a x), (Rltb_spec x c), (Rltb_spec x b), (Rleb_spec b x); cbn [andb length]; try lra; lia.
Qed.
Lemma samples_none a l : samples_in a a l = 0%nat.
Proof. unfold samples_in. induction l as [|x l IH]; [easy|]. cbn [filter]. destruct (Rleb_spec a x), (Rltb_spec x a); cbn [andb length]; try lra; easy. Qed.
Lemma samples_all a b l : (forall x, In x l -> a <= x < b) -> samples_in a b l = length l.
Proof.
  unfold samples_in. induction l as [|x l IH]; intro H; [easy|]. cbn [filter]. destruct (H x (or_introl eq_refl)). rewrite Rleb_true, Rltb_true by easy.
  cbn [andb length]. rewrite IH; auto. intros; apply H; now right.
Qed.
Lemma samples_total (e : nat -> R) l n : (forall i, e i <= e (S i)) ->
  list_sum (map (fun j => samples_in (e j) (e (S j)) l) (seq 0 n)) = samples_in (e 0%nat) (e n) l.
Proof.
  intro Mo. assert (M0 : forall n, e 0%nat <= e n). { intro m. induction m; [lra|]. specialize (Mo m). lra. }
  induction n as [|n IH]; [cbn; now rewrite samples_none|].
  rewrite seq_S, map_app, list_sum_app, IH. cbn [map list_sum fold_right Nat.add]. rewrite (samples_split (e 0%nat) (e n) (e (S n))) by auto. lia.
Qed.

Lemma quarters_counts k l : (forall x, In x l -> Rabs x < INR k / 4) ->
  hist_counts (quarters k) (map Some l) = map (fun j => samples_in ((INR j - INR k) / 4) ((INR (S j) - INR k) / 4) l) (seq 0 (2 * k)) /\
  list_sum (hist_counts (quarters k) (map Some l)) = length l.
Proof.
  intro H. assert (B : forall x, In x l -> (INR 0 - INR k) / 4 <= x < (INR (2 * k) - INR k) / 4).
  { intros x Hx. specialize (H x Hx). apply Rabs_def2 in H. rewrite mult_INR. cbn [INR]. lra. }
  assert (E : hist_counts (quarters k) (map Some l) = map (fun j => samples_in ((INR j - INR k) / 4) ((INR (S j) - INR k) / 4) l) (seq 0 (2 * k))).
  { apply nth_error_ext. intro j. rewrite nth_error_map. destruct (Nat.lt_ge_cases j (2 * k)) as [L|L].
    - rewrite nth_error_seq by easy. cbn [option_map Nat.add]. apply hist_nth.
      + intros x e Hx He. rewrite quarters_length in He. apply quarters_nth in He. destruct He as [_ ->].
        replace (2 * k + 1 - 1)%nat with (2 * k)%nat by lia. now apply B.
      + apply quarters_nth. split; [lia|easy].
      + apply quarters_nth. split; [lia|easy].
    - rewrite !(proj2 (nth_error_None _ _)); [easy|rewrite seq_length; lia|]. rewrite hist_length, quarters_length. lia. }
  split; [exact E|]. rewrite E.
  rewrite (samples_total (fun j => (INR j - INR k) / 4) l (2 * k)).
  - now apply samples_all.
  - intro i. rewrite S_INR. lra.
Qed.

(*@ C93 Bins of a quarter, symmetric about 0, reaching strictly beyond every value on both axes and by no more than a quarter; each count
    is the number of samples from its edge up to but not including the next; every sample is counted once on each axis. *)
Lemma hist_value : forall lx ly : list R, lx <> [] -> length lx = length ly ->
  exists k edges cx cy, scatter_hist (map Some lx) (map Some ly) = Ok (edges, (cx, cy)) /\
    (forall i e, nth_error edges i = Some e <-> (i <= 2 * k)%nat /\ e = (INR i - INR k) / 4) /\
    (forall v, In v lx \/ In v ly -> Rabs v < INR k / 4) /\
    (k = 1%nat \/ exists v, (In v lx \/ In v ly) /\ INR k / 4 - 1 / 4 <= Rabs v) /\
    length cx = (2 * k)%nat /\ length cy = (2 * k)%nat /\
    (forall j, (j < 2 * k)%nat -> nth_error cx j = Some (samples_in ((INR j - INR k) / 4) ((INR (S j) - INR k) / 4) lx) /\
       nth_error cy j = Some (samples_in ((INR j - INR k) / 4) ((INR (S j) - INR k) / 4) ly)) /\
    list_sum cx = length lx /\ list_sum cy = length ly.
Proof.
  intros lx ly N L. destruct (bins_somes lx ly N L) as (k & m & Em & [Lo Hi] & E).
  assert (Bx : forall v, In v lx \/ In v ly -> Rabs v < INR k / 4).
  { intros v Hv. apply Rle_lt_trans with m; [|lra]. rewrite Em. destruct Hv as [Hv|Hv].
    - eapply Rle_trans; [apply (Rmaxl_ge 0), in_map, Hv|apply Rmax_l].
    - eapply Rle_trans; [apply (Rmaxl_ge 0), in_map, Hv|apply Rmax_r]. }
  destruct (quarters_counts k lx) as [Cx Sx]; [intros; apply Bx; now left|]. destruct (quarters_counts k ly) as [Cy Sy]; [intros; apply Bx; now right|].
  exists k, (quarters k), (hist_counts (quarters k) (map Some lx)), (hist_counts (quarters k) (map Some ly)).
  split; [unfold scatter_hist; now rewrite E|]. split; [apply quarters_nth|]. split; [exact Bx|]. split.
  { assert (W : m = 0 \/ exists v, (In v lx \/ In v ly) /\ Rabs v = m).
    { rewrite Em. unfold Rmax. destruct (Rle_dec _ _).
      - destruct (Rmaxl_in 0 (map Rabs ly)) as [E0|I]; [now left|]. right. apply in_map_iff in I. destruct I as (v & Ev & Iv). exists v. split; [now right|easy].
      - destruct (Rmaxl_in 0 (map Rabs lx)) as [E0|I]; [now left|]. right. apply in_map_iff in I. destruct I as (v & Ev & Iv). exists v. split; [now left|easy]. }
    destruct W as [W|(v & Iv & Ev)].
    - left. subst m. apply INR_eq. rewrite W in Lo, Hi. assert (K1 : INR k <= INR 1) by (cbn [INR]; lra). assert (K0 : INR 0 < INR k) by (cbn [INR]; lra).
      apply INR_le in K1. apply INR_lt in K0. f_equal. lia.
    - right. exists v. split; [easy|]. lra. }
  split; [now rewrite Cx, map_length, seq_length|]. split; [now rewrite Cy, map_length, seq_length|]. split; [|now split].
  intros j Hj. rewrite Cx, Cy, !nth_error_map, nth_error_seq by easy. split; reflexivity.
Qed.

(*@ C93 When it draws: sequences of equal, non-zero length without a missing value in the first. A missing value in the second is
    accepted, and the range then follows the first sequence alone. *)
Lemma hist_outcome : forall x y : list (option R),
  ((exists out, scatter_hist x y = Ok out) <-> x <> [] /\ length x = length y /\ ~ In None x) /\
  ((exists out, scatter_hist x y = Ok out) \/ scatter_hist x y = Err ValueError) /\
  (x <> [] -> length x = length y -> ~ In None x -> In None y ->
     exists out out', scatter_hist x y = Ok out /\ scatter_hist x x = Ok out' /\ fst out = fst out').
Proof.
  intros x y.
  assert (Nx : forall v : list (option R), existsb (fun o => match o with None => true | Some _ => false end) v = true <-> In None v).
  { intro v. rewrite existsb_exists. split; [intros ([a|] & I & E); [discriminate|easy]|]. intro I. now exists None. }
  assert (Nf : forall v : list (option R), ~ In None v -> existsb (fun o => match o with None => true | Some _ => false end) v = false).
  { intros v H. destruct (existsb _ v) eqn:E; [|easy]. apply Nx in E. contradiction. }
  assert (Ab : forall v : list (option R), v <> [] -> np_absmax v = Ok (if existsb (fun o => match o with None => true | Some _ => false end) v then None else Some (Rmaxl 0 (map Rabs (present v))))).
  { intros v Hv. destruct v; easy. }
  assert (Dec : (x <> [] /\ length x = length y /\ ~ In None x) \/ scatter_hist x y = Err ValueError).
  { unfold scatter_hist, scatter_bins. destruct (Nat.eqb_spec (length x) (length y)) as [L|L]; [|now right]. cbn [negb].
    destruct x as [|a x']; [now right|]. set (x := a :: x') in *. rewrite Ab by easy. cbn [rbind]. destruct y as [|b y']; [easy|]. rewrite Ab by easy. cbn [rbind].
    destruct (existsb _ x) eqn:E; [right; now destruct (existsb _ (b :: y'))|]. left. split; [easy|]. split; [easy|]. intro I. apply Nx in I. congruence. }
  assert (Good : x <> [] -> length x = length y -> ~ In None x -> exists b, scatter_bins x y = Ok b /\ (In None y -> scatter_bins x x = Ok b)).
  { intros H1 H2 H3. unfold scatter_bins. rewrite <- H2, Nat.eqb_refl. cbn [negb]. rewrite (Ab x), (Ab y) by (try easy; intros ->; destruct x; easy).
    cbn [rbind]. rewrite (Nf x H3). set (mx := Rmaxl 0 (map Rabs (present x))). destruct (existsb _ y) eqn:Ey; cbn [py_max].
    - rewrite Rltb_false by lra. unfold arange. rewrite Reqb_false by lra. eexists. split; reflexivity.
    - destruct (Rltb mx _); unfold arange; rewrite Reqb_false by lra; (eexists; split; [reflexivity|]); intro I; apply Nx in I; congruence. }
  assert (Go : x <> [] -> length x = length y -> ~ In None x -> exists out, scatter_hist x y = Ok out).
  { intros H1 H2 H3. destruct (Good H1 H2 H3) as (b & E & _). unfold scatter_hist. rewrite E. now eexists. }
  split; [|split].
  - split; [|intros (H1 & H2 & H3); auto]. intros [out E]. destruct Dec as [D|D]; [easy|congruence].
  - destruct Dec as [(H1 & H2 & H3)|D]; [left; auto|now right].
  - intros H1 H2 H3 H4. destruct (Good H1 H2 H3) as (b & E & E'). unfold scatter_hist. rewrite E, (E' H4). cbn [rbind]. eexists. eexists. split; [reflexivity|]. split; reflexivity.
Qed.

(*@ C93 Refuted: that exchanging the axes exchanges the histograms. A missing value in the second sequence hides its range, in the first
    it makes the call fail. *)
Lemma hist_swap_refuted : exists x y out, scatter_hist x y = Ok out /\ scatter_hist y x = Err ValueError /\
  exists v, In (Some v) y /\ forall e, In e (fst out) -> e < v.
Proof.
  set (x := [Some 0; Some 0]). set (y := [None; Some 5]).
  assert (Nx : ~ In None x) by (unfold x; cbn; intuition discriminate).
  destruct (hist_outcome x y) as (_ & _ & H). destruct H as (out & out' & E & E' & Ef); [easy|easy|exact Nx|now left|].
  exists x, y, out. split; [easy|]. split.
  - destruct (hist_outcome y x) as (G & [W|W] & _); [|exact W]. apply G in W. destruct W as (_ & _ & W). exfalso. apply W. now left.
  - exists 5. split; [now right; left|]. rewrite Ef. destruct (hist_value [0; 0] [0; 0]) as (k & edges & cx & cy & Ev & He & _ & Hk & _); [easy|easy|].
    change (map Some [0; 0]) with x in Ev. rewrite Ev in E'. injection E' as <-. cbn [fst]. intros e Ie. apply In_nth_error in Ie. destruct Ie as [i Hi]. apply He in Hi.
    destruct Hi as [Li ->]. destruct Hk as [->|(v & Iv & Lv)].
    + apply le_INR in Li. rewrite mult_INR in Li. cbn [INR] in *. lra.
    + assert (v = 0) as -> by (cbn in Iv; intuition). rewrite Rabs_R0 in Lv. apply le_INR in Li. rewrite mult_INR in Li. cbn [INR] in Li. lra.
Qed.
(*@ex C93 *)
Lemma hist_example : exists out, scatter_hist [Some 1; Some (-2)] [Some (1/2); Some 0] = Ok out.
Proof. apply hist_outcome. split; [easy|]. split; [easy|]. cbn. intuition discriminate. Qed.
