(** Placing sites on a one-dimensional grid (C55). *)
From Coq Require Import String.
From Verif Require Import Prelude PreludeFacts RealBase Fl RealStat Dft Phase M_spatial M_cmv M_signal_corr M_signal_tf M_signal_plant Spec_plant P_list P_welch P_plant.
From Coq Require Import Lra Psatz Permutation.
Local Open Scope R_scope.

Lemma start_nth (xs : list R) i x : nth_error xs i = Some x -> nth_error (map (fun _ => Some 0) xs) i = Some (Some 0).
Proof. intro H. rewrite nth_error_map, H. reflexivity. Qed.

(*@ C55 When the call succeeds: never depending on the sites. Failures are a zero step and an unknown shape. *)
Lemma plant_outcome : forall centers ref width shape dx xmax,
  (get_1d_plant centers ref width shape dx xmax = Err ZeroDivisionError <-> dx = 0) /\
  (get_1d_plant centers ref width shape dx xmax = Err ValueError <->
     dx <> 0 /\ ~ In (lower shape) ["square"; "triangle"; "gaussian"]%string) /\
  (forall e, get_1d_plant centers ref width shape dx xmax = Err e -> e = ZeroDivisionError \/ e = ValueError).
Proof.
  intros. unfold get_1d_plant.
  destruct (Req_dec dx 0) as [->|N].
  - unfold arange. rewrite Reqb_true by reflexivity. cbn [rbind]. split; [tauto|]. split; [split; [discriminate|tauto]|]. intros e H. injection H as <-. auto.
  - destruct (arange_grid dx xmax N) as (xs & -> & _). cbn [rbind].
    destruct (String.eqb_spec (lower shape) "square") as [E1|E1]; [split; [split; [discriminate|tauto]|split; [split; [discriminate|intros [_ H]; contradict H; rewrite E1; cbn; auto]|discriminate]]|].
    destruct (String.eqb_spec (lower shape) "triangle") as [E2|E2]; [split; [split; [discriminate|tauto]|split; [split; [discriminate|intros [_ H]; contradict H; rewrite E2; cbn; auto]|discriminate]]|].
    destruct (String.eqb_spec (lower shape) "gaussian") as [E3|E3]; [split; [split; [discriminate|tauto]|split; [split; [discriminate|intros [_ H]; contradict H; rewrite E3; cbn; auto]|discriminate]]|].
    split; [split; [discriminate|tauto]|]. split; [|intros e H; injection H as <-; auto]. split; [|reflexivity]. intros _. split; [exact N|].
    cbn. intuition congruence.
Qed.

(*@ C55 'square': the grid, and a point is 1 exactly when some site covers it, else 0. *)
Lemma square_value : forall centers ref width shape dx xmax, dx <> 0 -> lower shape = "square"%string ->
  exists plant xs, get_1d_plant centers ref width shape dx xmax = Ok (plant, xs) /\
    site_grid dx xmax xs /\ length plant = length xs /\
    forall i x, nth_error xs i = Some x ->
      (covered (width_or dx width) ref centers x /\ nth_error plant i = Some (Some 1)) \/
      (~ covered (width_or dx width) ref centers x /\ nth_error plant i = Some (Some 0)).
Proof.
  intros centers ref width shape dx xmax N Sh. unfold get_1d_plant. rewrite Sh.
  destruct (arange_grid dx xmax N) as (xs & -> & G). cbn [rbind]. cbv [String.eqb Ascii.eqb Bool.eqb]. fold (width_or dx width).
  set (w := width_or dx width).
  destruct (fold_place xs _ _ (square_pw w xs) (map (option_map (fun c => c - ref)) centers) (map (fun _ => Some 0) xs)) as [L V]; [apply map_length|].
  eexists _, xs. split; [reflexivity|]. split; [exact G|]. split; [exact L|]. intros i x H.
  rewrite (V i x (Some 0) H (start_nth _ _ _ H)).
  destruct (square_fold w ref x centers (Some 0)) as [[C ->]|[C ->]]; auto.
Qed.

(*@ C55 Order, repetition and missing sites are irrelevant to 'square'. *)
Lemma square_sites : forall c1 c2 ref width shape dx xmax, lower shape = "square"%string ->
  (forall c, In (Some c) c1 <-> In (Some c) c2) ->
  get_1d_plant c1 ref width shape dx xmax = get_1d_plant c2 ref width shape dx xmax.
Proof.
  intros c1 c2 ref width shape dx xmax Sh Eq.
  destruct (Req_dec dx 0) as [->|N]; [unfold get_1d_plant, arange; rewrite Reqb_true by reflexivity; reflexivity|].
  destruct (square_value c1 ref width shape dx xmax N Sh) as (p1 & x1 & E1 & _ & L1 & V1).
  destruct (square_value c2 ref width shape dx xmax N Sh) as (p2 & x2 & E2 & _ & L2 & V2).
  assert (X : x1 = x2).
  { unfold get_1d_plant in E1, E2. rewrite Sh in E1, E2. destruct (arange (half_floor (- xmax)) (half_floor xmax) dx) as [xs|e]; cbn [rbind] in E1, E2; [|discriminate].
    cbv [String.eqb Ascii.eqb Bool.eqb] in E1, E2. congruence. }
  subst x2. rewrite E1, E2. do 2 f_equal. apply nth_error_ext. intro i.
  assert (Cov : forall x, covered (width_or dx width) ref c1 x <-> covered (width_or dx width) ref c2 x)
    by (intro x; split; intros (c & I & Rc); exists c; (split; [now apply Eq|exact Rc])).
  destruct (nth_error x1 i) as [x|] eqn:Hx.
  - destruct (V1 i x Hx) as [[A ->]|[A ->]], (V2 i x Hx) as [[B ->]|[B ->]]; auto; apply Cov in B || (exfalso; apply B; apply Cov; exact A); contradiction.
  - apply nth_error_None in Hx. transitivity (@None (option R)); [|symmetry]; apply nth_error_None; lia.
Qed.

(*@ C55 With the default width (one step) every site from the first grid point to the last marks exactly one point:
   with a single site the plant is 1 there and 0 elsewhere. *)
Lemma square_single : forall c ref shape dx xmax plant xs first last, 0 < dx -> lower shape = "square"%string ->
  get_1d_plant [Some c] ref None shape dx xmax = Ok (plant, xs) ->
  nth_error xs 0 = Some first -> nth_error xs (length xs - 1) = Some last ->
  first - dx / 2 < c - ref <= last + dx / 2 ->
  exists j, (j < length xs)%nat /\ forall i, (i < length xs)%nat -> nth_error plant i = Some (Some (if Nat.eqb i j then 1 else 0)).
Proof.
  intros c ref shape dx xmax plant xs first last P Sh E H0 Hl B.
  assert (N : dx <> 0) by lra.
  destruct (square_value [Some c] ref None shape dx xmax N Sh) as (p1 & x1 & E1 & G & L & V).
  rewrite E in E1. injection E1 as <- <-. destruct G as (lo & hi & _ & _ & G).
  cbn [width_or] in V.
  assert (F : first = IZR lo) by (apply G in H0; destruct H0 as [-> _]; cbn; ring).
  assert (La : last = IZR lo + INR (length xs - 1) * dx) by (apply G in Hl; tauto).
  set (t := c - ref) in *.
  (* the index is the ceiling of (t - first) / dx - 1/2 *)
  assert (J : exists j, (j < length xs)%nat /\ IZR lo + INR j * dx - dx / 2 < t <= IZR lo + INR j * dx + dx / 2).
  { assert (Ind : forall n, t <= IZR lo + INR n * dx + dx / 2 -> exists j, (j <= n)%nat /\ IZR lo + INR j * dx - dx / 2 < t <= IZR lo + INR j * dx + dx / 2).
    { induction n as [|n IH]; intro U; [exists 0%nat; split; [lia|]; cbn in *; lra|].
      destruct (Rle_dec t (IZR lo + INR n * dx + dx / 2)) as [D|D]; [destruct (IH D) as (j & Lj & Rj); exists j; split; [lia|exact Rj]|].
      exists (S n). split; [lia|]. rewrite S_INR in *. lra. }
    destruct (Ind (length xs - 1)%nat) as (j & Lj & Rj); [rewrite <- La; lra|]. exists j. split; [|exact Rj].
    assert (0 < length xs)%nat by (apply nth_error_Some; congruence). lia. }
  destruct J as (j & Lj & Rj). exists j. split; [exact Lj|]. intros i Li.
  destruct (nth_error xs i) as [x|] eqn:Hx; [|apply nth_error_None in Hx; lia].
  pose proof Hx as Gx. apply G in Gx. destruct Gx as [Gx _].
  assert (Cov : covered dx ref [Some c] x <-> i = j).
  { unfold covered, reaches. split.
    - intros (d & [Ed|[]] & Rd). injection Ed as <-. fold t in Rd.
      destruct (Nat.lt_trichotomy i j) as [K|[K|K]]; [|exact K|]; exfalso.
      + assert (Q : INR i + 1 <= INR j) by (rewrite <- S_INR; apply le_INR; lia). nra.
      + assert (Q : INR j + 1 <= INR i) by (rewrite <- S_INR; apply le_INR; lia). nra.
    - intros ->. exists c. split; [now left|]. fold t. lra. }
  destruct (V i x Hx) as [[A ->]|[A ->]].
  - apply Cov in A. subst. now rewrite Nat.eqb_refl.
  - destruct (Nat.eqb_spec i j) as [D|D]; [|reflexivity]. contradict A. now apply Cov.
Qed.

(*@ C55 'triangle': the last site in the list that covers a point decides it: a ramp from the left edge of that site;
   uncovered points are 0. *)
Lemma triangle_value : forall centers ref width shape dx xmax, dx <> 0 -> lower shape = "triangle"%string ->
  exists plant xs, get_1d_plant centers ref width shape dx xmax = Ok (plant, xs) /\
    site_grid dx xmax xs /\ length plant = length xs /\
    forall i x, nth_error xs i = Some x ->
      (exists before c after, centers = before ++ Some c :: after /\ reaches (width_or dx width) (c - ref) x /\
         ~ covered (width_or dx width) ref after x /\
         nth_error plant i = Some (Some (x - (c - ref - width_or dx width / 2)))) \/
      (~ covered (width_or dx width) ref centers x /\ nth_error plant i = Some (Some 0)).
Proof.
  intros centers ref width shape dx xmax N Sh. unfold get_1d_plant. rewrite Sh.
  destruct (arange_grid dx xmax N) as (xs & -> & G). cbn [rbind]. cbv [String.eqb Ascii.eqb Bool.eqb]. fold (width_or dx width).
  set (w := width_or dx width).
  destruct (fold_place xs _ _ (triangle_pw w xs) (map (option_map (fun c => c - ref)) centers) (map (fun _ => Some 0) xs)) as [L V]; [apply map_length|].
  eexists _, xs. split; [reflexivity|]. split; [exact G|]. split; [exact L|]. intros i x H.
  rewrite (V i x (Some 0) H (start_nth _ _ _ H)).
  destruct (triangle_fold w ref x centers (Some 0)) as [(pre & c & post & E & A & B & ->)|[C ->]]; [left|right; auto].
  exists pre, c, post. repeat (split; [assumption|]). do 2 f_equal. ring.
Qed.

(*@ C55 'gaussian': the sum of the sites' unit-height bumps. *)
Lemma gaussian_value : forall cs ref width shape dx xmax, dx <> 0 -> width_or dx width <> 0 -> lower shape = "gaussian"%string ->
  exists plant xs, get_1d_plant (map Some cs) ref width shape dx xmax = Ok (plant, xs) /\
    site_grid dx xmax xs /\
    plant = map (fun x => Some (Rsum (map (fun c => gauss (width_or dx width) (x - (c - ref))) cs))) xs.
Proof.
  intros cs ref width shape dx xmax N W Sh. unfold get_1d_plant. rewrite Sh.
  destruct (arange_grid dx xmax N) as (xs & -> & G). cbn [rbind]. cbv [String.eqb Ascii.eqb Bool.eqb]. fold (width_or dx width).
  set (w := width_or dx width) in *.
  destruct (fold_place xs _ _ (gaussian_pw w xs) (map (option_map (fun c => c - ref)) (map Some cs)) (map (fun _ => Some 0) xs)) as [L V]; [apply map_length|].
  eexists _, xs. split; [reflexivity|]. split; [exact G|]. apply nth_error_ext. intro i. rewrite nth_error_map.
  destruct (nth_error xs i) as [x|] eqn:H; cbn [option_map].
  - rewrite (V i x (Some 0) H (start_nth _ _ _ H)), gaussian_fold by exact W. now rewrite Rplus_0_l.
  - apply nth_error_None in H. apply nth_error_None. lia.
Qed.

(*@ C55 'gaussian' ignores the order of the sites; a bump has height 1 at its site and positive height everywhere. *)
Lemma gaussian_perm : forall c1 c2 ref width shape dx xmax, lower shape = "gaussian"%string -> width_or dx width <> 0 ->
  Permutation c1 c2 ->
  get_1d_plant (map Some c1) ref width shape dx xmax = get_1d_plant (map Some c2) ref width shape dx xmax.
Proof.
  intros c1 c2 ref width shape dx xmax Sh W Pm.
  destruct (Req_dec dx 0) as [->|N]; [unfold get_1d_plant, arange; rewrite Reqb_true by reflexivity; reflexivity|].
  destruct (gaussian_value c1 ref width shape dx xmax N W Sh) as (p1 & x1 & E1 & _ & V1).
  destruct (gaussian_value c2 ref width shape dx xmax N W Sh) as (p2 & x2 & E2 & _ & V2).
  assert (X : x1 = x2).
  { unfold get_1d_plant in E1, E2. rewrite Sh in E1, E2. destruct (arange (half_floor (- xmax)) (half_floor xmax) dx) as [xs|e]; cbn [rbind] in E1, E2; [|discriminate].
    cbv [String.eqb Ascii.eqb Bool.eqb] in E1, E2. congruence. }
  subst x2. rewrite E1, E2, V1, V2. do 2 f_equal. apply map_ext. intro x. f_equal. now apply Rsum_map_perm.
Qed.
(*@ C55 The bump. *)
Lemma bump_shape : forall w, w <> 0 ->
  gauss w 0 = 1 /\ (forall d, 0 < gauss w d <= 1 /\ gauss w (- d) = gauss w d) /\
  (forall d d', Rabs d < Rabs d' -> gauss w d' < gauss w d).
Proof.
  intros w N. unfold gauss.
  assert (M : forall d, (d * 2.355 / w) ^ 2 = d ^ 2 * (2.355 / w) ^ 2) by (intro d; field; exact N).
  assert (Q : 0 < (2.355 / w) ^ 2).
  { assert (Z : 2.355 / w <> 0) by (unfold Rdiv; apply Rmult_integral_contrapositive_currified; [lra|now apply Rinv_neq_0_compat]).
    pose proof (Rsqr_pos_lt _ Z) as K. unfold Rsqr in K. cbn [pow]. lra. }
  split; [rewrite M; replace (- (0 ^ 2 * (2.355 / w) ^ 2) / 2) with 0 by (field; exact N); apply exp_0|].
  split.
  - intro d. split; [split; [apply exp_pos|]|].
    + rewrite <- exp_0. rewrite M. pose proof (pow2_ge_0 d).
      destruct (Rle_lt_or_eq_dec (- (d ^ 2 * (2.355 / w) ^ 2) / 2) 0) as [K|K]; [nra|left; now apply exp_increasing|rewrite K; lra].
    + f_equal. field. exact N.
  - intros d d' L. rewrite !M. apply exp_increasing.
    assert (K : d ^ 2 < d' ^ 2) by (rewrite <- (pow2_abs d), <- (pow2_abs d'); pose proof (Rabs_pos d); nra). nra.
Qed.

(*@ C55 One missing site makes every value of a 'gaussian' plant missing. *)
Lemma gaussian_missing : forall centers ref width shape dx xmax, dx <> 0 -> lower shape = "gaussian"%string -> In None centers ->
  exists plant xs, get_1d_plant centers ref width shape dx xmax = Ok (plant, xs) /\ site_grid dx xmax xs /\ plant = map (fun _ => None) xs.
Proof.
  intros centers ref width shape dx xmax N Sh I. unfold get_1d_plant. rewrite Sh.
  destruct (arange_grid dx xmax N) as (xs & -> & G). cbn [rbind]. cbv [String.eqb Ascii.eqb Bool.eqb]. fold (width_or dx width).
  set (w := width_or dx width) in *.
  destruct (fold_place xs _ _ (gaussian_pw w xs) (map (option_map (fun c => c - ref)) centers) (map (fun _ => Some 0) xs)) as [L V]; [apply map_length|].
  eexists _, xs. split; [reflexivity|]. split; [exact G|]. apply nth_error_ext. intro i. rewrite nth_error_map.
  destruct (nth_error xs i) as [x|] eqn:H; cbn [option_map].
  - rewrite (V i x (Some 0) H (start_nth _ _ _ H)). f_equal. apply gaussian_nan_in. apply in_map_iff. exists None. auto.
  - apply nth_error_None in H. apply nth_error_None. lia.
Qed.

(*@ C55 A zero width: a 'gaussian' site leaves the grid at 0 except that the point under it becomes missing. *)
Lemma gaussian_zero_width : forall cs ref shape dx xmax, dx <> 0 -> lower shape = "gaussian"%string ->
  exists plant xs, get_1d_plant (map Some cs) ref (Some 0) shape dx xmax = Ok (plant, xs) /\ site_grid dx xmax xs /\
    length plant = length xs /\
    forall i x, nth_error xs i = Some x ->
      (In (x + ref) cs /\ nth_error plant i = Some None) \/ (~ In (x + ref) cs /\ nth_error plant i = Some (Some 0)).
Proof.
  intros cs ref shape dx xmax N Sh. unfold get_1d_plant. rewrite Sh.
  destruct (arange_grid dx xmax N) as (xs & -> & G). cbn [rbind]. cbv [String.eqb Ascii.eqb Bool.eqb].
  destruct (fold_place xs _ _ (gaussian_pw 0 xs) (map (option_map (fun c => c - ref)) (map Some cs)) (map (fun _ => Some 0) xs)) as [L V]; [apply map_length|].
  eexists _, xs. split; [reflexivity|]. split; [exact G|]. split; [exact L|]. intros i x H.
  rewrite (V i x (Some 0) H (start_nth _ _ _ H)). clear. induction cs as [|c cs IH]; [right; split; [tauto|reflexivity]|].
  cbn [map fold_left option_map]. unfold gaussian_at at 2 4. unfold bump. rewrite (Reqb_true 0 0) by reflexivity.
  destruct (Reqb_spec x (c - ref)) as [E|E].
  - left. split; [left; lra|]. f_equal. apply gaussian_nan.
  - rewrite Rplus_0_l. destruct IH as [[I IH]|[I IH]]; [left; split; [now right|exact IH]|right; split; [|exact IH]].
    intros [K|K]; [lra|contradiction].
Qed.

Lemma grid4 : arange (half_floor (Ropp 4)) (half_floor 4) 1 = Ok [-2; -1; 0; 1].
Proof.
  unfold arange, half_floor. rewrite Reqb_false by lra.
  rewrite (Int_part_unique (Ropp 4 / 2) (-2)) by lra. rewrite (Int_part_unique (4 / 2) 2) by lra.
  unfold ceil_nat. rewrite (Int_part_unique (- ((2 - -2) / 1)) (-4)) by lra.
  change (Z.to_nat (- -4)) with 4%nat. cbn [seq map INR]. apply f_equal. repeat (apply (f_equal2 cons); [lra|]). reflexivity.
Qed.
(*@ C55 'triangle' depends on the order of overlapping sites. *)
Lemma triangle_order_refuted :
  ~ (forall c1 c2 ref width shape dx xmax, lower shape = "triangle"%string -> Permutation c1 c2 ->
       get_1d_plant c1 ref width shape dx xmax = get_1d_plant c2 ref width shape dx xmax).
Proof.
  intro H. specialize (H [Some 0; Some 1] [Some 1; Some 0] 0 (Some 2) "triangle"%string 1 4 eq_refl (perm_swap _ _ _)).
  unfold get_1d_plant in H. rewrite grid4 in H. cbv [rbind] in H. change (lower "triangle") with "triangle"%string in H. cbv [String.eqb Ascii.eqb Bool.eqb] in H.
  cbn [map option_map fold_left place_triangle map2] in H. injection H as _ _ H _.
  unfold in_window in H. 
  repeat match type of H with context [Rleb ?a ?b] => destruct (Rleb_spec a b); [|lra] end.
  repeat match type of H with context [Rltb ?a ?b] => destruct (Rltb_spec a b); [|lra] end.
  cbn [andb] in H. injection H as H. lra.
Qed.
(*@ex C55 Two sites on the grid -2, -1, 0, 1 with the default width, one between two points, one beyond the grid. *)
Lemma square_example : get_1d_plant [Some (3 / 10); None; Some 11; Some (- 6 / 10)] 0 None "Square" 1 4 =
  Ok ([Some 0; Some 1; Some 1; Some 0], [-2; -1; 0; 1]).
Proof.
  unfold get_1d_plant. rewrite grid4. cbv [rbind]. change (lower "Square") with "square"%string. cbv [String.eqb Ascii.eqb Bool.eqb].
  cbn [map option_map fold_left place_square]. unfold map2. cbn [combine map fst snd]. unfold in_window.
  repeat match goal with |- context [Rleb ?a ?b] => destruct (Rleb_spec a b); try lra end;
  repeat match goal with |- context [Rltb ?a ?b] => destruct (Rltb_spec a b); try lra end; reflexivity.
Qed.
