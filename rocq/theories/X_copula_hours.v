(** C117 over several hours: copies within an hour, and hours that repeat. *)
From Verif Require Import Prelude PreludeFacts RealBase Fl RealStat M_spatial Spec_spatial Spec_stats M_copula Spec_copula P_plane X_spatial_time
  X_stats_err P_list X_copula_params X_copula_inverse X_copula_down Spec_copula_frozen X_copula_frozen.
Local Open Scope R_scope.

Lemma nth_error_concat {A} (ls : list (list A)) h l r : nth_error ls h = Some l -> (r < length l)%nat ->
  nth_error (concat ls) (list_sum (map (@length A) (firstn h ls)) + r) = nth_error l r.
Proof.
  revert h. induction ls as [|x ls IH]; intros [|h] E L; try discriminate; cbn [nth_error concat firstn map] in *.
  - injection E as ->. cbn. now rewrite nth_error_app1.
  - rewrite <- (IH h E L). set (s := list_sum (map (@length A) (firstn h ls))).
    change (list_sum (length x :: map (@length A) (firstn h ls))) with (length x + s)%nat. rewrite nth_error_app2 by lia. f_equal. lia.
Qed.
Lemma sums_agree {A B} (xs : list (list A)) (ys : list (list B)) h : length xs = length ys ->
  (forall i x y, nth_error xs i = Some x -> nth_error ys i = Some y -> length x = length y) ->
  list_sum (map (@length A) (firstn h xs)) = list_sum (map (@length B) (firstn h ys)).
Proof.
  revert ys h. induction xs as [|x xs IH]; intros [|y ys] [|h] L H; try discriminate; [reflexivity..|]. cbn [firstn map]. change (length x + list_sum (map (@length A) (firstn h xs)) = length y + list_sum (map (@length B) (firstn h ys)))%nat. f_equal.
  - exact (H 0%nat x y eq_refl eq_refl).
  - apply IH; [cbn in L; lia|]. intros i. exact (H (S i)).
Qed.

(*@ C117 Over several hours, each with its own times, mean, parameters, speed and direction: within every hour the value recorded at a site when the clouds arrive is the one recorded before at the upwind site. The rows of an hour follow those of the hours before it. *)
Lemma multihour_frozen : forall mvn Phi (times : list (list R)) e n spd dir csi params seed scale noneg, sampler mvn -> csi <> [] ->
  length times = length csi -> fits (length csi) params -> number_fits (length csi) spd -> number_fits (length csi) dir -> same_kind spd dir ->
  (forall t, In t times -> t <> []) -> (forall i q, at_hour params i q -> proper q) -> length e = length n ->
  (forall h t v d k cov, nth_error times h = Some t -> number_at_hour spd h v -> number_at_hour dir h d -> 0 < k -> site_time_cov k e n t v d cov ->
     gaussian_draw cov (mvn seed cov)) ->
  exists out, downscale_multihour mvn Phi (Many times) e n spd dir csi params seed scale noneg = Ok out /\
    forall h t v d i j a b dt, nth_error times h = Some t -> number_at_hour spd h v -> number_at_hour dir h d ->
      downwind e n d i j (v * dt) -> elapsed t a b dt ->
      let first := list_sum (map (@length R) (firstn h times)) in
      exists c, cell_at out (first + a) i c /\ cell_at out (first + b) j c.
Proof.
  intros mvn Phi times e n spd dir csi params seed scale noneg Hm Ne Lt Fq Fs Fd Sk Nt Hq EL Dr.
  destruct (multihour_shape mvn Phi times e n spd dir csi params seed scale noneg Hm Ne Lt Fq Fs Fd Sk Nt Hq EL) as (out & E & _).
  exists out. split; [exact E|].
  apply (multihour_value mvn Phi (Many times) e n spd dir csi params seed scale noneg out Lt Fq Fs Fd Sk) in E. destruct E as (_ & hours & -> & Lh & H).
  assert (Q : forall h, (h < length csi)%nat -> exists q, at_hour params h q).
  { intros h Hh. destruct params as [q|l]; [exists q; reflexivity|]. cbn in Fq. destruct (nth_error l h) as [q|] eqn:El; [exists q; exact El|]. apply nth_error_None in El. lia. }
  assert (V : forall s, number_fits (length csi) s -> forall h, (h < length csi)%nat -> exists v, number_at_hour s h v).
  { intros [x|[|x [|y l]]] F h Hh; cbn in F |- *; [exists x; reflexivity|lia|exists x; reflexivity|].
    destruct (nth_error (x :: y :: l) h) as [v|] eqn:El; [exists v; reflexivity|]. apply nth_error_None in El. cbn in El. lia. }
  assert (Hour : forall h t v d, nth_error times h = Some t -> number_at_hour spd h v -> number_at_hour dir h d ->
     exists K q hr, nth_error hours h = Some hr /\ downscale mvn Phi t e n [v] d K q seed scale noneg = Ok hr /\ proper q).
  { intros h t v d Et Ev Ed. assert (Hh : (h < length csi)%nat) by (rewrite <- Lt; apply nth_error_Some; congruence).
    destruct (nth_error csi h) as [K|] eqn:EK; [|apply nth_error_None in EK; lia]. destruct (Q h Hh) as [q Eq].
    destruct (H h K t q v d EK Et Eq Ev Ed) as (hr & A & B). exists K, q, hr. split; [exact A|]. split; [exact B|]. exact (Hq h q Eq). }
  assert (Same : forall h t hr, nth_error times h = Some t -> nth_error hours h = Some hr -> length t = length hr).
  { intros h t hr Et Eh. assert (Hh : (h < length csi)%nat) by (rewrite <- Lt; apply nth_error_Some; congruence).
    destruct (V spd Fs h Hh) as [v Ev]. destruct (V dir Fd h Hh) as [d Ed]. destruct (Hour h t v d Et Ev Ed) as (K & q & hr' & A & B & P).
    rewrite Eh in A. injection A as <-. destruct (downscale_shape mvn Phi t e n v d K q seed scale noneg Hm P) as (o & E1 & Sh & _); [apply Nt; eapply nth_error_In; eauto|exact EL|].
    rewrite B in E1. injection E1 as <-. symmetry. apply Sh. }
  intros h t v d i j a b dt Et Ev Ed Dw El first. destruct (Hour h t v d Et Ev Ed) as (K & q & hr & A & B & P).
  destruct (frozen_core mvn Phi t e n v d K q seed Hm P) with (scale := scale) (noneg := noneg) as (o & E1 & _ & G); [apply Nt; eapply nth_error_In; eauto|exact EL| |].
  { intros k cov Kp Hc. exact (Dr h t v d k cov Et Ev Ed Kp Hc). }
  rewrite B in E1. injection E1 as <-. destruct (G i j a b dt Dw El) as (c & (r1 & R1 & C1) & (r2 & R2 & C2)).
  assert (F : first = list_sum (map (@length (list fl)) (firstn h hours))).
  { unfold first. apply sums_agree; [lia|]. intros i0 x y. apply Same. }
  exists c. rewrite F. split.
  - exists r1. split; [|exact C1]. rewrite (nth_error_concat hours h hr a A); [exact R1|]. apply nth_error_Some. congruence.
  - exists r2. split; [|exact C2]. rewrite (nth_error_concat hours h hr b A); [exact R2|]. apply nth_error_Some. congruence.
Qed.

Lemma map_id_in {A} (f : A -> A) l : (forall x, f x = x) -> map f l = l.
Proof. intro H. rewrite (map_ext f (fun x => x)) by exact H. apply map_id. Qed.
(*@ C117 Only differences of times matter to downscale: starting all times later changes nothing. *)
Lemma downscale_later : forall mvn Phi times e n spd dir K q seed scale noneg c,
  downscale mvn Phi (map (fun t => t + c) times) e n [spd] dir K q seed scale noneg = downscale mvn Phi times e n [spd] dir K q seed scale noneg.
Proof.
  intros mvn Phi times e n spd dir K q seed scale noneg c. unfold downscale. destruct (solar_gmm csi_grid K q) as [g|]; [|reflexivity]. 
  assert (E : spacetime_speeds e n (map (fun t => t + c) times) [spd] dir = spacetime_speeds e n times [spd] dir).
  { destruct times as [|t0 ts]; [reflexivity|]. change (spacetime_distances e n (map (fun t => t + c) (t0 :: ts)) spd dir = spacetime_distances e n (t0 :: ts) spd dir).
    rewrite <- (spacetime_shift e n (t0 :: ts) spd dir 0 0 c). rewrite !(map_id_in (fun v => v + 0)) by (intro; ring). reflexivity. }
  rewrite E, map_length. reflexivity.
Qed.
(*@ C117 The cloud field does not go on from one hour to the next: with the same mean, parameters, speed and direction every hour the records of the first hour come again and again, however far the clouds have moved. *)
Lemma multihour_restarts : forall mvn Phi t shifts e n spd dir K q seed scale noneg out, shifts <> [] ->
  downscale_multihour mvn Phi (Many (map (fun c => map (fun x => x + c) t) shifts)) e n (Single spd) (Single dir) (repeat K (length shifts)) (Single q) seed scale noneg = Ok out ->
  exists h, downscale mvn Phi t e n [spd] dir K q seed scale noneg = Ok h /\ out = concat (repeat h (length shifts)).
Proof.
  intros mvn Phi t shifts e n spd dir K q seed scale noneg out Ns H.
  apply multihour_value in H; [|cbn; now rewrite map_length, repeat_length|exact I..]. destruct H as (_ & hours & -> & L & H). rewrite repeat_length in L.
  assert (G : forall i c, nth_error shifts i = Some c -> exists h, nth_error hours i = Some h /\ downscale mvn Phi t e n [spd] dir K q seed scale noneg = Ok h).
  { intros i c Ei. assert (Hi : (i < length shifts)%nat) by (apply nth_error_Some; congruence).
    destruct (H i K (map (fun x => x + c) t) q spd dir) as (h & A & B); [now apply nth_error_repeat| |reflexivity..|].
    - cbn. now rewrite nth_error_map, Ei.
    - exists h. split; [exact A|]. now rewrite downscale_later in B. }
  destruct (downscale mvn Phi t e n [spd] dir K q seed scale noneg) as [h|er] eqn:Ed.
  - exists h. split; [reflexivity|]. f_equal. rewrite <- L. apply nth_error_ext. intro i. destruct (nth_error shifts i) as [c|] eqn:Ei.
    + destruct (G i c Ei) as (h' & A & B). injection B as <-. rewrite A. symmetry. apply nth_error_repeat. apply nth_error_Some. congruence.
    + apply nth_error_None in Ei. transitivity (@None (list (list fl))); [|symmetry]; apply nth_error_None; [lia|rewrite repeat_length; lia].
  - destruct shifts as [|c s]; [contradiction|]. destruct (G 0%nat c eq_refl) as (h & _ & B). discriminate.
Qed.
(*@ex C117 Two hours of two seconds: inputs that meet the hypotheses of both theorems. *)
Lemma hours_example : exists out, downscale_multihour pair_draw (fun _ => 1 / 2) (Many (map (fun c => map (fun x => x + c) [0; 1]) [0; 2])) [0; 1] [0; 0]
    (Single 1) (Single 0) (repeat (1 / 2) (length [0; 2])) (Single default_params) 7 true true = Ok out /\ length out = 4%nat /\
  forall h t v d k cov, nth_error [[0; 1]; [0 + 2; 1 + 2]] h = Some t -> number_at_hour (Single 1) h v -> number_at_hour (Single 0) h d -> 0 < k ->
    site_time_cov k [0; 1] [0; 0] t v d cov -> gaussian_draw cov (pair_draw 7 cov).
Proof.
  destruct frozen_example as (Hs & Hg & _).
  destruct (multihour_shape pair_draw (fun _ => 1 / 2) (map (fun c => map (fun x => x + c) [0; 1]) [0; 2]) [0; 1] [0; 0] (Single 1) (Single 0) (repeat (1 / 2) 2) (Single default_params) 7 true true Hs)
    as (out & E & Sh); try easy.
  - intros t [<-|[<-|[]]]; discriminate.
  - intros i q ->. apply default_params_proper.
  - exists out. split; [exact E|]. split; [exact (proj1 Sh)|].
    intros h t v d k cov Et -> -> Kp (L & Lr & Hc). apply (Hg k cov Kp). destruct h as [|[|h]]; cbn in Et; [injection Et as <-; now split|injection Et as <-|destruct h; discriminate].
    split; [exact L|]. split; [exact Lr|]. intros i j a b ei ni ej nj ta tb t0 H0 A1 A2 A3 A4 A5 A6.
    pose proof (Hc i j a b ei ni ej nj (ta + 2) (tb + 2) (t0 + 2)) as X. cbn [length] in X |- *. rewrite X; try assumption.
    + replace (ta + 2 - (t0 + 2)) with (ta - t0) by ring. replace (tb + 2 - (t0 + 2)) with (tb - t0) by ring. reflexivity.
    + injection H0 as <-. reflexivity.
    + destruct a as [|[|[|a]]]; cbn in A3 |- *; congruence.
    + destruct b as [|[|[|b]]]; cbn in A6 |- *; congruence.
Qed.
