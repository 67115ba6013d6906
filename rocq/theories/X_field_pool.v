(** Final forms: the pool of worker processes gives what the plain loop gives. *)
From Coq Require Import String Permutation Sorted Lia.
From Verif Require Import Prelude PreludeFacts RealBase Fl M_spatial Spec_spatial M_cmv M_field_remap Spec_field P_field_remap P_field_lsa
  M_field_pos Spec_field_pos X_field_pos Spec_field_mislabel X_field_mislabel M_field_loop Spec_field_loop X_field_loop M_field_pool Spec_field_pool P_field_pool.
Local Open Scope nat_scope.

(*@ C113 Whatever the number of workers and the schedule, kills included: if the main process gets through, it ends as the plain loop does, with the same values or the same exception. *)
Lemma pool_sequential : forall (A B S : Type) (task : A -> result B) (use : S -> B -> result S) workers tasks s evs p out,
  pool_run task use workers (length tasks) evs (pool_start tasks s) = Some p -> outcome (p_main p) = Some out ->
  out = one_after_another task use tasks s.
Proof.
  intros A B S task use workers tasks s evs p out E O. apply inv_from_start in E as (f & _ & _ & _ & _ & _ & _ & _ & M).
  unfold main_ok in M. unfold one_after_another. destruct (p_main p) as [i s'|s'|e]; cbn in O; [discriminate| |]; injection O as <-; symmetry.
  - exact (proj1 M).
  - exact M.
Qed.

(*@ C113 No schedule goes on for ever: each has at most three moves per task and one more. *)
Lemma pool_bound : forall (A B S : Type) (task : A -> result B) (use : S -> B -> result S) workers tasks s evs p,
  pool_run task use workers (length tasks) evs (pool_start tasks s) = Some p -> length evs <= 3 * length tasks + 1.
Proof.
  intros A B S task use workers tasks s evs p E.
  pose proof (rank_run _ _ _ _ _ evs 0 _ _ (inv_start task use workers tasks s) E) as H.
  unfold rank at 2 in H. cbn [pool_start p_queue p_busy p_main length] in H. rewrite numbered_length in H. lia.
Qed.

(*@ C113 With at least one worker and nobody killed, a schedule can only come to rest when the main process has got through. *)
Lemma pool_finishes : forall (A B S : Type) (task : A -> result B) (use : S -> B -> result S) workers tasks s evs p,
  1 <= workers -> nobody_killed evs ->
  pool_run task use workers (length tasks) evs (pool_start tasks s) = Some p -> at_rest task use workers (length tasks) p ->
  outcome (p_main p) = Some (one_after_another task use tasks s).
Proof.
  intros A B S task use workers tasks s evs p W NK E R. pose proof (inv_from_start _ _ _ _ _ _ _ E) as I.
  assert (Z : kill_count evs = 0).
  { clear -NK. induction evs as [|ev evs IH]; [reflexivity|]. cbn. rewrite IH; [|intros w H; apply (NK w); now right].
    destruct ev as [w|w|w|]; cbn; try reflexivity. exfalso. apply (NK w). now left. }
  rewrite Z in I. destruct (inv_progress _ _ _ _ _ _ W I R) as (out & O). rewrite O. f_equal. eapply pool_sequential; eauto.
Qed.

(*@ C113 If a worker is killed at work, the main process waits for its result for ever: with tasks that all succeed it never gets through. *)
Lemma pool_killed : forall (A B S : Type) (task : A -> result B) (use : S -> B -> result S) workers tasks s evs p w s',
  pool_run task use workers (length tasks) evs (pool_start tasks s) = Some p -> In (Kill w) evs ->
  one_after_another task use tasks s = Ok s' -> outcome (p_main p) = None.
Proof.
  intros A B S task use workers tasks s evs p w s' E K O.
  pose proof (inv_from_start _ _ _ _ _ _ _ E) as (f & Hf & _ & _ & Hd & _ & Nd & Hl & M).
  assert (Z : 1 <= kill_count evs).
  { clear -K. induction evs as [|ev evs IH]; [contradiction|]. cbn. destruct K as [->|K]; cbn; [lia|]. specialize (IH K). lia. }
  destruct (p_main p) as [i s1|s1|e] eqn:Em; [reflexivity| |].
  - exfalso. unfold main_ok in M. rewrite Em in M. destruct M as [_ M].
    assert (L : length (seq 0 (length tasks)) <= length (map fst (p_done p))).
    { apply NoDup_incl_length; [apply seq_NoDup|]. intros j Hj. apply M. apply in_seq in Hj. lia. }
    rewrite seq_length, map_length in L. lia.
  - exfalso. unfold main_ok in M. rewrite Em in M. unfold one_after_another in O. change (fun s a => let! b := task a in use s b) with (fun s a => rbind (task a) (use s)) in O. congruence.
Qed.

Section Serial.
  Context {K : Type} `{HK : Label K}.
  Variable G : K -> result (list (option R)).
  Lemma fold_loc l : forall rows : list (K * list (option R)),
    (forall e, mapM G l = Err e -> foldM (fun rows k => let! row := G k in Ok (loc_set rows k row)) l rows = Err e) /\
    (forall ys, mapM G l = Ok ys -> foldM (fun rows k => let! row := G k in Ok (loc_set rows k row)) l rows =
       Ok (map (fun r => if lab_mem (fst r) l then match G (fst r) with Ok row => (fst r, row) | Err _ => r end else r) rows)).
  Proof.
    induction l as [|k l IH]; intro rows.
    - split; [discriminate|]. intros ys _. cbn. f_equal. symmetry. apply map_id.
    - cbn [mapM foldM]. destruct (G k) as [row|e0] eqn:Ek; cbn [rbind]; [|split; [congruence|discriminate]].
      destruct (IH (loc_set rows k row)) as [IH1 IH2]. split.
      + intros e E. apply IH1. destruct (mapM G l); cbn in E; [discriminate|congruence].
      + intros ys E. destruct (mapM G l) as [zs|] eqn:El; [|discriminate]. rewrite (IH2 zs eq_refl). f_equal. unfold loc_set. rewrite map_map.
        apply map_ext. intros [k' r']. cbn [fst]. cbn [lab_mem existsb]. unfold lab_mem.
        destruct (lab_eqb k k') eqn:E1; cbn [fst].
        * apply lab_eqb_eq in E1 as <-. replace (lab_eqb k k) with true by (symmetry; now apply lab_eqb_eq). cbn. rewrite Ek. destruct (existsb _ l); reflexivity.
        * replace (lab_eqb k' k) with false; [reflexivity|]. symmetry. destruct (lab_eqb k' k) eqn:E2; [|reflexivity].
          apply lab_eqb_eq in E2 as ->. assert (lab_eqb k k = true) by now apply lab_eqb_eq. congruence.
  Qed.
End Serial.
Lemma foldM_map {A B S} (f : S -> B -> result S) (g : A -> B) l : forall s, foldM f (map g l) s = foldM (fun s a => f s (g a)) l s.
Proof. induction l as [|a l IH]; intro s; cbn; [reflexivity|]. destruct (f s (g a)); cbn; auto. Qed.
Lemma foldM_ext {A S} (f g : S -> A -> result S) l : (forall s a, f s a = g s a) -> forall s, foldM f l s = foldM g l s.
Proof. intros E. induction l as [|a l IH]; intro s; cbn; [reflexivity|]. rewrite E. destruct (g s a); cbn; auto. Qed.

Section Same.
  Context {K : Type} `{HK : Label K}.
  Variable inv_of : K -> string.
  Variable lsa : nat -> list (list R) -> list nat * list nat.
  Variable delays_tf : K * list (option R) -> list (K * list (option R)) -> result (list fl * list fl).
  Variable sort_values : list (K * fl) -> list (K * fl).
  Variable cmv_of : list (K * list (option R)) -> list (K * (R * R)) -> result (fl * fl).
  Variable pairs : list (list (K * list (option R)) * (R * R) * (list (K * list (option R)) * (R * R))).
  Variables (mode : string) (count : nat).
  Let helper := multipool_helper delays_tf sort_values cmv_of pairs mode count.
  Let pred := pairs_mean delays_tf sort_values cmv_of pairs mode count.

  Lemma helper_then_mean (pos_map : table K string R) rows k :
    rbind (helper (k, pos_map)) (store_mean rows) = let! row := (let! p := pred pos_map k in Ok [fst p; snd p]) in Ok (loc_set rows k row).
  Proof.
    unfold helper, multipool_helper, pred, pairs_mean. destruct (mapM _ pairs) as [l|e]; cbn [rbind]; [|reflexivity].
    unfold store_mean. cbn [fst snd]. destruct (pred_cell (series_mean (map fst l))); cbn [rbind]; [|reflexivity].
    destruct (pred_cell (series_mean (map snd l))); reflexivity.
  Qed.

  Lemma serial_preds ids (pos_map : table K string R) :
    rmap (mkTable ["E"; "N"]%string) (one_after_another helper store_mean (map (fun k => (k, pos_map)) ids) (empty_preds ids)) = all_preds pred ids pos_map.
  Proof.
    unfold one_after_another. rewrite foldM_map.
    rewrite (foldM_ext _ (fun rows k => let! row := (let! p := pred pos_map k in Ok [fst p; snd p]) in Ok (loc_set rows k row))) by (intros; apply helper_then_mean).
    set (G := fun k => let! p := pred pos_map k in Ok [fst p; snd p]). unfold all_preds.
    assert (Q : mapM (fun k => let! p := pred pos_map k in Ok (k, [fst p; snd p])) ids = rmap (combine ids) (mapM G ids)).
    { clear. unfold G. induction ids as [|k l IH]; [reflexivity|]. cbn [mapM]. destruct (pred pos_map k) as [p|e]; cbn [rbind]; [|reflexivity].
      rewrite IH. clear IH. destruct (mapM (fun k0 => let! p0 := pred pos_map k0 in Ok [fst p0; snd p0]) l); reflexivity. }
    rewrite Q. destruct (fold_loc G ids (empty_preds ids)) as [F1 F2].
    destruct (mapM G ids) as [ys|e] eqn:E.
    - pose proof (F2 ys eq_refl) as F. etransitivity; [apply f_equal; exact F|]. cbn. f_equal. f_equal. apply mapM_ok_iff in E. clear -E. unfold empty_preds.
      rewrite map_map. cbn [fst].
      assert (M : forall l, (forall k, In k l -> In k ids) -> forall ys, Forall2 (fun x y => G x = Ok y) l ys ->
        map (fun x => if lab_mem x ids then match G x with Ok row => (x, row) | Err _ => (x, [None; None]) end else (x, [None; None])) l = combine l ys).
      { induction l as [|k l IH]; intros Hl ys' F; inversion F as [|? y ? ys'' Hy Fy]; subst; [reflexivity|]. cbn [map combine].
        rewrite (IH (fun k' H => Hl k' (or_intror H)) _ Fy). f_equal. destruct (lab_mem_spec k ids) as [_|N]; [|exfalso; apply N, Hl; now left].
        now rewrite Hy. }
      exact (M ids (fun k H => H) ys E).
    - etransitivity; [apply f_equal; exact (F1 e eq_refl)|]. reflexivity.
  Qed.

  Lemma pool_preds_serial workers plan (pos_map : table K string R) m : pool_preds delays_tf sort_values cmv_of pairs mode count workers plan pos_map m ->
    match m with
    | Waiting _ _ => True
    | Ended rows => all_preds pred (t_index plan) pos_map = Ok (mkTable ["E"; "N"]%string rows)
    | Stopped e => all_preds pred (t_index plan) pos_map = Err e
    end.
  Proof.
    intros (evs & p & E & Em). rewrite <- serial_preds.
    rewrite <- (map_length (fun k => (k, pos_map)) (t_index plan)) in E.
    unfold helper. destruct m as [i s|s|e]; [exact Logic.I| |].
    - rewrite <- (pool_sequential _ _ _ _ _ _ _ _ _ _ (Ok s) E); [reflexivity|now rewrite Em].
    - rewrite <- (pool_sequential _ _ _ _ _ _ _ _ _ _ (Err e) E); [reflexivity|now rewrite Em].
  Qed.
  Lemma pool_preds_exist workers plan (pos_map : table K string R) : 1 <= workers ->
    (exists rows, pool_preds delays_tf sort_values cmv_of pairs mode count workers plan pos_map (Ended rows)) \/
    (exists e, pool_preds delays_tf sort_values cmv_of pairs mode count workers plan pos_map (Stopped e)).
  Proof.
    intro W. destruct (can_finish helper store_mean workers (map (fun k => (k, pos_map)) (t_index plan)) (empty_preds (t_index plan))
      (pool_start (map (fun k => (k, pos_map)) (t_index plan)) (empty_preds (t_index plan))) W (inv_start _ _ _ _ _)) as (evs & p & r & E & O & _).
    rewrite map_length in E. destruct (p_main p) as [i s|s|e] eqn:Em; [discriminate| |].
    - left. exists s, evs, p. split; assumption.
    - right. exists e, evs, p. split; assumption.
  Qed.

  Lemma round_split plan st preds : all_preds pred (t_index plan) (l_pos_map st) = Ok preds -> forall fuel,
    rounds inv_of lsa pred (Datatypes.S fuel) plan st =
    match rest_of_round inv_of lsa plan st preds with
    | Ok (st', ch, false) => Ok (st', ch)
    | Ok (st', _, true) => rounds inv_of lsa pred fuel plan st'
    | Err e => Err e
    end.
  Proof.
    intros E fuel. cbn [rounds]. unfold field_round, rest_of_round. rewrite E. cbn [rbind].
    destruct (all_assignments _ _ _ _ _) as [a|]; cbn [rbind]; [|reflexivity]. destruct (cascade_remap _ a) as [b|]; cbn [rbind]; [|reflexivity].
    destruct (remap_positions plan b None) as [c|]; cbn [rbind]; [|reflexivity].
    destruct (existsb _ _ || _)%bool; reflexivity.
  Qed.

  Lemma pool_is_rounds workers plan st out : pool_process inv_of lsa delays_tf sort_values cmv_of pairs mode count workers plan st out ->
    exists k, forall fuel, k <= fuel -> rounds inv_of lsa pred fuel plan st = out.
  Proof.
    intro P. induction P as [st e H|st rows e H E|st rows st' ch H E|st rows st' ch out H E P [k IH]].
    - exists 1. intros [|fuel] L; [lia|]. apply pool_preds_serial in H. cbn [rounds]. unfold field_round. rewrite H. reflexivity.
    - exists 1. intros [|fuel] L; [lia|]. apply pool_preds_serial in H. rewrite (round_split _ _ _ H), E. reflexivity.
    - exists 1. intros [|fuel] L; [lia|]. apply pool_preds_serial in H. rewrite (round_split _ _ _ H), E. reflexivity.
    - exists (Datatypes.S k). intros [|fuel] L; [lia|]. apply pool_preds_serial in H. rewrite (round_split _ _ _ H), E. apply IH. lia.
  Qed.

  Lemma pool_reaches workers plan : 1 <= workers -> forall m st, 10 <= length (l_positions st) + m ->
    exists out, pool_process inv_of lsa delays_tf sort_values cmv_of pairs mode count workers plan st out.
  Proof.
    intro W. induction m as [|m IH]; intros st L.
    all: destruct (pool_preds_exist workers plan (l_pos_map st) W) as [[rows H]|[e H]]; [|exists (Err e); now apply pool_stopped].
    all: destruct (rest_of_round inv_of lsa plan st (mkTable ["E"; "N"]%string rows)) as [[[st' ch] []]|e] eqn:E;
      [| exists (Ok (st', ch)); eapply pool_last; eassumption | exists (Err e); eapply pool_raised; eassumption].
    - exfalso. unfold rest_of_round in E. destruct (all_assignments _ _ _ _ _) as [a|]; cbn [rbind] in E; [|discriminate].
      destruct (cascade_remap _ a) as [b|]; cbn [rbind] in E; [|discriminate]. destruct (remap_positions plan b None) as [c|]; cbn [rbind] in E; [|discriminate].
      destruct (Nat.leb_spec 10 (length (l_positions st))); [|lia]. rewrite orb_true_r in E. discriminate.
    - destruct (IH st') as (out & P).
      + unfold rest_of_round in E. destruct (all_assignments _ _ _ _ _) as [a|]; cbn [rbind] in E; [|discriminate].
        destruct (cascade_remap _ a) as [b|]; cbn [rbind] in E; [|discriminate]. destruct (remap_positions plan b None) as [c|]; cbn [rbind] in E; [|discriminate].
        assert (Q : l_positions st' = l_positions st ++ [c]) by (injection E as <- _ _; reflexivity). rewrite Q, app_length. cbn [length]. lia.
      + exists out. eapply pool_again; eassumption.
  Qed.
End Same.

(*@ C113 The multi-process workflow reaches exactly one outcome, that of the one-process workflow, whatever the schedules of its rounds. *)
Lemma pool_same_as_serial : forall (K : Type) (HK : Label K) inv_of lsa dtf sv cmv pairs mode n workers (plan : table K string R) out, 1 <= workers ->
  pool_process inv_of lsa dtf sv cmv pairs mode n workers plan (loop_start plan) out <->
  out = field_process inv_of lsa (pairs_mean dtf sv cmv pairs mode n) plan.
Proof.
  intros K HK inv_of lsa dtf sv cmv pairs mode n workers plan out W.
  assert (U : forall out, pool_process inv_of lsa dtf sv cmv pairs mode n workers plan (loop_start plan) out -> out = field_process inv_of lsa (pairs_mean dtf sv cmv pairs mode n) plan).
  { intros o P. apply pool_is_rounds in P as (k & P). rewrite <- (P (k + 10)) by lia. apply process_bound. lia. }
  split; [apply U|]. intros ->. destruct (pool_reaches inv_of lsa dtf sv cmv pairs mode n workers plan W 9 (loop_start plan)) as (out & P).
  - cbn. lia.
  - now rewrite <- (U _ P).
Qed.

Definition tenfold (a : nat) : result nat := if Nat.eqb a 7 then Err KeyError else Ok (10 * a).
Definition keep (l : list nat) (b : nat) : result (list nat) := Ok (l ++ [b]).

(*@ex C113 Two workers, the first task delivered last; one task failing; one worker killed. The swapped plant of C108 in four processes. *)
Lemma pool_example :
  (exists p, pool_run tenfold keep 2 3 [Fetch 0; Fetch 1; Deliver 1; Fetch 1; Deliver 1; Deliver 0; Next; Next; Next; Next] (pool_start [1; 2; 3] []) = Some p /\
     p_main p = Ended [10; 20; 30] /\ at_rest tenfold keep 2 3 p) /\
  (exists p, pool_run tenfold keep 2 3 [Fetch 1; Fetch 0; Deliver 0; Fetch 0; Deliver 1; Next; Next] (pool_start [1; 7; 3] []) = Some p /\ p_main p = Stopped KeyError) /\
  (exists p, pool_run tenfold keep 2 3 [Fetch 0; Fetch 1; Kill 0; Deliver 1; Fetch 0; Deliver 0] (pool_start [1; 2; 3] []) = Some p /\ outcome (p_main p) = None /\ at_rest tenfold keep 2 3 p) /\
  exists st, pool_process swap_inv lsa_brute swap_exact (sort_by (rank_leb (K := nat))) no_cmv swap_pairs "all" 8 4 swap_plan (loop_start swap_plan) (Ok (st, [])) /\
    Permutation (l_remap st) [(0, 1); (1, 0)].
Proof.
  assert (R : forall p : pool (A := nat) (B := nat) (S := list nat), p_queue p = [] -> p_busy p = [] -> main_next keep 3 p = None -> at_rest tenfold keep 2 3 p).
  { intros p Q1 Q2 Q3 [w|w|w|]; cbn [pool_step]; rewrite ?Q1, ?Q2, ?Q3; reflexivity. }
  split; [|split; [|split]].
  - eexists. split; [vm_compute; reflexivity|]. split; [reflexivity|]. apply R; reflexivity.
  - eexists. split; [vm_compute; reflexivity|reflexivity].
  - eexists. split; [vm_compute; reflexivity|]. split; [reflexivity|]. apply R; reflexivity.
  - destruct process_example as (H1 & H2 & H3 & H4 & H5 & H6 & H7 & H8 & H9 & H10).
    destruct (process_exact nat _ swap_inv lsa_brute swap_exact (sort_by (rank_leb (K := nat))) no_cmv swap_pairs 8 swap_plan _ swap_truth H1 H2 H3 H4 H5 H6 H7 H8 H9 H10)
      as (st & E & _ & P & _).
    exists st. split; [|exact P]. apply pool_same_as_serial; [lia|]. symmetry. exact E.
Qed.
