(** Arguments are left unchanged: functions that assign in place do so on copies *)
From Coq Require Import String List Lia Lra.
From Verif Require Import Prelude PreludeFacts RealBase M_field_remap M_cmv M_signal_plant M_hope M_heap Spec_heap.
Import ListNotations.
Local Open Scope R_scope.

Lemma seqp_ok {V A B} (p : prog V A) (q : A -> prog V B) h a h' : p h = (Ok a, h') -> seqp p q h = q a h'.
Proof. intros E. unfold seqp. now rewrite E. Qed.
Lemma seqp_err {V A B} (p : prog V A) (q : A -> prog V B) h e h' : p h = (Err e, h') -> seqp p q h = (Err e, h').
Proof. intros E. unfold seqp. now rewrite E. Qed.
Lemma get_ok {V} (h : list V) r v : nth_error h r = Some v -> get r h = (Ok v, h).
Proof. intros E. unfold get. now rewrite E. Qed.
Lemma copy_ok {V} (h : list V) r v : nth_error h r = Some v -> copy r h = (Ok (length h), h ++ [v]).
Proof. intros E. unfold copy. now rewrite (seqp_ok _ _ _ _ _ (get_ok _ _ _ E)). Qed.
Lemma nth_error_new {V} (h : list V) v : nth_error (h ++ [v]) (length h) = Some v.
Proof. rewrite nth_error_app2 by lia. now rewrite Nat.sub_diag. Qed.
Lemma nth_error_old {V} (h l : list V) i v : nth_error h i = Some v -> nth_error (h ++ l) i = Some v.
Proof. intros E. rewrite nth_error_app1; [exact E|]. apply nth_error_Some. congruence. Qed.
Lemma set_new {V} (h : list V) v w : list_set (h ++ [v]) (length h) w = h ++ [w].
Proof. induction h as [|x h IH]; cbn; [reflexivity|]. now rewrite IH. Qed.
Lemma untouched_app {V} (h l : list V) : untouched h (h ++ l).
Proof. intros i v E. now apply nth_error_old. Qed.
Lemma put_new {V} (h : list V) v w : put (length h) w (h ++ [v]) = (Ok tt, h ++ [w]).
Proof. unfold put. now rewrite set_new. Qed.

(** A loop whose turns change only the newest object, as a fold over its value. *)
Lemma for_each_fold {V X} (h : list V) (body : X -> prog V unit) (f : V -> X -> result V) (l : list X) :
  (forall x v, exists w', body x (h ++ [v]) =
               match f v x with Ok w => (Ok tt, h ++ [w]) | Err e => (Err e, h ++ [w']) end) ->
  forall v, exists w', for_each l body (h ++ [v]) =
            match foldM f l v with Ok w => (Ok tt, h ++ [w]) | Err e => (Err e, h ++ [w']) end.
Proof.
  intros B. induction l as [|x l IH]; intros v; [exists v; reflexivity|].
  cbn [for_each foldM]. destruct (B x v) as [w1 Bx]. destruct (f v x) as [w|e] eqn:E.
  - destruct (IH w) as [w' IHw]. exists w'. rewrite (seqp_ok _ _ _ _ _ Bx), IHw. cbn. reflexivity.
  - exists w1. rewrite (seqp_err _ _ _ _ _ Bx). reflexivity.
Qed.

(*@ C131 flag_qc: whatever the two tables hold, and even if both arguments are the same object, the call returns a new object with the
   cleaned values and leaves every existing object as it was. *)
Lemma flag_qc_clean : forall h d f level vd vf,
  nth_error h d = Some vd -> nth_error h f = Some vf ->
  clean_call h (snd (flag_qc_prog d f level h)) (fst (flag_qc_prog d f level h)) (Ok (flag_qc vd vf level)).
Proof.
  intros h d f level vd vf Ed Ef.
  assert (E : flag_qc_prog d f level h = (Ok (length h), h ++ [flag_qc vd vf level])).
  { unfold flag_qc_prog. rewrite (seqp_ok _ _ _ _ _ (copy_ok _ _ _ Ed)).
    rewrite (seqp_ok _ _ _ _ _ (get_ok _ _ _ (nth_error_old h [vd] f vf Ef))).
    rewrite (seqp_ok _ _ _ _ _ (get_ok _ _ _ (nth_error_new h vd))).
    rewrite (seqp_ok _ _ _ _ _ (put_new h vd _)). reflexivity. }
  rewrite E. cbn [fst snd]. split; [apply untouched_app|]. exists (length h). split; [reflexivity|]. split; [lia|apply nth_error_new].
Qed.

(*@ C131 null_qc likewise. *)
Lemma null_qc_clean : forall h d vd,
  nth_error h d = Some vd ->
  clean_call h (snd (null_qc_prog d h)) (fst (null_qc_prog d h)) (Ok (null_qc vd)).
Proof.
  intros h d vd Ed.
  assert (E : null_qc_prog d h = (Ok (length h), h ++ [null_qc vd])).
  { unfold null_qc_prog. rewrite (seqp_ok _ _ _ _ _ (copy_ok _ _ _ Ed)).
    rewrite (seqp_ok _ _ _ _ _ (get_ok _ _ _ (nth_error_new h vd))).
    rewrite (seqp_ok _ _ _ _ _ (put_new h vd _)). reflexivity. }
  rewrite E. cbn [fst snd]. split; [apply untouched_app|]. exists (length h). split; [reflexivity|]. split; [lia|apply nth_error_new].
Qed.

(** The loop over the columns, as one map over them. *)
Definition col_step (limit : nat) (v : M_hope.table) (j : nat) : result M_hope.table :=
  let! c := interp_column limit (nth j v []) in Ok (list_set v j c).
Lemma set_middle {X} (a : list X) x b y : list_set (a ++ x :: b) (length a) y = a ++ y :: b.
Proof. induction a as [|z a IH]; cbn; [reflexivity|]. now rewrite IH. Qed.
Lemma cols_fold limit : forall todo done_,
  foldM (col_step limit) (seq (length done_) (length todo)) (done_ ++ todo)
  = (let! r := mapM (interp_column limit) todo in Ok (done_ ++ r)).
Proof.
  induction todo as [|c todo IH]; intros done_; cbn [length seq foldM mapM].
  - cbn. now rewrite app_nil_r.
  - unfold col_step at 1. rewrite app_nth2, Nat.sub_diag by lia. cbn [nth].
    destruct (interp_column limit c) as [c'|e]; cbn [rbind]; [|reflexivity].
    rewrite set_middle. specialize (IH (done_ ++ [c'])). rewrite app_length in IH. cbn [length] in IH.
    rewrite Nat.add_1_r in IH. rewrite <- !app_assoc in IH. cbn [app] in IH. cbn. cbn in IH. rewrite IH.
    destruct (mapM (interp_column limit) todo) as [r|e]; cbn; [|reflexivity]. now rewrite <- app_assoc.
Qed.

(*@ C131 interp_nan: the loop that stores the columns one by one gives the table of all interpolated columns, in a new object; when a
   column raises, the same exception leaves every existing object as it was, although some columns have been stored already. *)
Lemma interp_nan_clean : forall h d limit vd,
  nth_error h d = Some vd ->
  clean_call h (snd (interp_nan_prog d limit h)) (fst (interp_nan_prog d limit h)) (interp_nan vd limit).
Proof.
  intros h d limit vd Ed. unfold interp_nan_prog.
  rewrite (seqp_ok _ _ _ _ _ (copy_ok _ _ _ Ed)).
  rewrite (seqp_ok _ _ _ _ _ (get_ok _ _ _ (nth_error_new h vd))).
  destruct (for_each_fold h (interp_turn (length h) limit) (col_step limit) (seq 0 (length vd))) with (v := vd) as [w' W].
  { intros j v. exists v. unfold interp_turn. rewrite (seqp_ok _ _ _ _ _ (get_ok _ _ _ (nth_error_new h v))).
    unfold col_step, lift, seqp. destruct (interp_column limit (nth j v [])) as [c|e]; cbn [rbind]; [|reflexivity].
    apply put_new. }
  pose proof (cols_fold limit vd []) as F. cbn [length app] in F. rewrite F in W.
  unfold interp_nan. destruct (mapM (interp_column limit) vd) as [r|e]; cbn [rbind] in W.
  - rewrite (seqp_ok _ _ _ _ _ W). cbn. split; [apply untouched_app|].
    exists (length h). split; [reflexivity|]. split; [lia|apply nth_error_new].
  - rewrite (seqp_err _ _ _ _ _ W). cbn. split; [apply untouched_app|reflexivity].
Qed.

(** What a call computes from the values in a store. *)
Lemma untouched_refl {V} (h : list V) : untouched h h.
Proof. intros i v E. exact E. Qed.
Lemma untouched_trans {V} (a b c : list V) : untouched a b -> untouched b c -> untouched a c.
Proof. intros X Y i v E. apply Y, X, E. Qed.
Lemma untouched_length {V} (a b : list V) : untouched a b -> (length a <= length b)%nat.
Proof.
  intros U. destruct (Nat.le_gt_cases (length a) (length b)) as [L|L]; [exact L|exfalso].
  destruct (nth_error a (length b)) as [v|] eqn:E; [|apply nth_error_None in E; lia].
  apply U in E. assert (nth_error b (length b) = None) by (apply nth_error_None; lia). congruence.
Qed.


Lemma lt_held {V} (h : list V) r : (r < length h)%nat -> exists v, nth_error h r = Some v.
Proof. intros L. destruct (nth_error h r) as [v|] eqn:E; [now exists v|]. apply nth_error_None in E. lia. Qed.

Lemma run_call_clean c h : untouched h (snd (run_call c h)) /\
  forall r, fst (run_call c h) = Ok r -> (length h <= r)%nat /\ explains (snd (run_call c h)) c r.
Proof.
  unfold run_call. destruct (forallb (fun r => Nat.ltb r (length h)) (call_args c)) eqn:F; [|split; [apply untouched_refl|discriminate]].
  destruct c as [d f level|d|d limit]; cbn [call_args forallb] in F; rewrite ?Bool.andb_true_iff, ?Nat.ltb_lt in F.
  - destruct F as [Ld [Lf _]]. destruct (lt_held h d Ld) as [vd Ed], (lt_held h f Lf) as [vf Ef].
    destruct (flag_qc_clean h d f level vd vf Ed Ef) as [U [r [E [L N]]]]. split; [exact U|].
    intros r' E'. rewrite E in E'. injection E' as <-. split; [exact L|]. exists vd, vf. auto.
  - destruct F as [Ld _]. destruct (lt_held h d Ld) as [vd Ed].
    destruct (null_qc_clean h d vd Ed) as [U [r [E [L N]]]]. split; [exact U|].
    intros r' E'. rewrite E in E'. injection E' as <-. split; [exact L|]. exists vd. auto.
  - destruct F as [Ld _]. destruct (lt_held h d Ld) as [vd Ed].
    destruct (interp_nan_clean h d limit vd Ed) as [U M]. split; [exact U|].
    intros r' E'. destruct (interp_nan vd limit) as [v|e] eqn:I; [|congruence].
    destruct M as [r [E [L N]]]. rewrite E in E'. injection E' as <-. split; [exact L|]. exists vd, v. auto.
Qed.
Lemma explains_mono h h' c r : untouched h h' -> explains h c r -> explains h' c r.
Proof.
  intros U. destruct c as [d f level|d|d limit]; cbn.
  - intros [vd [vf [A [B D]]]]. exists vd, vf. auto.
  - intros [vd [A B]]. exists vd. auto.
  - intros [vd [vr [A [B D]]]]. exists vd, vr. auto.
Qed.

(*@ C131 A whole session of cleaning calls, of any length and on any objects including earlier results: nothing that exists at any
   time is ever changed, every successful call has made an object of its own, and at the end that object still holds what the call
   computes from what its arguments hold at the end. So the order of calls on the same data does not matter. *)
Lemma session_clean : forall cs h rs h',
  run_calls cs h = (rs, h') ->
  untouched h h' /\ length rs = length cs /\
  (forall k r, nth_error rs k = Some (Ok r) ->
     (length h <= r)%nat /\ exists c, nth_error cs k = Some c /\ explains h' c r) /\
  (forall j k r, nth_error rs j = Some (Ok r) -> nth_error rs k = Some (Ok r) -> j = k).
Proof.
  induction cs as [|c cs IH]; intros h rs h' E; cbn in E.
  - injection E as <- <-. split; [apply untouched_refl|]. split; [reflexivity|].
    split; [intros [|k] r N; discriminate|intros [|j] k r N; discriminate].
  - destruct (run_call c h) as [o h1] eqn:E1. destruct (run_calls cs h1) as [rs2 h2] eqn:E2. injection E as <- <-.
    destruct (IH h1 rs2 h2 E2) as [U2 [L2 [V2 D2]]].
    pose proof (run_call_clean c h) as [U1 V1]. rewrite E1 in U1, V1. cbn [fst snd] in U1, V1.
    pose proof (untouched_length _ _ U1) as LL.
    assert (B : forall r, o = Ok r -> (r < length h1)%nat).
    { intros r ->. destruct (V1 r eq_refl) as [_ X]. apply nth_error_Some. destruct c; cbn in X; firstorder congruence. }
    split; [now apply untouched_trans with h1|]. split; [cbn; now rewrite L2|]. split.
    + intros [|k] r N; cbn in N.
      * injection N as ->. destruct (V1 r eq_refl) as [L X]. split; [exact L|]. exists c. split; [reflexivity|].
        now apply explains_mono with h1.
      * destruct (V2 k r N) as [L X]. split; [lia|exact X].
    + intros [|j] [|k] r Nj Nk; cbn in Nj, Nk; [reflexivity| | |].
      * injection Nj as ->. destruct (V2 k r Nk) as [L _]. specialize (B r eq_refl). lia.
      * injection Nk as ->. destruct (V2 j r Nj) as [L _]. specialize (B r eq_refl). lia.
      * f_equal. now apply D2 with r.
Qed.

Section Remap.
  Context {K C A : Type} `{Label K} `{Label C}.
  Lemma remap_run (h : list (M_field_remap.table K C A)) (d : nat) (remap : list (K * K)) (columns : option (list C)) vd :
    nth_error h d = Some vd ->
    exists w', remap_positions_prog d remap columns h =
      match remap_positions vd remap columns with Ok w => (Ok (length h), h ++ [w]) | Err e => (Err e, h ++ [w']) end.
  Proof.
    intros Ed. unfold remap_positions_prog, remap_positions.
    rewrite (seqp_ok _ _ _ _ _ (get_ok _ _ _ Ed)). cbv beta zeta.
    rewrite (seqp_ok _ _ _ _ _ (copy_ok _ _ _ Ed)).
    set (cols := match columns with None => t_cols vd | Some cs => cs end).
    destruct (for_each_fold h (fun item => for_each cols (remap_turn d (length h) item))
                (fun fx item => foldM (remap_cell vd item) cols fx) remap) with (v := vd) as [w' W].
    { intros item v. apply for_each_fold. intros c v1. exists v1. unfold remap_turn, remap_cell.
      rewrite (seqp_ok _ _ _ _ _ (get_ok _ _ _ (nth_error_old h [v1] d vd Ed))).
      unfold lift, seqp at 1. destruct (t_read vd c (snd item)) as [x|e]; cbn [rbind]; [|reflexivity].
      rewrite (seqp_ok _ _ _ _ _ (get_ok _ _ _ (nth_error_new h v1))). apply put_new. }
    exists w'. destruct (foldM (fun fx item => foldM (remap_cell vd item) cols fx) remap vd) as [w|e].
    - rewrite (seqp_ok _ _ _ _ _ W). reflexivity.
    - now rewrite (seqp_err _ _ _ _ _ W).
  Qed.
End Remap.

(*@ C131 remap_positions: every value is read from the table as it was passed in, whatever has been assigned to the copy so far (so
   swaps and cycles work); the result is a new object, and also after a KeyError in the middle nothing older has changed. *)
Lemma remap_positions_clean : forall (K C A : Type) (LK : Label K) (LC : Label C) (h : list (M_field_remap.table K C A))
    (d : nat) (remap : list (K * K)) (columns : option (list C)) vd,
  nth_error h d = Some vd ->
  clean_call h (snd (remap_positions_prog d remap columns h)) (fst (remap_positions_prog d remap columns h))
    (remap_positions vd remap columns).
Proof.
  intros K C A LK LC h d remap columns vd Ed. destruct (remap_run h d remap columns vd Ed) as [w' ->].
  destruct (remap_positions vd remap columns) as [w|e]; cbn; (split; [apply untouched_app|]); [|reflexivity].
  exists (length h). split; [reflexivity|]. split; [lia|apply nth_error_new].
Qed.

(*@ C131 The table assign_positions returns is the remapped site plan, a new object; the site plan itself is left alone. *)
Lemma assign_out_clean : forall (K C A : Type) (LK : Label K) (LC : Label C) (h : list (M_field_remap.table K C A))
    (d : nat) (remap : list (K * K)) vd,
  nth_error h d = Some vd ->
  clean_call h (snd (assign_out_prog d remap h)) (fst (assign_out_prog d remap h)) (remap_positions vd remap None).
Proof.
  intros K C A LK LC h d remap vd Ed. unfold assign_out_prog. rewrite (seqp_ok _ _ _ _ _ (copy_ok _ _ _ Ed)).
  destruct (remap_run (h ++ [vd]) (length h) remap None vd (nth_error_new h vd)) as [w' ->].
  destruct (remap_positions vd remap None) as [w|e]; cbn; rewrite <- app_assoc; (split; [apply untouched_app|]); [|reflexivity].
  exists (length (h ++ [vd])). split; [reflexivity|]. rewrite app_assoc. split; [rewrite app_length; lia|apply nth_error_new].
Qed.

Lemma for_each_pure {V X} (h : list V) (body : X -> prog V unit) (f : V -> X -> V) (l : list X) :
  (forall x v, body x (h ++ [v]) = (Ok tt, h ++ [f v x])) ->
  forall v, for_each l body (h ++ [v]) = (Ok tt, h ++ [fold_left f l v]).
Proof.
  intros B. induction l as [|x l IH]; intros v; [reflexivity|].
  cbn [for_each fold_left]. now rewrite (seqp_ok _ _ _ _ _ (B x v)), IH.
Qed.
Lemma fold_left_same {X Y} (f g : X -> Y -> X) l : (forall x y, f x y = g x y) -> forall x, fold_left f l x = fold_left g l x.
Proof. intros E. induction l as [|y l IH]; intros x; cbn; [reflexivity|]. now rewrite E, IH. Qed.

(*@ C131 get_1d_plant subtracts the reference from the centers and fills the plant in place, but on objects of its own: the array of
   centers passed in keeps its values, the plant and its axis are two new objects with the values of get_1d_plant, and a call that
   raises changes nothing either. *)
Lemma get_1d_plant_clean : forall h c ref_center width shape dx xmax vc out h',
  nth_error h c = Some vc ->
  get_1d_plant_prog c ref_center width shape dx xmax h = (out, h') ->
  untouched h h' /\
  match get_1d_plant vc ref_center width shape dx xmax with
  | Ok (plant, x_vec) => exists p x, out = Ok (p, x) /\ p <> x /\ fresh_with h h' p plant /\ fresh_with h h' x (map Some x_vec)
  | Err e => out = Err e
  end.
Proof.
  intros h c ref_center width shape dx xmax vc out h' Ec. unfold get_1d_plant_prog, get_1d_plant. cbv zeta.
  set (w := match width with None => dx | Some w => w end).
  rewrite (seqp_ok _ _ _ _ _ (copy_ok _ _ _ Ec)).
  rewrite (seqp_ok _ _ _ _ _ (copy_ok _ _ _ (nth_error_new h vc))).
  rewrite (seqp_ok _ _ _ _ _ (get_ok _ _ _ (nth_error_new (h ++ [vc]) vc))).
  rewrite (seqp_ok _ _ _ _ _ (put_new (h ++ [vc]) vc _)).
  set (cs := map (option_map (fun c => c - ref_center)) vc).
  destruct (arange (half_floor (- xmax)) (half_floor xmax) dx) as [xs|e]; cbn [rbind].
  2:{ unfold lift, seqp. intros E. injection E as <- <-. split; [|reflexivity]. rewrite <- app_assoc. apply untouched_app. }
  unfold lift at 1. unfold seqp at 1. unfold new at 1. unfold seqp at 1. unfold new at 1. unfold seqp at 1.
  set (h2 := ((h ++ [vc]) ++ [cs])). set (h3 := h2 ++ [map Some xs]). set (p0 := map (fun _ => Some 0) xs).
  assert (Ecs : nth_error (h3 ++ [p0]) (length (h ++ [vc])) = Some cs).
  { apply nth_error_old, nth_error_old. apply nth_error_new. }
  rewrite (seqp_ok _ _ _ _ _ (get_ok _ _ _ Ecs)).
  assert (U3 : forall v, untouched h (h3 ++ [v])).
  { intros v. unfold h3, h2. rewrite <- !app_assoc. apply untouched_app. }
  assert (Run : for_each cs (place_turn (lower shape) w xs (length h3)) (h3 ++ [p0])
                = (Ok tt, h3 ++ [fold_left (place (lower shape) w xs) cs p0])).
  { apply for_each_pure. intros x v. unfold place_turn.
    rewrite (seqp_ok _ _ _ _ _ (get_ok _ _ _ (nth_error_new h3 v))). apply put_new. }
  assert (Done : forall plant, fold_left (place (lower shape) w xs) cs p0 = plant ->
            seqp (for_each cs (place_turn (lower shape) w xs (length h3))) (fun _ => ret (length h3, length h2)) (h3 ++ [p0]) = (out, h') ->
            untouched h h' /\ exists p x, out = Ok (p, x) /\ p <> x /\ fresh_with h h' p plant /\ fresh_with h h' x (map Some xs)).
  { intros plant <- E. rewrite (seqp_ok _ _ _ _ _ Run) in E. injection E as <- <-. split; [apply U3|].
    assert (L3 : length h3 = S (length h2)) by (unfold h3; rewrite app_length; cbn; lia).
    assert (L2 : length h2 = S (S (length h))) by (unfold h2; rewrite !app_length; cbn; lia).
    exists (length h3), (length h2). split; [reflexivity|]. split; [lia|]. split.
    - split; [lia|apply nth_error_new].
    - split; [lia|]. apply nth_error_old. apply nth_error_new. }
  destruct (String.eqb (lower shape) "square") eqn:Sq; cbn [orb].
  - intros E. apply Done; [|exact E]. apply fold_left_same. intros x y. unfold place. now rewrite Sq.
  - destruct (String.eqb (lower shape) "triangle") eqn:Tr; cbn [orb].
    + intros E. apply Done; [|exact E]. apply fold_left_same. intros x y. unfold place. now rewrite Sq, Tr.
    + destruct (String.eqb (lower shape) "gaussian") eqn:Ga; cbn [orb].
      * intros E. apply Done; [|exact E]. apply fold_left_same. intros x y. unfold place. now rewrite Sq, Tr.
      * unfold lift. intros E. injection E as <- <-. split; [apply U3|reflexivity].
Qed.

(*@ C131 cleanfreq is the exception: it changes the one object passed in (to the values of cleanfreq) and no other, and makes none. *)
Lemma cleanfreq_in_place : forall (L V : Type) (h : list (list (option L * V))) (s : nat) sig new_sig,
  nth_error h s = Some sig -> cleanfreq sig = Ok (tt, new_sig) ->
  exists h', cleanfreq_prog s h = (Ok tt, h') /\ length h' = length h /\ nth_error h' s = Some new_sig /\
    forall i, i <> s -> nth_error h' i = nth_error h i.
Proof.
  intros L V h s sig new_sig Es Ec. exists (list_set h s new_sig). unfold cleanfreq_prog.
  rewrite (seqp_ok _ _ _ _ _ (get_ok _ _ _ Es)). rewrite Ec. split; [reflexivity|]. split; [apply list_set_length|].
  split; [apply nth_error_list_set_same; apply nth_error_Some; congruence|].
  intros i N. apply nth_error_list_set_other. congruence.
Qed.

(*@ C131 So "no call changes its arguments" is false of the whole library: after cleanfreq a user's own series has lost a label. *)
Lemma arguments_refuted :
  ~ (forall (L V : Type) (h : list (list (option L * V))) (s : nat), untouched h (snd (cleanfreq_prog s h))).
Proof.
  intros P. specialize (P nat nat [[(Some 1%nat, 5%nat); (Some 2%nat, 6%nat)]] 0%nat 0%nat _ eq_refl). cbn in P. discriminate.
Qed.

(** Data for the examples: one column; the same object is also used as the flag. *)
Definition demo_table : M_hope.table := [[Some (-999); Some 5]].
Lemma demo_null : null_qc demo_table = [[None; Some 5]].
Proof. unfold null_qc, demo_table, blank. cbn. rewrite (Rltb_true (-999) (-100)), (Rltb_false 5 (-100)) by lra. reflexivity. Qed.
Lemma demo_flag : flag_qc demo_table demo_table 2 = [[Some (-999); None]].
Proof. unfold flag_qc, demo_table, blank. cbn. rewrite (Rleb_false 2 (-999)), (Rleb_true 2 5) by lra. reflexivity. Qed.
Lemma demo_both : null_qc [[Some (-999); None]] = [[None; None]].
Proof. unfold null_qc, blank. cbn. rewrite (Rltb_true (-999) (-100)) by lra. reflexivity. Qed.

(*@ex C131 A session of four calls: the original is cleaned by its hidden values, then by flags (itself), then the second result is
   cleaned again, then the original once more with the same outcome as the first time. *)
Lemma session_example :
  run_calls [NullQc 0%nat; FlagQc 0%nat 0%nat 2; NullQc 2%nat; NullQc 0%nat] [demo_table]
  = ([Ok 1%nat; Ok 2%nat; Ok 3%nat; Ok 4%nat],
     [demo_table; [[None; Some 5]]; [[Some (-999); None]]; [[None; None]]; [[None; Some 5]]]).
Proof.
  cbn -[null_qc flag_qc demo_table]. rewrite demo_null, demo_flag, demo_both. reflexivity.
Qed.

(*@ex C131 Swapping two rows: each gets the other's value although the first assignment has already been made. *)
Lemma remap_example :
  remap_positions_prog 0%nat [(1, 2); (2, 1)]%nat None [mkTable [7%nat] [(1%nat, [Some 10%nat]); (2%nat, [Some 20%nat])]]
  = (Ok 1%nat, [mkTable [7%nat] [(1%nat, [Some 10%nat]); (2%nat, [Some 20%nat])];
                mkTable [7%nat] [(1%nat, [Some 20%nat]); (2%nat, [Some 10%nat])]]).
Proof. reflexivity. Qed.
