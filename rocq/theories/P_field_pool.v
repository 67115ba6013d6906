(** Lemmas about the pool of worker processes. *)
From Coq Require Import Lia.
From Verif Require Import Prelude PreludeFacts M_field_pool Spec_field_pool.
Local Open Scope nat_scope.

Section P.
  Context {A B S : Type}.
  Variable task : A -> result B.
  Variable use : S -> B -> result S.
  Variables (workers : nat) (tasks : list A) (s0 : S).
  Let n := length tasks.
  Let body := fun s a => rbind (task a) (use s).

  Lemma job_of_in {X} k (l : list (nat * X)) x : job_of k l = Some x -> In (k, x) l.
  Proof.
    induction l as [|[j y] l IH]; cbn; [discriminate|]. destruct (Nat.eqb_spec k j) as [->|]; intro E.
    - injection E as ->. now left.
    - right. auto.
  Qed.
  Lemma job_of_none {X} k (l : list (nat * X)) : job_of k l = None -> ~ In k (map fst l).
  Proof.
    induction l as [|[j y] l IH]; cbn; [auto|]. destruct (Nat.eqb_spec k j) as [->|N]; intro E; [discriminate|].
    intros [H|H]; [congruence|]. now apply IH.
  Qed.
  Lemma job_of_some {X} k (l : list (nat * X)) : In k (map fst l) -> exists x, job_of k l = Some x.
  Proof. intro H. destruct (job_of k l) as [x|] eqn:E; [eauto|]. now apply job_of_none in E. Qed.

  Lemma retire_incl {X} k (l : list (nat * X)) y : In y (retire k l) -> In y l /\ fst y <> k.
  Proof. unfold retire. rewrite filter_In, negb_true_iff, Nat.eqb_neq. intros [? ?]. split; auto. Qed.
  Lemma retire_le {X} k (l : list (nat * X)) : length (retire k l) <= length l.
  Proof. unfold retire. induction l as [|y l IH]; cbn; [lia|]. destruct (negb _); cbn; lia. Qed.
  Lemma retire_lt {X} k (l : list (nat * X)) x : job_of k l = Some x -> length (retire k l) < length l.
  Proof.
    induction l as [|[j y] l IH]; cbn; [discriminate|]. destruct (Nat.eqb_spec k j) as [->|N]; intro E.
    - pose proof (retire_le j l). unfold retire in *. cbn. lia.
    - cbn. specialize (IH E). unfold retire in *. lia.
  Qed.
  Lemma retire_absent {X} k (l : list (nat * X)) : ~ In k (map fst l) -> retire k l = l.
  Proof.
    unfold retire. induction l as [|[j y] l IH]; cbn; intro H; [auto|]. destruct (Nat.eqb_spec k j) as [->|N]; [exfalso; auto|].
    cbn. f_equal. apply IH. auto.
  Qed.
  Lemma retire_split {X} k (l : list (nat * X)) x : NoDup (map fst l) -> job_of k l = Some x ->
    exists a b, l = a ++ (k, x) :: b /\ retire k l = a ++ b.
  Proof.
    induction l as [|[j y] l IH]; cbn; [discriminate|]. intros ND E. apply NoDup_cons_iff in ND as [N1 N2].
    destruct (Nat.eqb_spec k j) as [->|N].
    - injection E as ->. exists [], l. split; [reflexivity|]. unfold retire. cbn. rewrite ?Nat.eqb_refl. now apply retire_absent.
    - destruct (IH N2 E) as (a & b & -> & Q). exists ((j, y) :: a), b. split; [reflexivity|].
      cbn. f_equal. exact Q.
  Qed.

  Definition main_ok (p : pool (A := A) (B := B) (S := S)) : Prop :=
    match p_main p with
    | Waiting i s => i <= n /\ foldM body (firstn i tasks) s0 = Ok s /\ (forall j, j < i -> In j (map fst (p_done p)))
    | Ended s => foldM body tasks s0 = Ok s /\ (forall j, j < n -> In j (map fst (p_done p)))
    | Stopped e => foldM body tasks s0 = Err e
    end.

  Definition inv (kills : nat) (p : pool (A := A) (B := B) (S := S)) : Prop := exists f,
    f <= n /\ p_queue p = skipn f (numbered tasks) /\
    (forall w i a, In (w, (i, a)) (p_busy p) -> w < workers /\ i < f /\ nth_error tasks i = Some a) /\
    (forall i r, In (i, r) (p_done p) -> i < f /\ exists a, nth_error tasks i = Some a /\ r = task a) /\
    NoDup (map fst (p_busy p)) /\
    NoDup (map fst (p_done p) ++ map (fun b => fst (snd b)) (p_busy p)) /\
    length (p_done p) + length (p_busy p) + kills = f /\ main_ok p.

  Lemma numbered_length : length (numbered tasks) = n.
  Proof. unfold numbered, n. rewrite combine_length, seq_length. lia. Qed.
  Lemma nth_numbered i : nth_error (numbered tasks) i = option_map (fun a => (i, a)) (nth_error tasks i).
  Proof.
    unfold numbered. assert (G : forall l k j, nth_error (combine (seq k (length l)) l) j = option_map (fun a : A => (k + j, a)) (nth_error l j)).
    { induction l as [|a l IH]; intros k j; [destruct j; reflexivity|]. destruct j as [|j]; cbn; [now rewrite Nat.add_0_r|].
      rewrite IH. destruct (nth_error l j); cbn; [|reflexivity]. do 2 f_equal. lia. }
    rewrite G. reflexivity.
  Qed.
  Lemma skipn_next {X} f : forall (l : list X) a q, skipn f l = a :: q -> skipn (f + 1) l = q.
  Proof.
    induction f as [|f IH]; intros l a q H; destruct l as [|b l]; cbn in *; try discriminate.
    - now injection H as _ ->.
    - now apply IH in H.
  Qed.
  Lemma skipn_cons f i a q : skipn f (numbered tasks) = (i, a) :: q -> i = f /\ nth_error tasks f = Some a /\ skipn (f + 1) (numbered tasks) = q /\ f + 1 <= n.
  Proof.
    intro E. assert (L : f < length (numbered tasks)).
    { destruct (Nat.lt_ge_cases f (length (numbered tasks))) as [L|L]; [exact L|]. rewrite skipn_all2 in E by exact L. discriminate. }
    assert (H : nth_error (numbered tasks) f = Some (i, a)).
    { rewrite <- (firstn_skipn f (numbered tasks)), nth_error_app2; rewrite firstn_length; [|lia].
      rewrite Nat.min_l by lia. now rewrite Nat.sub_diag, E. }
    rewrite nth_numbered in H. destruct (nth_error tasks f) as [a'|] eqn:E2; [|discriminate]. injection H as <- <-.
    rewrite numbered_length in L. repeat split; auto; [|lia].
    exact (skipn_next _ _ _ _ E).
  Qed.

  Lemma inv_start : inv 0 (pool_start tasks s0).
  Proof.
    exists 0. split; [lia|]. split; [reflexivity|]. split; [intros w i a []|]. split; [intros i r []|]. split; [constructor|].
    split; [constructor|]. split; [reflexivity|]. cbn. split; [lia|]. split; [reflexivity|]. intros j Hj. lia.
  Qed.

  Lemma foldM_snoc l a s : foldM body (l ++ [a]) s = rbind (foldM body l s) (fun s' => body s' a).
  Proof.
    revert s. induction l as [|x l IH]; intro s.
    - cbn. destruct (body s a); reflexivity.
    - cbn [app foldM]. destruct (body s x); cbn; [apply IH|reflexivity].
  Qed.
  Lemma firstn_snoc {X} i (l : list X) a : nth_error l i = Some a -> firstn (i + 1) l = firstn i l ++ [a].
  Proof.
    revert i. induction l as [|x l IH]; intros [|i] H; cbn in *; try discriminate.
    - injection H as ->. reflexivity.
    - f_equal. auto.
  Qed.
  Lemma foldM_app_err l l' s e : foldM body l s = Err e -> foldM body (l ++ l') s = Err e.
  Proof.
    revert s. induction l as [|x l IH]; intros s H; cbn in *; [discriminate|]. destruct (body s x); cbn in *; [now apply IH|congruence].
  Qed.

  Definition kills_of (ev : event) : nat := match ev with Kill _ => 1 | _ => 0 end.

  Lemma inv_step k p ev p' : inv k p -> pool_step task use workers n ev p = Some p' -> inv (k + kills_of ev) p'.
  Proof.
    intros (f & Hf & Hq & Hb & Hd & Nb & Nd & Hl & Hm) E. destruct ev as [w|w|w|]; cbn [pool_step kills_of] in *.
    - destruct (p_queue p) as [|[i a] q] eqn:Eq; [discriminate|].
      destruct (Nat.ltb_spec w workers) as [Hw|]; [|discriminate].
      destruct (job_of w (p_busy p)) eqn:Ej; [discriminate|]. cbn in E. injection E as <-.
      symmetry in Hq. apply skipn_cons in Hq as (-> & Ha & Hq & Hf').
      exists (f + 1). split; [exact Hf'|]. split; [now symmetry|]. cbn [p_queue p_busy p_done p_main].
      split.
      { intros w' i' a' [Q|H]; [injection Q as <- <- <-; repeat split; auto; lia|]. destruct (Hb _ _ _ H) as (? & ? & ?). repeat split; auto; lia. }
      split. { intros i' r H. destruct (Hd _ _ H) as (? & ?). split; [lia|auto]. }
      split. { cbn. constructor; [now apply job_of_none|exact Nb]. }
      split. { cbn [map fst snd]. apply NoDup_Add with (a := f) (l := map fst (p_done p) ++ map (fun b => fst (snd b)) (p_busy p)).
        - apply Add_app.
        - split; [exact Nd|]. intro H. apply in_app_iff in H as [H|H]; apply in_map_iff in H as (y & Ey & Hy).
          + destruct y as [i' r]. destruct (Hd _ _ Hy). cbn in Ey. lia.
          + destruct y as [w' [i' a']]. destruct (Hb _ _ _ Hy) as (_ & ? & _). cbn in Ey. lia. }
      split; [cbn [length]; lia|]. unfold main_ok in *. cbn [p_main p_done]. exact Hm.
    - destruct (job_of w (p_busy p)) as [[i a]|] eqn:Ej; [|discriminate]. injection E as <-.
      destruct (retire_split _ _ _ Nb Ej) as (l1 & l2 & El & Er).
      exists f. split; [exact Hf|]. cbn [p_queue p_busy p_done p_main]. split; [exact Hq|].
      pose proof (job_of_in _ _ _ Ej) as Hin. destruct (Hb _ _ _ Hin) as (Hw & Hi & Ha).
      split. { intros w' i' a' H. apply retire_incl in H as [H _]. auto. }
      split. { intros i' r [Q|H]; [|auto]. injection Q as <- <-. split; [exact Hi|]. exists a. split; [exact Ha|reflexivity]. }
      rewrite Er. rewrite El in Nb, Nd, Hl.
      split. { rewrite map_app in *. cbn in Nb. now apply NoDup_remove_1 in Nb. }
      split. { cbn [map fst]. rewrite map_app in *. cbn [map fst snd] in Nd. rewrite app_assoc in Nd.
        pose proof (NoDup_remove_1 _ _ _ Nd) as N1. pose proof (NoDup_remove_2 _ _ _ Nd) as N2. rewrite <- app_assoc in N1, N2.
        cbn. constructor; [exact N2|exact N1]. }
      split. { rewrite app_length in *. cbn [length] in *. lia. }
      unfold main_ok in *. cbn [p_main p_done map fst]. destruct (p_main p) as [i' s|s|e]; [|destruct Hm as [H1 H2]; split; [exact H1|intros; right; auto]|exact Hm].
      destruct Hm as (H1 & H2 & H3). repeat split; auto. intros; right; auto.
    - destruct (job_of w (p_busy p)) as [[i a]|] eqn:Ej; [|discriminate]. injection E as <-.
      destruct (retire_split _ _ _ Nb Ej) as (l1 & l2 & El & Er).
      exists f. split; [exact Hf|]. cbn [p_queue p_busy p_done p_main]. split; [exact Hq|].
      split. { intros w' i' a' H. apply retire_incl in H as [H _]. auto. }
      split. { exact Hd. }
      rewrite Er. rewrite El in Nb, Nd, Hl.
      split. { rewrite map_app in *. cbn in Nb. now apply NoDup_remove_1 in Nb. }
      split. { rewrite map_app in *. cbn [map fst snd] in Nd. rewrite app_assoc in Nd.
        apply NoDup_remove_1 in Nd. now rewrite <- app_assoc in Nd. }
      split. { rewrite app_length in *. cbn [length] in *. lia. }
      exact Hm.
    - unfold main_next in E. destruct (p_main p) as [i s|s|e] eqn:Em; try discriminate.
      unfold main_ok in Hm. rewrite Em in Hm. destruct Hm as (Hi & Hs & Hj).
      assert (Q : forall m, inv (k + 0) (mkPool (p_queue p) (p_busy p) (p_done p) m) <-> main_ok (mkPool (p_queue p) (p_busy p) (p_done p) m)).
      { intro m. rewrite Nat.add_0_r. split; [intros (f' & _ & _ & _ & _ & _ & _ & _ & H); exact H|].
        intro H. exists f. split; [exact Hf|]. split; [exact Hq|]. split; [exact Hb|]. split; [exact Hd|]. split; [exact Nb|].
        split; [exact Nd|]. split; [exact Hl|exact H]. }
      destruct (Nat.eqb_spec i n) as [->|Hn]; cbn in E.
      { injection E as <-. apply Q. unfold main_ok. cbn. split; [|exact Hj]. unfold n in Hs. now rewrite firstn_all in Hs. }
      destruct (job_of i (p_done p)) as [r|] eqn:Ej; [|discriminate].
      pose proof (job_of_in _ _ _ Ej) as Hin. destruct (Hd _ _ Hin) as (Hi' & a & Ha & ->).
      assert (F : foldM body (firstn (i + 1) tasks) s0 = body s a).
      { rewrite (firstn_snoc _ _ _ Ha), foldM_snoc, Hs. reflexivity. }
      assert (W : forall e, body s a = Err e -> foldM body tasks s0 = Err e).
      { intros e He. rewrite <- (firstn_skipn (i + 1) tasks). apply foldM_app_err. now rewrite F. }
      unfold body in F, W. destruct (task a) as [b|e] eqn:Et; cbn in F, W.
      + destruct (use s b) as [s'|e] eqn:Eu; cbn in E; injection E as <-; apply Q; unfold main_ok; cbn.
        * split; [lia|]. split; [unfold body; rewrite F; exact eq_refl|]. intros j Hlt. destruct (Nat.eq_dec j i) as [->|]; [|apply Hj; lia].
          apply in_map_iff. eexists. split; [|exact Hin]. reflexivity.
        * apply W. reflexivity.
      + cbn in E. injection E as <-. apply Q. unfold main_ok. cbn. apply W. reflexivity.
  Qed.

  Fixpoint kill_count (evs : list event) : nat := match evs with [] => 0 | ev :: r => kills_of ev + kill_count r end.
  Lemma inv_run evs : forall k p p', inv k p -> pool_run task use workers n evs p = Some p' -> inv (k + kill_count evs) p'.
  Proof.
    induction evs as [|ev evs IH]; intros k p p' I E; cbn in *.
    - injection E as <-. now rewrite Nat.add_0_r.
    - destruct (pool_step task use workers n ev p) as [p1|] eqn:E1; [|discriminate]. rewrite Nat.add_assoc. eapply IH; [|exact E].
      eapply inv_step; eauto.
  Qed.
  Lemma inv_from_start evs p : pool_run task use workers n evs (pool_start tasks s0) = Some p -> inv (kill_count evs) p.
  Proof. intro E. apply (inv_run evs 0 _ _ inv_start E). Qed.

  (** Every step uses up something. *)
  Definition rank (p : pool (A := A) (B := B) (S := S)) : nat :=
    2 * length (p_queue p) + length (p_busy p) + match p_main p with Waiting i _ => n + 1 - i | _ => 0 end.
  Lemma rank_step k p ev p' : inv k p -> pool_step task use workers n ev p = Some p' -> rank p' < rank p.
  Proof.
    intros (f & Hf & Hq & Hb & Hd & Nb & Nd & Hl & Hm) E. unfold rank. destruct ev as [w|w|w|]; cbn [pool_step] in E.
    - destruct (p_queue p) as [|j q]; [discriminate|]. destruct (_ && _)%bool; [|discriminate]. injection E as <-. cbn [p_queue p_busy p_main length]. lia.
    - destruct (job_of w (p_busy p)) as [[i a]|] eqn:Ej; [|discriminate]. injection E as <-. cbn [p_queue p_busy p_main].
      pose proof (retire_lt _ _ _ Ej). lia.
    - destruct (job_of w (p_busy p)) as [[i a]|] eqn:Ej; [|discriminate]. injection E as <-. cbn [p_queue p_busy p_main].
      pose proof (retire_lt _ _ _ Ej). lia.
    - unfold main_next in E. unfold main_ok in Hm. destruct (p_main p) as [i s|s|e] eqn:Em; try discriminate. destruct Hm as (Hi & _ & _).
      destruct (Nat.eqb_spec i n) as [->|Hn]; cbn in E.
      { injection E as <-. cbn [p_queue p_busy p_main]. lia. }
      destruct (job_of i (p_done p)) as [[b|e]|]; [|cbn in E; injection E as <-; cbn [p_queue p_busy p_main]; lia|discriminate].
      destruct (use s b) as [s'|e]; cbn in E; injection E as <-; cbn [p_queue p_busy p_main]; lia.
  Qed.
  Lemma rank_run evs : forall k p p', inv k p -> pool_run task use workers n evs p = Some p' -> length evs + rank p' <= rank p.
  Proof.
    induction evs as [|ev evs IH]; intros k p p' I E; cbn [pool_run length] in *; [injection E as <-; lia|].
    destruct (pool_step task use workers n ev p) as [p1|] eqn:E1; [|discriminate].
    pose proof (rank_step _ _ _ _ I E1). pose proof (inv_step _ _ _ _ I E1) as I1. pose proof (IH _ _ _ I1 E). lia.
  Qed.

  (** Without kills nothing is lost, so somebody can move until the main process has ended. *)
  Lemma inv_can_move p : 1 <= workers -> inv 0 p -> outcome (p_main p) = None ->
    exists ev p', kills_of ev = 0 /\ pool_step task use workers n ev p = Some p'.
  Proof.
    intros Hw (f & Hf & Hq & Hb & Hd & Nb & Nd & Hl & Hm) O. destruct (p_main p) as [i s|s|e] eqn:Em; [|discriminate|discriminate].
    unfold main_ok in Hm. rewrite Em in Hm. destruct Hm as (Hi & _ & _).
    destruct (p_busy p) as [|[w [i' a']] l] eqn:Eb.
    2:{ exists (Deliver w). cbn [pool_step]. rewrite Eb. cbn [job_of]. rewrite Nat.eqb_refl. eexists. split; reflexivity. }
    destruct (p_queue p) as [|j q] eqn:Eq.
    2:{ exists (Fetch 0). cbn [pool_step]. rewrite Eb, Eq. cbn [job_of]. destruct (Nat.ltb_spec 0 workers); [|lia]. eexists. split; reflexivity. }
    assert (F : f = n).
    { symmetry in Hq. apply (f_equal (@length _)) in Hq. rewrite skipn_length, numbered_length in Hq. cbn in Hq. lia. }
    exists Next. cbn [pool_step]. unfold main_next. rewrite Em.
    destruct (Nat.eqb_spec i n) as [->|Hn]; [eexists; split; reflexivity|].
    assert (IN : In i (map fst (p_done p))).
    { cbn in Nd, Hl. rewrite app_nil_r in Nd.
      apply (NoDup_length_incl (l' := seq 0 n)) in Nd.
      - apply Nd. apply in_seq. lia.
      - rewrite seq_length, map_length. lia.
      - intros j Hj. apply in_map_iff in Hj as ([j' r] & <- & Hj). apply Hd in Hj as [Hj _]. apply in_seq. cbn. lia. }
    apply job_of_some in IN as ([b|e] & Ej); rewrite Ej; [|eexists; split; reflexivity]. destruct (use s b); eexists; split; reflexivity.
  Qed.
  Lemma inv_progress p : 1 <= workers -> inv 0 p -> at_rest task use workers n p -> exists r, outcome (p_main p) = Some r.
  Proof.
    intros Hw I R. destruct (outcome (p_main p)) as [r|] eqn:O; [eauto|]. destruct (inv_can_move _ Hw I O) as (ev & p' & _ & E).
    rewrite R in E. discriminate.
  Qed.
  Lemma can_finish p : 1 <= workers -> inv 0 p -> exists evs p' r, pool_run task use workers n evs p = Some p' /\ outcome (p_main p') = Some r /\ nobody_killed evs.
  Proof.
    intro Hw. remember (rank p) as m eqn:Em. revert p Em. induction m as [m IH] using lt_wf_ind. intros p -> I.
    destruct (outcome (p_main p)) as [r|] eqn:O.
    - exists [], p, r. split; [reflexivity|]. split; [exact O|]. intros w [].
    - destruct (inv_can_move _ Hw I O) as (ev & p1 & Kz & E). pose proof (rank_step _ _ _ _ I E) as L. pose proof (inv_step _ _ _ _ I E) as I1.
      rewrite Kz in I1. destruct (IH _ L p1 eq_refl I1) as (evs & p' & r & E' & O' & NK). exists (ev :: evs), p', r. cbn [pool_run]. rewrite E.
      split; [exact E'|]. split; [exact O'|]. intros w [->|H]; [discriminate Kz|]. now apply (NK w).
  Qed.
End P.
