(** ensurepath creates exactly what is missing. *)
From Coq Require Import String.
From Verif Require Import Prelude PreludeFacts M_paths Spec_paths.

Lemma path_eqb_spec p q : reflect (p = q) (path_eqb p q).
Proof. unfold path_eqb. destruct (list_eq_dec string_dec p q); now constructor. Qed.

Lemma there_spec t p : there t p = true <-> kind_of t p <> None.
Proof. unfold there. destruct (kind_of t p); split; congruence. Qed.
Lemma there_false t p : there t p = false <-> kind_of t p = None.
Proof. unfold there. destruct (kind_of t p); split; congruence. Qed.

Lemma kind_made ops t q : kind_of (made ops t) q = if existsb (path_eqb q) ops then Some Folder else kind_of t q.
Proof.
  revert t. induction ops as [|p ops IH]; intro t; cbn [made fold_left existsb]; [reflexivity|].
  change (fold_left _ ops ?x) with (made ops x). rewrite IH. destruct (existsb (path_eqb q) ops).
  - now rewrite orb_true_r.
  - rewrite orb_false_r. destruct q as [|c q]; [cbn; now destruct (path_eqb [] p)|]. cbn [kind_of node]. now destruct (path_eqb (c :: q) p).
Qed.

Lemma above_refl p : above p p.
Proof. now exists []. Qed.
Lemma above_cons q c p : above q p -> above q (c :: p).
Proof. intros [i ->]. now exists (c :: i). Qed.
Lemma above_cons_inv q c p : above q (c :: p) -> q = c :: p \/ above q p.
Proof. intros [[|a i] E]; cbn in E; [left; congruence|]. injection E as -> ->. right. now exists i. Qed.
Lemma above_length q p : above q p -> (length q <= length p)%nat.
Proof. intros [i ->]. rewrite app_length. lia. Qed.

(** What exists has directories above it. *)
Lemma wf_above t p : well_formed t -> kind_of t p <> None -> forall q, strictly_above q p -> kind_of t q = Some Folder.
Proof.
  intros W. induction p as [|c p IH]; intros H q [A N].
  - destruct A as [i E]. destruct i, q; try discriminate. easy.
  - apply above_cons_inv in A. destruct A as [A|A]; [easy|].
    destruct (kind_of t (c :: p)) as [k|] eqn:Ek; [|easy]. pose proof (W _ _ _ Ek) as Hp.
    destruct (list_eq_dec string_dec q p) as [->|Nq]; [easy|]. apply IH; [congruence|now split].
Qed.

(** The directories makedirs creates: the missing ones above p, outermost first. *)
Fixpoint missing (t : tree) (p : path) : list path :=
  match p with [] => [] | _ :: q => if there t p then [] else missing t q ++ [p] end.

Lemma missing_in t p q : well_formed t -> In q (missing t p) <-> above q p /\ kind_of t q = None.
Proof.
  intro W. induction p as [|c p IH]; cbn [missing].
  - split; [easy|]. intros [[i E] H]. destruct i, q; discriminate.
  - destruct (there t (c :: p)) eqn:Et.
    + split; [easy|]. intros [A H]. destruct (list_eq_dec string_dec q (c :: p)) as [->|N].
      * apply there_spec in Et. congruence.
      * assert (kind_of t q = Some Folder) by (apply (wf_above t (c :: p) W); [now apply there_spec|now split]). congruence.
    + rewrite in_app_iff, IH. cbn. split.
      * intros [[A H]|[<-|[]]]; [split; [now apply above_cons|easy]|]. split; [apply above_refl|now apply there_false].
      * intros [A H]. apply above_cons_inv in A. destruct A as [->|A]; [now right; left|now left].
Qed.

Lemma missing_nil t p : there t p = true -> missing t p = [].
Proof. destruct p; cbn [missing]; [easy|]. now intros ->. Qed.

Lemma made_app a b t : made (a ++ b) t = made b (made a t).
Proof. unfold made. now rewrite fold_left_app. Qed.

Lemma existsb_path q ops : existsb (path_eqb q) ops = true <-> In q ops.
Proof.
  rewrite existsb_exists. split.
  - intros (x & I & E). now destruct (path_eqb_spec q x) as [->|].
  - intro I. exists q. split; [easy|]. now destruct (path_eqb_spec q q).
Qed.
Lemma existsb_path_false q ops : existsb (path_eqb q) ops = false <-> ~ In q ops.
Proof. rewrite <- existsb_path. destruct (existsb _ _); split; congruence. Qed.

Lemma makedirs_ok t p : well_formed t -> p <> [] -> kind_of t p = None -> (forall q, strictly_above q p -> kind_of t q <> Some File) ->
  makedirs t p = (missing t p, Ok tt).
Proof.
  intro W. induction p as [|c p IH]; [easy|]. intros _ H A. cbn [makedirs missing].
  replace (there t (c :: p)) with false by (symmetry; now apply there_false).
  assert (Hp : kind_of t p <> Some File).
  { apply A. split; [apply above_cons, above_refl|]. intro E. apply (f_equal (@length string)) in E. cbn in E. lia. }
  assert (R : (if there t p then ([], Ok tt) else makedirs t p) = (missing t p, Ok tt)).
  { destruct (there t p) eqn:Et; [now rewrite missing_nil|]. apply there_false in Et. apply IH; auto.
    - intros ->. discriminate.
    - intros q [Aq Nq]. apply A. split; [now apply above_cons|]. intros ->. apply above_length in Aq. cbn in Aq. lia. }
  rewrite R. unfold mkdir. rewrite kind_made.
  assert (Hk : (if existsb (path_eqb p) (missing t p) then Some Folder else kind_of t p) = Some Folder).
  { destruct (existsb (path_eqb p) (missing t p)) eqn:E; [easy|]. apply existsb_path_false in E. rewrite missing_in in E by easy.
    destruct (kind_of t p) as [[|]|] eqn:Ek; [easy|easy|]. exfalso. apply E. split; [apply above_refl|easy]. }
  rewrite Hk. replace (there (made (missing t p) t) (c :: p)) with false; [easy|]. symmetry. apply there_false. rewrite kind_made.
  destruct (existsb (path_eqb (c :: p)) (missing t p)) eqn:E; [|easy]. apply existsb_path in E. apply missing_in in E; [|easy].
  destruct E as [E _]. apply above_length in E. cbn in E. lia.
Qed.

Lemma makedirs_blocked t p : well_formed t -> kind_of t p = None -> (exists q, strictly_above q p /\ kind_of t q = Some File) ->
  makedirs t p = ([], Err OtherError).
Proof.
  intro W. induction p as [|c p IH]; [discriminate|]. intros H (q & [A N] & F). cbn [makedirs].
  apply above_cons_inv in A. destruct A as [A|A]; [easy|].
  destruct (list_eq_dec string_dec q p) as [->|Nq].
  - unfold there. rewrite F. cbn [made fold_left]. unfold mkdir. now rewrite F.
  - destruct (kind_of t p) as [k|] eqn:Ek.
    + assert (kind_of t q = Some Folder) by (apply (wf_above t p W); [congruence|now split]). congruence.
    + replace (there t p) with false by (symmetry; now apply there_false). rewrite IH; [reflexivity|easy|]. exists q. now split.
Qed.

(*@ C92 Success: nothing happens if something is already there (file or directory); otherwise exactly the missing directories on
    the way to it are created, outermost first, and nothing else changes. *)
Lemma ensurepath_creates : forall (t : tree) (p : path), well_formed t ->
  (kind_of t p <> None -> ensurepath t p = ([], Ok tt)) /\
  (kind_of t p = None -> (forall q, strictly_above q p -> kind_of t q <> Some File) ->
   exists ops, ensurepath t p = (ops, Ok tt) /\ NoDup ops /\
     (forall q, In q ops <-> above q p /\ kind_of t q = None) /\
     (forall i j qi qj, nth_error ops i = Some qi -> nth_error ops j = Some qj -> (i < j)%nat -> strictly_above qi qj) /\
     (forall q, above q p -> kind_of (made ops t) q = Some Folder) /\
     (forall q, ~ above q p -> kind_of (made ops t) q = kind_of t q)).
Proof.
  intros t p W. split.
  - intro H. unfold ensurepath. now rewrite (proj2 (there_spec t p)).
  - intros H A. exists (missing t p). unfold ensurepath. replace (there t p) with false by (symmetry; now apply there_false).
    split; [apply makedirs_ok; auto; intros ->; discriminate|].
    assert (NS : forall p, NoDup (missing t p) /\ forall i j qi qj, nth_error (missing t p) i = Some qi -> nth_error (missing t p) j = Some qj -> (i < j)%nat -> strictly_above qi qj).
    { clear -W. intro p. induction p as [|c p [ND IH]]; cbn [missing]; [split; [constructor|intros [|i]; easy]|].
      destruct (there t (c :: p)); [split; [constructor|intros [|i]; easy]|].
      assert (X : forall q, In q (missing t p) -> strictly_above q (c :: p)).
      { intros q I. apply missing_in in I; [|easy]. destruct I as [I _]. split; [now apply above_cons|]. intros ->. apply above_length in I. cbn in I. lia. }
      split.
      - match goal with |- NoDup ?l => rewrite <- (rev_involutive l) end. apply NoDup_rev. rewrite rev_app_distr. cbn. constructor; [|now apply NoDup_rev].
        rewrite <- in_rev. intro I. apply X in I. now destruct I.
      - intros i j qi qj Hi Hj L. destruct (Nat.lt_ge_cases j (length (missing t p))) as [Lj|Lj].
        + rewrite nth_error_app1 in Hi, Hj by lia. eauto.
        + rewrite nth_error_app2 in Hj by lia. destruct (j - length (missing t p))%nat as [|n] eqn:En; cbn in Hj; [|destruct n; discriminate].
          injection Hj as <-. rewrite nth_error_app1 in Hi by lia. apply X. now apply nth_error_In in Hi. }
    destruct (NS p) as [ND SO]. split; [easy|]. split; [now intro q; apply missing_in|]. split; [exact SO|]. split.
    + intros q Aq. rewrite kind_made. destruct (existsb (path_eqb q) (missing t p)) eqn:E; [easy|]. apply existsb_path_false in E. rewrite missing_in in E by easy.
      destruct (kind_of t q) as [[|]|] eqn:Ek; [|easy|exfalso; now apply E].
      exfalso. apply (A q); [|easy]. split; [easy|]. intros ->. congruence.
    + intros q Nq. rewrite kind_made. destruct (existsb (path_eqb q) (missing t p)) eqn:E; [|easy]. apply existsb_path in E. apply missing_in in E; [|easy]. tauto.
Qed.

(*@ C92 A file on the way: an error, and nothing is created. *)
Lemma ensurepath_blocked : forall (t : tree) (p : path), well_formed t -> kind_of t p = None ->
  (exists q, strictly_above q p /\ kind_of t q = Some File) -> ensurepath t p = ([], Err OtherError).
Proof.
  intros t p W H B. unfold ensurepath. replace (there t p) with false by (symmetry; now apply there_false). now apply makedirs_blocked.
Qed.

(*@ C92 A crash after any number of creations leaves a well-formed tree, from which a second call completes the rest; after success a
    second call does nothing. *)
Lemma ensurepath_resume : forall (t : tree) (p : path) ops n, well_formed t -> ensurepath t p = (ops, Ok tt) ->
  well_formed (made (firstn n ops) t) /\ ensurepath (made (firstn n ops) t) p = (skipn n ops, Ok tt).
Proof.
  intros t p ops n W E. unfold ensurepath in E. destruct (there t p) eqn:Et.
  - injection E as <-. rewrite firstn_nil, skipn_nil. cbn [made fold_left]. split; [easy|]. unfold ensurepath. now rewrite Et.
  - apply there_false in Et.
    assert (A : forall q, strictly_above q p -> kind_of t q <> Some File).
    { intros q Sq F. rewrite makedirs_blocked in E; [discriminate|easy|easy|]. now exists q. }
    assert (Np : p <> []) by (intros ->; discriminate). rewrite makedirs_ok in E by assumption. injection E as <-.
    assert (G : forall p n, (forall q, strictly_above q p -> kind_of t q <> Some File) -> well_formed (made (firstn n (missing t p)) t) /\
      missing (made (firstn n (missing t p)) t) p = skipn n (missing t p)).
    { clear -W. intros p. induction p as [|c p IH]; intros n A; cbn [missing].
      - rewrite firstn_nil, skipn_nil. easy.
      - destruct (there t (c :: p)) eqn:Et; [rewrite firstn_nil, skipn_nil; cbn [made fold_left]; now rewrite Et|].
        assert (A' : forall q, strictly_above q p -> kind_of t q <> Some File).
        { intros q [Aq Nq]. apply A. split; [now apply above_cons|]. intros ->. apply above_length in Aq. cbn in Aq. lia. }
        assert (Hp : kind_of t p <> Some File).
        { apply A. split; [apply above_cons, above_refl|]. intro E. apply (f_equal (@length string)) in E. cbn in E. lia. }
        destruct (Nat.le_gt_cases n (length (missing t p))) as [L|L].
        + rewrite firstn_app, skipn_app. replace (n - length (missing t p))%nat with 0%nat by lia. cbn [firstn skipn]. rewrite app_nil_r.
          destruct (IH n A') as [W' M']. split; [easy|]. rewrite M'.
          replace (there (made (firstn n (missing t p)) t) (c :: p)) with false; [easy|]. symmetry. apply there_false. rewrite kind_made.
          destruct (existsb (path_eqb (c :: p)) (firstn n (missing t p))) eqn:E; [|now apply there_false]. apply existsb_path in E.
          assert (In (c :: p) (missing t p)) as I by (rewrite <- (firstn_skipn n (missing t p)); apply in_app_iff; now left).
          apply missing_in in I; [|easy]. destruct I as [I _]. apply above_length in I. cbn in I. lia.
        + rewrite firstn_all2, skipn_all2 by (rewrite app_length; cbn; lia). rewrite made_app. cbn [made fold_left].
          destruct (IH (length (missing t p)) A') as [W' _]. rewrite firstn_all in W'. change (fold_left _ (missing t p) t) with (made (missing t p) t).
          split.
          * intros d q k Hk. destruct (path_eqb_spec (d :: q) (c :: p)) as [E|N].
            -- injection E as -> ->. change ((c :: p, Folder) :: made (missing t p) t) with (made [c :: p] (made (missing t p) t)).
               rewrite !kind_made. destruct (existsb (path_eqb p) [c :: p]); [easy|].
               destruct (existsb (path_eqb p) (missing t p)) eqn:Ex; [easy|]. apply existsb_path_false in Ex. rewrite missing_in in Ex by easy.
               destruct (kind_of t p) as [[|]|] eqn:Ek; [easy|easy|]. exfalso. apply Ex. split; [apply above_refl|easy].
            -- change ((c :: p, Folder) :: made (missing t p) t) with (made [c :: p] (made (missing t p) t)) in *.
               rewrite (kind_made [c :: p]) in *. cbn [existsb] in *. destruct (path_eqb_spec (d :: q) (c :: p)); [easy|]. cbn [orb] in Hk.
               destruct (path_eqb q (c :: p) || false)%bool; [easy|]. eapply W'; eauto.
          * unfold there. cbn [kind_of node]. destruct (path_eqb_spec (c :: p) (c :: p)); [easy|congruence]. }
    destruct (G p n A) as [W' M']. split; [easy|].
    set (t' := made (firstn n (missing t p)) t) in *. unfold ensurepath. destruct (there t' p) eqn:Et'.
    + rewrite <- M'. now rewrite missing_nil.
    + rewrite <- M'. apply makedirs_ok; auto; [now apply there_false|]. intros q Sq. unfold t'. rewrite kind_made.
      destruct (existsb (path_eqb q) (firstn n (missing t p))); [easy|now apply A].
Qed.

(*@ C92 Refuted: that afterwards the path is a usable directory. A file at the path itself is accepted silently. *)
Lemma ensurepath_file_refuted : exists (t : tree) (p : path), well_formed t /\ ensurepath t p = ([], Ok tt) /\ kind_of t p = Some File.
Proof.
  exists [(["a"%string], File)], ["a"%string]. split; [|split; reflexivity].
  intros c p k. cbn [kind_of node]. destruct (path_eqb_spec (c :: p) ["a"%string]) as [E|]; [|discriminate]. injection E as -> ->. reflexivity.
Qed.

(*@ex C92 data/hope below an existing directory. *)
Lemma ensurepath_example : let t := [(["data"%string], Folder); (["notes"%string], File)] in
  well_formed t /\ ensurepath t ["raw"; "hope"; "data"]%string = ([["hope"; "data"]; ["raw"; "hope"; "data"]]%string, Ok tt) /\
  ensurepath t ["x"; "notes"]%string = ([], Err OtherError).
Proof.
  split; [|split; reflexivity]. intros c p k. cbn [kind_of node].
  destruct (path_eqb_spec (c :: p) ["data"%string]) as [E|]; [injection E as -> ->; reflexivity|].
  destruct (path_eqb_spec (c :: p) ["notes"%string]) as [E|]; [injection E as -> ->; reflexivity|discriminate].
Qed.
