(** Creating a directory while other processes create directories. *)
From Coq Require Import String.
From Verif Require Import Prelude PreludeFacts M_paths Spec_paths M_paths_race.

(** ** Trees that grow by directories *)
Inductive grown (P : path -> Prop) : tree -> tree -> Prop :=
  | grown_refl t : grown P t t
  | grown_step t q t' t'' : P q -> mkdir t q = Ok t' -> grown P t' t'' -> grown P t t''.
Lemma grown_trans P t u v : grown P t u -> grown P u v -> grown P t v.
Proof. induction 1; [easy|]. intro. eapply grown_step; eauto. Qed.
Lemma grown_weaken (P Q : path -> Prop) t u : (forall q, P q -> Q q) -> grown P t u -> grown Q t u.
Proof. intro H. induction 1; [constructor|]. eapply grown_step; eauto. Qed.
Lemma path_eqb_spec p q : reflect (p = q) (path_eqb p q).
Proof. unfold path_eqb. destruct (list_eq_dec string_dec p q); now constructor. Qed.
Lemma mkdir_ok (t : tree) (q : path) (t' : tree) : mkdir t q = Ok t' -> q <> [] /\ t' = (q, Folder) :: t /\ kind_of t q = None /\ kind_of t (tl q) = Some Folder.
Proof.
  destruct q as [|c q]; [discriminate|]. cbn [mkdir tl]. destruct (kind_of t q) as [[|]|]; [discriminate| |discriminate].
  unfold there. destruct (kind_of t (c :: q)); [discriminate|]. intro E. injection E as <-. repeat split; easy.
Qed.
Lemma kind_cons (t : tree) (q p : path) : q <> [] -> kind_of ((q, Folder) :: t) p = if path_eqb p q then Some Folder else kind_of t p.
Proof. intro N. destruct p as [|c p]; cbn; [|reflexivity]. destruct (path_eqb_spec [] q); [now subst|reflexivity]. Qed.
Lemma grown_kind P t u : grown P t u -> forall q,
  kind_of u q = kind_of t q \/ (kind_of t q = None /\ kind_of u q = Some Folder /\ P q).
Proof.
  induction 1 as [|t q t' t'' Pq M G IH]; intro x; [now left|]. apply mkdir_ok in M. destruct M as (N & -> & K & _).
  specialize (IH x). rewrite (kind_cons t q x N) in IH. destruct (path_eqb_spec x q) as [Ex|D].
  - right. rewrite Ex in *. destruct IH as [IH|(IH & _)]; [|discriminate]. auto.
  - destruct IH as [IH|IH]; [now left|right; exact IH].
Qed.
Lemma grown_wf P t u : grown P t u -> well_formed t -> well_formed u.
Proof.
  induction 1 as [|t q t' t'' Pq M G IH]; [easy|]. intro W. apply IH. apply mkdir_ok in M. destruct M as (N & -> & K & Kp).
  intros c p k. rewrite !kind_cons by exact N. destruct (path_eqb_spec p q) as [->|D2]; [easy|].
  destruct (path_eqb_spec (c :: p) q) as [<-|D]; [intros _; exact Kp|]. apply W.
Qed.
Lemma grown_keeps P t u q k : grown P t u -> kind_of t q = Some k -> kind_of u q = Some k.
Proof. intros G K. destruct (grown_kind P t u G q) as [->|(E & _)]; [exact K|congruence]. Qed.
Lemma grown_file P t u q : grown P t u -> kind_of u q = Some File -> kind_of t q = Some File.
Proof. intros G K. destruct (grown_kind P t u G q) as [<-|(_ & E & _)]; congruence. Qed.
Lemma others_grown (P : path -> Prop) l : (forall q, In q l -> P q) -> forall t, grown P t (fold_left mkdir_other l t).
Proof.
  induction l as [|q l IH]; intros H t; [constructor|]. cbn [fold_left].
  assert (G : grown P (mkdir_other t q) (fold_left mkdir_other l (mkdir_other t q))) by (apply IH; intros; apply H; now right).
  assert (G0 : grown P t (mkdir_other t q)).
  { unfold mkdir_other. destruct (mkdir t q) as [t'|e] eqn:M; [|constructor]. eapply grown_step; [apply H; now left|exact M|constructor]. }
  eapply grown_trans; eauto.
Qed.
Lemma tick_grown env w (P : path -> Prop) : (forall q, In q (env (fst w)) -> P q) -> grown P (snd w) (snd (tick env w)).
Proof. intro H. apply others_grown. exact H. Qed.

(** Directories that others create at or after call [i]. *)
Definition others_make (env : nat -> list path) (i : nat) (q : path) : Prop := exists j, (i <= j)%nat /\ In q (env j).
Lemma others_tick env w : grown (others_make env (fst w)) (snd w) (snd (tick env w)).
Proof. apply tick_grown. intros q I. exists (fst w). split; [lia|exact I]. Qed.
Lemma others_later env i j q : (i <= j)%nat -> others_make env j q -> others_make env i q.
Proof. intros L (k & H & I). exists k. split; [lia|exact I]. Qed.

Lemma above_parent q c p : above q p -> above q (c :: p).
Proof. intros (i & ->). now exists (c :: i). Qed.
Lemma above_refl p : above p p.
Proof. now exists []. Qed.
Lemma not_above_parent c (p : path) : ~ above (c :: p) p.
Proof. intros (i & E). apply (f_equal (@length _)) in E. rewrite app_length in E. cbn in E. lia. Qed.
Lemma above_inv q c p : above q (c :: p) -> q = c :: p \/ above q p.
Proof. intros ([|d i] & E); [now left|]. injection E as _ E. right. now exists i. Qed.
Lemma wf_above t p : well_formed t -> forall q k, above q p -> kind_of t p = Some k -> q <> p -> kind_of t q = Some Folder.
Proof.
  intro W. induction p as [|c p IH]; intros q k A K D; [destruct A as ([|? ?] & E); [cbn in E; congruence|discriminate]|].
  apply above_inv in A. destruct A as [->|A]; [congruence|]. pose proof (W _ _ _ K) as Kp.
  destruct (list_eq_dec string_dec q p) as [->|D2]; [exact Kp|]. now apply (IH q Folder).
Qed.

Lemma makedirs_race env p : forall w r w', well_formed (snd w) -> (forall q, above q p -> kind_of (snd w) q <> Some File) ->
  makedirs_env env w p = (r, w') ->
  grown (fun q => above q p \/ others_make env (fst w) q) (snd w) (snd w') /\ (fst w <= fst w')%nat /\
  kind_of (snd w') p = Some Folder /\
  (r = Ok tt \/ (r = Err FileExistsError /\ (kind_of (snd w) p <> None \/ others_make env (fst w) p))).
Proof.
  induction p as [|c p IH]; intros w r w' W F E.
  { cbn in E. injection E as <- <-. split; [constructor|]. split; [lia|]. split; [reflexivity|]. right. split; [reflexivity|]. left. discriminate. }
  cbn [makedirs_env] in E. unfold sys_exists in E. pose proof (others_tick env w) as G1. set (w1 := tick env w) in *.
  assert (L1 : fst w1 = S (fst w)) by reflexivity. assert (W1 : well_formed (snd w1)) by (eapply grown_wf; eauto).
  assert (F1 : forall q, above q (c :: p) -> kind_of (snd w1) q <> Some File) by (intros q A K; apply (F q A); eapply grown_file; eauto).
  assert (H : exists r2 w2, (if there (snd w1) p then (Ok tt, w1) else makedirs_env env w1 p) = (r2, w2) /\
    grown (fun q => above q p \/ others_make env (fst w) q) (snd w) (snd w2) /\ (fst w1 <= fst w2)%nat /\ kind_of (snd w2) p = Some Folder /\ (r2 = Ok tt \/ r2 = Err FileExistsError)).
  { unfold there. destruct (kind_of (snd w1) p) as [k|] eqn:K.
    - exists (Ok tt), w1. split; [reflexivity|]. split; [eapply grown_weaken; [|exact G1]; auto|]. split; [lia|]. split; [|now left].
      rewrite K. destruct k; [|reflexivity]. exfalso. apply (F1 p); [apply above_parent, above_refl|exact K].
    - destruct (makedirs_env env w1 p) as [r2 w2] eqn:M. exists r2, w2. split; [reflexivity|].
      destruct (IH w1 r2 w2 W1) as (G2 & L2 & K2 & R2); [intros q A; apply F1, above_parent, A|exact M|]. split; [|split; [lia|split; [exact K2|]]].
      + eapply grown_trans; [eapply grown_weaken; [|exact G1]; auto|]. eapply grown_weaken; [|exact G2]. intros q [A|O1]; [now left|right]. eapply others_later; [|exact O1]. lia.
      + destruct R2 as [->|[-> _]]; auto. }
  destruct H as (r2 & w2 & E2 & G2 & L2 & K2 & R2). rewrite E2 in E.
  assert (E3 : sys_mkdir env w2 (c :: p) = (r, w')) by (destruct R2 as [->| ->]; exact E). clear E E2 R2.
  unfold sys_mkdir in E3. pose proof (others_tick env w2) as G3. set (w3 := tick env w2) in *. assert (L3 : fst w3 = S (fst w2)) by reflexivity.
  assert (G : grown (fun q => above q p \/ others_make env (fst w) q) (snd w) (snd w3)).
  { eapply grown_trans; [exact G2|]. eapply grown_weaken; [|exact G3]. intros q O1. right. eapply others_later; [|exact O1]. lia. }
  assert (K3 : kind_of (snd w3) p = Some Folder) by (exact (grown_keeps _ _ _ _ _ G3 K2)).
  destruct (mkdir (snd w3) (c :: p)) as [t|e] eqn:M; injection E3 as <- <-.
  - pose proof (mkdir_ok _ _ _ M) as (N & Et & _ & _). cbn [fst snd]. split; [|split; [lia|split; [|now left]]].
    + eapply grown_trans; [eapply grown_weaken; [|exact G]; intros q [A|O1]; [left; now apply above_parent|now right]|].
      eapply grown_step; [left; apply above_refl|exact M|constructor].
    + rewrite Et, kind_cons by exact N. destruct (path_eqb_spec (c :: p) (c :: p)); [reflexivity|congruence].
  - cbn [mkdir] in M. rewrite K3 in M. unfold there in M. destruct (kind_of (snd w3) (c :: p)) as [k|] eqn:K; [|discriminate]. injection M as <-.
    split; [eapply grown_weaken; [|exact G]; intros q [A|O1]; [left; now apply above_parent|now right]|]. split; [lia|].
    destruct (grown_kind _ _ _ G (c :: p)) as [Q|(Q1 & Q2 & Q3)].
    + rewrite Q in K. split; [|right; split; [reflexivity|left; congruence]].
      destruct k; [|reflexivity]. exfalso. apply (F (c :: p)); [apply above_refl|exact K].
    + split; [congruence|]. right. split; [reflexivity|]. right. destruct Q3 as [A|O1]; [now apply not_above_parent in A|exact O1].
Qed.

(*@ C124 Whatever directories others create in between, nothing is lost and only directories on the way to the path, or those of the
    others, appear. If no file is in the way, the directory and all above it exist at the end, and the call returns, or it raises
    FileExistsError; it raises only if the path did not exist at the start and another process has created that very path
    after the check. *)
Lemma ensurepath_race : forall env t p r t', well_formed t -> ensurepath_env env t p = (r, t') ->
  (forall q, above q p -> kind_of t q <> Some File) ->
  well_formed t' /\ (forall q k, kind_of t q = Some k -> kind_of t' q = Some k) /\
  (forall q, kind_of t q = None -> kind_of t' q <> None -> kind_of t' q = Some Folder /\ (above q p \/ exists i, In q (env i))) /\
  (forall q, above q p -> kind_of t' q = Some Folder) /\
  (r = Ok tt \/ (r = Err FileExistsError /\ kind_of t p = None /\ exists i, (1 <= i)%nat /\ In p (env i))).
Proof.
  intros env t p r t' W E F. unfold ensurepath_env, sys_exists in E. pose proof (others_tick env (0%nat, t)) as G1.
  set (w1 := tick env (0%nat, t)) in *. cbn [fst snd] in G1. assert (L1 : fst w1 = 1%nat) by reflexivity. assert (W1 : well_formed (snd w1)) by (eapply grown_wf; eauto).
  assert (Fin : forall u, grown (fun q => above q p \/ exists i, In q (env i)) t u -> kind_of u p = Some Folder ->
    well_formed u /\ (forall q k, kind_of t q = Some k -> kind_of u q = Some k) /\
    (forall q, kind_of t q = None -> kind_of u q <> None -> kind_of u q = Some Folder /\ (above q p \/ exists i, In q (env i))) /\
    (forall q, above q p -> kind_of u q = Some Folder)).
  { intros u G K. assert (Wu : well_formed u) by (eapply grown_wf; eauto). split; [exact Wu|]. split; [intros q k; eapply grown_keeps; eauto|]. split.
    - intros q N1 N2. destruct (grown_kind _ _ _ G q) as [Q|(_ & Q & Q2)]; [congruence|auto].
    - intros q A. destruct (list_eq_dec string_dec q p) as [->|D]; [exact K|]. eapply wf_above; eauto. }
  assert (Wk : forall i q, others_make env i q -> above q p \/ exists i, In q (env i)) by (intros i q (j & _ & I); right; eauto).
  unfold there in E. destruct (kind_of (snd w1) p) as [k|] eqn:K.
  - injection E as <- <-. destruct (Fin (snd w1)) as (A & B & C & D); [eapply grown_weaken; [|exact G1]; apply Wk| |repeat split; auto; apply C; assumption].
    rewrite K. destruct k; [|reflexivity]. exfalso. apply (F p (above_refl p)). eapply grown_file; eauto.
  - destruct (makedirs_env env w1 p) as [r2 w2] eqn:M. injection E as -> <-.
    destruct (makedirs_race env p w1 r w2 W1) as (G2 & L2 & K2 & R2); [intros q A Q; apply (F q A); eapply grown_file; eauto|exact M|].
    destruct (Fin (snd w2)) as (A & B & C & D); [|exact K2|].
    + eapply grown_trans; [eapply grown_weaken; [|exact G1]; apply Wk|]. eapply grown_weaken; [|exact G2]. intros q [Q|Q]; [now left|now apply Wk in Q].
    + split; [exact A|]. split; [exact B|]. split; [exact C|]. split; [exact D|].
      destruct R2 as [R2|(R2 & [R3|R3])]; [now left|congruence|right]. split; [exact R2|]. split.
      * destruct (kind_of t p) as [k|] eqn:Kt; [|reflexivity]. pose proof (grown_keeps _ _ _ _ _ G1 Kt). congruence.
      * rewrite L1 in R3. exact R3.
Qed.

Lemma makedirs_blocked env p : forall w r w', well_formed (snd w) -> (exists q, strictly_above q p /\ kind_of (snd w) q = Some File) ->
  makedirs_env env w p = (r, w') -> r = Err OtherError /\ grown (fun q => exists i, In q (env i)) (snd w) (snd w').
Proof.
  induction p as [|c p IH]; intros w r w' W (q & (A & D) & Kq) E.
  { destruct A as ([|? ?] & X); [cbn in X; congruence|discriminate]. }
  assert (Ap : above q p) by (apply above_inv in A; destruct A; [congruence|assumption]).
  assert (T : forall v, grown (fun q => exists i, In q (env i)) (snd v) (snd (tick env v))) by (intro v; apply tick_grown; eauto).
  cbn [makedirs_env] in E. unfold sys_exists in E. pose proof (T w) as G1. set (w1 := tick env w) in *.
  assert (W1 : well_formed (snd w1)) by (eapply grown_wf; eauto). assert (Kq1 : kind_of (snd w1) q = Some File) by (eapply grown_keeps; eauto).
  destruct (list_eq_dec string_dec q p) as [->|D2].
  - unfold there in E. rewrite Kq1 in E. unfold sys_mkdir in E. pose proof (T w1) as G2. set (w2 := tick env w1) in *.
    assert (Kq2 : kind_of (snd w2) p = Some File) by (eapply grown_keeps; eauto).
    cbn [mkdir] in E. rewrite Kq2 in E. injection E as <- <-. split; [reflexivity|]. eapply grown_trans; eauto.
  - unfold there in E. destruct (kind_of (snd w1) p) as [k|] eqn:K.
    + pose proof (wf_above _ _ W1 q k Ap K D2). congruence.
    + destruct (makedirs_env env w1 p) as [r2 w2] eqn:M. destruct (IH w1 r2 w2 W1) as [-> G2]; [exists q; split; [split; assumption|exact Kq1]|exact M|].
      injection E as <- <-. split; [reflexivity|]. eapply grown_trans; eauto.
Qed.

(*@ C124 A file in the way: the call fails whatever the others do, and creates nothing. *)
Lemma ensurepath_race_blocked : forall env t p r t', well_formed t -> ensurepath_env env t p = (r, t') ->
  (exists q, strictly_above q p /\ kind_of t q = Some File) ->
  r = Err OtherError /\ (forall q, kind_of t q = None -> kind_of t' q <> None -> exists i, In q (env i)).
Proof.
  intros env t p r t' W E (q & (A & D) & K). unfold ensurepath_env, sys_exists in E.
  assert (G1 : grown (fun q => exists i, In q (env i)) t (snd (tick env (0%nat, t)))) by (apply (tick_grown env (0%nat, t)); eauto).
  set (w1 := tick env (0%nat, t)) in *. assert (W1 : well_formed (snd w1)) by (eapply grown_wf; eauto).
  assert (K1 : kind_of (snd w1) q = Some File) by (eapply grown_keeps; eauto).
  unfold there in E. destruct (kind_of (snd w1) p) as [k|] eqn:Kp; [pose proof (wf_above _ _ W1 q k A Kp D); congruence|].
  destruct (makedirs_env env w1 p) as [r2 w2] eqn:M. injection E as -> <-.
  destruct (makedirs_blocked env p w1 r w2 W1) as [-> G2]; [exists q; split; [split; assumption|exact K1]|exact M|].
  split; [reflexivity|]. intros x N1 N2. destruct (grown_kind _ _ _ (grown_trans _ _ _ _ G1 G2) x) as [Q|(_ & _ & Q)]; [congruence|exact Q].
Qed.

(** ** Alone *)
Definition quiet : nat -> list path := fun _ => [].
Lemma quiet_tick w : tick quiet w = (S (fst w), snd w).
Proof. reflexivity. Qed.
Lemma made_app a b t : made (a ++ b) t = made b (made a t).
Proof. unfold made. apply fold_left_app. Qed.
Lemma makedirs_quiet p : forall n t, exists n', makedirs_env quiet (n, t) p = (snd (makedirs t p), (n', made (fst (makedirs t p)) t)).
Proof.
  induction p as [|c p IH]; intros n t; [exists n; reflexivity|]. cbn [makedirs_env makedirs]. unfold sys_exists. rewrite quiet_tick. cbn [fst snd].
  destruct (there t p).
  - unfold sys_mkdir. rewrite quiet_tick. cbn [fst snd made fold_left]. change (made [] t) with t.
    destruct (mkdir t (c :: p)) as [t'|e] eqn:M; cbn [fst snd app]; eexists; [|reflexivity]. apply mkdir_ok in M. destruct M as (_ & -> & _). reflexivity.
  - destruct (IH (S n) t) as (n' & ->). destruct (makedirs t p) as [ops r]. cbn [fst snd].
    assert (T : exists n2, sys_mkdir quiet (n', made ops t) (c :: p) =
      (snd (match mkdir (made ops t) (c :: p) with Ok _ => (ops ++ [c :: p], Ok tt) | Err e => (ops, Err e) end),
       (n2, made (fst (match mkdir (made ops t) (c :: p) with Ok _ => (ops ++ [c :: p], Ok tt) | Err e => (ops, Err e) end)) t))).
    { unfold sys_mkdir. rewrite quiet_tick. cbn [fst snd]. destruct (mkdir (made ops t) (c :: p)) as [t'|e] eqn:M; cbn [fst snd]; eexists; [|reflexivity].
      apply mkdir_ok in M. destruct M as (_ & -> & _). rewrite made_app. reflexivity. }
    destruct r as [[]|[]]; try exact T; exists n'; reflexivity.
Qed.
(*@ C124 With nobody else at work it is the call of C92. *)
Lemma ensurepath_alone : forall t p,
  ensurepath_env (fun _ => []) t p = (snd (ensurepath t p), made (fst (ensurepath t p)) t).
Proof.
  intros t p. change (fun _ : nat => []) with quiet. unfold ensurepath_env, sys_exists. rewrite quiet_tick. cbn [snd fst]. unfold ensurepath.
  destruct (there t p); [reflexivity|]. destruct (makedirs_quiet p 1 t) as (n' & ->). reflexivity.
Qed.

(** The directories from the root down to [p]. *)
Fixpoint chain (p : path) : list path := match p with [] => [] | _ :: parent => chain parent ++ [p] end.
Lemma chain_made p : forall t, well_formed t -> (forall q, above q p -> kind_of t q <> Some File) -> kind_of (fold_left mkdir_other (chain p) t) p = Some Folder.
Proof.
  induction p as [|c p IH]; intros t W F; [reflexivity|]. cbn [chain]. rewrite fold_left_app. cbn [fold_left].
  assert (G : grown (fun _ => True) t (fold_left mkdir_other (chain p) t)) by (now apply others_grown).
  assert (K : kind_of (fold_left mkdir_other (chain p) t) p = Some Folder) by (apply IH; [exact W|]; intros q A; apply F, above_parent, A).
  set (u := fold_left mkdir_other (chain p) t) in *. unfold mkdir_other. destruct (mkdir u (c :: p)) as [u'|e] eqn:M.
  - apply mkdir_ok in M. destruct M as (N & -> & _). rewrite kind_cons by exact N. now destruct (path_eqb_spec (c :: p) (c :: p)).
  - cbn [mkdir] in M. rewrite K in M. unfold there in M. destruct (kind_of u (c :: p)) as [k|] eqn:Ku; [|discriminate].
    destruct k; [|reflexivity]. exfalso. apply (F (c :: p) (above_refl _)). eapply grown_file; eauto.
Qed.
(*@ C124 The race is always possible: for every missing directory without a file in its way there is an order of events in which the
    call raises FileExistsError although the directory exists at the end. *)
Lemma ensurepath_race_refuted : forall t p, well_formed t -> kind_of t p = None -> (forall q, above q p -> kind_of t q <> Some File) ->
  exists env t', ensurepath_env env t p = (Err FileExistsError, t') /\ kind_of t' p = Some Folder.
Proof.
  intros t p W N F. destruct p as [|c p]; [discriminate|].
  set (env := fun i : nat => match i with 1%nat => chain (c :: p) | _ => [] end). exists env.
  pose proof (chain_made (c :: p) t W F) as K. assert (G : grown (fun _ => True) t (fold_left mkdir_other (chain (c :: p)) t)) by (now apply others_grown).
  assert (T0 : tick env (0%nat, t) = (1%nat, t)) by reflexivity. assert (T1 : tick env (1%nat, t) = (2%nat, fold_left mkdir_other (chain (c :: p)) t)) by reflexivity.
  set (u := fold_left mkdir_other (chain (c :: p)) t) in *. assert (T2 : tick env (2%nat, u) = (3%nat, u)) by reflexivity.
  assert (Kp : kind_of u p = Some Folder) by (apply (grown_wf _ _ _ G W c p Folder); exact K).
  assert (B0 : there t (c :: p) = false) by (unfold there; now rewrite N). assert (B1 : there u p = true) by (unfold there; now rewrite Kp). assert (B2 : there u (c :: p) = true) by (unfold there; now rewrite K).
  exists u. split; [|exact K]. unfold ensurepath_env, sys_exists. rewrite T0. cbn [snd]. rewrite B0. cbn [makedirs_env]. unfold sys_exists. rewrite T1. cbn [snd]. rewrite B1.
  unfold sys_mkdir. rewrite T2. cbn [snd mkdir]. rewrite Kp, B2. reflexivity.
Qed.

Definition demo_tree : tree := [(["readme"], File); (["data"], Folder)]%string.
Lemma demo_tree_wf : well_formed demo_tree.
Proof.
  intros c p k. unfold demo_tree. destruct p as [|d p]; [reflexivity|]. cbn [kind_of node].
  destruct (path_eqb_spec (c :: d :: p) ["readme"%string]) as [E|_]; [discriminate|].
  destruct (path_eqb_spec (c :: d :: p) ["data"%string]) as [E|_]; [discriminate|]. discriminate.
Qed.
(*@ex C124 data/hope/2013 is wanted in a tree with data and a file readme. A neighbour who makes data/hope in between does no harm; one who
    makes all of it after the check lets the call raise; below the file readme nothing can be made. *)
Lemma race_example :
  well_formed demo_tree /\
  ensurepath_env (fun i => match i with 2%nat => [["hope"; "data"]%string] | _ => [] end) demo_tree ["2013"; "hope"; "data"]%string =
    (Ok tt, (["2013"; "hope"; "data"]%string, Folder) :: (["hope"; "data"]%string, Folder) :: demo_tree) /\
  ensurepath_env (fun i => match i with 3%nat => [["hope"; "data"]; ["2013"; "hope"; "data"]]%string | _ => [] end) demo_tree ["2013"; "hope"; "data"]%string =
    (Err FileExistsError, (["2013"; "hope"; "data"]%string, Folder) :: (["hope"; "data"]%string, Folder) :: demo_tree) /\
  ensurepath_env (fun i => match i with 0%nat => [["logs"]%string] | _ => [] end) demo_tree ["x"; "readme"]%string =
    (Err OtherError, (["logs"]%string, Folder) :: demo_tree).
Proof. split; [apply demo_tree_wf|]. repeat split; vm_compute; reflexivity. Qed.
