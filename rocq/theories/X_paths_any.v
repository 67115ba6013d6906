(** Creating a directory while other processes create and delete at will (C132). *)
From Coq Require Import String Lia.
From Verif Require Import Prelude PreludeFacts M_paths Spec_paths M_paths_race M_paths_any Spec_paths_any.

Lemma woven_trans env i t a j u : woven env i t a j u -> forall b k v, woven env j u b k v -> woven env i t (a ++ b) k v.
Proof.
  intros W b k v V. induction V as [j u|j u b k v V IH|j u b k v q x V IH N F E].
  - now rewrite app_nil_r.
  - apply woven_look. now apply IH.
  - rewrite app_assoc. eapply woven_make; eauto.
Qed.
Lemma inwards_snoc l b : inwards l -> (forall a, In a l -> length a < length b) -> inwards (l ++ [b]).
Proof.
  induction l as [|a [|c l] IH]; intros I H; [exact Logic.I| |].
  - cbn. split; [apply H; now left|exact Logic.I].
  - cbn [app]. destruct I as [L I]. split; [exact L|]. apply IH; [exact I|]. intros x X. apply H. now right.
Qed.
Lemma above_length q p : above q p -> length q <= length p.
Proof. intros (i & ->). rewrite app_length. lia. Qed.
Lemma above_cons q c p : above q p -> above q (c :: p).
Proof. intros (i & ->). now exists (c :: i). Qed.
Lemma mkdir_cases t q : match mkdir t q with
  | Ok t' => q <> [] /\ kind_of t q = None /\ kind_of t (tl q) = Some Folder /\ t' = (q, Folder) :: t
  | Err FileExistsError => kind_of t q <> None
  | Err OtherError => exists c p, q = c :: p /\ kind_of t p <> Some Folder
  | Err _ => False
  end.
Proof.
  destruct q as [|c q]; [cbn; discriminate|]. cbn [mkdir tl]. destruct (kind_of t q) as [[|]|] eqn:K.
  - exists c, q. split; [reflexivity|]. congruence.
  - unfold there. destruct (kind_of t (c :: q)) eqn:Kq; [congruence|]. repeat split; easy.
  - exists c, q. split; [reflexivity|]. congruence.
Qed.
Lemma kind_made t c p : kind_of ((c :: p, Folder) :: t) (c :: p) = Some Folder.
Proof. cbn. unfold path_eqb. destruct (list_eq_dec string_dec (c :: p) (c :: p)); [reflexivity|contradiction]. Qed.

(** One os.mkdir of [c :: p] after the directories [ops], all at or above [p]. *)
Definition good_end (r : result unit) (t : tree) (p : path) : Prop :=
  match r with
  | Ok _ => kind_of t p = Some Folder
  | Err FileExistsError => kind_of t p <> None
  | Err OtherError => exists q, strictly_above q p /\ kind_of t q <> Some Folder
  | Err _ => False
  end.
Lemma strictly_parent (c : string) (p : path) : strictly_above p (c :: p).
Proof. split; [now exists [c]|]. intro E. apply (f_equal (@length _)) in E. cbn in E. lia. Qed.
Lemma makedirs_any_spec env p : forall w r w', makedirs_any env w p = (r, w') ->
  exists ops, own w' = rev ops ++ own w /\ woven env (calls w) (now w) ops (calls w') (now w') /\
    Forall (fun q => above q p) ops /\ inwards ops /\ calls w' <= calls w + 2 * length p /\ good_end r (now w') p.
Proof.
  induction p as [|c p IH]; intros w r w' E.
  { cbn in E. injection E as <- <-. exists []. split; [reflexivity|]. split; [constructor|]. split; [constructor|]. split; [exact I|].
    split; [lia|]. discriminate. }
  cbn [makedirs_any] in E. unfold sys_exists in E. set (w1 := tick env w) in *.
  assert (W1 : woven env (calls w) (now w) [] (calls w1) (now w1)) by (apply woven_look; constructor).
  assert (Pre : exists r1 w2 ops, (if there (now w1) p then (Ok tt, w1) else makedirs_any env w1 p) = (r1, w2) /\
     own w2 = rev ops ++ own w /\ woven env (calls w) (now w) ops (calls w2) (now w2) /\
     Forall (fun q => above q p) ops /\ inwards ops /\ calls w2 <= calls w + 1 + 2 * length p /\
     (r1 = Ok tt \/ r1 = Err FileExistsError \/ (r1 = Err OtherError /\ good_end r1 (now w2) p))).
  { destruct (there (now w1) p).
    - exists (Ok tt), w1, []. split; [reflexivity|]. split; [reflexivity|]. split; [exact W1|]. split; [constructor|].
      split; [exact I|]. split; [cbn; lia|now left].
    - destruct (makedirs_any env w1 p) as [r1 w2] eqn:M. destruct (IH w1 r1 w2 M) as (ops & O1 & O2 & O3 & O4 & O5 & O6).
      exists r1, w2, ops. split; [reflexivity|]. split; [exact O1|]. split; [exact (woven_trans _ _ _ _ _ _ W1 _ _ _ O2)|].
      split; [exact O3|]. split; [exact O4|]. split; [cbn in O5; lia|].
      destruct r1 as [[]|[]]; cbn in O6; try contradiction; auto. }
  destruct Pre as (r1 & w2 & ops & P0 & P1 & P2 & P3 & P4 & P5 & P6). rewrite P0 in E.
  assert (P3' : Forall (fun q => above q (c :: p)) ops) by (eapply Forall_impl; [|exact P3]; intros q; apply above_cons).
  assert (Step : sys_mkdir env w2 (c :: p) = (r, w') ->
     exists ops, own w' = rev ops ++ own w /\ woven env (calls w) (now w) ops (calls w') (now w') /\
       Forall (fun q => above q (c :: p)) ops /\ inwards ops /\ calls w' <= calls w + 2 * length (c :: p) /\ good_end r (now w') (c :: p)).
  { clear E. intro E. unfold sys_mkdir in E. set (w3 := tick env w2) in *. pose proof (mkdir_cases (now w3) (c :: p)) as M.
    destruct (mkdir (now w3) (c :: p)) as [t'|e] eqn:Em.
    - injection E as <- <-. destruct M as (_ & N & F & ->). exists (ops ++ [c :: p]). split; [cbn; now rewrite P1, rev_app_distr|].
      split; [eapply woven_make; [exact P2|exact N|exact F|reflexivity]|].
      split; [apply Forall_app; split; [exact P3'|constructor; [now exists []|constructor]]|].
      split; [apply inwards_snoc; [exact P4|]; intros a Ia; rewrite Forall_forall in P3; apply P3, above_length in Ia; cbn; lia|].
      split; [cbn; cbn in P5; lia|]. apply kind_made.
    - injection E as <- <-. exists ops. split; [exact P1|]. split; [now apply woven_look|]. split; [exact P3'|]. split; [exact P4|].
      split; [cbn; cbn in P5; lia|]. destruct e; try contradiction; [exact M|].
      destruct M as (c' & p' & X & K). injection X as <- <-. exists p. split; [apply strictly_parent|exact K]. }
  destruct P6 as [->|[->|[-> G]]]; [now apply Step|now apply Step|].
  injection E as <- <-. exists ops. split; [exact P1|]. split; [exact P2|]. split; [exact P3'|]. split; [exact P4|].
  split; [cbn; lia|]. destruct G as (q & (A & D) & K). exists q. split; [|exact K]. split; [now apply above_cons|].
  intros ->. apply above_length in A. cbn in A. lia.
Qed.

(*@ C132 Whatever others do to the tree before each of its system calls, ensurepath ends after at most two calls per component and one
    more. It never removes or replaces anything: all it does is to add directories, each missing at that moment and below a
    directory, each on the way to the path, from the outside in, none twice. When it ends, the path exists if it returns and also
    if it raises FileExistsError; and otherwise something above the path is not a directory at that moment. *)
Lemma ensurepath_any_end : forall env t p r w, ensurepath_any env t p = (r, w) ->
  calls w <= 2 * length p + 1 /\
  woven env 0 t (rev (own w)) (calls w) (now w) /\
  Forall (fun q => above q p) (own w) /\ inwards (rev (own w)) /\
  match r with
  | Ok _ => kind_of (now w) p <> None
  | Err FileExistsError => kind_of (now w) p <> None
  | Err e => e = OtherError /\ exists q, strictly_above q p /\ kind_of (now w) q <> Some Folder
  end.
Proof.
  intros env t p r w E. unfold ensurepath_any, sys_exists in E. set (w1 := tick env (World 0 [] t)) in *.
  assert (W1 : woven env 0 t [] (calls w1) (now w1)) by (apply (woven_look env 0 t [] 0 t); constructor).
  destruct (there (now w1) p) eqn:T.
  - injection E as <- <-. split; [cbn; lia|]. split; [exact W1|]. split; [constructor|]. split; [exact I|].
    unfold there in T. destruct (kind_of (now w1) p); congruence.
  - destruct (makedirs_any_spec env p w1 r w E) as (ops & O1 & O2 & O3 & O4 & O5 & O6). cbn in O1. rewrite app_nil_r in O1.
    rewrite O1, rev_involutive. split; [cbn in O5; lia|]. split; [exact (woven_trans _ _ _ _ _ _ W1 _ _ _ O2)|].
    split; [now apply Forall_rev|]. split; [exact O4|].
    destruct r as [[]|[]]; cbn in O6; try contradiction; [congruence|exact O6|now split].
Qed.

(*@ C132 A call that has made a directory and returned has made the path itself, as its last act: it is a directory at the end. *)
Lemma ensurepath_any_made : forall env t p r w, ensurepath_any env t p = (r, w) -> r = Ok tt -> own w <> [] ->
  kind_of (now w) p = Some Folder /\ hd_error (own w) = Some p.
Proof.
  intros env t p r w E -> O. unfold ensurepath_any, sys_exists in E. set (w1 := tick env (World 0 [] t)) in *.
  destruct (there (now w1) p); [injection E as <-; contradiction|].
  destruct p as [|c p]; [discriminate|]. destruct (makedirs_any_spec env (c :: p) w1 (Ok tt) w E) as (ops & _ & _ & _ & _ & _ & K).
  split; [exact K|]. cbn [makedirs_any] in E. destruct (sys_exists env w1 p) as [b v].
  destruct (if b then (Ok tt, v) else makedirs_any env v p) as [r2 v2].
  assert (S : sys_mkdir env v2 (c :: p) = (Ok tt, w)) by (destruct r2 as [[]|[]]; congruence).
  unfold sys_mkdir in S. destruct (mkdir (now (tick env v2)) (c :: p)) as [t'|e]; [|congruence]. injection S as <-. reflexivity.
Qed.

(** Others that delete everything before each call. *)
Definition wiped (_ : nat) (_ : tree) : tree := [].
Lemma makedirs_wiped c d p : forall w, fst (makedirs_any wiped w (c :: d :: p)) = Err OtherError.
Proof.
  revert c d. induction p as [|e p IH]; intros c d w; [reflexivity|]. specialize (IH d e (tick wiped w)).
  change (makedirs_any wiped w (c :: d :: e :: p)) with
    (let (r, w2) := makedirs_any wiped (tick wiped w) (d :: e :: p) in
     match r with Ok _ | Err FileExistsError => sys_mkdir wiped w2 (c :: d :: e :: p) | Err x => (Err x, w2) end).
  destruct (makedirs_any wiped (tick wiped w) (d :: e :: p)) as [r w2]. cbn [fst] in IH. now rewrite IH.
Qed.
(*@ C132 So a directory cannot be made for sure while others delete: with at least two components there is, for every tree, an order of
    events in which the call raises neither FileExistsError nor returns, though no file was ever in the way. With one component there
    is none. *)
Lemma ensurepath_any_refuted :
  (forall t p, 2 <= length p -> fst (ensurepath_any wiped t p) = Err OtherError) /\
  (forall env t c, fst (ensurepath_any env t [c]) <> Err OtherError).
Proof.
  split.
  - intros t [|c [|d p]] L; cbn [length] in L; [lia|lia|]. unfold ensurepath_any, sys_exists. cbn [there kind_of node tick now wiped].
    apply makedirs_wiped.
  - intros env t c E. destruct (ensurepath_any env t [c]) as [r w] eqn:X. cbn in E. subst r.
    destruct (ensurepath_any_end _ _ _ _ _ X) as (_ & _ & _ & _ & _ & q & (A & D) & K). destruct A as (i & A).
    destruct i as [|x i]; [cbn in A; congruence|]. injection A as _ A. symmetry in A. apply app_eq_nil in A. destruct A as [_ ->]. now apply K.
Qed.

(** The same function as in C124 when the others only create directories. *)
Definition creating (mk : nat -> list path) (i : nat) (t : tree) : tree := fold_left M_paths_race.mkdir_other (mk i) t.
Lemma makedirs_creating mk p : forall n o t, exists o',
  makedirs_any (creating mk) (World n o t) p =
  (fst (M_paths_race.makedirs_env mk (n, t) p),
   World (fst (snd (M_paths_race.makedirs_env mk (n, t) p))) o' (snd (snd (M_paths_race.makedirs_env mk (n, t) p)))).
Proof.
  induction p as [|c p IH]; intros n o t; [now exists o|]. cbn [makedirs_any M_paths_race.makedirs_env].
  unfold sys_exists, M_paths_race.sys_exists. cbn [tick now calls own].
  change (snd (M_paths_race.tick mk (n, t))) with (creating mk n t). change (M_paths_race.tick mk (n, t)) with (S n, creating mk n t).
  unfold tick. cbn [now calls own]. set (t1 := creating mk n t).
  assert (Last : forall n o t, exists o', sys_mkdir (creating mk) (World n o t) (c :: p) =
            (fst (M_paths_race.sys_mkdir mk (n, t) (c :: p)),
             World (fst (snd (M_paths_race.sys_mkdir mk (n, t) (c :: p)))) o' (snd (snd (M_paths_race.sys_mkdir mk (n, t) (c :: p)))))).
  { intros n0 o0 t0. unfold sys_mkdir, M_paths_race.sys_mkdir, tick, M_paths_race.tick. cbn [now calls own fst snd].
    change (fold_left M_paths_race.mkdir_other (mk n0) t0) with (creating mk n0 t0).
    destruct (mkdir (creating mk n0 t0) (c :: p)); cbn [fst snd]; eexists; reflexivity. }
  destruct (there t1 p); [apply Last|]. destruct (IH (S n) o t1) as (o' & ->).
  destruct (M_paths_race.makedirs_env mk (S n, t1) p) as [r [n2 t2]]. cbn [fst snd].
  destruct r as [[]|[]]; try apply Last; now exists o'.
Qed.
(*@ C132 With others that only create directories it is the call of C124. *)
Lemma ensurepath_any_creating : forall mk t p,
  let w := ensurepath_any (creating mk) t p in (fst w, now (snd w)) = M_paths_race.ensurepath_env mk t p.
Proof.
  intros mk t p. cbv zeta. unfold ensurepath_any, M_paths_race.ensurepath_env, sys_exists, M_paths_race.sys_exists, tick.
  cbn [now calls own]. change (M_paths_race.tick mk (0, t)) with (1, creating mk 0 t). cbn [fst snd].
  destruct (there (creating mk 0 t) p); [reflexivity|]. destruct (makedirs_creating mk p 1 [] (creating mk 0 t)) as (o' & ->).
  destruct (M_paths_race.makedirs_env mk (1, creating mk 0 t) p) as [r [n u]]. reflexivity.
Qed.

(*@ex C132 Three components are wanted and only the outermost exists; others delete it and make it again while the call runs. The call
    goes through: it makes the two missing directories. *)
Lemma ensurepath_any_example :
  let env := fun i (t : tree) => match i with 1 => [] | 2 => [(["a"%string], Folder)] | _ => t end in
  ensurepath_any env [(["a"%string], Folder)] ["c"; "b"; "a"]%string
  = (Ok tt, World 5 [["c"; "b"; "a"]%string; ["b"; "a"]%string]
                    [(["c"; "b"; "a"]%string, Folder); (["b"; "a"]%string, Folder); (["a"%string], Folder)]).
Proof. reflexivity. Qed.
