(** cmv.py compute_cmv: exactly when it succeeds and which exception it raises otherwise. *)
From Coq Require Import String Permutation.
From Verif Require Import Prelude PreludeFacts RealBase Fl RealStat M_spatial M_cmv Spec_spatial Spec_cmv P_cmv X_cmv_options X_cmv_pairs X_cmv_qc X_cmv_cascade X_cmv_rows.
Local Open Scope R_scope.

Definition known_backend (b : string) : Prop := b = "xcorr"%string \/ b = "tf"%string.
(** One of the sites is a reference site. *)
Definition some_reference {K} (sites : list K) (ref : refarg K) : Prop := exists r, In r sites /\ In r (reference_sites sites ref).
(** The delay routine in use. *)
Definition routine (bk : string) (dx dt : list (list (option R)) -> list (list (option R)) -> result delay_out) :=
  if String.eqb (lower bk) "xcorr" then dx else dt.
(** The signals of the pairs' first and second sites. *)
Definition pair_signals {K} `{Label K} (ts : list (K * list (option R))) (pairs : list (K * K)) (A B : list (list (option R))) : Prop :=
  Forall2 (fun p a => dget ts (fst p) = Some a) pairs A /\ Forall2 (fun p b => dget ts (snd p) = Some b) pairs B.
Definition options_of (o : option opts) : opts := match o with None => [] | Some d => d end.

Lemma ref_ids_sites {K} (sites : list K) ref : ref_ids sites ref = reference_sites sites ref.
Proof. now destruct ref. Qed.
Lemma no_pairs {K} `{Label K} (sites : list K) ref :
  get_pairs sites (Some (ref_ids sites ref)) true = [] <-> ~ some_reference sites ref.
Proof.
  rewrite ref_ids_sites. split.
  - intros E (r & I1 & I2). assert (G : In (r, r) (get_pairs sites (Some (reference_sites sites ref)) true)); [|rewrite E in G; destruct G].
    apply pairs_members. split; [left; exact I2|]. apply In_nth_error in I1. destruct I1 as [i Hi]. exists i, i. cbn. repeat split; auto.
  - intro N. destruct (get_pairs _ _ _) as [|p l] eqn:E; [reflexivity|]. exfalso. apply N.
    assert (G : In p (get_pairs sites (Some (reference_sites sites ref)) true)) by (rewrite E; cbn; auto).
    apply pairs_members in G. destruct G as [[H1|H1] (i & j & [J1 J2] & _)]; [exists (fst p)|exists (snd p)]; split; auto; eapply nth_error_In; eauto.
Qed.
(** Every site takes part in a pair, provided there is a reference site. *)
Lemma all_paired {K} `{Label K} (sites : list K) ref k : some_reference sites ref -> In k sites ->
  exists p, In p (get_pairs sites (Some (ref_ids sites ref)) true) /\ (fst p = k \/ snd p = k).
Proof.
  rewrite ref_ids_sites. intros (r & I1 & I2) Ik. apply In_nth_error in I1, Ik. destruct I1 as [i Hi], Ik as [j Hj].
  destruct (Nat.le_gt_cases i j) as [L|L].
  - exists (r, k). split; [|cbn; auto]. apply pairs_members. split; [left; exact I2|]. exists i, j. repeat split; auto.
  - exists (k, r). split; [|cbn; auto]. apply pairs_members. split; [right; exact I2|]. exists j, i. repeat split; auto. cbn. lia.
Qed.
Lemma pair_sites {K} `{Label K} (sites : list K) ref p : In p (get_pairs sites (Some (ref_ids sites ref)) true) -> In (fst p) sites /\ In (snd p) sites.
Proof. intro I. apply pairs_members in I. destruct I as [_ (i & j & [J1 J2] & _)]. split; eapply nth_error_In; eauto. Qed.
Lemma mapM_lookup {K V} `{Label K} (d : list (K * V)) (g : K * K -> K) ps :
  (forall p, In p ps -> dget d (g p) <> None) -> exists A, mapM (fun p => lookup d (g p)) ps = Ok A.
Proof.
  induction ps as [|p ps IH]; intro Hp; [exists []; reflexivity|]. destruct IH as [A EA]; [intros q Hq; apply Hp; cbn; auto|].
  cbn. unfold lookup at 1. destruct (dget d (g p)) as [v|] eqn:E; [|exfalso; apply (Hp p); cbn; auto]. exists (v :: A). cbn. now rewrite EA.
Qed.
Lemma mapM_lookup_err {K V} `{Label K} (d : list (K * V)) (g : K * K -> K) ps :
  (exists p, In p ps /\ dget d (g p) = None) -> mapM (fun p => lookup d (g p)) ps = Err KeyError.
Proof.
  induction ps as [|q ps IH]; intros (p & I & E); [destruct I|]. cbn. unfold lookup at 1. destruct (dget d (g q)) as [v|] eqn:Eq; [|reflexivity].
  cbn. destruct I as [->|I]; [congruence|]. rewrite IH by eauto. reflexivity.
Qed.
Lemma mapM_lookup_kinds {K V} `{Label K} (d : list (K * V)) (g : K * K -> K) ps :
  (exists A, mapM (fun p => lookup d (g p)) ps = Ok A) \/ mapM (fun p => lookup d (g p)) ps = Err KeyError.
Proof.
  induction ps as [|q ps IH]; [left; exists []; reflexivity|]. cbn. unfold lookup at 1 3. destruct (dget d (g q)) as [v|]; [|now right].
  cbn. destruct IH as [[A ->]| ->]; [left; exists (v :: A); reflexivity|now right].
Qed.
Lemma lookups_back {K V} `{Label K} (d : list (K * V)) (g : K * K -> K) ps A :
  Forall2 (fun p a => dget d (g p) = Some a) ps A -> mapM (fun p => lookup d (g p)) ps = Ok A.
Proof. intro F. induction F as [|p a l l' Hp _ IH]; [reflexivity|]. cbn. unfold lookup at 1. now rewrite Hp, IH. Qed.
Lemma dget_key {K V} `{Label K} (d : list (K * V)) k : In k (map fst d) -> dget d k <> None.
Proof.
  induction d as [|[k' v] d IH]; [intros []|]. cbn. intros [<-|I].
  - rewrite lab_eqb_refl. discriminate.
  - destruct (lab_eqb k' k); [discriminate|]. now apply IH.
Qed.

Lemma known_method_b m : known_method m -> (String.eqb m "jamaly" || String.eqb m "gagne")%bool = true.
Proof. intros [->| ->]; reflexivity. Qed.
Lemma known_backend_b b : known_backend b -> (String.eqb b "xcorr" || String.eqb b "tf")%bool = true.
Proof. intros [->| ->]; reflexivity. Qed.
Lemma options_none m o : validate_method_options m o = validate_method_options m (Some (options_of o)).
Proof. now destruct o. Qed.

Lemma pairs_shape {A B} (pairs : list A) (e k : B) : pairs <> [] -> match pairs with [] => e | _ :: _ => k end = k.
Proof. now destruct pairs. Qed.

(*@ C95 compute_cmv succeeds if the method and the delay backend are known, some site is a reference site, every site has a
    column, the delay routine succeeds on the signals of the pairs and the options are admissible. *)
Lemma cmv_succeeds : forall (K : Type) (HK : Label K) dx dt ms lsq ts (pos : list (K * (R * R))) ref m o bk,
  known_method (lower m) -> known_backend (lower bk) -> some_reference (map fst pos) ref ->
  (forall k, In k (map fst pos) -> dget ts k <> None) ->
  (forall A B, length A = length B -> A <> [] -> (forall s, In s (A ++ B) -> exists k, dget ts k = Some s) -> exists d, routine bk dx dt A B = Ok d) ->
  admissible (lower m) (options_of o) ->
  exists v t w o', compute_cmv dx dt ms lsq ts pos ref m o bk = Ok ((v, t, w), o').
Proof.
  intros K HK dx dt ms lsq ts pos ref m o bk Km Kb Sr Ct Bk Ad.
  unfold compute_cmv. cbv zeta. rewrite (known_method_b _ Km), (known_backend_b _ Kb). cbn [negb].
  set (pairs := get_pairs _ _ _).
  assert (NP : pairs <> []) by (intro E; apply no_pairs in E; contradiction).
  assert (PS : forall p, In p pairs -> In (fst p) (map fst pos) /\ In (snd p) (map fst pos)) by (intros p Hp; eapply pair_sites; exact Hp).
  destruct (mapM_lookup ts fst pairs) as [A EA]; [intros p Hp; apply Ct, PS, Hp|].
  destruct (mapM_lookup ts snd pairs) as [B EB]; [intros p Hp; apply Ct, PS, Hp|].
  destruct (mapM_lookup pos snd pairs) as [Pb EPb]; [intros p Hp; apply dget_key, PS, Hp|].
  destruct (mapM_lookup pos fst pairs) as [Pa EPa]; [intros p Hp; apply dget_key, PS, Hp|].
  pose proof (mapM_length _ _ _ EA) as LA. pose proof (mapM_length _ _ _ EB) as LB.
  destruct (Bk A B) as [d Ed].
  { congruence. }
  { intros ->. destruct pairs; [easy|discriminate]. }
  { intros s I. apply in_app_iff in I. destruct I as [I|I]; apply In_nth_error in I; destruct I as [i Hi].
    - assert (exists p, nth_error pairs i = Some p) as [p Hp] by (destruct (nth_error pairs i) eqn:Z; [eauto|]; apply nth_error_None in Z; assert (i < length A)%nat by (apply nth_error_Some; congruence); lia).
      exists (fst p). exact (Forall2_nth _ _ _ _ _ _ (lookups _ _ _ _ EA) Hp Hi).
    - assert (exists p, nth_error pairs i = Some p) as [p Hp] by (destruct (nth_error pairs i) eqn:Z; [eauto|]; apply nth_error_None in Z; assert (i < length B)%nat by (apply nth_error_Some; congruence); lia).
      exists (snd p). exact (Forall2_nth _ _ _ _ _ _ (lookups _ _ _ _ EB) Hp Hi). }
  unfold routine in Ed. rewrite (pairs_shape pairs _ _ NP), EA, EB. cbn [rbind].
  replace (if String.eqb (lower bk) "xcorr" then dx A B else dt A B) with (Ok d) by (destruct (String.eqb (lower bk) "xcorr"); now rewrite <- Ed).
  cbn [rbind]. rewrite EPb, EPa. cbn [rbind]. rewrite options_none.
  destruct (options_validated (lower m) (options_of o)) as (_ & V & _). destruct (proj2 V (conj Km Ad)) as [o' Eo]. rewrite Eo. cbn [rbind].
  set (rows := map row_of _). rewrite (qc_eq _ _ _ rows Eo). cbn [rbind].
  destruct (if String.eqb (lower m) "gagne" then _ else _) as [ov fl].
  destruct (finish_cmv _ _ _ _ _ _ _ _ _) as [[v t] w]. eauto.
Qed.

(*@ C95 The exceptions, in the order in which they take precedence: an unknown method or backend is a ValueError; no
    reference site an IndexError; a site without a column a KeyError; an exception of the delay routine is passed on; and
    only then inadmissible options are a ValueError. *)
Lemma cmv_exceptions : forall (K : Type) (HK : Label K) dx dt ms lsq ts (pos : list (K * (R * R))) ref m o bk,
  (~ known_method (lower m) \/ ~ known_backend (lower bk) -> compute_cmv dx dt ms lsq ts pos ref m o bk = Err ValueError) /\
  (known_method (lower m) -> known_backend (lower bk) ->
    (~ some_reference (map fst pos) ref -> compute_cmv dx dt ms lsq ts pos ref m o bk = Err IndexError) /\
    (some_reference (map fst pos) ref -> (exists k, In k (map fst pos) /\ dget ts k = None) -> compute_cmv dx dt ms lsq ts pos ref m o bk = Err KeyError) /\
    (forall A B, some_reference (map fst pos) ref ->
       pair_signals ts (get_pairs (map fst pos) (Some (reference_sites (map fst pos) ref)) true) A B ->
       (forall e, routine bk dx dt A B = Err e -> compute_cmv dx dt ms lsq ts pos ref m o bk = Err e) /\
       (forall d, routine bk dx dt A B = Ok d -> ~ admissible (lower m) (options_of o) -> compute_cmv dx dt ms lsq ts pos ref m o bk = Err ValueError))).
Proof.
  intros K HK dx dt ms lsq ts pos ref m o bk. split.
  { intros N. unfold compute_cmv. cbv zeta.
    destruct (String.eqb (lower m) "jamaly" || String.eqb (lower m) "gagne")%bool eqn:Em; [|reflexivity]. cbn [negb].
    destruct (String.eqb (lower bk) "xcorr" || String.eqb (lower bk) "tf")%bool eqn:Eb; [|reflexivity]. exfalso.
    apply Bool.orb_true_iff in Em, Eb. rewrite !String.eqb_eq in Em, Eb. unfold known_method, known_backend in N. tauto. }
  intros Km Kb. unfold compute_cmv. cbv zeta. rewrite (known_method_b _ Km), (known_backend_b _ Kb). cbn [negb].
  set (pairs := get_pairs (map fst pos) (Some (ref_ids (map fst pos) ref)) true).
  split; [|split].
  - intro N. apply no_pairs in N. fold pairs in N. rewrite N. reflexivity.
  - intros Sr (k & Ik & Ek). assert (NP : pairs <> []) by (intro E; apply no_pairs in E; contradiction).
    rewrite (pairs_shape pairs _ _ NP). destruct (all_paired (map fst pos) ref k Sr Ik) as (p & Ip & Hp). fold pairs in Ip.
    destruct (mapM (fun p0 => lookup ts (fst p0)) pairs) as [A|e] eqn:EA; cbn [rbind].
    + rewrite mapM_lookup_err; [reflexivity|]. destruct Hp as [Hp|Hp]; [|exists p; split; [exact Ip|congruence]]. exfalso.
      pose proof (lookups _ _ _ _ EA) as F. apply In_nth_error in Ip. destruct Ip as [i Hi]. pose proof (mapM_length _ _ _ EA) as LA.
      assert (exists a, nth_error A i = Some a) as [a Ha] by (destruct (nth_error A i) eqn:Z; [eauto|]; apply nth_error_None in Z; assert (i < length pairs)%nat by (apply nth_error_Some; congruence); lia).
      pose proof (Forall2_nth _ _ _ _ _ _ F Hi Ha) as D. cbv beta in D. congruence.
    + f_equal. destruct (mapM_lookup_kinds ts fst pairs) as [[A EA']|EA']; congruence.
  - intros A B Sr [FA FB]. assert (NP : pairs <> []) by (intro E; apply no_pairs in E; contradiction).
    rewrite <- (ref_ids_sites (map fst pos) ref) in FA, FB. fold pairs in FA, FB.
    rewrite (pairs_shape pairs _ _ NP), (lookups_back _ _ _ _ FA), (lookups_back _ _ _ _ FB). cbn [rbind]. unfold routine.
    assert (PS : forall p, In p pairs -> In (fst p) (map fst pos) /\ In (snd p) (map fst pos)) by (intros p Hp; eapply pair_sites; exact Hp).
    destruct (mapM_lookup pos snd pairs) as [Pb EPb]; [intros p Hp; apply dget_key, PS, Hp|].
    destruct (mapM_lookup pos fst pairs) as [Pa EPa]; [intros p Hp; apply dget_key, PS, Hp|].
    split.
    + intros e Ee. destruct (String.eqb (lower bk) "xcorr"); rewrite Ee; reflexivity.
    + intros d Ed Na. replace (if String.eqb (lower bk) "xcorr" then dx A B else dt A B) with (Ok d) by (destruct (String.eqb (lower bk) "xcorr"); now rewrite <- Ed).
      cbn [rbind]. rewrite EPb, EPa. cbn [rbind]. rewrite options_none. destruct (validate_total (lower m) (options_of o)) as [(_ & X & _)|(_ & X)]; [contradiction|].
      rewrite X. reflexivity.
Qed.
