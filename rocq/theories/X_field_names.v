(** Final forms: combiner names such as CMB-020-1. *)
From Coq Require Import String Ascii Permutation Lia Lra.
From Verif Require Import Prelude PreludeFacts RealBase Fl M_spatial Spec_spatial M_cmv M_field_remap Spec_field M_field_pos Spec_field_pos M_field_loop Spec_field_loop P_field_loop
  X_field_loop M_field_reassign Spec_field_names M_field_names.
Local Open Scope string_scope.

Lemma no_hyphen_cons c s : no_hyphen (String c s) <-> c <> "-"%char /\ no_hyphen s.
Proof.
  split.
  - intro H. split; [intros ->; now apply (H 0)|]. intros i. exact (H (S i)).
  - intros (N & H) [|i]; cbn; [congruence|apply H].
Qed.
Lemma split_nil c s : py_split c s <> [].
Proof. destruct s as [|d s]; [discriminate|]. cbn. destruct (Ascii.eqb d c); [discriminate|]. destruct (py_split c s); discriminate. Qed.
Lemma split_none s : no_hyphen s -> py_split "-" s = [s].
Proof.
  induction s as [|d s IH]; intro H; [reflexivity|]. apply no_hyphen_cons in H as (N & H). cbn [py_split].
  apply Ascii.eqb_neq in N. rewrite N, IH by assumption. reflexivity.
Qed.
Lemma split_app a s : no_hyphen a -> py_split "-" (a ++ "-" ++ s) = a :: py_split "-" s.
Proof.
  induction a as [|d a IH]; intro H; [reflexivity|]. apply no_hyphen_cons in H as (N & H). cbn [append py_split].
  apply Ascii.eqb_neq in N. rewrite N. change (String "-" s) with ("-" ++ s). rewrite IH by assumption. reflexivity.
Qed.
Lemma first_hyphen s : no_hyphen s \/ exists a r, no_hyphen a /\ s = a ++ "-" ++ r.
Proof.
  induction s as [|d s IH]; [left; intros i; discriminate|].
  destruct (Ascii.eqb_spec d "-") as [->|N]; [right; exists "", s; split; [intros i; discriminate|reflexivity]|].
  destruct IH as [H|(a & r & H & ->)]; [left; apply no_hyphen_cons; auto|].
  right. exists (String d a), r. split; [apply no_hyphen_cons; auto|reflexivity].
Qed.

(*@ C108 The inverter's name is the part of the combiner's name between the first two hyphens (CMB-020-1 belongs to 020), and reading it fails with
    IndexError exactly when there is no hyphen. *)
Lemma inverter_read : forall nm,
  (forall inv, inverter_of nm = Ok inv <-> names_inverter nm inv) /\ (inverter_of nm = Err IndexError <-> no_hyphen nm) /\
  (forall e, inverter_of nm = Err e -> e = IndexError).
Proof.
  intro nm. unfold inverter_of. split; [|split].
  - intro inv. split.
    + destruct (first_hyphen nm) as [H|(a & r & H & ->)]; [rewrite split_none by assumption; discriminate|].
      rewrite split_app by assumption. cbn [nth_error]. destruct (first_hyphen r) as [Hr|(b & r' & Hb & ->)].
      * rewrite split_none by assumption. intros [= <-]. exists a. auto.
      * rewrite split_app by assumption. intros [= <-]. exists a. split; [assumption|]. split; [assumption|]. right. now exists r'.
    + intros (a & Ha & Hi & [->|(rest & ->)]); rewrite split_app by assumption; cbn [nth_error].
      * rewrite split_none by assumption. reflexivity.
      * rewrite split_app by assumption. reflexivity.
  - destruct (first_hyphen nm) as [H|(a & r & H & ->)].
    + rewrite split_none by assumption. split; auto.
    + rewrite split_app by assumption. cbn [nth_error]. split.
      * destruct (py_split "-" r) eqn:E; [now apply split_nil in E|discriminate].
      * intro N. exfalso. clear -N. induction a as [|d a IH]; [now apply (N 0)|]. apply IH. now apply no_hyphen_cons in N.
  - intros e. destruct (nth_error _ 1); [discriminate|]. now intros [= <-].
Qed.

Lemma read_names ids : (forall k, In k ids -> ~ no_hyphen k) -> mapM inverter_of ids = Ok (map inverter_name ids).
Proof.
  induction ids as [|k ids IH]; intro H; [reflexivity|]. cbn [mapM map]. unfold inverter_name at 1.
  destruct (inverter_of k) as [w|e] eqn:E; cbn [rbind].
  - now rewrite IH by (intros; apply H; now right).
  - exfalso. apply (H k (or_introl eq_refl)). destruct (inverter_read k) as (_ & A & B). apply A. now rewrite E, (B e E).
Qed.
Lemma unread_names ids k : In k ids -> no_hyphen k -> mapM inverter_of ids = Err IndexError.
Proof.
  induction ids as [|j ids IH]; intros I N; [destruct I|]. cbn [mapM]. destruct (inverter_of j) as [w|e] eqn:E; cbn [rbind].
  - destruct I as [->|I]; [|now rewrite IH]. destruct (inverter_read k) as (_ & A & _). apply A in N. congruence.
  - destruct (inverter_read j) as (_ & _ & B). now rewrite (B e E).
Qed.
Lemma inverter_name_spec nm inv : names_inverter nm inv -> inverter_name nm = inv.
Proof. intro H. unfold inverter_name. destruct (inverter_read nm) as (A & _). apply A in H. now rewrite H. Qed.
Lemma hyphen_named nm : ~ no_hyphen nm -> names_inverter nm (inverter_name nm).
Proof.
  intro H. unfold inverter_name. destruct (inverter_read nm) as (A & B & C). destruct (inverter_of nm) as [w|e] eqn:E; [now apply A|].
  exfalso. apply H, B. now rewrite (C e eq_refl).
Qed.

(*@ C108 The plant workflow on named combiners: the names are read first. If every name has a hyphen it is the workflow of the theorems above with
    the inverters so read; one name without a hyphen stops it with IndexError before anything is predicted. *)
Lemma named_workflow : forall lsa mean_pred (plan : table string string R),
  ((forall k, In k (t_index plan) -> ~ no_hyphen k) ->
     named_process lsa mean_pred plan = field_process inverter_name lsa mean_pred plan /\ forall k, In k (t_index plan) -> names_inverter k (inverter_name k)) /\
  ((exists k, In k (t_index plan) /\ no_hyphen k) -> named_process lsa mean_pred plan = Err IndexError).
Proof.
  intros lsa mean_pred plan. split.
  - intro H. split; [unfold named_process; rewrite read_names by assumption; reflexivity|]. intros k I. now apply hyphen_named, H.
  - intros (k & I & N). unfold named_process. rewrite (unread_names _ k I N). reflexivity.
Qed.

Lemma app_length (a b : string) : String.length (a ++ b) = String.length a + String.length b.
Proof. induction a as [|c a IH]; cbn; auto. Qed.
Lemma app_nil_r_str (a : string) : a ++ "" = a.
Proof. induction a as [|c a IH]; cbn; congruence. Qed.

(*@ C108 Names of one width keep the inverters apart: if the inverters' names are all equally long (020, 021, ...), none occurs inside another. *)
Lemma same_width : forall (ids : list string) w,
  (forall k inv, In k ids -> names_inverter k inv -> String.length inv = w) -> (forall k, In k ids -> ~ no_hyphen k) ->
  clear_names inverter_name ids.
Proof.
  intros ids w H NH a b Ia Ib (p & q & E).
  assert (La : String.length (inverter_name a) = w) by (apply (H a _ Ia), hyphen_named, NH, Ia).
  assert (Lb : String.length (inverter_name b) = w) by (apply (H b _ Ib), hyphen_named, NH, Ib).
  rewrite E in Lb. rewrite !app_length, La in Lb. destruct p as [|c p]; cbn in Lb; [|lia]. destruct q as [|c q]; cbn in Lb; [|lia].
  rewrite E. cbn. now rewrite app_nil_r_str.
Qed.

(*@ C116 The choice of combiners in the one-inverter demo: those whose name has one of the given inverters between its first two hyphens, in plan order. *)
Lemma named_choice : forall ids invs,
  ((forall k, In k ids -> ~ no_hyphen k) ->
     exists refs, named_refs ids invs = Ok refs /\ picks (fun k => exists inv, names_inverter k inv /\ In inv invs) ids refs) /\
  ((exists k, In k ids /\ no_hyphen k) -> named_refs ids invs = Err IndexError).
Proof.
  intros ids invs. split.
  - intro H. unfold named_refs. rewrite read_names by assumption. eexists. split; [reflexivity|].
    unfold inverter_refs. induction ids as [|k ids IH]; [constructor|]. cbn [filter].
    assert (M : existsb (String.eqb (inverter_name k)) invs = true <-> exists inv, names_inverter k inv /\ In inv invs).
    { rewrite existsb_exists. split.
      - intros (x & I & E). apply String.eqb_eq in E. subst x. exists (inverter_name k). split; [|assumption]. apply hyphen_named, H. now left.
      - intros (inv & N & I). exists inv. split; [assumption|]. rewrite (inverter_name_spec _ _ N). apply String.eqb_refl. }
    destruct (existsb _ invs); constructor; try (apply IH; intros; apply H; now right).
    + now apply M.
    + intro F. apply M in F. discriminate.
  - intros (k & I & N). unfold named_refs. rewrite (unread_names _ k I N). reflexivity.
Qed.

(*@ C116 The demo with that choice, and IndexError for a name without a hyphen anywhere in the plan. *)
Lemma named_one_inverter : forall lsa predict (plan : table string string R) invs,
  (forall refs, named_refs (t_index plan) invs = Ok refs -> named_demo lsa predict plan invs = reassign_demo lsa predict plan refs) /\
  ((exists k, In k (t_index plan) /\ no_hyphen k) -> named_demo lsa predict plan invs = Err IndexError).
Proof.
  intros lsa predict plan invs. split.
  - intros refs E. unfold named_demo. rewrite E. reflexivity.
  - intros (k & I & N). unfold named_demo. destruct (named_choice (t_index plan) invs) as (_ & F). rewrite F by eauto. reflexivity.
Qed.

(*@ C108 So with names of one width the whole chain of process_exact applies to the workflow as it reads the names. *)
Lemma named_exact : forall lsa dtf sv cmv pairs n (plan : table string string R) s (X : string -> R * R) w,
  lsa_correct lsa -> sorts sv -> wf_table plan -> all_located plan ->
  (forall k, In k (t_index plan) -> exists inv, names_inverter k inv /\ String.length inv = w) ->
  one_to_one (t_index plan) s -> (forall k m, In (k, m) s -> exists inv, names_inverter k inv /\ names_inverter m inv) ->
  (forall k m, In (k, m) s -> position plan m = Some (X k)) ->
  (forall dfa va dfb vb, In ((dfa, va), (dfb, vb)) pairs ->
     ~ parallel va vb /\ exact_delays dtf (t_index plan) X dfa va /\ exact_delays dtf (t_index plan) X dfb vb) ->
  (forall m m' inv q q', In m (t_index plan) -> In m' (t_index plan) -> names_inverter m inv -> names_inverter m' inv -> m <> m' ->
     position plan m = Some q -> position plan m' = Some q' ->
     exists dfa va dfb vb, In ((dfa, va), (dfb, vb)) pairs /\ inner (sub2 q q') va <> 0%R /\ inner (sub2 q q') vb <> 0%R) ->
  exists st, named_process lsa (pairs_mean dtf sv cmv pairs "all" n) plan = Ok (st, []) /\ length (l_predictions st) <= 2 /\
    Permutation (l_remap st) s /\ rearranged plan s (l_pos_map st).
Proof.
  intros lsa dtf sv cmv pairs n plan s X w HL HS WF AL HW OO KI HX HP HD.
  assert (NH : forall k, In k (t_index plan) -> ~ no_hyphen k).
  { intros k I N. destruct (HW k I) as (inv & Hi & _). destruct (inverter_read k) as (A & B & _). apply A in Hi. apply B in N. congruence. }
  destruct (named_workflow lsa (pairs_mean dtf sv cmv pairs "all" n) plan) as (NW & _). destruct (NW NH) as (-> & NM).
  apply (process_exact string _ inverter_name lsa dtf sv cmv pairs n plan s X); try assumption.
  - apply (same_width _ w); [|assumption]. intros k inv I Hi. destruct (HW k I) as (inv' & Hi' & L). now rewrite <- (inverter_name_spec _ _ Hi), (inverter_name_spec _ _ Hi').
  - intros k m I. destruct (KI k m I) as (inv & A & B). now rewrite (inverter_name_spec _ _ A), (inverter_name_spec _ _ B).
  - intros m m' q q' I I' E. apply (HD m m' (inverter_name m) q q' I I'); [now apply NM|]. rewrite E. now apply NM.
Qed.

(*@ex C108 *)
Lemma names_read_example : names_inverter "CMB-020-1" "020" /\ inverter_of "CMB-020-1" = Ok "020" /\ inverter_of "CMB20" = Err IndexError /\
  (forall k, In k ["CMB-020-1"; "CMB-020-2"; "CMB-021-1"] -> exists inv, names_inverter k inv /\ String.length inv = 3).
Proof.
  assert (G : forall nm w, inverter_of nm = Ok w -> names_inverter nm w) by (intros nm w; apply inverter_read).
  split; [now apply G|]. split; [reflexivity|]. split; [reflexivity|].
  intros k [<-|[<-|[<-|[]]]]; [exists "020"|exists "020"|exists "021"]; (split; [now apply G|reflexivity]).
Qed.

(*@ex C116 *)
Lemma names_choice_example : named_refs ["CMB-20-1"; "CMB-21-1"; "CMB-20-2"; "CMB-120-1"] ["20"] = Ok ["CMB-20-1"; "CMB-20-2"] /\
  named_refs ["CMB-20-1"; "spare"] ["20"] = Err IndexError.
Proof. split; reflexivity. Qed.
