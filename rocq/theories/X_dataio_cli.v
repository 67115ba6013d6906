(** The whole command line of hope_campaign.py: downloads, h5 file, quality control, crashes and repetition. *)
From Coq Require Import String Ascii Permutation Sorted.
From Verif Require Import Prelude PreludeFacts RealBase P_list M_cmv M_iotools M_paths M_hope M_hope_cli Spec_dataio Spec_paths X_dataio_files X_dataio_wget X_dataio_paths X_dataio_h5 X_dataio_parse.

(** ** Vocabulary *)
Definition known_dataset (d : string) : Prop := upper d = "HOPE"%string \/ upper d = "HOPE-MELPITZ"%string \/ upper d = "LINDENBERG"%string.
Definition metadata_name (a : args) : string := (a_dataset a ++ "_metadata.xml")%string.
(** Every phase may perform at least [n] operations. *)
Definition roomy (n : nat) (b : budget) : Prop := n <= b_dirs b /\ n <= b_meta b /\ n <= b_wget b /\ n <= b_h5 b /\ n <= b_h5_again b /\ n <= b_qc b.
(** No file is in the way of the target directory. *)
Definition free_way (t : tree) (p : path) : Prop := well_formed t /\ forall q, above q p -> kind_of t q <> Some File.
Section Vocabulary.
  Context {K B : Type}.
  (** The files found in the directory once the metadata have been fetched, if they are asked for. *)
  Definition with_metadata (a : args) (mb : list B) (old : string -> option (list B)) (name : string) : option (list B) :=
    if a_meta a then if string_dec name (metadata_name a) then Some mb else old name else old name.
  (** The names of the netCDF files, in ascending order, each once. *)
  Definition nc_names (disk : string -> option (list B)) (files : list string) : Prop :=
    NoDup files /\ StronglySorted (fun x y => String.leb x y = true) files /\ forall f, In f files <-> extension f ".nc" /\ disk f <> None.
  (** The server gives out everything the run needs. *)
  Definition serves (v : server B) (a : args) (lines : list string) (mb : list B) (old : string -> option (list B)) : Prop :=
    s_script v (upper (a_dataset a)) = Some lines /\
    (a_meta a = true -> s_web v (s_meta v (upper (a_dataset a))) = Some (mb, true)) /\
    servable (s_web v) lines (with_metadata a mb old).
  (** Every netCDF file that may be found can be read; all have the stations [ids]. *)
  Definition readable (decode : list B -> option (ncfile K)) (ids : list K) (data flag : string -> series_frame K) (stations : string -> list (K * (R * R)))
      (holds : string -> list B -> Prop) : Prop :=
    forall name blocks, extension name ".nc" -> holds name blocks ->
      exists f, decode blocks = Some f /\ parse_nc f = Ok (data name, flag name, stations name) /\ nc_ids f = Some ids.
  (** The h5 file made from these files. *)
  Definition summary (ids : list K) (data flag : string -> series_frame K) (stations : string -> list (K * (R * R))) (files : list string)
    : option (h5 (list (K * (R * R))) K (Z * list (option R))) :=
    match files with
    | [] => None
    | f :: _ => Some (H5 (Some (stations f)) (Some (Frame ids (flat_map (fun x => rows (data x)) files))) (Some (Frame ids (flat_map (fun x => rows (flag x)) files))))
    end.
End Vocabulary.

(** ** Downloads as dictionary updates *)
Section Disk.
  Context {B : Type}.
  Implicit Types d : dir (B := B).
  Lemma append_blocks name blocks : forall d done, dget d name = Some done ->
    dget (apply_ops (map (Append name) blocks) d) name = Some (done ++ blocks) /\
    forall n, n <> name -> dget (apply_ops (map (Append name) blocks) d) n = dget d n.
  Proof.
    induction blocks as [|b l IH]; intros d done E; cbn [map apply_ops fold_left]; [rewrite app_nil_r; auto|].
    cbn [apply_op]. rewrite E. fold (apply_ops (map (Append name) l) (dset d name (done ++ [b]))).
    destruct (IH (dset d name (done ++ [b])) (done ++ [b])) as [I1 I2]; [apply dget_dset_same|]. rewrite I1, <- app_assoc. split; [reflexivity|].
    intros n N. rewrite I2 by exact N. apply dget_dset_other. congruence.
  Qed.
  Lemma downloaded name blocks d :
    dget (apply_ops (Create name :: map (Append name) blocks) d) name = Some blocks /\
    forall n, n <> name -> dget (apply_ops (Create name :: map (Append name) blocks) d) n = dget d n.
  Proof.
    cbn [apply_ops fold_left apply_op]. fold (apply_ops (map (Append name) blocks) (dset d name [])).
    destruct (append_blocks name blocks (dset d name []) []) as [I1 I2]; [apply dget_dset_same|]. split; [exact I1|].
    intros n N. rewrite I2 by exact N. apply dget_dset_other. congruence.
  Qed.
  Lemma apply_keys ops : forall d, NoDup (dkeys d) -> NoDup (dkeys (apply_ops ops d)).
  Proof.
    induction ops as [|o l IH]; intros d N; [exact N|]. cbn [apply_ops fold_left]. fold (apply_ops l (apply_op d o)). apply IH.
    destruct o; cbn [apply_op]; now apply dset_NoDup.
  Qed.
  Lemma names_of d : NoDup (dkeys d) -> nc_names (dget d) (getfiles (dkeys d) (Some ".nc"%string) true).
  Proof.
    intro N. split; [now apply files_once|]. split; [apply files_ascending|]. intro f. rewrite files_members.
    split; [intros [I E]|intros [E I]]; split; auto.
    - destruct (dget_key_Some d f I) as [v ->]. discriminate.
    - destruct (dget d f) as [v|] eqn:G; [|easy]. now apply dget_Some_key in G.
  Qed.
End Disk.
Lemma nc_names_unique {B} (disk disk' : string -> option (list B)) files files' :
  (forall f, disk f = None <-> disk' f = None) -> nc_names disk files -> nc_names disk' files' -> files = files'.
Proof.
  intros Q (N & S & M) (N' & S' & M'). apply (sorted_perm_unique (fun a b => String.leb a b = true)); auto.
  - intros a b _ _. apply String.leb_antisym.
  - apply NoDup_Permutation; auto. intro x. rewrite M, M'. specialize (Q x). tauto.
Qed.
Lemma cut_all {A} k (ops : list A) r : length ops <= k -> cut k ops r = (ops, match r with Ok _ => Finished | Err e => Raised e end).
Proof. intro L. unfold cut. destruct (Nat.ltb_spec k (length ops)); [lia|reflexivity]. Qed.
Lemma served_ext {B} (w : string -> option (list B * bool)) lines old old' name c : (forall n, old n = old' n) -> served w lines old name c -> served w lines old' name c.
Proof. intros E. unfold served. now rewrite E. Qed.
Lemma servable_ext {B} (w : string -> option (list B * bool)) lines old old' : (forall n, old n = old' n) -> servable w lines old -> servable w lines old'.
Proof.
  intros E S l1 line l2 El. destruct (S l1 line l2 El) as (url & name & A & O). exists url, name. split; [exact A|]. now rewrite <- E.
Qed.

Section Run.
  Context {K B : Type} `{Label K}.
  Variable decode : list B -> option (ncfile K).
  Notation state := (state K B).
  Notation stations_t := (list (K * (R * R))).

  Lemma known_mem d : known_dataset d -> lab_mem (upper d) datasets = true.
  Proof. intro Kd. destruct (lab_mem_spec (upper d) datasets) as [I|N]; [reflexivity|]. exfalso. apply N. unfold known_dataset in Kd. cbn. intuition. Qed.
  Lemma dirs_ok (a : args) (s : state) : free_way (st_tree s) (a_target a) ->
    exists ops, fst (ensurepath (st_tree s) (a_target a)) = ops /\ kind_of (made ops (st_tree s)) (a_target a) = Some Folder /\ well_formed (made ops (st_tree s)) /\
      forall k, length ops <= k -> phase_dirs k a s = (State (made ops (st_tree s)) (st_disk s) (st_h5 s), Finished).
  Proof.
    intros [WF FW]. destruct (ensurepath_creates (st_tree s) (a_target a) WF) as [E1 E2]. unfold phase_dirs.
    destruct (kind_of (st_tree s) (a_target a)) as [kd|] eqn:Ek.
    - rewrite E1 by discriminate. exists []. cbn [fst made fold_left]. assert (kd = Folder) by (destruct kd; [exfalso; apply (FW (a_target a)); [apply above_refl|exact Ek]|reflexivity]). subst kd.
      repeat (split; [auto|]). intros k _. rewrite cut_all by (cbn; lia). cbn [made fold_left st_tree]. rewrite Ek. reflexivity.
    - destruct (E2 eq_refl) as (ops & E & _ & _ & _ & F & _). { intros q [A N]. now apply FW. }
      rewrite E. exists ops. cbn [fst]. split; [reflexivity|]. pose proof (F _ (above_refl _)) as FT. split; [exact FT|].
      split. { pose proof (ensurepath_resume _ _ _ (length ops) WF E) as [W _]. now rewrite firstn_all in W. }
      intros k L. rewrite cut_all by exact L. cbn [st_tree]. rewrite FT. reflexivity.
  Qed.
  Lemma meta_ok (v : server B) (a : args) (s : state) mb :
    (a_meta a = true -> s_web v (s_meta v (upper (a_dataset a))) = Some (mb, true)) ->
    exists disk, (forall n, dget disk n = with_metadata a mb (dget (st_disk s)) n) /\ (NoDup (dkeys (st_disk s)) -> NoDup (dkeys disk)) /\
      forall k, S (length mb) <= k -> phase_meta k v a s = (State (st_tree s) disk (st_h5 s), Finished).
  Proof.
    intro E. unfold phase_meta, with_metadata. destruct (a_meta a).
    - specialize (E eq_refl). exists (apply_ops (Create (metadata_name a) :: map (Append (metadata_name a)) mb) (st_disk s)).
      destruct (downloaded (metadata_name a) mb (st_disk s)) as [D1 D2]. split; [|split].
      + intro n. destruct (string_dec n (metadata_name a)) as [->|N]; auto.
      + apply apply_keys.
      + intros k L. unfold download. rewrite E. fold (metadata_name a). rewrite cut_all; [reflexivity|]. cbn [length]. now rewrite map_length.
    - exists (st_disk s). split; [reflexivity|]. split; [auto|]. intros k _. now destruct s.
  Qed.
  Lemma wget_phase_ok (v : server B) (a : args) (s : state) lines :
    s_script v (upper (a_dataset a)) = Some lines -> servable (s_web v) lines (dget (st_disk s)) ->
    exists ops, wget_fromurl (s_web v) lines (st_disk s) = (ops, Ok tt) /\
      forall k, length ops <= k -> phase_wget k v a s = (State (st_tree s) (apply_ops ops (st_disk s)) (st_h5 s), Finished).
  Proof.
    intros Es Sv. apply wget_ok in Sv. unfold phase_wget. rewrite Es. destruct (wget_fromurl (s_web v) lines (st_disk s)) as [ops r]. cbn in Sv. subst r.
    exists ops. split; [reflexivity|]. intros k L. now rewrite cut_all.
  Qed.
  Lemma file_of_ok ids data flag stations disk f :
    readable decode ids data flag stations (fun n bl => dget disk n = Some bl) -> extension f ".nc" -> dget disk f <> None ->
    file_of decode disk f = Ok (data f, flag f, stations f) /\ columns (data f) = ids /\ columns (flag f) = ids.
  Proof.
    intros Rd Ex N. destruct (dget disk f) as [blocks|] eqn:G; [|easy]. destruct (Rd f blocks Ex G) as (nc & D & P & I).
    unfold file_of. rewrite G, D. split; [exact P|]. destruct (parse_reads _ _ _ _ _ P) as (ids' & _ & _ & _ & _ & _ & I' & _ & _ & _ & _ & _ & C1 & C2 & _).
    rewrite I in I'. injection I' as <-. auto.
  Qed.
  Lemma h5_phase_ok b (u : user) (a : args) (s : state) ids data flag stations :
    NoDup (dkeys (st_disk s)) -> readable decode ids data flag stations (fun n bl => dget (st_disk s) n = Some bl) ->
    let files := getfiles (dkeys (st_disk s)) (Some ".nc"%string) true in
    3 * length files < b_h5 b -> 3 * length files + 1 < b_h5_again b ->
    phase_h5 decode b u a s =
      (State (st_tree s) (st_disk s)
         (if a_makeh5 a then
            match dget (st_h5 s) (h5_name a) with
            | Some old => if u_h5 u then put_h5 (st_h5 s) (h5_name a) (summary ids data flag stations files) else put_h5 (st_h5 s) (h5_name a) (Some old)
            | None => put_h5 (st_h5 s) (h5_name a) (summary ids data flag stations files)
            end
          else st_h5 s), Finished).
  Proof.
    intros N Rd files L1 L2. unfold phase_h5. destruct (a_makeh5 a); [|now destruct s].
    assert (B1 : forall k ov old, old = None \/ ov = true -> 3 * length files < k ->
      dataset_to_h5 (file_of decode (st_disk s)) k (dkeys (st_disk s)) old ov = (summary ids data flag stations files, Finished)).
    { intros k ov old Ho Lk. apply h5_builds; [|exact Ho|exact Lk]. intros f I. destruct (names_of (st_disk s) N) as (_ & _ & M). apply M in I. destruct I as [I1 I2].
      now apply file_of_ok. }
    destruct (dget (st_h5 s) (h5_name a)) as [old|] eqn:G.
    - destruct (u_h5 u).
      + destruct (b_h5_again b) as [|k2] eqn:Eb; [lia|]. destruct (main_h5 (file_of decode (st_disk s)) (b_h5 b) k2 true (dkeys (st_disk s)) old) as (_ & M & _).
        rewrite M, (B1 k2 false None) by (auto; lia). reflexivity.
      + destruct (main_h5 (file_of decode (st_disk s)) (b_h5 b) 0 false (dkeys (st_disk s)) old) as (M & _ & _). 
        unfold main_makeh5 in *. cbn. reflexivity.
    - unfold main_makeh5. rewrite (B1 (b_h5 b) false None) by (auto; lia). reflexivity.
  Qed.
  Lemma put_get l name (t : target stations_t K (Z * list (option R))) : dget (put_h5 l name t) name = t.
  Proof.
    destruct t as [h|]; cbn [put_h5]; [apply dget_dset_same|]. apply dget_None. unfold dkeys. rewrite in_map_iff.
    intros (p & <- & I). apply filter_In in I. destruct I as [_ I]. now rewrite String.eqb_refl in I.
  Qed.
  Lemma put_other l name (t : target stations_t K (Z * list (option R))) n : n <> name -> dget (put_h5 l name t) n = dget l n.
  Proof.
    intro N. destruct t as [h|]; cbn [put_h5]; [apply dget_dset_other; congruence|]. induction l as [|[k h] l IH]; [reflexivity|]. cbn [filter fst].
    destruct (String.eqb_spec k name) as [->|E]; cbn [negb].
    - rewrite IH. cbn. destruct (String.eqb_spec name n); [congruence|reflexivity].
    - cbn. now rewrite IH.
  Qed.
  Lemma dset_same (l : list (string * h5 stations_t K (Z * list (option R)))) name h : dget l name = Some h -> dset l name h = l.
  Proof.
    induction l as [|[k x] l IH]; cbn; [discriminate|]. destruct (String.eqb_spec k name) as [->|E]; intro G; [injection G as ->; reflexivity|]. now rewrite IH.
  Qed.
  Lemma filter_all {A} (f : A -> bool) l : (forall x, In x l -> f x = true) -> filter f l = l.
  Proof. induction l as [|x l IH]; intro Hf; [reflexivity|]. cbn. rewrite (Hf x (or_introl eq_refl)). f_equal. apply IH. intros y I. apply Hf. now right. Qed.
  Lemma put_same l name (t : target stations_t K (Z * list (option R))) : dget l name = t -> put_h5 l name t = l.
  Proof.
    destruct t as [h|]; cbn [put_h5]; [apply dset_same|]. intro G. apply dget_None in G. apply filter_all. intros p I.
    destruct (String.eqb_spec (fst p) name) as [E|]; [|reflexivity]. exfalso. apply G. rewrite <- E. unfold dkeys. now apply in_map.
  Qed.

  (** What each phase keeps, wherever it stops: the directories stay well-formed and free of files, no file disappears. *)
  Definition kept (a : args) (s s1 : state) : Prop :=
    free_way (st_tree s1) (a_target a) /\ NoDup (dkeys (st_disk s1)) /\ (forall n, dget (st_disk s) n <> None -> dget (st_disk s1) n <> None).
  Lemma grows ops : forall (d : dir (B := B)) n, dget d n <> None -> dget (apply_ops ops d) n <> None.
  Proof.
    induction ops as [|o l IH]; intros d n N; [exact N|]. cbn [apply_ops fold_left]. fold (apply_ops l (apply_op d o)). apply IH.
    destruct o as [m|m x]; cbn [apply_op]; (destruct (string_dec m n) as [->|E]; [rewrite dget_dset_same; discriminate|now rewrite dget_dset_other]).
  Qed.
  Lemma cut_ops {A} k (ops : list A) r : exists j, fst (cut k ops r) = firstn j ops.
  Proof. unfold cut. destruct (Nat.ltb k (length ops)); cbn; [eauto|]. exists (length ops). now rewrite firstn_all. Qed.
  Lemma kept_dirs k a (s : state) : free_way (st_tree s) (a_target a) -> NoDup (dkeys (st_disk s)) -> kept a s (fst (phase_dirs k a s)).
  Proof.
    intros FW N. destruct (dirs_ok a s FW) as (ops & E & _ & _ & F). unfold phase_dirs.
    destruct FW as [WF FW]. pose proof (ensurepath_creates (st_tree s) (a_target a) WF) as [C1 C2].
    assert (OKE : ensurepath (st_tree s) (a_target a) = (ops, Ok tt)).
    { rewrite (surjective_pairing (ensurepath _ _)), E. f_equal. destruct (kind_of (st_tree s) (a_target a)) eqn:Ek.
      - now rewrite C1 by discriminate.
      - destruct (C2 eq_refl) as (o & -> & _); [|reflexivity]. intros q [A _]. now apply FW. }
    rewrite OKE. destruct (cut_ops k ops (Ok tt)) as [j Ej]. destruct (cut k ops (Ok tt)) as [ops' e]. cbn [fst] in *. subst ops'.
    split; [|split; [exact N|auto]]. cbn [st_tree]. split; [now apply (ensurepath_resume (st_tree s) (a_target a) ops j WF)|].
    intros q A. rewrite kind_made. destruct (existsb (path_eqb q) (firstn j ops)); [discriminate|now apply FW].
  Qed.
  Lemma kept_refl a (s : state) : free_way (st_tree s) (a_target a) -> NoDup (dkeys (st_disk s)) -> kept a s s.
  Proof. intros FW N. split; [exact FW|]. split; auto. Qed.
  Lemma kept_after a (s : state) p next : kept a s (fst p) -> (forall s', kept a s s' -> kept a s (fst (next s'))) -> kept a s (fst (after p next)).
  Proof. intros Kp F. destruct p as [s' [| |]]; cbn [after fst] in *; auto. Qed.
  Lemma kept_ops a (s s' : state) ops : kept a s s' -> kept a s (State (st_tree s') (apply_ops ops (st_disk s')) (st_h5 s')).
  Proof. intros (K1 & K2 & K3). split; [exact K1|]. split; [now apply apply_keys|]. intros n N. apply grows. now apply K3. Qed.
  Lemma main_keeps b v u a (s : state) : free_way (st_tree s) (a_target a) -> NoDup (dkeys (st_disk s)) -> kept a s (fst (main decode b v u a s)).
  Proof.
    intros FW N. unfold main. destruct (negb _); [now apply kept_refl|]. apply kept_after; [now apply kept_dirs|]. intros s1 K1.
    apply kept_after. { unfold phase_meta. destruct (a_meta a); [|exact K1]. destruct (download _ _ _) as [o r]. destruct (cut _ o r) as [o' e]. cbn [fst]. now apply kept_ops. }
    intros s2 K2. apply kept_after. { unfold phase_wget. destruct (s_script v _); [|exact K2]. destruct (wget_fromurl _ _ _) as [o r]. destruct (cut _ o r) as [o' e]. cbn [fst]. now apply kept_ops. }
    intros s3 K3. apply kept_after. { unfold phase_h5. destruct (a_makeh5 a); [|exact K3]. destruct (main_makeh5 _ _ _ _ _ _) as [t e]. exact K3. }
    intros s4 K4. unfold phase_qc. destruct (a_qc a); [|exact K4]. destruct (main_qc _ _ _ _ _) as [t e]. exact K4.
  Qed.
End Run.

Lemma ask_url line url url' name name' : asks_for line url name -> asks_for line url' name' -> url = url'.
Proof. intros [A _] [A' _]. now apply (last_word_unique line). Qed.
Lemma first_ask_unique lines name url url' : first_ask lines name url -> first_ask lines name url' -> url = url'.
Proof.
  intros (l1 & x & l2 & E & A & N) (m1 & y & m2 & E' & A' & N'). revert m1 E' N'. subst lines. revert N. induction l1 as [|p l1 IH]; intros N [|q m1] E' N'; cbn in E'.
  - injection E' as -> _. now apply (ask_url y url url' name name).
  - injection E' as -> _. exfalso. apply (N' q url); [now left|exact A].
  - injection E' as -> _. exfalso. apply (N y url'); [now left|exact A'].
  - injection E' as -> E'. apply (IH ltac:(intros; apply N; now right) m1 E'). intros; apply N'; now right.
Qed.
Lemma first_ask_in lines name url : first_ask lines name url -> exists x, In x lines /\ asks_for x url name.
Proof. intros (l1 & x & l2 & -> & A & _). exists x. split; [|exact A]. apply in_or_app. right. now left. Qed.
Lemma served_unique {B} (w : string -> option (list B * bool)) lines old n c c' : served w lines old n c -> served w lines old n c' -> c = c'.
Proof.
  unfold served. destruct (old n); [congruence|]. intros [(u & bl & F & W & ->)|[N ->]] [(u' & bl' & F' & W' & ->)|[N' ->]]; auto.
  - assert (u = u') by (eapply first_ask_unique; eauto). subst. congruence.
  - apply first_ask_in in F. destruct F as (x & I & A). exfalso. now apply (N' x u I).
  - apply first_ask_in in F'. destruct F' as (x & I & A). exfalso. now apply (N x u' I).
Qed.

(*@ C97 A dataset other than the three known ones (in any letter case) is a ValueError and nothing is touched. *)
Lemma main_unknown : forall (K B : Type) (HK : Label K) decode b (v : server B) u a (s : state K B),
  ~ known_dataset (a_dataset a) -> main decode b v u a s = (s, Raised ValueError).
Proof.
  intros K B HK decode b v u a s N. unfold main. destruct (lab_mem_spec (upper (a_dataset a)) datasets) as [I|_]; [|reflexivity].
  exfalso. apply N. unfold known_dataset. cbn in I. intuition.
Qed.

(*@ C97 A run without -q, nothing in its way, every file served and readable: it finishes; the directory exists and holds
    every file it held before and every file of the script (and the fresh metadata if asked for); with -h5 the h5 file then
    holds all netCDF files of the directory in name order, unless there was one before and the user keeps it. No other h5
    file changes. *)
Lemma main_runs : forall (K B : Type) (HK : Label K) decode (v : server B) u a (s : state K B) lines mb ids data flag stations,
  known_dataset (a_dataset a) -> free_way (st_tree s) (a_target a) -> NoDup (dkeys (st_disk s)) -> serves v a lines mb (dget (st_disk s)) ->
  let final := served (s_web v) lines (with_metadata a mb (dget (st_disk s))) in
  readable decode ids data flag stations (fun name blocks => final name (Some blocks)) -> a_qc a = None ->
  exists N, forall b, roomy N b -> exists s' files, main decode b v u a s = (s', Finished) /\
    kind_of (st_tree s') (a_target a) = Some Folder /\ (forall name, final name (dget (st_disk s') name)) /\
    nc_names (dget (st_disk s')) files /\
    dget (st_h5 s') (h5_name a) =
      (if a_makeh5 a then
         match dget (st_h5 s) (h5_name a) with Some old => if u_h5 u then summary ids data flag stations files else Some old
                                             | None => summary ids data flag stations files end
       else dget (st_h5 s) (h5_name a)) /\
    forall name, name <> h5_name a -> dget (st_h5 s') name = dget (st_h5 s) name.
Proof.
  intros K B HK decode v u a s lines mb ids data flag stations Kd FW ND (Es & Em & Sv) final Rd Q.
  destruct (dirs_ok a s FW) as (o1 & _ & T1 & _ & P1). set (s1 := State (made o1 (st_tree s)) (st_disk s) (st_h5 s)) in *.
  destruct (meta_ok v a s1 mb Em) as (d2 & D2 & N2 & P2). cbn [st_disk st_tree st_h5 s1] in D2, N2, P2. specialize (N2 ND).
  set (s2 := State (made o1 (st_tree s)) d2 (st_h5 s)) in *.
  destruct (wget_phase_ok v a s2 lines Es) as (o3 & W3 & P3); [eapply servable_ext; [|exact Sv]; intro n; symmetry; apply D2|]. cbn [st_disk st_tree st_h5 s2] in W3, P3.
  set (d3 := apply_ops o3 d2) in *. set (s3 := State (made o1 (st_tree s)) d3 (st_h5 s)) in *.
  assert (F3 : forall n, final n (dget d3 n)).
  { intro n. apply (served_ext _ _ (dget d2)); [exact D2|]. now apply wget_complete. }
  assert (N3 : NoDup (dkeys d3)) by now apply apply_keys.
  set (files := getfiles (dkeys d3) (Some ".nc"%string) true).
  exists (length o1 + S (length mb) + length o3 + 3 * length files + 2). intros b (B1 & B2 & B3 & B4 & B5 & B6).
  unfold main. rewrite (known_mem _ Kd). cbn [negb]. rewrite P1 by lia. fold s1. cbn [after]. rewrite P2 by lia. fold s2. cbn [after]. rewrite P3 by lia. fold d3 s3. cbn [after].
  rewrite (h5_phase_ok decode b u a s3 ids data flag stations); [|exact N3| |fold files; cbn [st_disk s3]; fold files; lia|cbn [st_disk s3]; fold files; lia].
  2:{ intros n bl Ex G. apply Rd; [exact Ex|]. rewrite <- G. apply F3. }
  cbn [after]. unfold phase_qc. rewrite Q. cbn [st_tree st_disk st_h5 s3]. fold files. eexists. exists files. split; [reflexivity|]. cbn [st_tree st_disk st_h5].
  split; [exact T1|]. split; [exact F3|]. split; [now apply names_of|].
  destruct (a_makeh5 a); [|auto]. split.
  - destruct (dget (st_h5 s) (h5_name a)); [destruct (u_h5 u)|]; apply put_get.
  - intros n N. destruct (dget (st_h5 s) (h5_name a)); [destruct (u_h5 u)|]; now apply put_other.
Qed.

(*@ C97 Interrupted anywhere and repeated with agreement to overwrite: provided no data file was cut off in the middle, the
    second run leads to the same files and the same h5 file as a run that was never interrupted. *)
Lemma main_resume : forall (K B : Type) (HK : Label K) decode (v : server B) u u0 b0 a (s : state K B) lines mb ids data flag stations,
  known_dataset (a_dataset a) -> free_way (st_tree s) (a_target a) -> NoDup (dkeys (st_disk s)) -> serves v a lines mb (dget (st_disk s)) ->
  let final := served (s_web v) lines (with_metadata a mb (dget (st_disk s))) in
  readable decode ids data flag stations (fun name blocks => final name (Some blocks)) -> a_qc a = None -> u_h5 u = true ->
  let left := fst (main decode b0 v u0 a s) in
  (forall name blocks, ~ (a_meta a = true /\ name = metadata_name a) -> dget (st_disk left) name = Some blocks -> final name (Some blocks)) ->
  exists N, forall b b', roomy N b -> roomy N b' -> exists s' s2,
    main decode b v u a s = (s', Finished) /\ main decode b' v u a left = (s2, Finished) /\
    (forall name, dget (st_disk s2) name = dget (st_disk s') name) /\
    (a_makeh5 a = true -> dget (st_h5 s2) (h5_name a) = dget (st_h5 s') (h5_name a)).
Proof.
  intros K B HK decode v u u0 b0 a s lines mb ids data flag stations Kd FW ND Sv final Rd Q Hu left Wh.
  destruct (main_keeps decode b0 v u0 a s FW ND) as (FW1 & ND1 & Mo). fold left in FW1, ND1, Mo.
  assert (Cv : forall n c, served (s_web v) lines (with_metadata a mb (dget (st_disk left))) n c -> final n c).
  { intros n c S. unfold served in S. unfold with_metadata in S at 1. unfold final in *. unfold served in Wh |- *. unfold with_metadata in Wh |- *.
    destruct (a_meta a) eqn:Am.
    - destruct (string_dec n (metadata_name a)) as [->|Nn]; [exact S|].
      destruct (dget (st_disk left) n) as [bl|] eqn:G.
      + subst c. specialize (Wh n bl ltac:(now intros [_ X]) G). destruct (string_dec n (metadata_name a)); [easy|exact Wh].
      + destruct (dget (st_disk s) n) eqn:G0; [exfalso; apply (Mo n); congruence|exact S].
    - destruct (dget (st_disk left) n) as [bl|] eqn:G.
      + subst c. apply (Wh n bl); [intros [X _]; discriminate|exact G].
      + destruct (dget (st_disk s) n) eqn:G0; [exfalso; apply (Mo n); congruence|exact S]. }
  destruct (main_runs K B HK decode v u a s lines mb ids data flag stations Kd FW ND Sv Rd Q) as (N1 & R1).
  destruct (main_runs K B HK decode v u a left lines mb ids data flag stations Kd FW1 ND1) as (N2 & R2); [| |exact Q|].
  { destruct Sv as (S1 & S2 & S3). split; [exact S1|]. split; [exact S2|]. intros l1 line l2 El. destruct (S3 l1 line l2 El) as (url & name & A & O).
    exists url, name. split; [exact A|]. destruct O as [O|O]; [left|now right]. unfold with_metadata in O |- *. destruct (a_meta a); [destruct (string_dec name (metadata_name a)); [discriminate|]|]; now apply Mo. }
  { intros n bl Ex S. apply Rd; [exact Ex|]. now apply Cv. }
  exists (N1 + N2). intros b b' Rb Rb'. unfold roomy in Rb, Rb'.
  destruct (R1 b) as (s' & f1 & M1 & _ & F1 & NC1 & H1 & _); [unfold roomy; lia|].
  destruct (R2 b') as (s2 & f2 & M2 & _ & F2 & NC2 & H2 & _); [unfold roomy; lia|].
  exists s', s2. split; [exact M1|]. split; [exact M2|].
  assert (ED : forall n, dget (st_disk s2) n = dget (st_disk s') n).
  { intro n. apply (served_unique (s_web v) lines (with_metadata a mb (dget (st_disk s))) n); [apply Cv, F2|apply F1]. }
  split; [exact ED|]. intro Hm. rewrite Hm, Hu in H1, H2.
  assert (f1 = f2) by (eapply nc_names_unique; [|exact NC1|exact NC2]; intro f; rewrite ED; reflexivity). subst f2.
  rewrite H2. destruct (dget (st_h5 left) (h5_name a)); rewrite H1; destruct (dget (st_h5 s) (h5_name a)); reflexivity.
Qed.

Lemma append_length s t : String.length (s ++ t) = String.length s + String.length t.
Proof. induction s; cbn; congruence. Qed.
Lemma names_differ a qc : qc_name a qc <> h5_name a.
Proof. unfold qc_name, h5_name. intro E. apply (f_equal String.length) in E. rewrite !append_length in E. cbn in E. lia. Qed.
Definition without_qc (a : args) : args := Args (a_dataset a) (a_target a) (a_meta a) (a_makeh5 a) None.
Lemma main_split {K B} `{Label K} decode b (v : server B) u a (s : state K B) :
  main decode b v u a s = after (main decode b v u (without_qc a) s) (fun s => phase_qc (b_qc b) u a s).
Proof.
  unfold main, without_qc. cbn [a_dataset]. destruct (negb _); [reflexivity|].
  change (phase_dirs (b_dirs b) (Args (a_dataset a) (a_target a) (a_meta a) (a_makeh5 a) None) s) with (phase_dirs (b_dirs b) a s).
  destruct (phase_dirs (b_dirs b) a s) as [s1 []]; cbn [after]; [|reflexivity|reflexivity].
  change (phase_meta (b_meta b) v (Args (a_dataset a) (a_target a) (a_meta a) (a_makeh5 a) None) s1) with (phase_meta (b_meta b) v a s1).
  destruct (phase_meta (b_meta b) v a s1) as [s2 []]; cbn [after]; [|reflexivity|reflexivity].
  change (phase_wget (b_wget b) v (Args (a_dataset a) (a_target a) (a_meta a) (a_makeh5 a) None) s2) with (phase_wget (b_wget b) v a s2).
  destruct (phase_wget (b_wget b) v a s2) as [s3 []]; cbn [after]; [|reflexivity|reflexivity].
  change (phase_h5 decode b u (Args (a_dataset a) (a_target a) (a_meta a) (a_makeh5 a) None) s3) with (phase_h5 decode b u a s3).
  destruct (phase_h5 decode b u a s3) as [s4 []]; reflexivity.
Qed.

(*@ C97 With -q the run first does what it does without -q; if that does not finish, it ends the same way. Otherwise the cleaned
    values are written to a second h5 file, next to the flags and stations of the first, unless the user wants to keep an old
    one; when the cleaning raises or the first h5 file is absent or incomplete, it raises and nothing more is written. The first
    h5 file, the other h5 files and the downloads stay as they are. *)
Lemma main_cleans : forall (K B : Type) (HK : Label K) decode b (v : server B) u a (s s1 : state K B) e qc,
  a_qc a = Some qc -> main decode b v u (Args (a_dataset a) (a_target a) (a_meta a) (a_makeh5 a) None) s = (s1, e) ->
  (e <> Finished -> main decode b v u a s = (s1, e)) /\
  (e = Finished -> exists s2 e2, main decode b v u a s = (s2, e2) /\ st_tree s2 = st_tree s1 /\ st_disk s2 = st_disk s1 /\
     (forall name, name <> qc_name a qc -> dget (st_h5 s2) name = dget (st_h5 s1) name) /\ qc_name a qc <> h5_name a /\
     let src := dget (st_h5 s1) (h5_name a) in
     let old := dget (st_h5 s1) (qc_name a qc) in
     let new := dget (st_h5 s2) (qc_name a qc) in
     (forall stations data flag out, src = Some (H5 (Some stations) (Some data) (Some flag)) -> main_qc_step qc data flag = Ok out ->
        (old <> None -> u_qc u = false -> new = old /\ e2 = Finished) /\
        (old = None \/ u_qc u = true -> 4 <= b_qc b -> new = Some (H5 (Some stations) (Some out) (Some flag)) /\ e2 = Finished)) /\
     (forall stations data flag er, src = Some (H5 (Some stations) (Some data) (Some flag)) -> main_qc_step qc data flag = Err er -> new = old /\ e2 = Raised er) /\
     (src = None \/ (exists h, src = Some h /\ (h_latlon h = None \/ h_data h = None \/ h_flag h = None)) -> new = old /\ e2 = Raised OtherError)).
Proof.
  intros K B HK decode b v u a s s1 e qc Q E. fold (without_qc a) in E. rewrite main_split, E. split; [now destruct e|]. intros ->. cbn [after].
  unfold phase_qc. rewrite Q. destruct (main_qc (b_qc b) (u_qc u) qc (dget (st_h5 s1) (h5_name a)) (dget (st_h5 s1) (qc_name a qc))) as [t e2] eqn:M.
  eexists. exists e2. split; [reflexivity|]. cbn [st_tree st_disk st_h5]. split; [reflexivity|]. split; [reflexivity|].
  split; [intros n N; now apply put_other|]. split; [apply names_differ|]. cbv zeta. rewrite put_get.
  set (src := dget (st_h5 s1) (h5_name a)) in *. set (old := dget (st_h5 s1) (qc_name a qc)) in *. split; [|split].
  - intros stations data flag out Es Eo. destruct (main_qc_target (b_qc b) (u_qc u) qc stations data flag src old) as (M1 & _). split.
    + intros No Hu. destruct old as [h|]; [|easy]. rewrite Es, Hu in M. unfold main_qc in M. rewrite Eo in M. injection M as <- <-. auto.
    + intros Ho Hk. rewrite (M1 out Es Eo Hk Ho) in M. injection M as <- <-. auto.
  - intros stations data flag er Es Eo. destruct (main_qc_target (b_qc b) (u_qc u) qc stations data flag src old) as (_ & _ & M1 & _).
    rewrite (M1 er Es Eo) in M. injection M as <- <-. auto.
  - intro X. destruct (main_qc_target (b_qc b) (u_qc u) qc [] (Frame [] []) (Frame [] []) src old) as (_ & _ & _ & M1). rewrite (M1 X) in M. injection M as <- <-. auto.
Qed.

Lemma makeh5_none {T K W} `{Label K} (parse : string -> result (frame K W * frame K W * T)) k k2 yes listing old :
  main_makeh5 parse k k2 yes listing old = (None, Finished) -> forall k' k2', 1 <= k' -> main_makeh5 parse k' k2' false listing None = (None, Finished).
Proof.
  set (files := getfiles listing (Some ".nc"%string) true).
  assert (PL : forall s ops, file_ops parse files = PutLatlon s :: ops -> forall o, In o (PutLatlon s :: ops) -> o <> Remove).
  { intros s ops E o I. rewrite <- E in I. clear E. unfold file_ops in I. apply in_concat in I. destruct I as (l & I & L). apply in_map_iff in I. destruct I as (y & <- & _).
    destruct (parse (snd y)) as [[[d g] t]|]; [|destruct L as [<-|[]]; discriminate].
    destruct (fst y =? 0)%nat; cbn in L; intuition (subst; discriminate). }
  assert (SH : file_ops parse files = [] \/ (exists e ops, file_ops parse files = Raise e :: ops) \/ exists s ops, file_ops parse files = PutLatlon s :: ops).
  { destruct files as [|f fs]; [now left|]. right. rewrite file_ops_cons. unfold first_ops. destruct (parse f) as [[[d g] s]|e]; [right|left]; cbn [app]; eauto. }
  unfold main_makeh5, dataset_to_h5. fold files. intros E k' k2' Hk.
  destruct SH as [->|[(er & ops & Eo)|(s & ops & Eo)]].
  - now rewrite run_nil.
  - rewrite Eo in *. destruct k' as [|k']; [lia|]. cbn [h5_run h5_step].
    destruct er; try reflexivity; exfalso.
    all: destruct old as [h|]; [destruct yes; [|discriminate]; destruct k2 as [|[|k2]]; cbn in E; discriminate|].
    all: destruct k as [|k]; cbn in E; discriminate.
  - exfalso. assert (NN : forall j t, t <> None \/ j <> 0 -> fst (h5_run j (file_ops parse files) t) <> None).
    { intros j t O. rewrite Eo. destruct j as [|j]; [cbn; destruct O; [assumption|easy]|]. cbn [h5_run h5_step]. apply run_some; [|discriminate]. intros o I. apply (PL _ _ Eo). now right. }
    assert (N0 : forall j t, h5_run j (file_ops parse files) t <> (None, Finished)).
    { intros [|j] t X. { rewrite Eo in X. discriminate. } apply (NN (S j) t); [now right|]. now rewrite X. }
    assert (NR : forall j t, t <> None -> h5_run j (Remove :: file_ops parse files) t <> (None, Finished)).
    { intros [|j] t Ht X; [cbn in X; congruence|]. cbn [h5_run h5_step] in X. now apply (N0 j None). }
    destruct old as [h|].
    + destruct yes; [|discriminate]. now apply (NR k2 (Some h)).
    + destruct (h5_run k (file_ops parse files) None) as [t e] eqn:X. destruct e as [|er|]; [|destruct er|]; try discriminate.
      * apply (N0 k None). now rewrite X, E.
      * assert (t <> None). { destruct k as [|k]; [rewrite Eo in X; discriminate|]. assert (O : (None : target T K W) <> None \/ S k <> 0) by (right; discriminate). specialize (NN (S k) None O). now rewrite X in NN. }
        destruct t as [h|]; [|easy]. destruct yes; [|discriminate]. now apply (NR k2 (Some h)).
Qed.
Lemma qc_again {T K} `{Label K} k yes qc (src old t : target T K (Z * list (option R))) :
  main_qc k yes qc src old = (t, Finished) -> forall k', main_qc k' false qc src t = (t, Finished).
Proof.
  intros E k'. unfold main_qc in *. destruct src as [[[l|] [d|] [f|]]|]; try discriminate. destruct (main_qc_step qc d f) as [out|]; [|discriminate].
  assert (N : forall j, h5_run j [AppendData out; AppendFlag f; PutLatlon l] None <> (None, Finished)).
  { intros [|[|[|j]]]; cbn; try discriminate. destruct j; cbn; discriminate. }
  destruct t as [h|]; [reflexivity|]. exfalso. destruct old as [h|]; [destruct yes; [|discriminate]|now apply (N k)].
  destruct k as [|k]; [discriminate|]. cbn [h5_run h5_step] in E. now apply (N k).
Qed.
Lemma cut_finished {A} k (ops ops' : list A) r : cut k ops r = (ops', Finished) -> ops' = ops /\ r = Ok tt.
Proof. unfold cut. destruct (Nat.ltb k (length ops)); [discriminate|]. destruct r as [[]|]; [|discriminate]. intro E. injection E as <-. auto. Qed.
Lemma after_finished {K B} (p : state K B * ending) next s' : after p next = (s', Finished) -> exists s1, p = (s1, Finished) /\ next s1 = (s', Finished).
Proof. destruct p as [s1 []]; cbn; [eauto|discriminate|discriminate]. Qed.
Lemma state_eta {K B} (s : state K B) : State (st_tree s) (st_disk s) (st_h5 s) = s.
Proof. now destruct s. Qed.

(*@ C97 A run without -m that has finished can be repeated: whatever is served then (the script being the same), answering no to
    the questions, it finishes again and changes nothing at all. *)
Lemma main_repeat : forall (K B : Type) (HK : Label K) decode b (v : server B) u a (s s1 : state K B),
  a_meta a = false -> main decode b v u a s = (s1, Finished) ->
  forall b' (v' : server B), s_script v' (upper (a_dataset a)) = s_script v (upper (a_dataset a)) -> 1 <= b_h5 b' ->
  main decode b' v' (User false false) a s1 = (s1, Finished).
Proof.
  intros K B HK decode b v u a s s5 Am E b' v' Es Hb. unfold main in E |- *. destruct (negb _); [discriminate|].
  apply after_finished in E. destruct E as (s1 & E1 & E). apply after_finished in E. destruct E as (s2 & E2 & E). apply after_finished in E. destruct E as (s3 & E3 & E).
  apply after_finished in E. destruct E as (s4 & E4 & E5).
  assert (T1 : kind_of (st_tree s1) (a_target a) = Some Folder).
  { unfold phase_dirs in E1. destruct (ensurepath _ _) as [o r]. destruct (cut _ o r) as [o' e]. cbn [st_tree] in E1.
    destruct e; try discriminate. destruct (kind_of (made o' (st_tree s)) (a_target a)) as [[]|] eqn:Kd; try discriminate. injection E1 as <-. exact Kd. }
  unfold phase_meta in E2. rewrite Am in E2. injection E2 as <-.
  unfold phase_wget in E3. destruct (s_script v (upper (a_dataset a))) as [lines|] eqn:Sc; [|discriminate].
  destruct (wget_fromurl (s_web v) lines (st_disk s1)) as [ops r] eqn:W. destruct (cut (b_wget b) ops r) as [o' e] eqn:C. injection E3 as <- ->.
  apply cut_finished in C. destruct C as [-> ->]. pose proof (proj2 (wget_again (s_web v) (s_web v') lines (st_disk s1) ops W)) as W'.
  set (s3 := State (st_tree s1) (apply_ops ops (st_disk s1)) (st_h5 s1)) in *.
  assert (P4 : st_tree s4 = st_tree s3 /\ st_disk s4 = st_disk s3).
  { unfold phase_h5 in E4. destruct (a_makeh5 a); [destruct (main_makeh5 _ _ _ _ _ _) as [t e]; injection E4 as <- _|injection E4 as <-]; auto. }
  assert (P5 : st_tree s5 = st_tree s4 /\ st_disk s5 = st_disk s4 /\ dget (st_h5 s5) (h5_name a) = dget (st_h5 s4) (h5_name a)).
  { unfold phase_qc in E5. destruct (a_qc a) as [qc|]; [|injection E5 as <-; auto]. destruct (main_qc _ _ _ _ _) as [t e]. injection E5 as <- _. cbn [st_tree st_disk st_h5].
    split; [reflexivity|]. split; [reflexivity|]. apply put_other. intro X. symmetry in X. revert X. apply names_differ. }
  destruct P4 as [T4 D4]. destruct P5 as (T5 & D5 & H5').
  assert (R1 : phase_dirs (b_dirs b') a s5 = (s5, Finished)).
  { unfold phase_dirs, ensurepath, there. rewrite T5, T4. cbn [st_tree s3]. rewrite T1, cut_all by (cbn; lia). cbn [made fold_left st_tree]. rewrite T1.
    replace (st_tree s1) with (st_tree s5) by now rewrite T5, T4. now rewrite state_eta. }
  rewrite R1. cbn [after]. unfold phase_meta. rewrite Am. cbn [after].
  assert (R3 : phase_wget (b_wget b') v' a s5 = (s5, Finished)).
  { unfold phase_wget. rewrite Es, D5, D4. cbn [st_disk s3]. rewrite W', cut_all by (cbn; lia). cbn [apply_ops fold_left].
    replace (apply_ops ops (st_disk s1)) with (st_disk s5) by now rewrite D5, D4. now rewrite state_eta. }
  rewrite R3. cbn [after].
  assert (R4 : phase_h5 decode b' (User false false) a s5 = (s5, Finished)).
  { unfold phase_h5 in E4 |- *. destruct (a_makeh5 a); [|reflexivity]. cbn [u_h5]. rewrite H5', D5, D4.
    destruct (main_makeh5 (file_of decode (st_disk s3)) (b_h5 b) (b_h5_again b) (u_h5 u) (dkeys (st_disk s3)) (dget (st_h5 s3) (h5_name a))) as [t e] eqn:M.
    injection E4 as E4 ->. assert (G4 : dget (st_h5 s4) (h5_name a) = t) by (rewrite <- E4; apply put_get).
    rewrite G4. assert (X : main_makeh5 (file_of decode (st_disk s3)) (b_h5 b') (b_h5_again b') false (dkeys (st_disk s3)) t = (t, Finished)).
    { destruct t as [h|]; [reflexivity|]. eapply makeh5_none; [exact M|exact Hb]. }
    rewrite X. rewrite put_same by congruence. rewrite <- D4, <- D5. now rewrite state_eta. }
  rewrite R4. cbn [after]. unfold phase_qc in E5 |- *. destruct (a_qc a) as [qc|]; [|reflexivity]. cbn [u_qc].
  destruct (main_qc (b_qc b) (u_qc u) qc (dget (st_h5 s4) (h5_name a)) (dget (st_h5 s4) (qc_name a qc))) as [t e] eqn:M. injection E5 as E5 ->.
  assert (G5 : dget (st_h5 s5) (qc_name a qc) = t) by (rewrite <- E5; apply put_get).
  rewrite H5', G5, (qc_again _ _ _ _ _ _ M). rewrite put_same by exact G5. now rewrite state_eta.
Qed.

(** ** An example *)
Definition demo_decode (blocks : list nat) : option (ncfile nat) := match blocks with [1; 2] => Some demo_nc | _ => None end.
Definition demo_server : server nat :=
  Server demo_web (fun _ => "http://x/meta"%string) (fun d => if String.eqb d "HOPE" then Some demo_lines else None).
Definition demo_args : args := Args "hope" ["data"; "home"]%string false true (Some "null"%string).
Definition demo_state : state nat nat := State [] [] [].
Definition many : budget := Budget 9 9 9 9 9 9.
(*@ C97 A download cut off in the middle is not noticed by the next run: there are a run and a point of interruption after which every
    repetition, whatever the user answers and wherever it stops, fails to finish, although the uninterrupted run finishes. *)
Lemma main_truncated_refuted : exists decode (v : server nat) a (s : state nat nat) b0,
  snd (main decode many v (User true true) a s) = Finished /\
  forall b u, snd (main decode b v u a (fst (main decode b0 v (User true true) a s))) <> Finished.
Proof.
  exists demo_decode, demo_server, demo_args, demo_state, (Budget 9 9 2 9 9 9). split; [reflexivity|]. intros b u.
  assert (E : main demo_decode (Budget 9 9 2 9 9 9) demo_server (User true true) demo_args demo_state =
              (State [(["data"; "home"]%string, Folder); (["home"]%string, Folder)] [("a.nc"%string, [1])] [], Crashed)) by reflexivity.
  rewrite E. cbn [fst]. clear E. unfold main.
  replace (negb (lab_mem (upper (a_dataset demo_args)) datasets)) with false by reflexivity.
  set (s1 := State _ _ _).
  assert (P1 : phase_dirs (b_dirs b) demo_args s1 = (s1, Finished)).
  { unfold phase_dirs. replace (ensurepath (st_tree s1) (a_target demo_args)) with (@nil path, @Ok unit tt) by reflexivity. rewrite cut_all by (cbn; lia). reflexivity. }
  rewrite P1. cbn [after]. unfold phase_meta. cbn [a_meta demo_args after].
  assert (P3 : phase_wget (b_wget b) demo_server demo_args s1 = (s1, Finished)).
  { unfold phase_wget. replace (s_script demo_server (upper (a_dataset demo_args))) with (Some demo_lines) by reflexivity.
    replace (wget_fromurl (s_web demo_server) demo_lines (st_disk s1)) with (@nil (@fsop nat), @Ok unit tt) by reflexivity. rewrite cut_all by (cbn; lia). reflexivity. }
  fold demo_args. rewrite P3. cbn [after].
  assert (P4 : snd (phase_h5 demo_decode b u demo_args s1) <> Finished).
  { unfold phase_h5. cbn [a_makeh5 demo_args]. destruct b as [b1 b2 b3 b4 b5 b6]. destruct b4 as [|b4]; cbn; discriminate. }
  destruct (phase_h5 demo_decode b u demo_args s1) as [s2 e]. cbn [snd] in P4. destruct e; cbn [after snd]; [easy|discriminate|discriminate].
Qed.
(*@ex C97 A run from an empty directory: both h5 files are written; repeating it declining changes nothing; the hypotheses of the theorems hold. *)
Lemma main_example :
  main demo_decode many demo_server (User false false) demo_args demo_state =
    (State [(["data"; "home"]%string, Folder); (["home"]%string, Folder)] [("a.nc"%string, [1; 2])]
       [("hope.h5"%string, H5 (Some [(7%nat, (50, 6)%R); (3%nat, (51, 7)%R)])
                               (Some (Frame [7; 3]%nat [(100000000000%Z, [Some 200; Some (-999)]%R); (101000000000%Z, [Some 300%R; None])]))
                               (Some (Frame [7; 3]%nat [(100000000000%Z, [Some 1; Some 4]%R); (101000000000%Z, [Some 1; Some 3]%R)])));
        ("hope-qcnull.h5"%string, H5 (Some [(7%nat, (50, 6)%R); (3%nat, (51, 7)%R)])
                               (Some (Frame [7; 3]%nat [(100000000000%Z, [Some 200%R; None]); (101000000000%Z, [Some 300%R; None])]))
                               (Some (Frame [7; 3]%nat [(100000000000%Z, [Some 1; Some 4]%R); (101000000000%Z, [Some 1; Some 3]%R)])))], Finished) /\
  known_dataset (a_dataset demo_args) /\ free_way (st_tree demo_state) (a_target demo_args) /\ serves demo_server demo_args demo_lines [] (dget (st_disk demo_state)) /\
  (exists data flag stations, readable demo_decode [7; 3] data flag stations
     (fun name blocks => served (s_web demo_server) demo_lines (with_metadata demo_args [] (dget (st_disk demo_state))) name (Some blocks))) /\
  ~ known_dataset "melpitz".
Proof.
  split; [|split; [|split; [|split; [|split]]]].
  - rewrite main_split.
    assert (E : main demo_decode many demo_server (User false false) (without_qc demo_args) demo_state =
      (State [(["data"; "home"]%string, Folder); (["home"]%string, Folder)] [("a.nc"%string, [1; 2])]
       [("hope.h5"%string, H5 (Some [(7%nat, (50, 6)%R); (3%nat, (51, 7)%R)])
                               (Some (Frame [7; 3]%nat [(100000000000%Z, [Some 200; Some (-999)]%R); (101000000000%Z, [Some 300%R; None])]))
                               (Some (Frame [7; 3]%nat [(100000000000%Z, [Some 1; Some 4]%R); (101000000000%Z, [Some 1; Some 3]%R)])))], Finished)) by reflexivity.
    rewrite E. cbn [after]. unfold phase_qc. cbn [a_qc demo_args st_h5 st_tree st_disk u_qc b_qc many].
    match goal with |- context [main_qc 9 false "null" ?x ?y] => replace x with (Some (H5 (Some [(7%nat, (50, 6)%R); (3%nat, (51, 7)%R)])
                               (Some (Frame [7; 3]%nat [(100000000000%Z, [Some 200; Some (-999)]%R); (101000000000%Z, [Some 300%R; None])]))
                               (Some (Frame [7; 3]%nat [(100000000000%Z, [Some 1; Some 4]%R); (101000000000%Z, [Some 1; Some 3]%R)])))) by reflexivity;
      replace y with (@None (h5 (list (nat * (R * R))) nat (Z * list (option R)))) by reflexivity end.
    unfold main_qc.
    replace (main_qc_step "null" (Frame [7; 3]%nat [(100000000000%Z, [Some 200; Some (-999)]%R); (101000000000%Z, [Some 300%R; None])])
                          (Frame [7; 3]%nat [(100000000000%Z, [Some 1; Some 4]%R); (101000000000%Z, [Some 1; Some 3]%R)]))
      with (Ok (Frame [7; 3]%nat [(100000000000%Z, [Some 200%R; None]); (101000000000%Z, [Some 300%R; None])])).
    2:{ unfold main_qc_step. cbn [String.eqb Ascii.eqb Bool.eqb]. unfold set_values, null_qc, map2. cbn [rows columns map snd fst combine]. unfold Rltb.
        destruct (Rlt_dec 200 (-100)); [lra|]. destruct (Rlt_dec (-999) (-100)); [|lra]. destruct (Rlt_dec 300 (-100)); [lra|]. reflexivity. }
    reflexivity.
  - left. reflexivity.
  - split.
    + intros n p k E. discriminate.
    + intros q _ E. destruct q; cbn in E; discriminate.
  - split; [reflexivity|]. split; [discriminate|]. apply wget_ok. reflexivity.
  - exists (fun _ => Frame [7; 3]%nat [(100000000000%Z, [Some 200; Some (-999)]%R); (101000000000%Z, [Some 300%R; None])]),
      (fun _ => Frame [7; 3]%nat [(100000000000%Z, [Some 1; Some 4]%R); (101000000000%Z, [Some 1; Some 3]%R)]), (fun _ => [(7%nat, (50, 6)%R); (3%nat, (51, 7)%R)]).
    intros name blocks _ S. unfold served in S. cbn [with_metadata demo_args a_meta demo_state st_disk dget] in S.
    destruct S as [(url & bl & _ & W & E)|[_ E]]; [|discriminate]. injection E as <-. cbn in W. unfold demo_web in W.
    destruct (String.eqb url "http://x/y/a.nc"); [|discriminate]. injection W as <-. exists demo_nc. repeat split.
  - unfold known_dataset. cbn. intuition discriminate.
Qed.
