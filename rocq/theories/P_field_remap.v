(** Proofs about M_field_remap.v. *)
From Coq Require Import Permutation Sorted.
From Verif Require Import Prelude PreludeFacts RealBase M_field_remap Spec_field.

Section TableFacts.
  Context {K C A : Type} `{HK : Label K} `{HC : Label C}.
  Implicit Types (t data fx : table K C A) (k : K) (c : C).

  Lemma t_index_keys t : t_index t = dkeys (t_rows t).
  Proof. reflexivity. Qed.

  Lemma wf_row t k row : wf_table t -> dget (t_rows t) k = Some row -> length row = length (t_cols t).
  Proof.
    intros (_ & _ & HF) E. rewrite Forall_forall in HF. apply dget_In in E. exact (HF _ E).
  Qed.

  Lemma cell_Some_iff t k c : wf_table t ->
    (exists v, cell t k c = Some v) <-> In k (t_index t) /\ In c (t_cols t).
  Proof.
    intro W. unfold cell, t_read. split.
    - intros [v E]. destruct (pos_of c (t_cols t)) as [n|] eqn:En; [|discriminate].
      destruct (dget (t_rows t) k) as [row|] eqn:Er; [|discriminate].
      split; [now apply dget_Some_key in Er|]. apply pos_of_nth in En. now apply nth_error_In in En.
    - intros [Hk Hc]. destruct (pos_of_In _ _ Hc) as [n En]. rewrite En.
      rewrite t_index_keys in Hk. destruct (dget_key_Some _ _ Hk) as [row Er]. rewrite Er.
      pose proof (wf_row _ _ _ W Er) as L. apply pos_of_lt in En.
      destruct (nth_error row n) as [v|] eqn:E; [now exists v|].
      apply nth_error_None in E. lia.
  Qed.

  Lemma cell_None_iff t k c : wf_table t ->
    cell t k c = None <-> ~ In k (t_index t) \/ ~ In c (t_cols t).
  Proof.
    intro W. split.
    - intro E. destruct (lab_mem_spec k (t_index t)) as [Hk|]; [|now left].
      destruct (lab_mem_spec c (t_cols t)) as [Hc|]; [|now right].
      destruct (proj2 (cell_Some_iff t k c W) (conj Hk Hc)) as [v Ev]. congruence.
    - intro N. destruct (cell t k c) as [v|] eqn:E; [|easy].
      assert (Hi : exists v, cell t k c = Some v) by now exists v.
      apply (cell_Some_iff t k c W) in Hi. tauto.
  Qed.

  Lemma t_write_cols t k c v : t_cols (t_write t k c v) = t_cols t.
  Proof. unfold t_write. now destruct (pos_of c (t_cols t)). Qed.

  Lemma t_write_index t k c v : In c (t_cols t) ->
    t_index (t_write t k c v) = if lab_mem k (t_index t) then t_index t else t_index t ++ [k].
  Proof.
    intro Hc. unfold t_write. destruct (pos_of_In _ _ Hc) as [n ->]. cbn.
    unfold t_index. cbn [t_rows]. fold (dkeys (t_rows t)).
    change (dkeys (dset (t_rows t) k (list_set match dget (t_rows t) k with
        | Some row => row | None => map (fun _ : C => None) (t_cols t) end n v)) = if lab_mem k (dkeys (t_rows t)) then dkeys (t_rows t) else dkeys (t_rows t) ++ [k]).
    destruct (lab_mem_spec k (dkeys (t_rows t))) as [Hk|Hk].
    - now apply dset_keys_in.
    - rewrite dset_keys_notin by easy. unfold dkeys. now rewrite map_app.
  Qed.

  Lemma t_write_wf t k c v : wf_table t -> wf_table (t_write t k c v).
  Proof.
    intro W. unfold t_write. destruct (pos_of c (t_cols t)) as [n|] eqn:En; [|easy].
    pose proof W as (HC1 & HI & HF). split; [|split]; cbn [t_cols t_rows].
    - exact HC1.
    - rewrite t_index_keys. cbn [t_rows]. now apply dset_NoDup.
    - assert (L : length (list_set match dget (t_rows t) k with Some row => row | None => map (fun _ => None) (t_cols t) end n v) = length (t_cols t)).
      { rewrite list_set_length. destruct (dget (t_rows t) k) as [row|] eqn:Er; [now apply (wf_row t k)|now rewrite map_length]. }
      set (nr := list_set _ n v) in *. clearbody nr. clear En.
      generalize HF L. generalize (t_rows t) as rows, (length (t_cols t)) as w. clear.
      induction rows as [|[k0 r0] rows IH]; intros w HF L; cbn; [now repeat constructor|].
      inversion HF; subst. destruct (lab_eqb k0 k); constructor; cbn; auto.
  Qed.

  Lemma t_write_cell t k c v k' c' : wf_table t -> In c (t_cols t) ->
    cell (t_write t k c v) k' c' =
    if lab_eqb k' k then
      if lab_eqb c' c then Some v
      else if lab_mem k (t_index t) then cell t k c'
      else if lab_mem c' (t_cols t) then Some None else None
    else cell t k' c'.
  Proof.
    intros W Hc. unfold cell, t_read. rewrite t_write_cols. unfold t_write.
    destruct (pos_of c (t_cols t)) as [n|] eqn:En; [|now apply pos_of_None in En]. cbn.
    destruct (lab_eqb_spec k' k) as [->|Nk].
    - rewrite dget_dset_same.
      assert (Ln : n < length (t_cols t)) by now apply pos_of_lt in En.
      destruct (lab_eqb_spec c' c) as [->|Nc].
      + rewrite En, nth_error_list_set_same; [easy|].
        destruct (dget (t_rows t) k) as [row|] eqn:Er; [now rewrite (wf_row t k row)|now rewrite map_length].
      + destruct (pos_of c' (t_cols t)) as [m|] eqn:Em.
        * assert (Nnm : n <> m).
          { intros ->. apply pos_of_nth in En, Em. congruence. }
          rewrite nth_error_list_set_other by easy.
          destruct (dget (t_rows t) k) as [row|] eqn:Er.
          -- destruct (lab_mem_spec k (t_index t)) as [Hk|Hk]; [easy|].
             apply dget_Some_key in Er. contradiction.
          -- destruct (lab_mem_spec k (t_index t)) as [Hk|Hk].
             ++ apply dget_None in Er. contradiction.
             ++ pose proof Em as Em'. apply pos_of_nth, nth_error_In, lab_mem_In in Em'. rewrite Em'.
                rewrite nth_error_map. apply pos_of_nth in Em. now rewrite Em.
        * destruct (lab_mem_spec c' (t_cols t)) as [Hc'|Hc'].
          -- apply pos_of_None in Em. contradiction.
          -- now destruct (lab_mem k (t_index t)).
    - rewrite dget_dset_other by congruence. reflexivity.
  Qed.

  (** Inner loop: one entity, several columns. *)
  Lemma remap_item_ok data item : wf_table data -> In (snd item) (t_index data) ->
    forall cols fx, wf_table fx -> t_cols fx = t_cols data -> (forall c, In c cols -> In c (t_cols data)) ->
    exists fx', foldM (remap_cell data item) cols fx = Ok fx' /\ wf_table fx' /\ t_cols fx' = t_cols data /\
      t_index fx' = (if match cols with [] => true | _ => false end then t_index fx else enlarged (t_index fx) [fst item]) /\
      forall k c, cell fx' k c =
        if lab_eqb k (fst item) && negb (match cols with [] => true | _ => false end) then
          if lab_mem c cols then cell data (snd item) c
          else if lab_mem k (t_index fx) then cell fx k c
          else if lab_mem c (t_cols data) then Some None else None
        else cell fx k c.
  Proof.
    intros W Hs. induction cols as [|c0 cols IH]; intros fx Wf Ec Hcols.
    - exists fx. cbn. repeat split; auto. 1-3: apply Wf. intros k c. now rewrite andb_false_r.
    - cbn [foldM]. unfold remap_cell at 1.
      assert (Hc0 : In c0 (t_cols data)) by (apply Hcols; now left).
      destruct (proj2 (cell_Some_iff data (snd item) c0 W) (conj Hs Hc0)) as [v Ev].
      assert (Er : t_read data c0 (snd item) = Ok v).
      { unfold cell in Ev. destruct (t_read data c0 (snd item)); congruence. }
      rewrite Er. cbn.
      assert (Hc0' : In c0 (t_cols fx)) by now rewrite Ec.
      destruct (IH (t_write fx (fst item) c0 v)) as (fx' & E1 & W1 & C1 & I1 & Cell1).
      { now apply t_write_wf. } { now rewrite t_write_cols. } { intros c Hc. apply Hcols. now right. }
      exists fx'. split; [exact E1|]. split; [easy|]. split; [easy|]. split.
      + rewrite I1. rewrite t_write_index by easy. cbn.
        destruct cols; [easy|]. cbn.
        destruct (lab_mem_spec (fst item) (t_index fx)) as [Hk|Hk].
        * now rewrite (proj2 (lab_mem_In _ _) Hk).
        * assert (Hm : lab_mem (fst item) (t_index fx ++ [fst item]) = true).
          { apply lab_mem_In. rewrite in_app_iff. right. now left. }
          now rewrite Hm.
      + intros k c. rewrite Cell1. rewrite (t_write_cell fx) by easy. rewrite t_write_index by easy.
        rewrite Ec. cbn [negb]. rewrite andb_true_r.
        destruct (lab_eqb_spec k (fst item)) as [->|Nk]; cbn [andb]; [|easy].
        assert (Hmm : lab_mem (fst item) (if lab_mem (fst item) (t_index fx) then t_index fx else t_index fx ++ [fst item]) = true).
        { apply lab_mem_In. destruct (lab_mem_spec (fst item) (t_index fx)); [easy|]. rewrite in_app_iff. right. now left. }
        rewrite Hmm. cbn [lab_mem existsb]. change (existsb (lab_eqb c) cols) with (lab_mem c cols).
        destruct (lab_eqb_spec c c0) as [->|Nc]; cbn [orb].
        * destruct cols as [|c1 cols]; cbn [negb]; [now rewrite Ev|].
          destruct (lab_mem c0 (c1 :: cols)); [easy|]. now rewrite Ev.
        * destruct cols as [|c1 cols]; cbn [negb]; [easy|].
          destruct (lab_mem c (c1 :: cols)); easy.
  Qed.

  (** What remapping shows in cell (k, c), in terms of the original data only. *)
  Definition remapped_cell (data : table K C A) (r : list (K * K)) (cols : list C) (k : K) (c : C) : option (option A) :=
    match listed_source r k with
    | None => cell data k c
    | Some s => if lab_mem c cols then cell data s c
                else if lab_mem k (t_index data) then cell data k c
                else match cols with [] => None | _ => if lab_mem c (t_cols data) then Some None else None end
    end.

  Lemma enlarged_In (idx ks : list K) k : In k (enlarged idx ks) <-> In k idx \/ In k ks.
  Proof.
    revert idx. induction ks as [|x ks IH]; intro idx; cbn; [tauto|].
    rewrite IH. destruct (lab_mem_spec x idx) as [Hx|Hx].
    - split; [tauto|]. intros [|[->|]]; auto.
    - rewrite in_app_iff. cbn. tauto.
  Qed.

  Lemma enlarged_app (idx ks ks' : list K) : enlarged idx (ks ++ ks') = enlarged (enlarged idx ks) ks'.
  Proof. revert idx. induction ks as [|x ks IH]; intro idx; cbn; auto. Qed.

  Lemma enlarged_incl (idx ks : list K) : (forall k, In k ks -> In k idx) -> enlarged idx ks = idx.
  Proof.
    revert idx. induction ks as [|x ks IH]; intros idx Hi; cbn; [easy|].
    rewrite (proj2 (lab_mem_In _ _)); [|apply Hi; now left]. apply IH. intros k Hk. apply Hi. now right.
  Qed.

  Lemma listed_source_app (r r' : list (K * K)) k :
    listed_source (r ++ r') k = match listed_source r' k with Some s => Some s | None => listed_source r k end.
  Proof.
    induction r as [|[a b] r IH]; cbn; [now destruct (listed_source r' k)|].
    rewrite IH. now destruct (listed_source r' k).
  Qed.

  Lemma listed_source_None (r : list (K * K)) k : listed_source r k = None <-> ~ In k (map fst r).
  Proof.
    induction r as [|[a b] r IH]; cbn; [tauto|].
    destruct (listed_source r k) as [s|].
    - split; [discriminate|]. intro N. assert (~ In k (map fst r)) by tauto. apply IH in H. discriminate.
    - destruct (lab_eqb_spec a k) as [->|N].
      + split; [discriminate|]. intro F. exfalso. apply F. now left.
      + split; [|easy]. intros _. assert (~ In k (map fst r)) by now apply IH. tauto.
  Qed.

  Lemma listed_source_In (r : list (K * K)) k s : listed_source r k = Some s -> In (k, s) r.
  Proof.
    induction r as [|[a b] r IH]; cbn; [discriminate|].
    destruct (listed_source r k) as [s0|]; [intros [= ->]; right; now apply IH|].
    destruct (lab_eqb_spec a k) as [->|N]; [|discriminate]. intros [= ->]. now left.
  Qed.

  Lemma listed_source_dget (r : list (K * K)) k : listed_source r k = dget (rev r) k.
  Proof.
    induction r as [|[a b] r IH]; cbn; [easy|]. rewrite IH.
    generalize (rev r) as m. induction m as [|[k1 v1] m IHm]; cbn; [easy|].
    destruct (lab_eqb k1 k); auto.
  Qed.

  Lemma foldM_app {S X} (f : S -> X -> result S) l l' s :
    foldM f (l ++ l') s = rbind (foldM f l s) (foldM f l').
  Proof. revert s. induction l as [|x l IH]; intro s; cbn; [easy|]. destruct (f s x); cbn; auto. Qed.

  Lemma remap_loop_ok data cols : wf_table data -> (forall c, In c cols -> In c (t_cols data)) ->
    forall r, (forall p, In p r -> In (snd p) (t_index data)) ->
    exists fx, foldM (fun fx item => foldM (remap_cell data item) cols fx) r data = Ok fx /\ wf_table fx /\
      t_cols fx = t_cols data /\
      t_index fx = (match cols with [] => t_index data | _ => enlarged (t_index data) (map fst r) end) /\
      forall k c, cell fx k c = remapped_cell data r cols k c.
  Proof.
    intros W Hcols r. induction r as [|it r IH] using rev_ind; intro Hr.
    - exists data. cbn. split; [easy|]. split; [easy|]. split; [easy|]. split; [now destruct cols|]. easy.
    - destruct IH as (fx & E & Wf & Cf & If & Cell).
      { intros p Hp. apply Hr. rewrite in_app_iff. now left. }
      destruct (remap_item_ok data it W) with (cols := cols) (fx := fx) as (fx' & E' & Wf' & Cf' & If' & Cell'); auto.
      { apply Hr. rewrite in_app_iff. right. now left. }
      exists fx'. rewrite foldM_app, E. cbn. rewrite E'. cbn.
      split; [easy|]. split; [easy|]. split; [easy|]. split.
      + rewrite If', If. destruct cols; [easy|]. rewrite map_app, enlarged_app. reflexivity.
      + intros k c. rewrite Cell', Cell. unfold remapped_cell. rewrite listed_source_app. cbn [listed_source].
        destruct it as [a b]. cbn [fst snd].
        destruct (lab_eqb_spec k a) as [->|Nk]; cbn [andb].
        * rewrite lab_eqb_refl. destruct cols as [|c0 cols]; cbn [negb].
          -- cbn [lab_mem existsb]. destruct (lab_mem_spec a (t_index data)) as [Ha|Ha].
             ++ destruct (listed_source r a); [|easy]. now destruct (lab_mem c []).
             ++ assert (EN : cell data a c = None) by (apply cell_None_iff; tauto).
                destruct (listed_source r a); easy.
          -- set (cs := c0 :: cols) in *. destruct (lab_mem c cs); [easy|].
             rewrite If. destruct (lab_mem_spec a (t_index data)) as [Ha|Ha].
             ++ assert (Hm : lab_mem a (enlarged (t_index data) (map fst r)) = true).
                { apply lab_mem_In, enlarged_In. now left. }
                unfold cs in *. rewrite Hm. destruct (listed_source r a); easy.
             ++ unfold cs in *. destruct (lab_mem_spec a (enlarged (t_index data) (map fst r))) as [Hm|Hm].
                ** apply enlarged_In in Hm. destruct Hm as [|Hm]; [contradiction|].
                   destruct (listed_source r a) as [s|] eqn:Es; [easy|]. apply listed_source_None in Es. contradiction.
                ** easy.
        * rewrite lab_eqb_neq by congruence. easy.
  Qed.

  Lemma t_read_err t c k e : wf_table t -> t_read t c k = Err e -> e = KeyError.
  Proof.
    intros _. unfold t_read. destruct (pos_of c (t_cols t)); [|congruence].
    destruct (dget (t_rows t) k); [|congruence]. destruct (nth_error l n); congruence.
  Qed.

  Lemma remap_cell_err data it fx c e : wf_table data -> remap_cell data it fx c = Err e -> e = KeyError.
  Proof.
    intro W. unfold remap_cell. destruct (t_read data c (snd it)) as [v|e0] eqn:E; cbn; [discriminate|].
    intros [= <-]. now apply t_read_err in E.
  Qed.

  Lemma foldM_err {S X} (f : S -> X -> result S) (e0 : exn) l s e :
    (forall s x e, f s x = Err e -> e = e0) -> foldM f l s = Err e -> e = e0.
  Proof.
    intro Hf. revert s. induction l as [|x l IH]; intro s; cbn; [discriminate|].
    destruct (f s x) as [s'|e1] eqn:E; cbn; [apply IH|]. intros [= <-]. now apply Hf in E.
  Qed.

  Lemma remap_read_all data cols r fx fx' : wf_table data ->
    foldM (fun fx item => foldM (remap_cell data item) cols fx) r fx = Ok fx' ->
    forall p c, In p r -> In c cols -> In (snd p) (t_index data) /\ In c (t_cols data).
  Proof.
    intros W. revert fx. induction r as [|it r IH]; intros fx E p c Hp Hc; [easy|].
    cbn [foldM] in E. destruct (foldM (remap_cell data it) cols fx) as [fx1|] eqn:E1; [|discriminate].
    cbn in E. destruct Hp as [<-|Hp]; [|now apply (IH fx1)].
    clear E IH. revert fx E1. induction cols as [|c0 cols IHc]; intros fx E1; [easy|].
    cbn in E1. destruct (remap_cell data it fx c0) as [fx2|] eqn:E2; [|discriminate]. cbn in E1.
    destruct Hc as [<-|Hc]; [|now apply (IHc Hc fx2)].
    unfold remap_cell in E2. destruct (t_read data c0 (snd it)) as [v|] eqn:Er; [|discriminate].
    apply (cell_Some_iff data _ _ W). exists v. unfold cell. now rewrite Er.
  Qed.

  Definition eff_cols (data : table K C A) (columns : option (list C)) : list C :=
    match columns with None => t_cols data | Some cs => cs end.

  (** Complete behaviour of remap_positions. *)
  Lemma remap_positions_ok data r columns : wf_table data ->
    (forall p c, In p r -> In c (eff_cols data columns) -> In (snd p) (t_index data) /\ In c (t_cols data)) ->
    exists fx, remap_positions data r columns = Ok fx /\ wf_table fx /\
      t_cols fx = t_cols data /\
      t_index fx = (match eff_cols data columns with [] => t_index data | _ => enlarged (t_index data) (map fst r) end) /\
      forall k c, cell fx k c = remapped_cell data r (eff_cols data columns) k c.
  Proof.
    intros W Hr. unfold remap_positions. fold (eff_cols data columns). set (cols := eff_cols data columns) in *.
    destruct r as [|p0 r0].
    - exists data. cbn. split; [easy|]. split; [easy|]. split; [easy|]. split; [now destruct cols|]. easy.
    - destruct cols as [|c0 cs].
      + exists data. split; [|split; [easy|split; [easy|split; [easy|]]]].
        * generalize (p0 :: r0) as r. induction r as [|p r IH]; cbn; auto.
        * intros k c. unfold remapped_cell. destruct (listed_source (p0 :: r0) k); [|easy].
          cbn. destruct (lab_mem_spec k (t_index data)) as [Hk|Hk]; [easy|].
          apply cell_None_iff; tauto.
      + apply remap_loop_ok; auto.
        * intros c Hc. now apply (Hr p0); [left|].
        * intros p Hp. now apply (Hr p c0); [|left].
  Qed.

  Lemma remap_positions_err data r columns e : wf_table data ->
    remap_positions data r columns = Err e ->
    e = KeyError /\ exists p c, In p r /\ In c (eff_cols data columns) /\ (~ In (snd p) (t_index data) \/ ~ In c (t_cols data)).
  Proof.
    intros W E. split.
    - unfold remap_positions in E. eapply foldM_err; [|exact E].
      intros fx it e' E'. eapply foldM_err; [|exact E']. intros s x e'' E''. now apply remap_cell_err in E''.
    - destruct (existsb (fun p => existsb (fun c => negb (lab_mem (snd p) (t_index data) && lab_mem c (t_cols data)))
                        (eff_cols data columns)) r) eqn:Ex.
      + apply existsb_exists in Ex. destruct Ex as (p & Hp & Ex). apply existsb_exists in Ex. destruct Ex as (c & Hc & Ex).
        exists p, c. split; [easy|]. split; [easy|].
        destruct (lab_mem_spec (snd p) (t_index data)); [|now left]. destruct (lab_mem_spec c (t_cols data)); [|now right]. discriminate.
      + exfalso. destruct (remap_positions_ok data r columns W) as (fx & E' & _); [|congruence].
        intros p c Hp Hc.
        assert (F : forall b, existsb b r = false -> b p = false).
        { intros b Hb. destruct (b p) eqn:Eb; [|easy]. assert (existsb b r = true) by (apply existsb_exists; eauto). congruence. }
        apply F in Ex. 
        assert (G : forall b, existsb b (eff_cols data columns) = false -> b c = false).
        { intros b Hb. destruct (b c) eqn:Eb; [|easy]. assert (existsb b (eff_cols data columns) = true) by (apply existsb_exists; eauto). congruence. }
        apply G in Ex. apply negb_false_iff, andb_true_iff in Ex. rewrite !lab_mem_In in Ex. exact Ex.
  Qed.

  Lemma remap_positions_err_iff data r columns : wf_table data ->
    remap_positions data r columns = Err KeyError <->
    exists p c, In p r /\ In c (eff_cols data columns) /\ (~ In (snd p) (t_index data) \/ ~ In c (t_cols data)).
  Proof.
    intro W. split.
    - intro E. now apply remap_positions_err in E.
    - intros (p & c & Hp & Hc & N).
      destruct (remap_positions data r columns) as [fx|e] eqn:E.
      + exfalso. unfold remap_positions in E. fold (eff_cols data columns) in E.
        apply remap_read_all with (p := p) (c := c) in E; auto. tauto.
      + apply remap_positions_err in E; [|easy]. now destruct E as [-> _].
  Qed.

  (** Frames are determined by columns, index and cells. *)
  Lemma table_ext t t' : wf_table t -> wf_table t' -> t_cols t = t_cols t' -> t_index t = t_index t' ->
    (forall k c, cell t k c = cell t' k c) -> t = t'.
  Proof.
    intros W W' EC EI Hc. destruct t as [cols rows], t' as [cols' rows']. cbn in EC. subst cols'.
    f_equal. apply dict_ext; [apply W|exact EI|]. intro k.
    destruct (dget rows k) as [row|] eqn:Er.
    - assert (Hk : In k (dkeys rows')).
      { unfold t_index in EI. cbn in EI. unfold dkeys. rewrite <- EI. now apply dget_Some_key in Er. }
      destruct (dget_key_Some _ _ Hk) as [row' Er']. rewrite Er'. f_equal.
      pose proof (wf_row (mkTable cols rows) k row W Er) as L. pose proof (wf_row (mkTable cols rows') k row' W' Er') as L'.
      cbn in L, L'. apply nth_error_ext. intro n.
      destruct (nth_error cols n) as [c|] eqn:En.
      + specialize (Hc k c). unfold cell, t_read in Hc. cbn in Hc.
        rewrite (pos_of_NoDup cols c n (proj1 W) En), Er, Er' in Hc.
        destruct (nth_error row n), (nth_error row' n); congruence.
      + apply nth_error_None in En.
        assert (F : forall r : list (option A), length r = length cols -> nth_error r n = None).
        { intros r Lr. apply nth_error_None. lia. }
        now rewrite !F.
    - symmetry. apply dget_None. unfold t_index in EI. cbn in EI. unfold dkeys. rewrite <- EI. now apply dget_None in Er.
  Qed.

  (** ** Applying remaps in sequence *)
  Lemma remap_all_ok data r : wf_table data ->
    (forall p, In p r -> In (fst p) (t_index data) /\ In (snd p) (t_index data)) ->
    exists fx, remap_positions data r None = Ok fx /\ wf_table fx /\ t_cols fx = t_cols data /\ t_index fx = t_index data /\
      forall k c, cell fx k c = match listed_source r k with None => cell data k c | Some s => cell data s c end.
  Proof.
    intros W Hr. destruct (remap_positions_ok data r None W) as (fx & E & Wf & Cf & If & Cell).
    { intros p c Hp Hc. split; [now apply Hr|exact Hc]. }
    exists fx. split; [easy|]. split; [easy|]. split; [easy|]. split.
    - rewrite If. destruct (eff_cols data None) eqn:Ee; [easy|]. apply enlarged_incl.
      intros k Hk. apply in_map_iff in Hk. destruct Hk as (p & <- & Hp). now apply Hr.
    - intros k c. rewrite Cell. unfold remapped_cell. destruct (listed_source r k) as [s|] eqn:Es; [|easy].
      cbn [eff_cols]. destruct (lab_mem_spec c (t_cols data)) as [Hc|Hc]; [easy|].
      assert (N : forall k, cell data k c = None) by (intro; apply cell_None_iff; tauto).
      rewrite !N. destruct (lab_mem k (t_index data)); [easy|]. destruct (t_cols data); easy.
  Qed.
End TableFacts.

(** ** cascade_remap *)
Section Cascade.
  Context {K : Type} `{HK : Label K}.
  Implicit Types (r : list (K * K)) (k : K).

  Definition composed r1 r2 k : option K :=
    match listed_source r2 k with Some b => listed_source r1 b | None => None end.

  Definition by_key (p q : K * K) : bool := lab_leb (fst p) (fst q).

  Lemma dget_dict_listed r k : dget (dict_of r) k = listed_source r k.
  Proof. now rewrite dget_dict_of, listed_source_dget. Qed.

  Lemma listed_source_NoDup r k : NoDup (map fst r) -> listed_source r k = dget r k.
  Proof. intro ND. rewrite listed_source_dget. now apply dget_rev_NoDup. Qed.

  Lemma listed_source_perm r r' k : NoDup (map fst r) -> Permutation r r' -> listed_source r k = listed_source r' k.
  Proof.
    intros ND HP.
    assert (ND' : NoDup (map fst r')) by (apply (Permutation_NoDup (Permutation_map fst HP)); exact ND).
    rewrite !listed_source_NoDup by easy.
    destruct (dget r k) as [v|] eqn:E.
    - symmetry. apply dget_NoDup; [easy|]. apply (Permutation_in _ HP). now apply dget_In.
    - symmetry. apply dget_None. apply dget_None in E. intro F. apply E.
      unfold dkeys in *. apply (Permutation_in _ (Permutation_sym (Permutation_map fst HP))). exact F.
  Qed.

  Definition cascade_step (r1 r2 G : list (K * K)) (key : K) : result (list (K * K)) :=
    match dget (dict_of r2) key with
    | None => Err KeyError
    | Some b => match dget (dict_of r1) b with None => Err KeyError | Some a => Ok (dset G key a) end
    end.

  Lemma cascade_step_eq r1 r2 G key :
    cascade_step r1 r2 G key = match composed r1 r2 key with Some a => Ok (dset G key a) | None => Err KeyError end.
  Proof.
    unfold cascade_step, composed. rewrite dget_dict_listed.
    destruct (listed_source r2 key) as [b|]; [|easy]. rewrite dget_dict_listed. now destruct (listed_source r1 b).
  Qed.

  Lemma cascade_fold_ok r1 r2 ks : forall G,
    (forall k, In k ks -> composed r1 r2 k <> None) -> NoDup (dkeys G ++ ks) ->
    exists G', foldM (cascade_step r1 r2) ks G = Ok G' /\ dkeys G' = dkeys G ++ ks /\
      forall k, dget G' k = if lab_mem k ks then composed r1 r2 k else dget G k.
  Proof.
    induction ks as [|x ks IH]; intros G Hd ND; cbn [foldM].
    - exists G. rewrite app_nil_r. now repeat split.
    - rewrite cascade_step_eq. destruct (composed r1 r2 x) as [a|] eqn:Ea; [|now apply Hd in Ea; [|left]].
      cbn. assert (Nx : ~ In x (dkeys G)).
      { apply NoDup_remove_2 in ND. rewrite in_app_iff in ND. tauto. }
      destruct (IH (dset G x a)) as (G' & E & EK & Hg).
      + intros k Hk. apply Hd. now right.
      + rewrite dset_keys_notin by easy. unfold dkeys in *. rewrite map_app. cbn. now rewrite <- app_assoc.
      + exists G'. split; [easy|]. split.
        * rewrite EK, dset_keys_notin by easy. unfold dkeys. rewrite map_app. cbn. now rewrite <- app_assoc.
        * intro k. rewrite Hg. cbn [lab_mem existsb]. change (existsb (lab_eqb k) ks) with (lab_mem k ks).
          destruct (lab_eqb_spec k x) as [->|N]; cbn [orb].
          -- rewrite dget_dset_same. destruct (lab_mem x ks); congruence.
          -- rewrite dget_dset_other by congruence. easy.
  Qed.

  Lemma cascade_fold_err r1 r2 ks G :
    (exists k, In k ks /\ composed r1 r2 k = None) -> foldM (cascade_step r1 r2) ks G = Err KeyError.
  Proof.
    revert G. induction ks as [|x ks IH]; intros G (k & Hk & E); [easy|]. cbn [foldM].
    rewrite cascade_step_eq. destruct (composed r1 r2 x) as [a|] eqn:Ea; cbn; [|easy].
    apply IH. destruct Hk as [->|Hk]; [congruence|]. eauto.
  Qed.

  Lemma composed_dec r1 r2 : (forall k, In k (map fst r1) -> composed r1 r2 k <> None) \/
    (exists k, In k (map fst r1) /\ composed r1 r2 k = None).
  Proof.
    induction (map fst r1) as [|x ks [IH|(k & Hk & E)]]; [now left| |].
    - destruct (composed r1 r2 x) as [a|] eqn:Ea.
      + left. intros k [<-|Hk]; [congruence|now apply IH].
      + right. exists x. split; [now left|easy].
    - right. exists k. split; [now right|easy].
  Qed.

  Lemma by_key_total p q : by_key p q = true \/ by_key q p = true.
  Proof. apply lab_total. Qed.
  Lemma by_key_trans p q s : by_key p q = true -> by_key q s = true -> by_key p s = true.
  Proof. apply lab_trans. Qed.

  Lemma cascade_unfold r1 r2 : cascade_remap r1 r2 =
    rbind (foldM (cascade_step r1 r2) (dkeys (dict_of r1)) []) (fun G => Ok (sort_by by_key G)).
  Proof. reflexivity. Qed.

  Lemma StronglySorted_nth {A} (R : A -> A -> Prop) l : StronglySorted R l ->
    forall i j p q, i < j -> nth_error l i = Some p -> nth_error l j = Some q -> R p q.
  Proof.
    induction 1 as [|x l HS IH HF]; intros [|i] [|j] p q Hij Ei Ej; cbn in *; try discriminate; try lia.
    - injection Ei as ->. rewrite Forall_forall in HF. apply HF. now apply nth_error_In in Ej.
    - now apply (IH i j); [lia| |].
  Qed.

  Lemma nth_StronglySorted {A} (R : A -> A -> Prop) l :
    (forall i j p q, i < j -> nth_error l i = Some p -> nth_error l j = Some q -> R p q) -> StronglySorted R l.
  Proof.
    induction l as [|x l IH]; intro Hn; constructor.
    - apply IH. intros i j p q Hij Ei Ej. now apply (Hn (S i) (S j)); [lia| |].
    - rewrite Forall_forall. intros y Hy. apply In_nth_error in Hy. destruct Hy as [n En].
      now apply (Hn 0 (S n)); [lia| |].
  Qed.

  Lemma by_entity_sorted r : by_entity r <-> StronglySorted (fun p q => by_key p q = true) r.
  Proof.
    split.
    - intro B. apply nth_StronglySorted. exact B.
    - intro S. exact (StronglySorted_nth _ r S).
  Qed.

  Lemma sort_by_entity r : by_entity (sort_by by_key r).
  Proof. apply by_entity_sorted, sort_by_sorted; [apply by_key_total|apply by_key_trans]. Qed.

  Lemma cascade_cases r1 r2 :
    ((exists k, In k (map fst r1) /\ composed r1 r2 k = None) /\ cascade_remap r1 r2 = Err KeyError) \/
    ((forall k, In k (map fst r1) -> composed r1 r2 k <> None) /\
     exists r, cascade_remap r1 r2 = Ok r /\ by_entity r /\ NoDup (map fst r) /\
       (forall k, In k (map fst r) <-> In k (map fst r1)) /\
       (forall k, listed_source r k = if lab_mem k (map fst r1) then composed r1 r2 k else None)).
  Proof.
    destruct (composed_dec r1 r2) as [Hd|Hn].
    - right. split; [easy|]. rewrite cascade_unfold.
      destruct (cascade_fold_ok r1 r2 (dkeys (dict_of r1)) []) as (G & E & EK & Hg).
      { intros k Hk. apply Hd. now apply dict_of_keys. } { cbn. apply dict_of_NoDup. }
      cbn [app dkeys map] in EK. rewrite E. cbn [rbind]. exists (sort_by by_key G). split; [easy|].
      assert (NDG : NoDup (map fst G)) by (change (NoDup (dkeys G)); rewrite EK; apply dict_of_NoDup).
      assert (PG : Permutation G (sort_by by_key G)) by apply sort_by_perm.
      split; [apply sort_by_entity|]. split.
      { apply (Permutation_NoDup (Permutation_map fst PG)). exact NDG. }
      split.
      + intro k. rewrite <- (dict_of_keys r1), <- EK. unfold dkeys.
        split; apply Permutation_in; [symmetry|]; now apply Permutation_map.
      + intro k. rewrite <- (listed_source_perm G) by easy. rewrite listed_source_NoDup by easy. rewrite Hg.
        destruct (lab_mem_spec k (dkeys (dict_of r1))) as [H1|H1]; destruct (lab_mem_spec k (map fst r1)) as [H2|H2]; auto.
        * apply (proj1 (dict_of_keys r1 k)) in H1. contradiction.
        * apply (proj2 (dict_of_keys r1 k)) in H2. contradiction.
    - left. split; [easy|]. rewrite cascade_unfold. rewrite cascade_fold_err; [easy|].
      destruct Hn as (k & Hk & E). exists k. split; [|easy]. now apply dict_of_keys.
  Qed.

  (** Remap lists sorted by entity without repeats are determined by their sources. *)
  Lemma remap_ext r r' : by_entity r -> by_entity r' -> NoDup (map fst r) -> NoDup (map fst r') ->
    (forall k, listed_source r k = listed_source r' k) -> r = r'.
  Proof.
    intros B B' ND ND' E.
    apply sorted_perm_unique with (R := fun p q => by_key p q = true).
    - intros p q Hp Hq H1 H2. destruct p as [k v], q as [k' v']. unfold by_key in *. cbn in *.
      assert (k = k') by now apply lab_antisym. subst k'. f_equal.
      apply (dget_NoDup r k v ND) in Hp. apply (dget_NoDup r k v' ND) in Hq. congruence.
    - now apply by_entity_sorted.
    - now apply by_entity_sorted.
    - apply NoDup_Permutation.
      + apply (NoDup_map_inv fst). exact ND.
      + apply (NoDup_map_inv fst). exact ND'.
      + intros [k v]. specialize (E k). rewrite !listed_source_NoDup in E by easy.
        split; intro Hi.
        * apply (dget_NoDup r k v ND) in Hi. apply dget_In. congruence.
        * apply (dget_NoDup r' k v ND') in Hi. apply dget_In. congruence.
  Qed.

  (** ** Permutations *)
  Lemma one_to_one_keys S r : NoDup S -> one_to_one S r -> NoDup (map fst r) /\ NoDup (map snd r).
  Proof.
    intros ND [P1 P2]. split; [apply (Permutation_NoDup (Permutation_sym P1) ND)|apply (Permutation_NoDup (Permutation_sym P2) ND)].
  Qed.

  Lemma one_to_one_source S r k : NoDup S -> one_to_one S r -> In k S -> exists s, listed_source r k = Some s /\ In s S.
  Proof.
    intros ND O Hk. destruct O as [P1 P2].
    destruct (listed_source r k) as [s|] eqn:E.
    - exists s. split; [easy|]. apply listed_source_In in E. apply (Permutation_in _ P2).
      now apply (in_map snd) in E.
    - apply listed_source_None in E. exfalso. apply E. now apply (Permutation_in _ (Permutation_sym P1)).
  Qed.

  Lemma one_to_one_outside S r k : one_to_one S r -> ~ In k S -> listed_source r k = None.
  Proof.
    intros [P1 P2] N. apply listed_source_None. intro F. apply N. now apply (Permutation_in _ P1).
  Qed.

  Lemma one_to_one_inj S r k k' s : NoDup S -> one_to_one S r ->
    listed_source r k = Some s -> listed_source r k' = Some s -> k = k'.
  Proof.
    intros ND O E E'. destruct (one_to_one_keys S r ND O) as [ND1 ND2].
    apply listed_source_In in E, E'.
    clear - E E' ND2. revert E E'. induction r as [|[a b] r IH]; cbn in *; [easy|].
    inversion ND2 as [|? ? Hn ND']; subst.
    intros [[= <- <-]|E] [[= ->]|E']; auto.
    - exfalso. apply Hn. now apply (in_map snd) in E'.
    - subst b. exfalso. apply Hn. now apply (in_map snd) in E.
  Qed.

  (** A remap given by an injective function on S is one-to-one. *)
  Lemma one_to_one_of S r : NoDup S -> NoDup (map fst r) ->
    (forall k, In k (map fst r) <-> In k S) ->
    (forall k s, listed_source r k = Some s -> In s S) ->
    (forall k k' s, listed_source r k = Some s -> listed_source r k' = Some s -> k = k') ->
    one_to_one S r.
  Proof.
    intros ND NDr HS Hin Hinj. split.
    - now apply NoDup_Permutation.
    - apply NoDup_Permutation_bis.
      + assert (G : forall l, NoDup (map fst l) -> (forall p, In p l -> In p r) -> NoDup (map snd l)).
        { induction l as [|[a b] l IH]; cbn; intros NDl Hl; constructor.
          - intro F. apply in_map_iff in F. destruct F as ([a' b'] & Eb & Hp). cbn in Eb. subst b'.
            inversion NDl as [|? ? Hn NDl']; subst.
            assert (a = a').
            { apply (Hinj a a' b).
              - rewrite listed_source_NoDup by easy. apply dget_NoDup; [easy|]. apply Hl. now left.
              - rewrite listed_source_NoDup by easy. apply dget_NoDup; [easy|]. apply Hl. now right. }
            subst a'. apply Hn. now apply (in_map fst) in Hp.
          - apply IH; [now inversion NDl|]. intros p Hp. apply Hl. now right. }
        apply G; auto.
      + rewrite map_length. rewrite <- (map_length fst).
        apply NoDup_incl_length; [easy|]. intros k Hk. now apply HS.
      + intros s Hs. apply in_map_iff in Hs. destruct Hs as ([k s'] & <- & Hp). cbn.
        apply (Hin k). rewrite listed_source_NoDup by easy. now apply dget_NoDup.
  Qed.

  Lemma cascade_perm S a b : NoDup S -> one_to_one S a -> one_to_one S b ->
    exists r, cascade_remap a b = Ok r /\ one_to_one S r /\ by_entity r /\
      forall k, listed_source r k = composed a b k.
  Proof.
    intros ND Oa Ob. destruct (cascade_cases a b) as [[(k & Hk & E) _]|(_ & r & E & B & NDr & HS & Hl)].
    - exfalso. assert (HkS : In k S) by (apply (Permutation_in _ (proj1 Oa)); exact Hk).
      destruct (one_to_one_source S b k ND Ob HkS) as (s & Es & HsS).
      destruct (one_to_one_source S a s ND Oa HsS) as (s' & Es' & _).
      unfold composed in E. rewrite Es in E. congruence.
    - exists r. split; [easy|].
      assert (Hcomp : forall k, listed_source r k = composed a b k).
      { intro k. rewrite Hl. destruct (lab_mem_spec k (map fst a)) as [Hk|Hk]; [easy|].
        unfold composed. rewrite (one_to_one_outside S b k Ob); [easy|]. intro F. apply Hk.
        now apply (Permutation_in _ (Permutation_sym (proj1 Oa))). }
      split; [|easy]. apply one_to_one_of; auto.
      + intro k. rewrite HS. split; apply Permutation_in; [|symmetry]; apply Oa.
      + intros k s Es. rewrite Hcomp in Es. unfold composed in Es.
        destruct (listed_source b k) as [m|]; [|discriminate].
        destruct (lab_mem_spec m S) as [Hm|Hm].
        * destruct (one_to_one_source S a m ND Oa Hm) as (s' & Es' & Hs'). congruence.
        * rewrite (one_to_one_outside S a m Oa Hm) in Es. discriminate.
      + intros k k' s E1 E2. rewrite Hcomp in E1, E2. unfold composed in *.
        destruct (listed_source b k) as [m|] eqn:Em; [|discriminate].
        destruct (listed_source b k') as [m'|] eqn:Em'; [|discriminate].
        assert (m = m') by (apply (one_to_one_inj S a m m' s); auto). subst m'.
        now apply (one_to_one_inj S b k k' m).
  Qed.

  Lemma cascade_assoc S a b c : NoDup S -> one_to_one S a -> one_to_one S b -> one_to_one S c ->
    exists ab bc r, cascade_remap a b = Ok ab /\ cascade_remap b c = Ok bc /\
      cascade_remap ab c = Ok r /\ cascade_remap a bc = Ok r /\ one_to_one S r.
  Proof.
    intros ND Oa Ob Oc.
    destruct (cascade_perm S a b ND Oa Ob) as (ab & E1 & O1 & B1 & L1).
    destruct (cascade_perm S b c ND Ob Oc) as (bc & E2 & O2 & B2 & L2).
    destruct (cascade_perm S ab c ND O1 Oc) as (r & E3 & O3 & B3 & L3).
    destruct (cascade_perm S a bc ND Oa O2) as (r' & E4 & O4 & B4 & L4).
    assert (r = r').
    { destruct (one_to_one_keys S r ND O3), (one_to_one_keys S r' ND O4). apply remap_ext; auto.
      intro k. rewrite L3, L4. unfold composed at 1 2. rewrite L2. unfold composed.
      destruct (listed_source c k) as [m|]; [|easy]. rewrite L1. reflexivity. }
    subst r'. now exists ab, bc, r.
  Qed.

  Lemma identity_one_to_one (S : list K) : one_to_one S (identity_remap S).
  Proof. unfold identity_remap. split; rewrite map_map; cbn; now rewrite map_id. Qed.

  Lemma identity_source (S : list K) k : listed_source (identity_remap S) k = if lab_mem k S then Some k else None.
  Proof.
    unfold identity_remap. induction S as [|x S IH]; cbn; [easy|].
    rewrite IH. change (existsb (lab_eqb k) S) with (lab_mem k S). destruct (lab_mem k S) eqn:E; cbn.
    - now destruct (lab_eqb k x).
    - destruct (lab_eqb_spec x k) as [->|N]; [now rewrite lab_eqb_refl|]. now rewrite lab_eqb_neq by congruence.
  Qed.

  Lemma sorted_remap_source S r k : NoDup S -> one_to_one S r -> listed_source (sort_by by_key r) k = listed_source r k.
  Proof.
    intros ND O. symmetry. apply listed_source_perm; [now apply (one_to_one_keys S r)|]. apply sort_by_perm.
  Qed.

  Lemma one_to_one_sorted S r : one_to_one S r -> one_to_one S (sort_by by_key r).
  Proof.
    intros [P1 P2]. split.
    - rewrite <- P1. symmetry. apply Permutation_map, sort_by_perm.
    - rewrite <- P2. symmetry. apply Permutation_map, sort_by_perm.
  Qed.

  Lemma cascade_identity_l S a : NoDup S -> one_to_one S a ->
    cascade_remap (identity_remap S) a = Ok (sort_by by_key a).
  Proof.
    intros ND Oa. destruct (cascade_perm S _ a ND (identity_one_to_one S) Oa) as (r & E & O & B & L).
    rewrite E. f_equal.
    destruct (one_to_one_keys S r ND O), (one_to_one_keys S _ ND (one_to_one_sorted S a Oa)).
    apply remap_ext; auto. { apply sort_by_entity. }
    intro k. rewrite L, (sorted_remap_source S) by easy. unfold composed.
    destruct (listed_source a k) as [m|] eqn:Em; [|easy]. rewrite identity_source.
    destruct (lab_mem_spec m S) as [Hm|Hm]; [easy|]. exfalso. apply Hm.
    apply listed_source_In in Em. apply (Permutation_in _ (proj2 Oa)). now apply (in_map snd) in Em.
  Qed.

  Lemma cascade_identity_r S a : NoDup S -> one_to_one S a ->
    cascade_remap a (identity_remap S) = Ok (sort_by by_key a).
  Proof.
    intros ND Oa. destruct (cascade_perm S a _ ND Oa (identity_one_to_one S)) as (r & E & O & B & L).
    rewrite E. f_equal.
    destruct (one_to_one_keys S r ND O), (one_to_one_keys S _ ND (one_to_one_sorted S a Oa)).
    apply remap_ext; auto. { apply sort_by_entity. }
    intro k. rewrite L, (sorted_remap_source S) by easy. unfold composed. rewrite identity_source.
    destruct (lab_mem_spec k S) as [Hm|Hm]; [easy|]. symmetry. now apply (one_to_one_outside S).
  Qed.

  Lemma inverse_one_to_one (S : list K) a : one_to_one S a -> one_to_one S (inverse_remap a).
  Proof. intros [P1 P2]. unfold inverse_remap. split; rewrite map_map; cbn; assumption. Qed.

  Lemma inverse_source (S : list K) a k s : NoDup S -> one_to_one S a ->
    listed_source (inverse_remap a) s = Some k <-> listed_source a k = Some s.
  Proof.
    intros ND O. destruct (one_to_one_keys S a ND O) as [N1 N2].
    destruct (one_to_one_keys S _ ND (inverse_one_to_one S a O)) as [N3 N4].
    rewrite !listed_source_NoDup by easy. unfold inverse_remap. split; intro E.
    - apply dget_In in E. apply in_map_iff in E. destruct E as ([k' s'] & Ep & Hp). cbn in Ep. injection Ep as -> ->.
      now apply dget_NoDup.
    - apply dget_In in E. apply dget_NoDup; [easy|]. apply in_map_iff. now exists (k, s).
  Qed.

  Lemma cascade_inverse (S : list K) a : NoDup S -> one_to_one S a ->
    cascade_remap a (inverse_remap a) = Ok (sort_by by_key (identity_remap S)) /\
    cascade_remap (inverse_remap a) a = Ok (sort_by by_key (identity_remap S)).
  Proof.
    intros ND Oa. pose proof (inverse_one_to_one S a Oa) as Oi. split.
    - destruct (cascade_perm S a _ ND Oa Oi) as (r & E & O & B & L). rewrite E. f_equal.
      destruct (one_to_one_keys S r ND O), (one_to_one_keys S _ ND (one_to_one_sorted S _ (identity_one_to_one S))).
      apply remap_ext; auto. { apply sort_by_entity. }
      intro k. rewrite L, (sorted_remap_source S) by (auto using identity_one_to_one). rewrite identity_source. unfold composed.
      destruct (lab_mem_spec k S) as [Hk|Hk].
      + destruct (one_to_one_source S _ k ND Oi Hk) as (m & Em & _). rewrite Em. exact (proj1 (inverse_source S a m k ND Oa) Em).
      + now rewrite (one_to_one_outside S _ k Oi Hk).
    - destruct (cascade_perm S _ a ND Oi Oa) as (r & E & O & B & L). rewrite E. f_equal.
      destruct (one_to_one_keys S r ND O), (one_to_one_keys S _ ND (one_to_one_sorted S _ (identity_one_to_one S))).
      apply remap_ext; auto. { apply sort_by_entity. }
      intro k. rewrite L, (sorted_remap_source S) by (auto using identity_one_to_one). rewrite identity_source. unfold composed.
      destruct (lab_mem_spec k S) as [Hk|Hk].
      + destruct (one_to_one_source S _ k ND Oa Hk) as (m & Em & _). rewrite Em. exact (proj2 (inverse_source S a k m ND Oa) Em).
      + now rewrite (one_to_one_outside S _ k Oa Hk).
  Qed.
End Cascade.

(** Composition law for remapping data. *)
Lemma cascade_composes {K C A} `{HK : Label K} `{HC : Label C} (data : table K C A) (r1 r2 : list (K * K)) :
  wf_table data ->
  (forall p, In p r1 -> In (fst p) (t_index data) /\ In (snd p) (t_index data)) ->
  (forall k, In k (map fst r1) <-> In k (map fst r2)) ->
  (forall p, In p r2 -> In (snd p) (map fst r1)) ->
  exists r t1 t2, cascade_remap r1 r2 = Ok r /\ remap_positions data r1 None = Ok t1 /\
    remap_positions t1 r2 None = Ok t2 /\ remap_positions data r None = Ok t2.
Proof.
  intros W H1 HS H2.
  assert (H2' : forall p, In p r2 -> In (fst p) (t_index data) /\ In (snd p) (t_index data)).
  { intros p Hp. split.
    - assert (F : In (fst p) (map fst r1)) by (apply HS; now apply in_map).
      apply in_map_iff in F. destruct F as (q & <- & Hq). now apply H1.
    - apply H2 in Hp. apply in_map_iff in Hp. destruct Hp as (q & <- & Hq). now apply H1. }
  destruct (cascade_cases r1 r2) as [[(k & Hk & E) _]|(Hd & r & E & B & NDr & HSr & Hl)].
  { exfalso. unfold composed in E. destruct (listed_source r2 k) as [m|] eqn:Em.
    - apply listed_source_In in Em. apply H2 in Em. apply listed_source_None in E. cbn in Em. contradiction.
    - apply listed_source_None in Em. apply Em. now apply HS. }
  destruct (remap_all_ok data r1 W H1) as (t1 & E1 & W1 & C1 & I1 & L1).
  destruct (remap_all_ok t1 r2 W1) as (t2 & E2 & W2 & C2 & I2 & L2).
  { rewrite I1. exact H2'. }
  destruct (remap_all_ok data r W) as (t3 & E3 & W3 & C3 & I3 & L3).
  { intros p Hp. assert (Hf : In (fst p) (map fst r1)) by (apply HSr; now apply in_map). split.
    - apply in_map_iff in Hf. destruct Hf as (q & <- & Hq). now apply H1.
    - assert (Es : listed_source r (fst p) = Some (snd p)).
      { rewrite listed_source_NoDup by easy. apply dget_NoDup; [easy|]. now destruct p. }
      rewrite Hl in Es. rewrite (proj2 (lab_mem_In _ _) Hf) in Es. unfold composed in Es.
      destruct (listed_source r2 (fst p)) as [m|]; [|discriminate]. apply listed_source_In in Es. now apply H1 in Es. }
  exists r, t1, t2. split; [easy|]. split; [easy|]. split; [easy|]. rewrite E3. f_equal.
  apply table_ext; auto.
  - congruence.
  - congruence.
  - intros k c. rewrite L3, L2, Hl.
    destruct (lab_mem_spec k (map fst r1)) as [Hk|Hk].
    + specialize (Hd k Hk). unfold composed in *. destruct (listed_source r2 k) as [m|]; [|easy].
      rewrite L1. now destruct (listed_source r1 m).
    + assert (En : listed_source r2 k = None) by (apply listed_source_None; now rewrite <- HS).
      rewrite En, L1. apply listed_source_None in Hk. now rewrite Hk.
Qed.
