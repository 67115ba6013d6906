(** Scaling a cloud field to target statistics. *)
From Verif Require Import Prelude PreludeFacts RealBase Fl RealStat Spec_stats M_stats P_stats P_list P_quantile X_stats_err Spec_copula M_cloudfield Spec_cloudfield
  X_copula_down X_field_pos X_cloud_random X_cloud_weights X_cloud_mask.
Local Open Scope R_scope.

Lemma ok_quantile q : 0 <= q <= 1 -> bad_quantile q = false.
Proof. intro H. unfold bad_quantile. rewrite !Rltb_false by lra. reflexivity. Qed.
Lemma fold_fmin l : forall a, exists m, fold_left fmin2 (map Fin l) (Fin a) = Fin m /\ smallest (a :: l) m.
Proof.
  induction l as [|b l IH]; intro a; [exists a; split; [easy|]; split; [now left|]; intros x [<-|[]]; lra|].
  cbn [map fold_left]. unfold fmin2 at 2. cbn [is_nan fltb]. destruct (Rltb_spec b a) as [H|H]; [destruct (IH b) as (m & E & I & L)|destruct (IH a) as (m & E & I & L)]; exists m; (split; [exact E|]).
  - split; [now right|]. intros x [<-|J]; [specialize (L b (or_introl eq_refl)); lra|now apply L].
  - split; [destruct I as [<-|I]; [now left|now right; right]|]. intros x [<-|[<-|J]]; [apply L; now left|specialize (L a (or_introl eq_refl)); lra|apply L; now right].
Qed.
Lemma fold_fmax l : forall a, exists m, fold_left fmax2 (map Fin l) (Fin a) = Fin m /\ largest (a :: l) m.
Proof.
  induction l as [|b l IH]; intro a; [exists a; split; [easy|]; split; [now left|]; intros x [<-|[]]; lra|].
  cbn [map fold_left]. unfold fmax2 at 2. cbn [is_nan fltb]. destruct (Rltb_spec a b) as [H|H]; [destruct (IH b) as (m & E & I & L)|destruct (IH a) as (m & E & I & L)]; exists m; (split; [exact E|]).
  - split; [now right|]. intros x [<-|J]; [specialize (L b (or_introl eq_refl)); lra|now apply L].
  - split; [destruct I as [<-|I]; [now left|now right; right]|]. intros x [<-|[<-|J]]; [apply L; now left|specialize (L a (or_introl eq_refl)); lra|apply L; now right].
Qed.
Lemma fmin_of_fin l m : smallest l m -> fmin_of (map Fin l) = Fin m.
Proof. intros [I L]. destruct l as [|a l]; [easy|]. cbn [map fmin_of]. destruct (fold_fmin l a) as (m' & -> & I' & L'). f_equal. apply Rle_antisym; auto. Qed.
Lemma fmax_of_fin l m : largest l m -> fmax_of (map Fin l) = Fin m.
Proof. intros [I L]. destruct l as [|a l]; [easy|]. cbn [map fmax_of]. destruct (fold_fmax l a) as (m' & -> & I' & L'). f_equal. apply Rle_antisym; auto. Qed.

Lemma lave_base_fin k top v : top <> 0 -> lave_base k top v = Fin (lave_cloud k top v).
Proof.
  intro N. unfold lave_base, lave_cloud. rewrite fdiv_fin by easy. cbn [fsub fadd fopp fltb]. replace (1 + - (v * (1 - k) / top)) with (1 - v * (1 - k) / top) by ring. set (x := 1 - v * (1 - k) / top).
  destruct (Rltb_spec 1 x) as [H|H]; cbn [fltb].
  - rewrite Rltb_false by lra. rewrite Rmin_left by lra. now rewrite Rmax_right by lra.
  - rewrite Rmin_right by lra. destruct (Rltb_spec x 0); [now rewrite Rmax_left by lra|now rewrite Rmax_right by lra].
Qed.
Lemma lave_cloud_range k top v : 0 <= lave_cloud k top v <= 1.
Proof. unfold lave_cloud. pose proof (Rmax_l 0 (Rmin 1 (1 - v * (1 - k) / top))). split; [easy|]. apply Rmax_lub; [lra|apply Rmin_l]. Qed.

(** Kinds against the code's masks. *)
Definition pure (p : pixel) : Prop := px_clear p = 0 \/ px_clear p = 1.
Lemma mask_zero : Reqb 0 1 = false /\ Reqb 0 0 = true /\ Rltb 0 0 = false /\ Reqb 1 1 = true /\ Reqb 1 0 = false /\ Rltb 0 1 = true.
Proof. repeat split; try (apply Reqb_false; intro; lra); try (apply Reqb_true; lra); try (apply Rltb_false; lra); apply Rltb_true; lra. Qed.
Ltac masks p := destruct mask_zero as (Z1 & Z2 & Z3 & Z4 & Z5 & Z6); unfold is_cloud, is_clear, is_edge, kind_of; intros [E|E]; rewrite E, ?Z1, ?Z2, ?Z3, ?Z4, ?Z5, ?Z6; destruct (Rltb 0 (px_edge p)); reflexivity.
Lemma kind_clear p : pure p -> is_clear p = same_kind_as Clear (kind_of p).
Proof. masks p. Qed.
Lemma kind_edge p : pure p -> is_edge p && Reqb (px_clear p) 0 = same_kind_as Edge (kind_of p).
Proof. masks p. Qed.
Lemma kind_cloud p : pure p -> is_cloud p = same_kind_as Cloud (kind_of p).
Proof. masks p. Qed.
Lemma of_kind_eq k f px : mask01 px -> (forall p, pure p -> f p = same_kind_as k (kind_of p)) -> filter f (concat px) = of_kind k px.
Proof. intros H E. apply filter_ext_in. intros p I. apply E, H, I. Qed.
Lemma sum_clear px : mask01 px -> Rsum (map px_clear (concat px)) = INR (length (of_kind Clear px)).
Proof.
  intro H. unfold of_kind. rewrite <- Rsum_indicator. f_equal. apply map_ext_in. intros p I. specialize (H p I). unfold kind_of. destruct mask_zero as (Z1 & _ & _ & Z4 & _). destruct H as [E|E]; rewrite E, ?Z1, ?Z4; [|reflexivity]. now destruct (Rltb 0 (px_edge p)).
Qed.
Lemma sum_kinds (f : pixel -> R) px : Rsum (map f (concat px)) = Rsum (map f (of_kind Clear px)) + Rsum (map f (of_kind Edge px)) + Rsum (map f (of_kind Cloud px)).
Proof.
  unfold of_kind. induction (concat px) as [|p l IH]; [cbn [filter map]; rewrite !Rsum_nil; lra|]. cbn [map filter]. rewrite Rsum_cons, IH. destruct (kind_of p); cbn [same_kind_as map]; rewrite Rsum_cons; lra.
Qed.
Lemma in_kind k px p : In p (of_kind k px) <-> In p (concat px) /\ kind_of p = k.
Proof. unfold of_kind. rewrite filter_In. destruct k, (kind_of p); cbn; intuition congruence. Qed.
Lemma map_fin {A} (f : A -> fl) g l : (forall x, In x l -> f x = Fin (g x)) -> map f l = map Fin (map g l).
Proof. intro H. rewrite map_map. now apply map_ext_in. Qed.
Lemma map_map_in {A B} (f g : A -> B) m : (forall x, In x (concat m) -> f x = g x) -> map (map f) m = map (map g) m.
Proof. intro H. apply map_ext_in. intros row I. apply map_ext_in. intros x J. apply H. apply in_concat. eauto. Qed.
Lemma not_clear_ne px : (exists p, In p (concat px) /\ px_clear p = 0) -> not_clear px <> [].
Proof. intros (p & I & E) N. unfold not_clear in N. apply map_eq_nil in N. assert (In p (filter (fun p => Reqb (px_clear p) 0) (concat px))) by (apply filter_In; split; [easy|now apply Reqb_true]). now rewrite N in H. Qed.

(*@ C74 The Lave scaling in full: clear pixels 1, other edges stretched over 1 .. ktmax, clouds inverted brightness scaled to the missing sum. *)
Lemma lave_value : forall px ktmean ktmax kt1pct q top lo hi, mask01 px -> (exists p, In p (concat px) /\ px_clear p = 0) ->
  0 <= q <= 1 -> is_quantile q (not_clear px) top -> top <> 0 ->
  let cloud p := lave_cloud kt1pct top (px_v p) in
  smallest (map cloud (concat px)) lo -> largest (map cloud (concat px)) hi -> lo < hi ->
  let edge p := 1 + (cloud p - lo) / (hi - lo) * (ktmax - 1) in
  let need := n_pixels px * ktmean - INR (length (of_kind Clear px)) - Rsum (map edge (of_kind Edge px)) in
  let have := Rsum (map cloud (of_kind Cloud px)) in
  scale_field_lave px ktmean ktmax kt1pct q = Ok (map (map (fun p =>
    match kind_of p with
    | Clear => Fin 1
    | Edge => Fin (edge p)
    | Cloud => if Rltb 0 need then if Reqb have 0 then Nan else Fin (need / have * cloud p) else Fin (cloud p)
    end)) px).
Proof.
  intros px ktmean ktmax k q top lo hi M Ex Hq Q N cloud Lo Hi LH edge need have. unfold scale_field_lave. rewrite (ok_quantile q Hq). fold (not_clear px).
  change (unclear_values px) with (not_clear px). pose proof (not_clear_ne px Ex) as Ne. destruct (not_clear px) as [|a l] eqn:En; [easy|]. rewrite <- En in *. clear En a l.
  rewrite (is_quantile_unique _ _ _ _ (quantile_is q _ Hq Ne) Q).
  assert (B : forall p, lave_base k top (px_v p) = Fin (cloud p)) by (intro; now apply lave_base_fin).
  assert (All : map (fun p => lave_base k top (px_v p)) (concat px) = map Fin (map cloud (concat px))) by (apply map_fin; intros; apply B). rewrite All.
  rewrite (fmin_of_fin _ lo Lo), (fmax_of_fin _ hi Hi).
  assert (CE : forall p, fadd (Fin 1) (fmul (fdiv (fsub (lave_base k top (px_v p)) (Fin lo)) (fsub (Fin hi) (Fin lo))) (Fin (ktmax - 1))) = Fin (edge p)).
  { intro p. rewrite B. cbn [fsub fopp fadd]. rewrite fdiv_fin by lra. cbn. reflexivity. }
  rewrite (of_kind_eq Edge (fun p => is_edge p && Reqb (px_clear p) 0) px M kind_edge). rewrite (of_kind_eq Cloud is_cloud px M kind_cloud). rewrite sum_clear by easy.
  rewrite (map_fin _ edge (of_kind Edge px)) by (intros; apply CE). rewrite fsum_fin. change (fsub (Fin (INR (length (concat px)) * ktmean - INR (length (of_kind Clear px)))) (Fin (Rsum (map edge (of_kind Edge px))))) with (Fin need).
  rewrite (map_fin _ cloud (of_kind Cloud px)) by (intros; apply B). unfold fmean. rewrite fsum_fin, !map_length. fold have. cbn [fltb]. f_equal. apply map_map_in. intros p I.
  rewrite (kind_clear p (M p I)). destruct (kind_of p) eqn:K; cbn [same_kind_as]; [reflexivity| |].
  - replace (is_edge p) with true; [apply CE|]. pose proof (kind_edge p (M p I)) as E. rewrite K in E. cbn [same_kind_as] in E. apply andb_prop in E. now destruct E.
  - replace (is_edge p) with false; [|pose proof (kind_edge p (M p I)) as E; rewrite K in E; cbn [same_kind_as] in E; unfold kind_of in K; destruct (Reqb (px_clear p) 1); [easy|]; unfold is_edge; now destruct (Rltb 0 (px_edge p))].
    destruct (Rltb_spec 0 need) as [P|P]; [|apply B]. assert (J : In p (of_kind Cloud px)) by now apply in_kind.
    assert (Np : 0 < INR (length (of_kind Cloud px))) by (apply (lt_INR 0); destruct (of_kind Cloud px); [easy|cbn; lia]). rewrite !fdiv_fin by lra. destruct (Reqb_spec have 0) as [Z|Z].
    + rewrite Z. replace (0 / INR (length (of_kind Cloud px))) with 0 by (field; lra). rewrite fdiv_zero, sgn_inf_pos by (now apply Rdiv_lt_0_compat). rewrite B.
      replace (cloud p) with 0; [cbn; apply sgn_inf_0|]. symmetry. apply (Rsum_zero_all (map cloud (of_kind Cloud px))); [|exact Z|now apply in_map].
      intros x Hx. apply in_map_iff in Hx. destruct Hx as (p' & <- & _). apply lave_cloud_range.
    + rewrite fdiv_fin; [|unfold Rdiv; intro X; apply Rmult_integral in X; destruct X as [X|X]; [easy|]; apply Rinv_neq_0_compat in X; [easy|lra]]. rewrite B. cbn. f_equal. field. split; lra.
Qed.

Lemma Rsum_ones {A} (l : list A) : Rsum (map (fun _ => 1) l) = INR (length l).
Proof. induction l as [|x l IH]; [reflexivity|]. cbn [map length]. rewrite Rsum_cons, S_INR, IH. ring. Qed.
Lemma Rsum_affine {A} a b (f : A -> R) l : Rsum (map (fun x => a * f x + b) l) = a * Rsum (map f l) + b * INR (length l).
Proof. induction l as [|x l IH]; [cbn [map length]; rewrite !Rsum_nil; cbn; ring|]. cbn [map length]. rewrite !Rsum_cons, S_INR, IH. ring. Qed.
Lemma out_fin (f : pixel -> fl) g px : (forall p, In p (concat px) -> f p = Fin (g p)) -> map (map f) px = map (map Fin) (map (map g) px).
Proof. intro H. rewrite map_map. rewrite (map_map_in f (fun p => Fin (g p)) px H). apply map_ext. intro row. now rewrite map_map. Qed.

(*@ C74 Whenever the clouds must contribute a positive amount and are not all black, the mean of the result is exactly ktmean. *)
Lemma lave_mean : forall px ktmean ktmax kt1pct q top lo hi, mask01 px -> (exists p, In p (concat px) /\ px_clear p = 0) ->
  0 <= q <= 1 -> is_quantile q (not_clear px) top -> top <> 0 ->
  let cloud p := lave_cloud kt1pct top (px_v p) in
  smallest (map cloud (concat px)) lo -> largest (map cloud (concat px)) hi -> lo < hi ->
  let edge p := 1 + (cloud p - lo) / (hi - lo) * (ktmax - 1) in
  0 < n_pixels px * ktmean - INR (length (of_kind Clear px)) - Rsum (map edge (of_kind Edge px)) ->
  (exists p, In p (of_kind Cloud px) /\ cloud p <> 0) ->
  exists out, scale_field_lave px ktmean ktmax kt1pct q = Ok (map (map Fin) out) /\ length (concat out) = length (concat px) /\ avg (concat out) = ktmean.
Proof.
  intros px ktmean ktmax k q top lo hi M Ex Hq Q N cloud Lo Hi LH edge P (pc & Ic & Nc). pose proof (lave_value px ktmean ktmax k q top lo hi M Ex Hq Q N Lo Hi LH) as V. cbv zeta in V. fold cloud in V.
  change (Rsum (map (fun p => 1 + (lave_cloud k top (px_v p) - lo) / (hi - lo) * (ktmax - 1)) (of_kind Edge px))) with (Rsum (map edge (of_kind Edge px))) in V.
  set (need := n_pixels px * ktmean - INR (length (of_kind Clear px)) - Rsum (map edge (of_kind Edge px))) in *. set (have := Rsum (map cloud (of_kind Cloud px))) in *.
  change (Rsum (map (fun p => lave_cloud k top (px_v p)) (of_kind Cloud px))) with have in V.
  assert (Hv : have <> 0). { intro Z. apply Nc. apply (Rsum_zero_all (map cloud (of_kind Cloud px))); [|exact Z|now apply in_map]. intros x Hx. apply in_map_iff in Hx. destruct Hx as (p' & <- & _). apply lave_cloud_range. }
  set (g := fun p => match kind_of p with Clear => 1 | Edge => edge p | Cloud => need / have * cloud p end).
  exists (map (map g) px). split; [|split].
  - rewrite V. f_equal. apply out_fin. intros p _. unfold g. destruct (kind_of p); [reflexivity|reflexivity|]. rewrite Rltb_true by easy. now rewrite Reqb_false.
  - rewrite concat_map_map. apply map_length.
  - unfold avg. rewrite concat_map_map, map_length. fold (n_pixels px). rewrite sum_kinds.
    assert (Np : n_pixels px <> 0). { unfold n_pixels. destruct Ex as (p & I & _). apply not_0_INR. destruct (concat px); easy. }
    assert (E1 : map g (of_kind Clear px) = map (fun _ => 1) (of_kind Clear px)) by (apply map_ext_in; intros p I; apply in_kind in I; unfold g; now rewrite (proj2 I)).
    assert (E2 : map g (of_kind Edge px) = map edge (of_kind Edge px)) by (apply map_ext_in; intros p I; apply in_kind in I; unfold g; now rewrite (proj2 I)).
    assert (E3 : map g (of_kind Cloud px) = map (fun p => need / have * cloud p) (of_kind Cloud px)) by (apply map_ext_in; intros p I; apply in_kind in I; unfold g; now rewrite (proj2 I)).
    rewrite E1, E2, E3. rewrite Rsum_map_scal. fold have. rewrite Rsum_ones.
    replace (need / have * have) with need by (field; easy). unfold need. field. easy.
Qed.
(*@ C74 When clear and edge pixels alone already reach the target sum, nothing is scaled and the mean is at least ktmean. *)
Lemma lave_excess : forall px ktmean ktmax kt1pct q top lo hi, mask01 px -> (exists p, In p (concat px) /\ px_clear p = 0) ->
  0 <= q <= 1 -> is_quantile q (not_clear px) top -> top <> 0 ->
  let cloud p := lave_cloud kt1pct top (px_v p) in
  smallest (map cloud (concat px)) lo -> largest (map cloud (concat px)) hi -> lo < hi ->
  let edge p := 1 + (cloud p - lo) / (hi - lo) * (ktmax - 1) in
  n_pixels px * ktmean <= INR (length (of_kind Clear px)) + Rsum (map edge (of_kind Edge px)) ->
  exists out, scale_field_lave px ktmean ktmax kt1pct q = Ok (map (map Fin) out) /\ length (concat out) = length (concat px) /\ ktmean <= avg (concat out).
Proof.
  intros px ktmean ktmax k q top lo hi M Ex Hq Q N cloud Lo Hi LH edge P. pose proof (lave_value px ktmean ktmax k q top lo hi M Ex Hq Q N Lo Hi LH) as V. cbv zeta in V. fold cloud in V.
  change (Rsum (map (fun p => 1 + (lave_cloud k top (px_v p) - lo) / (hi - lo) * (ktmax - 1)) (of_kind Edge px))) with (Rsum (map edge (of_kind Edge px))) in V.
  set (g := fun p => match kind_of p with Clear => 1 | Edge => edge p | Cloud => cloud p end).
  exists (map (map g) px). split; [|split].
  - rewrite V. f_equal. apply out_fin. intros p _. unfold g. destruct (kind_of p); [reflexivity|reflexivity|]. rewrite Rltb_false; [reflexivity|].
    change (n_pixels px * ktmean - INR (length (of_kind Clear px)) - Rsum (map edge (of_kind Edge px)) <= 0). lra.
  - rewrite concat_map_map. apply map_length.
  - unfold avg. rewrite concat_map_map, map_length. fold (n_pixels px). rewrite sum_kinds.
    assert (Np : 0 < n_pixels px). { unfold n_pixels. destruct Ex as (p & I & _). apply (lt_INR 0). destruct (concat px); [easy|cbn; lia]. }
    assert (E1 : map g (of_kind Clear px) = map (fun _ => 1) (of_kind Clear px)) by (apply map_ext_in; intros p I; apply in_kind in I; unfold g; now rewrite (proj2 I)).
    assert (E2 : map g (of_kind Edge px) = map edge (of_kind Edge px)) by (apply map_ext_in; intros p I; apply in_kind in I; unfold g; now rewrite (proj2 I)).
    assert (E3 : map g (of_kind Cloud px) = map cloud (of_kind Cloud px)) by (apply map_ext_in; intros p I; apply in_kind in I; unfold g; now rewrite (proj2 I)).
    rewrite E1, E2, E3. rewrite Rsum_ones.
    assert (0 <= Rsum (map cloud (of_kind Cloud px))) by (apply Rsum_nonneg; intros x Hx; apply in_map_iff in Hx; destruct Hx as (p' & <- & _); apply lave_cloud_range).
    apply (Rmult_le_reg_r (n_pixels px)); [easy|]. unfold Rdiv. rewrite Rmult_assoc, Rinv_l by lra. lra.
Qed.
(*@ C74 Ranges: clear pixels are 1, other edge pixels lie in 1 .. ktmax, clouds are never negative. *)
Lemma lave_ranges : forall px ktmean ktmax kt1pct q top lo hi, mask01 px -> (exists p, In p (concat px) /\ px_clear p = 0) ->
  0 <= q <= 1 -> is_quantile q (not_clear px) top -> top <> 0 -> 1 <= ktmax ->
  let cloud p := lave_cloud kt1pct top (px_v p) in
  smallest (map cloud (concat px)) lo -> largest (map cloud (concat px)) hi -> lo < hi ->
  exists out, scale_field_lave px ktmean ktmax kt1pct q = Ok out /\
    forall i j p, cell_at px i j p -> exists v, cell_at out i j v /\
      match kind_of p with
      | Clear => v = Fin 1
      | Edge => exists x, v = Fin x /\ 1 <= x <= ktmax
      | Cloud => v = Nan \/ exists x, v = Fin x /\ 0 <= x
      end.
Proof.
  intros px ktmean ktmax k q top lo hi M Ex Hq Q N K cloud Lo Hi LH. pose proof (lave_value px ktmean ktmax k q top lo hi M Ex Hq Q N Lo Hi LH) as V. cbv zeta in V.
  eexists. split; [exact V|]. intros i j p C. eexists. split; [apply map_cell; exists p; split; [exact C|reflexivity]|]. destruct (kind_of p); [reflexivity| |].
  - eexists. split; [reflexivity|]. pose proof (cell_in _ _ _ _ C) as I. assert (A : lo <= lave_cloud k top (px_v p)) by (apply Lo; now apply (in_map cloud)). assert (B : lave_cloud k top (px_v p) <= hi) by (apply Hi; now apply (in_map cloud)).
    assert (0 <= (lave_cloud k top (px_v p) - lo) / (hi - lo) <= 1).
    { split; [apply Rmult_le_pos; [lra|]; left; apply Rinv_0_lt_compat; lra|]. apply (Rmult_le_reg_r (hi - lo)); [lra|]. unfold Rdiv. rewrite Rmult_assoc, Rinv_l by lra. lra. }
    nra.
  - destruct (Rltb_spec 0 (n_pixels px * ktmean - INR (length (of_kind Clear px)) - Rsum (map (fun p0 => 1 + (lave_cloud k top (px_v p0) - lo) / (hi - lo) * (ktmax - 1)) (of_kind Edge px)))) as [P|P].
    + destruct (Reqb_spec (Rsum (map (fun p0 => lave_cloud k top (px_v p0)) (of_kind Cloud px))) 0) as [Z|Z]; [now left|right]. eexists. split; [reflexivity|].
      assert (0 <= Rsum (map (fun p0 => lave_cloud k top (px_v p0)) (of_kind Cloud px))) by (apply Rsum_nonneg; intros x Hx; apply in_map_iff in Hx; destruct Hx as (p' & <- & _); apply lave_cloud_range).
      apply Rmult_le_pos; [|apply lave_cloud_range]. left. apply Rdiv_lt_0_compat; lra.
    + right. eexists. split; [reflexivity|]. apply lave_cloud_range.
Qed.
(*@ C74 A field with no cloudy or edge pixel is refused. *)
Lemma lave_all_clear : forall px ktmean ktmax kt1pct q, 0 <= q <= 1 -> (forall p, In p (concat px) -> px_clear p <> 0) -> scale_field_lave px ktmean ktmax kt1pct q = Err IndexError.
Proof.
  intros px ktmean ktmax k q Hq H. unfold scale_field_lave, unclear_values. rewrite (ok_quantile q Hq). replace (filter (fun p => Reqb (px_clear p) 0) (concat px)) with (@nil pixel); [reflexivity|]. symmetry. apply filter_none. intros p I. apply Reqb_false. now apply H.
Qed.
(*@ C74 A quantile outside [0, 1] is refused, whatever the field. *)
Lemma lave_bad_quantile : forall px ktmean ktmax kt1pct q, q < 0 \/ 1 < q -> scale_field_lave px ktmean ktmax kt1pct q = Err ValueError.
Proof.
  intros px ktmean ktmax k q [H|H]; unfold scale_field_lave, bad_quantile; rewrite (Rltb_true _ _ H), ?Bool.orb_true_r; reflexivity.
Qed.

Lemma Rltb_lt a b : Rltb a b = true -> a < b.
Proof. now destruct (Rltb_spec a b). Qed.
(** ** Basic scaling *)
Lemma basic_frac_fin flip bot top v : bot <> top -> basic_frac flip bot top v = Fin (basic_share flip bot top v).
Proof.
  intro N. unfold basic_frac, basic_share, fold_back. rewrite fdiv_fin by (intro; apply N; lra). set (c := (v - bot) / (top - bot)). cbn [fltb]. destruct (Rltb_spec 1 c) as [H|H]; cbn [fsub fadd fopp fltb].
  - destruct (Rltb_spec (2 + - c) 0) as [H'|H'].
    + rewrite Rabs_left by lra. destruct flip; cbn; f_equal; ring.
    + rewrite Rabs_right by lra. destruct flip; cbn; f_equal; ring.
  - destruct (Rltb_spec c 0) as [H'|H'].
    + rewrite Rabs_left by lra. destruct flip; cbn; f_equal; ring.
    + rewrite Rabs_right by lra. destruct flip; cbn; f_equal; ring.
Qed.

(*@ C75 The basic scaling in full. *)
Lemma basic_value : forall px ktmean ktmax kt1pct q flip floor top bot, mask01 px -> (exists p, In p (concat px) /\ px_clear p = 0) ->
  0 <= q <= 1 -> is_quantile q (not_clear px) top -> is_quantile (1 - q) (not_clear px) bot -> bot <> top ->
  let share p := basic_share flip bot top (px_v p) in
  let clear p := match floor with Some k => share p * (1 - k) + k | None => 1 end in
  let edge p := share p * (ktmax - 1) + 1 in
  let base := kt1pct * INR (length (of_kind Cloud px)) in
  let need := n_pixels px * ktmean - Rsum (map clear (of_kind Clear px)) - Rsum (map edge (of_kind Edge px)) - base in
  let have := Rsum (map share (of_kind Cloud px)) in
  scale_field_basic px ktmean ktmax kt1pct q flip floor = Ok (map (map Fin) (map (map (fun p =>
    match kind_of p with
    | Clear => clear p
    | Edge => edge p
    | Cloud => if Rltb 0 need && Rltb need have && Rltb base have then share p * need / have + kt1pct else share p * (1 - kt1pct) + kt1pct
    end)) px)).
Proof.
  intros px ktmean ktmax k q flip floor top bot M Ex Hq Qt Qb N share clear edge base need have. unfold scale_field_basic. rewrite (ok_quantile q Hq). change (unclear_values px) with (not_clear px).
  pose proof (not_clear_ne px Ex) as Ne. destruct (not_clear px) as [|a l] eqn:En; [easy|]. rewrite <- En in *. clear En a l.
  rewrite (is_quantile_unique _ _ _ _ (quantile_is q _ Hq Ne) Qt). rewrite (is_quantile_unique _ _ _ _ (quantile_is (1 - q) _ ltac:(lra) Ne) Qb).
  assert (B : forall p, basic_frac flip bot top (px_v p) = Fin (share p)) by (intro; now apply basic_frac_fin).
  set (placed := fun p => match kind_of p with Clear => clear p | Edge => edge p | Cloud => 0 end).
  assert (Pl : forall p, pure p -> (if is_clear p then match floor with Some c => fadd (fmul (basic_frac flip bot top (px_v p)) (Fin (1 - c))) (Fin c) | None => Fin 1 end
     else if is_edge p then fadd (fmul (basic_frac flip bot top (px_v p)) (Fin (ktmax - 1))) (Fin 1) else Fin 0) = Fin (placed p)).
  { intros p Hp. rewrite (kind_clear p Hp), B. unfold placed, clear, edge. pose proof (kind_edge p Hp) as E. pose proof (kind_cloud p Hp) as F. unfold is_cloud in F. rewrite (kind_clear p Hp) in F.
    destruct (kind_of p); cbn [same_kind_as] in *; [now destruct floor| |].
    - apply andb_prop in E. destruct E as [-> _]. reflexivity.
    - cbn [orb] in F. destruct (is_edge p); [discriminate|reflexivity]. }
  rewrite (of_kind_eq Cloud is_cloud px M kind_cloud). rewrite (map_fin _ placed (concat px)) by (intros p I; apply Pl, M, I). rewrite (map_fin _ share (of_kind Cloud px)) by (intros; apply B). rewrite !fsum_fin. fold have.
  assert (Sp : Rsum (map placed (concat px)) = Rsum (map clear (of_kind Clear px)) + Rsum (map edge (of_kind Edge px))).
  { rewrite sum_kinds.
    assert (E1 : map placed (of_kind Clear px) = map clear (of_kind Clear px)) by (apply map_ext_in; intros p I; apply in_kind in I; unfold placed; now rewrite (proj2 I)).
    assert (E2 : map placed (of_kind Edge px) = map edge (of_kind Edge px)) by (apply map_ext_in; intros p I; apply in_kind in I; unfold placed; now rewrite (proj2 I)).
    assert (E3 : map placed (of_kind Cloud px) = map (fun p => 0 * 0) (of_kind Cloud px)) by (apply map_ext_in; intros p I; apply in_kind in I; unfold placed; rewrite (proj2 I); ring).
    rewrite E1, E2, E3, Rsum_map_scal. ring. }
  cbn [fsub fadd fopp fltb]. fold base. replace (INR (length (concat px)) * ktmean + - Rsum (map placed (concat px)) + - base) with need by (rewrite Sp; unfold need, n_pixels; ring).
  f_equal. apply out_fin. intros p I. rewrite (kind_cloud p (M p I)). rewrite Pl by (apply M, I). unfold placed. destruct (kind_of p); cbn [same_kind_as]; try reflexivity. rewrite B.
  destruct (Rltb_spec 0 need) as [A1|A1]; [|reflexivity]. destruct (Rltb_spec need have) as [A2|A2]; [|reflexivity]. destruct (Rltb_spec base have) as [A3|A3]; [|reflexivity]. cbn [andb].
  cbn [fmul]. rewrite fdiv_fin by lra. reflexivity.
Qed.
(*@ C75 Matching branch: the mean of the result is exactly ktmean. *)
Lemma basic_mean : forall px ktmean ktmax kt1pct q flip floor top bot, mask01 px -> (exists p, In p (concat px) /\ px_clear p = 0) ->
  0 <= q <= 1 -> is_quantile q (not_clear px) top -> is_quantile (1 - q) (not_clear px) bot -> bot <> top ->
  let share p := basic_share flip bot top (px_v p) in
  let clear p := match floor with Some k => share p * (1 - k) + k | None => 1 end in
  let edge p := share p * (ktmax - 1) + 1 in
  let base := kt1pct * INR (length (of_kind Cloud px)) in
  let need := n_pixels px * ktmean - Rsum (map clear (of_kind Clear px)) - Rsum (map edge (of_kind Edge px)) - base in
  let have := Rsum (map share (of_kind Cloud px)) in
  0 < need < have -> base < have ->
  exists out, scale_field_basic px ktmean ktmax kt1pct q flip floor = Ok (map (map Fin) out) /\ length (concat out) = length (concat px) /\ avg (concat out) = ktmean.
Proof.
  intros px ktmean ktmax k q flip floor top bot M Ex Hq Qt Qb N share clear edge base need have Hn Hb. pose proof (basic_value px ktmean ktmax k q flip floor top bot M Ex Hq Qt Qb N) as V. cbv zeta in V.
  eexists. split; [exact V|]. split; [rewrite concat_map_map; apply map_length|]. rewrite concat_map_map. unfold avg. rewrite map_length. fold (n_pixels px). rewrite sum_kinds.
  change (fun p => match floor with Some k0 => basic_share flip bot top (px_v p) * (1 - k0) + k0 | None => 1 end) with clear.
  change (fun p => basic_share flip bot top (px_v p) * (ktmax - 1) + 1) with edge. change (fun p => basic_share flip bot top (px_v p)) with share. fold base. fold need. fold have.
  match goal with |- (Rsum (map ?g _) + _ + _) / _ = _ => set (gg := g) end.
  assert (E1 : map gg (of_kind Clear px) = map clear (of_kind Clear px)) by (apply map_ext_in; intros p I; apply in_kind in I; unfold gg; now rewrite (proj2 I)).
  assert (E2 : map gg (of_kind Edge px) = map edge (of_kind Edge px)) by (apply map_ext_in; intros p I; apply in_kind in I; unfold gg; now rewrite (proj2 I)).
  assert (E3 : map gg (of_kind Cloud px) = map (fun p => need / have * share p + k) (of_kind Cloud px)).
  { apply map_ext_in; intros p I; apply in_kind in I; unfold gg; rewrite (proj2 I). rewrite !Rltb_true by lra. cbn [andb]. fold (share p). field. lra. }
  rewrite E1, E2, E3. assert (E4 : Rsum (map (fun p => need / have * share p + k) (of_kind Cloud px)) = need / have * have + base).
  { rewrite Rsum_affine. unfold base, have. ring. }
  rewrite E4. replace (need / have * have) with need by (field; lra). unfold need.
  assert (Np : n_pixels px <> 0). { unfold n_pixels. destruct Ex as (p & I & _). apply not_0_INR. destruct (concat px); easy. } field. easy.
Qed.
(*@ C75 Not flipped: clear pixels are 1 or at least the smoothing floor, edges at least 1, clouds at least kt1pct; field values no further out than one range width keep the result at most ktmax on edges. *)
Lemma basic_ranges : forall px ktmean ktmax kt1pct q floor top bot, mask01 px -> (exists p, In p (concat px) /\ px_clear p = 0) ->
  0 <= q <= 1 -> is_quantile q (not_clear px) top -> is_quantile (1 - q) (not_clear px) bot -> bot < top -> 1 <= ktmax -> kt1pct <= 1 ->
  exists out, scale_field_basic px ktmean ktmax kt1pct q false floor = Ok (map (map Fin) out) /\
    forall i j p, cell_at px i j p -> exists x, cell_at out i j x /\
      match kind_of p with
      | Clear => match floor with Some k => k <= 1 -> k <= x | None => x = 1 end
      | Edge => 1 <= x /\ (bot - (top - bot) <= px_v p <= top + (top - bot) -> x <= ktmax)
      | Cloud => kt1pct <= x
      end.
Proof.
  intros px ktmean ktmax k q floor top bot M Ex Hq Qt Qb N K1 K2. pose proof (basic_value px ktmean ktmax k q false floor top bot M Ex Hq Qt Qb ltac:(lra)) as V. cbv zeta in V.
  eexists. split; [exact V|]. intros i j p C. eexists. split; [apply map_cell; exists p; split; [exact C|reflexivity]|].
  assert (P : 0 <= basic_share false bot top (px_v p)) by (unfold basic_share, fold_back; destruct (Rltb 1 ((px_v p - bot) / (top - bot))); apply Rabs_pos).
  destruct (kind_of p).
  - destruct floor as [f|]; [intro F; nra|reflexivity].
  - split; [nra|]. intro Rg. enough (basic_share false bot top (px_v p) <= 1) by nra. unfold basic_share, fold_back. set (c := (px_v p - bot) / (top - bot)).
    assert (Ec : c * (top - bot) = px_v p - bot) by (unfold c; field; lra). assert (-1 <= c <= 2) by (split; nra). destruct (Rltb_spec 1 c); apply Rabs_le; lra.
  - destruct (Rltb 0 _ && Rltb _ _ && Rltb _ _) eqn:E; [|nra]. apply andb_prop in E. destruct E as [E _]. apply andb_prop in E. destruct E as [E1 E2]. apply Rltb_lt in E1, E2.
    match goal with |- _ <= _ * ?n / ?h + _ => assert (0 <= basic_share false bot top (px_v p) * n / h) end; [|lra]. apply Rmult_le_pos; [apply Rmult_le_pos; [easy|now left]|]. left. apply Rinv_0_lt_compat. lra.
Qed.
(*@ C75 A field with no cloudy or edge pixel is refused. *)
Lemma basic_all_clear : forall px ktmean ktmax kt1pct q flip floor, 0 <= q <= 1 -> (forall p, In p (concat px) -> px_clear p <> 0) -> scale_field_basic px ktmean ktmax kt1pct q flip floor = Err IndexError.
Proof.
  intros px ktmean ktmax k q flip floor Hq H. unfold scale_field_basic, unclear_values. rewrite (ok_quantile q Hq). replace (filter (fun p => Reqb (px_clear p) 0) (concat px)) with (@nil pixel); [reflexivity|]. symmetry. apply filter_none. intros p I. apply Reqb_false. now apply H.
Qed.
(*@ C75 A quantile outside [0, 1] is refused, whatever the field. *)
Lemma basic_bad_quantile : forall px ktmean ktmax kt1pct q flip floor, q < 0 \/ 1 < q ->
  scale_field_basic px ktmean ktmax kt1pct q flip floor = Err ValueError.
Proof.
  intros px ktmean ktmax k q flip floor [H|H]; unfold scale_field_basic, bad_quantile; rewrite (Rltb_true _ _ H), ?Bool.orb_true_r; reflexivity.
Qed.

(** Two cloudy pixels, one dark and one bright. *)
Definition two : list (list pixel) := [[Pixel 0 0 0; Pixel 1 0 0]].
Lemma kind_two v : kind_of (Pixel v 0 0) = Cloud.
Proof. unfold kind_of. cbn. destruct mask_zero as (-> & _ & -> & _). reflexivity. Qed.
Lemma two_cloud : of_kind Cloud two = concat two /\ of_kind Edge two = [] /\ of_kind Clear two = [].
Proof. unfold of_kind, two. cbn [concat app filter]. rewrite !kind_two. cbn [same_kind_as]. easy. Qed.
Lemma two_values : not_clear two = [0; 1].
Proof. unfold not_clear, two. cbn [concat app filter px_clear]. destruct mask_zero as (_ & -> & _). reflexivity. Qed.
Lemma two_quantile q : 0 <= q < 1 -> is_quantile q [0; 1] q.
Proof.
  intro H. split; [easy|]. exists [0; 1], 0%nat, q. split; [reflexivity|]. split.
  - intros i j L. cbn [length] in L. destruct i as [|[|i]], j as [|[|j]]; cbn [nth]; try lra; lia.
  - cbn [length INR nth]. split; [ring|]. split; [easy|ring].
Qed.
Lemma two_mask : mask01 two /\ exists p, In p (concat two) /\ px_clear p = 0.
Proof. split; [intros p [<-|[<-|[]]]; now left|]. exists (Pixel 0 0 0). split; [now left|easy]. Qed.

(*@ C74 Cloudy pixels can exceed 1: with default parameters, a dark and a bright pixel and target mean 0.65. *)
Lemma lave_over_one_refuted : exists out x y, scale_field_lave two (65/100) (14/10) (2/10) (99/100) = Ok (map (map Fin) out) /\ out = [[x; y]] /\ avg [x; y] = 65/100 /\ 1 < x /\ kind_of (Pixel 0 0 0) = Cloud.
Proof.
  destruct two_mask as [M Ex]. assert (Q := two_quantile (99/100) ltac:(lra)). rewrite <- two_values in Q. destruct two_cloud as (K1 & K2 & K3).
  assert (C0 : lave_cloud (2/10) (99/100) 0 = 1) by (unfold lave_cloud; rewrite Rmin_left by lra; now rewrite Rmax_right by lra).
  assert (C1 : lave_cloud (2/10) (99/100) 1 = 19/99) by (unfold lave_cloud; rewrite Rmin_right by lra; rewrite Rmax_right by lra; lra).
  pose proof (lave_value two (65/100) (14/10) (2/10) (99/100) (99/100) (19/99) 1 M Ex ltac:(lra) Q ltac:(lra)) as V. cbv zeta in V. rewrite K1, K2, K3 in V. unfold n_pixels, two in V. cbn [concat app map px_v length] in V. rewrite C0, C1, !kind_two, !Rsum_cons, !Rsum_nil in V.
  rewrite Rltb_true in V by (cbn [INR]; lra). rewrite Reqb_false in V by (intro; lra).
  eexists [[_; _]], _, _. split; [apply V|].
  - split; [right; now left|]. intros x [<-|[<-|[]]]; lra.
  - split; [now left|]. intros x [<-|[<-|[]]]; lra.
  - lra.
  - split; [reflexivity|]. unfold avg. cbn [length INR]. rewrite !Rsum_cons, Rsum_nil. cbn [INR]. split; [lra|]. split; [lra|apply kind_two].
Qed.
(*@ C75 In the matching branch a cloudy pixel can exceed 1 as well, although the code comment rules it out. *)
Lemma basic_over_one_refuted : exists out x y, scale_field_basic two (65/100) (14/10) (2/10) (999/1000) false None = Ok (map (map Fin) out) /\ out = [[x; y]] /\ avg [x; y] = 65/100 /\ 1 < y /\ kind_of (Pixel 1 0 0) = Cloud.
Proof.
  destruct two_mask as [M Ex]. assert (Q := two_quantile (999/1000) ltac:(lra)). rewrite <- two_values in Q. assert (Q' := two_quantile (1 - 999/1000) ltac:(lra)). rewrite <- two_values in Q'. destruct two_cloud as (K1 & K2 & K3).
  pose proof (basic_value two (65/100) (14/10) (2/10) (999/1000) false None (999/1000) (1 - 999/1000) M Ex ltac:(lra) Q Q' ltac:(lra)) as V.
  assert (C0 : basic_share false (1 - 999/1000) (999/1000) 0 = 1/998) by (unfold basic_share, fold_back; rewrite Rltb_false by lra; rewrite Rabs_left by lra; lra).
  assert (C1 : basic_share false (1 - 999/1000) (999/1000) 1 = 997/998) by (unfold basic_share, fold_back; rewrite Rltb_true by lra; rewrite Rabs_right by lra; lra).
  cbv zeta in V. rewrite K1, K2, K3 in V. unfold n_pixels, two in V. cbn [concat app map px_v length] in V. rewrite C0, C1, !kind_two, !Rsum_cons, !Rsum_nil in V.
  rewrite !Rltb_true in V by (cbn [INR]; lra). cbn [andb] in V. eexists [[_; _]], _, _. split; [exact V|]. split; [reflexivity|]. unfold avg. cbn [length INR]. rewrite !Rsum_cons, Rsum_nil. cbn [INR]. split; [lra|]. split; [lra|apply kind_two].
Qed.
