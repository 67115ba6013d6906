(** Property theorems. Scaling a cloud field to target statistics.
    Proofs are in the X_ file of the same name. *)
From Verif Require Import Prelude PreludeFacts RealBase Fl RealStat Spec_stats M_stats P_stats P_list P_quantile X_stats_err Spec_copula M_cloudfield Spec_cloudfield
  X_copula_down X_field_pos X_cloud_random X_cloud_weights X_cloud_mask.
Local Open Scope R_scope.
From Verif Require Import X_cloud_scale.

(** C74. The Lave scaling in full: clear pixels 1, other edges stretched over 1 .. ktmax, clouds inverted brightness scaled to the missing sum. *)
Theorem C74_lave_value :
  forall px ktmean ktmax kt1pct q top lo hi, mask01 px -> (exists p, In p (concat px) /\ px_clear p = 0) ->
  0 <= q <= 1 -> is_quantile q (not_clear px) top -> top <> 0 ->
  let cloud p := lave_cloud kt1pct top (px_v p) in
  smallest (map cloud (concat px)) lo -> largest (map cloud (concat px)) hi -> lo < hi ->
  let edge p := 1 + (cloud p - lo) / (hi - lo) * (ktmax - 1) in
  let need := n_pixels px * ktmean - INR (length (of_kind Clear px)) - Rsum (map edge (of_kind Edge px)) in
  let have := Rsum (map cloud (of_kind Cloud px)) in
  scale_field_lave px ktmean ktmax kt1pct q = Ok (map (map (fun p =>
    match kind_of p with
    | Clear => Fin 1
    | Edge => Fin (edge p)
    | Cloud => if Rltb 0 need then if Reqb have 0 then Nan else Fin (need / have * cloud p) else Fin (cloud p)
    end)) px).
Proof. exact (@lave_value). Qed.
Print Assumptions C74_lave_value.

(** C74. Whenever the clouds must contribute a positive amount and are not all black, the mean of the result is exactly ktmean. *)
Theorem C74_lave_mean :
  forall px ktmean ktmax kt1pct q top lo hi, mask01 px -> (exists p, In p (concat px) /\ px_clear p = 0) ->
  0 <= q <= 1 -> is_quantile q (not_clear px) top -> top <> 0 ->
  let cloud p := lave_cloud kt1pct top (px_v p) in
  smallest (map cloud (concat px)) lo -> largest (map cloud (concat px)) hi -> lo < hi ->
  let edge p := 1 + (cloud p - lo) / (hi - lo) * (ktmax - 1) in
  0 < n_pixels px * ktmean - INR (length (of_kind Clear px)) - Rsum (map edge (of_kind Edge px)) ->
  (exists p, In p (of_kind Cloud px) /\ cloud p <> 0) ->
  exists out, scale_field_lave px ktmean ktmax kt1pct q = Ok (map (map Fin) out) /\ length (concat out) = length (concat px) /\ avg (concat out) = ktmean.
Proof. exact (@lave_mean). Qed.
Print Assumptions C74_lave_mean.

(** C74. When clear and edge pixels alone already reach the target sum, nothing is scaled and the mean is at least ktmean. *)
Theorem C74_lave_excess :
  forall px ktmean ktmax kt1pct q top lo hi, mask01 px -> (exists p, In p (concat px) /\ px_clear p = 0) ->
  0 <= q <= 1 -> is_quantile q (not_clear px) top -> top <> 0 ->
  let cloud p := lave_cloud kt1pct top (px_v p) in
  smallest (map cloud (concat px)) lo -> largest (map cloud (concat px)) hi -> lo < hi ->
  let edge p := 1 + (cloud p - lo) / (hi - lo) * (ktmax - 1) in
  n_pixels px * ktmean <= INR (length (of_kind Clear px)) + Rsum (map edge (of_kind Edge px)) ->
  exists out, scale_field_lave px ktmean ktmax kt1pct q = Ok (map (map Fin) out) /\ length (concat out) = length (concat px) /\ ktmean <= avg (concat out).
Proof. exact (@lave_excess). Qed.
Print Assumptions C74_lave_excess.

(** C74. Ranges: clear pixels are 1, other edge pixels lie in 1 .. ktmax, clouds are never negative. *)
Theorem C74_lave_ranges :
  forall px ktmean ktmax kt1pct q top lo hi, mask01 px -> (exists p, In p (concat px) /\ px_clear p = 0) ->
  0 <= q <= 1 -> is_quantile q (not_clear px) top -> top <> 0 -> 1 <= ktmax ->
  let cloud p := lave_cloud kt1pct top (px_v p) in
  smallest (map cloud (concat px)) lo -> largest (map cloud (concat px)) hi -> lo < hi ->
  exists out, scale_field_lave px ktmean ktmax kt1pct q = Ok out /\
    forall i j p, cell_at px i j p -> exists v, cell_at out i j v /\
      match kind_of p with
      | Clear => v = Fin 1
      | Edge => exists x, v = Fin x /\ 1 <= x <= ktmax
      | Cloud => v = Nan \/ exists x, v = Fin x /\ 0 <= x
      end.
Proof. exact (@lave_ranges). Qed.
Print Assumptions C74_lave_ranges.

(** C74. A field with no cloudy or edge pixel is refused. *)
Theorem C74_lave_all_clear :
  forall px ktmean ktmax kt1pct q, 0 <= q <= 1 -> (forall p, In p (concat px) -> px_clear p <> 0) -> scale_field_lave px ktmean ktmax kt1pct q = Err IndexError.
Proof. exact (@lave_all_clear). Qed.
Print Assumptions C74_lave_all_clear.

(** C74. A quantile outside [0, 1] is refused, whatever the field. *)
Theorem C74_lave_bad_quantile :
  forall px ktmean ktmax kt1pct q, q < 0 \/ 1 < q -> scale_field_lave px ktmean ktmax kt1pct q = Err ValueError.
Proof. exact (@lave_bad_quantile). Qed.
Print Assumptions C74_lave_bad_quantile.

(** C75. The basic scaling in full. *)
Theorem C75_basic_value :
  forall px ktmean ktmax kt1pct q flip floor top bot, mask01 px -> (exists p, In p (concat px) /\ px_clear p = 0) ->
  0 <= q <= 1 -> is_quantile q (not_clear px) top -> is_quantile (1 - q) (not_clear px) bot -> bot <> top ->
  let share p := basic_share flip bot top (px_v p) in
  let clear p := match floor with Some k => share p * (1 - k) + k | None => 1 end in
  let edge p := share p * (ktmax - 1) + 1 in
  let base := kt1pct * INR (length (of_kind Cloud px)) in
  let need := n_pixels px * ktmean - Rsum (map clear (of_kind Clear px)) - Rsum (map edge (of_kind Edge px)) - base in
  let have := Rsum (map share (of_kind Cloud px)) in
  scale_field_basic px ktmean ktmax kt1pct q flip floor = Ok (map (map Fin) (map (map (fun p =>
    match kind_of p with
    | Clear => clear p
    | Edge => edge p
    | Cloud => if Rltb 0 need && Rltb need have && Rltb base have then share p * need / have + kt1pct else share p * (1 - kt1pct) + kt1pct
    end)) px)).
Proof. exact (@basic_value). Qed.
Print Assumptions C75_basic_value.

(** C75. Matching branch: the mean of the result is exactly ktmean. *)
Theorem C75_basic_mean :
  forall px ktmean ktmax kt1pct q flip floor top bot, mask01 px -> (exists p, In p (concat px) /\ px_clear p = 0) ->
  0 <= q <= 1 -> is_quantile q (not_clear px) top -> is_quantile (1 - q) (not_clear px) bot -> bot <> top ->
  let share p := basic_share flip bot top (px_v p) in
  let clear p := match floor with Some k => share p * (1 - k) + k | None => 1 end in
  let edge p := share p * (ktmax - 1) + 1 in
  let base := kt1pct * INR (length (of_kind Cloud px)) in
  let need := n_pixels px * ktmean - Rsum (map clear (of_kind Clear px)) - Rsum (map edge (of_kind Edge px)) - base in
  let have := Rsum (map share (of_kind Cloud px)) in
  0 < need < have -> base < have ->
  exists out, scale_field_basic px ktmean ktmax kt1pct q flip floor = Ok (map (map Fin) out) /\ length (concat out) = length (concat px) /\ avg (concat out) = ktmean.
Proof. exact (@basic_mean). Qed.
Print Assumptions C75_basic_mean.

(** C75. Not flipped: clear pixels are 1 or at least the smoothing floor, edges at least 1, clouds at least kt1pct; field values no further out than one range width keep the result at most ktmax on edges. *)
Theorem C75_basic_ranges :
  forall px ktmean ktmax kt1pct q floor top bot, mask01 px -> (exists p, In p (concat px) /\ px_clear p = 0) ->
  0 <= q <= 1 -> is_quantile q (not_clear px) top -> is_quantile (1 - q) (not_clear px) bot -> bot < top -> 1 <= ktmax -> kt1pct <= 1 ->
  exists out, scale_field_basic px ktmean ktmax kt1pct q false floor = Ok (map (map Fin) out) /\
    forall i j p, cell_at px i j p -> exists x, cell_at out i j x /\
      match kind_of p with
      | Clear => match floor with Some k => k <= 1 -> k <= x | None => x = 1 end
      | Edge => 1 <= x /\ (bot - (top - bot) <= px_v p <= top + (top - bot) -> x <= ktmax)
      | Cloud => kt1pct <= x
      end.
Proof. exact (@basic_ranges). Qed.
Print Assumptions C75_basic_ranges.

(** C75. A field with no cloudy or edge pixel is refused. *)
Theorem C75_basic_all_clear :
  forall px ktmean ktmax kt1pct q flip floor, 0 <= q <= 1 -> (forall p, In p (concat px) -> px_clear p <> 0) -> scale_field_basic px ktmean ktmax kt1pct q flip floor = Err IndexError.
Proof. exact (@basic_all_clear). Qed.
Print Assumptions C75_basic_all_clear.

(** C75. A quantile outside [0, 1] is refused, whatever the field. *)
Theorem C75_basic_bad_quantile :
  forall px ktmean ktmax kt1pct q flip floor, q < 0 \/ 1 < q ->
  scale_field_basic px ktmean ktmax kt1pct q flip floor = Err ValueError.
Proof. exact (@basic_bad_quantile). Qed.
Print Assumptions C75_basic_bad_quantile.

(** C74. Cloudy pixels can exceed 1: with default parameters, a dark and a bright pixel and target mean 0.65. *)
Theorem C74_lave_over_one_refuted :
  exists out x y, scale_field_lave two (65/100) (14/10) (2/10) (99/100) = Ok (map (map Fin) out) /\ out = [[x; y]] /\ avg [x; y] = 65/100 /\ 1 < x /\ kind_of (Pixel 0 0 0) = Cloud.
Proof. exact (@lave_over_one_refuted). Qed.
Print Assumptions C74_lave_over_one_refuted.

(** C75. In the matching branch a cloudy pixel can exceed 1 as well, although the code comment rules it out. *)
Theorem C75_basic_over_one_refuted :
  exists out x y, scale_field_basic two (65/100) (14/10) (2/10) (999/1000) false None = Ok (map (map Fin) out) /\ out = [[x; y]] /\ avg [x; y] = 65/100 /\ 1 < y /\ kind_of (Pixel 1 0 0) = Cloud.
Proof. exact (@basic_over_one_refuted). Qed.
Print Assumptions C75_basic_over_one_refuted.

