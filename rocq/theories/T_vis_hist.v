(** Property theorems. scatter_hist: the histograms cover the data.
    Proofs are in the X_ file of the same name. *)
From Coq Require Import String.
From Verif Require Import Prelude PreludeFacts RealBase Fl RealStat M_signal_plant P_list P_plant M_vis.
Local Open Scope R_scope.
From Verif Require Import X_vis_hist.

(** C93. Bins of a quarter, symmetric about 0, reaching strictly beyond every value on both axes and by no more than a quarter; each count
    is the number of samples from its edge up to but not including the next; every sample is counted once on each axis. *)
Theorem C93_hist_value :
  forall lx ly : list R, lx <> [] -> length lx = length ly ->
  exists k edges cx cy, scatter_hist (map Some lx) (map Some ly) = Ok (edges, (cx, cy)) /\
    (forall i e, nth_error edges i = Some e <-> (i <= 2 * k)%nat /\ e = (INR i - INR k) / 4) /\
    (forall v, In v lx \/ In v ly -> Rabs v < INR k / 4) /\
    (k = 1%nat \/ exists v, (In v lx \/ In v ly) /\ INR k / 4 - 1 / 4 <= Rabs v) /\
    length cx = (2 * k)%nat /\ length cy = (2 * k)%nat /\
    (forall j, (j < 2 * k)%nat -> nth_error cx j = Some (samples_in ((INR j - INR k) / 4) ((INR (S j) - INR k) / 4) lx) /\
       nth_error cy j = Some (samples_in ((INR j - INR k) / 4) ((INR (S j) - INR k) / 4) ly)) /\
    list_sum cx = length lx /\ list_sum cy = length ly.
Proof. exact (@hist_value). Qed.
Print Assumptions C93_hist_value.

(** C93. When it draws: sequences of equal, non-zero length without a missing value in the first. A missing value in the second is
    accepted, and the range then follows the first sequence alone. *)
Theorem C93_hist_outcome :
  forall x y : list (option R),
  ((exists out, scatter_hist x y = Ok out) <-> x <> [] /\ length x = length y /\ ~ In None x) /\
  ((exists out, scatter_hist x y = Ok out) \/ scatter_hist x y = Err ValueError) /\
  (x <> [] -> length x = length y -> ~ In None x -> In None y ->
     exists out out', scatter_hist x y = Ok out /\ scatter_hist x x = Ok out' /\ fst out = fst out').
Proof. exact (@hist_outcome). Qed.
Print Assumptions C93_hist_outcome.

(** C93. Refuted: that exchanging the axes exchanges the histograms. A missing value in the second sequence hides its range, in the first
    it makes the call fail. *)
Theorem C93_hist_swap_refuted :
  exists x y out, scatter_hist x y = Ok out /\ scatter_hist y x = Err ValueError /\
  exists v, In (Some v) y /\ forall e, In e (fst out) -> e < v.
Proof. exact (@hist_swap_refuted). Qed.
Print Assumptions C93_hist_swap_refuted.

Example C93_hist_example :
  exists out, scatter_hist [Some 1; Some (-2)] [Some (1/2); Some 0] = Ok out.
Proof. exact (@hist_example). Qed.

