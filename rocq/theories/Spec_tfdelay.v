(** Independent vocabulary for delays from transfer-function phase (C51-C54). *)
From Verif Require Import Prelude RealBase Phase.
From Coquelicot Require Import Complex.
Local Open Scope R_scope.

(** A least-squares solver: when one point has the least sum of squared residuals, and among equals lies
    closest to the starting point, the solver returns it. (What Levenberg-Marquardt converges to on the
    linear problems posed here.) *)
Definition squares (v : list R) : R := Rsum (map (fun x => x ^ 2) v).
Definition dist2 (a b : list R) : R := Rsum (map (fun p => (fst p - snd p) ^ 2) (combine a b)).
Definition solver (ls : (list R -> list R) -> list R -> list R) : Prop :=
  forall res start x, length x = length start ->
  (forall y, length y = length start -> y <> x ->
     squares (res x) < squares (res y) \/ (squares (res x) = squares (res y) /\ dist2 x start < dist2 y start)) ->
  ls res start = x.

(** One frequency bin: frequency, transfer function value, coherence (missing values are NaN). *)
Record bin := mkBin { b_freq : R; b_tf : option C; b_coh : option R }.
(** Is the bin below the frequency limit? Is it coherent enough? *)
Definition below (lim : option R) (b : bin) : Prop := match lim with None => True | Some l => b_freq b < l end.
Definition coherent (lim : option R) (b : bin) : Prop :=
  match lim with None => True | Some l => exists v, b_coh b = Some v /\ l < v end.
Lemma below_dec lim b : {below lim b} + {~ below lim b}.
Proof. destruct lim; cbn; [apply Rlt_dec|now left]. Defined.
Lemma coherent_dec lim b : {coherent lim b} + {~ coherent lim b}.
Proof.
  destruct lim as [l|]; cbn; [|now left]. destruct (b_coh b) as [v|]; [|right; intros [v [E _]]; discriminate].
  destruct (Rlt_dec l v) as [H|H]; [left; eauto|right; intros [w [E L]]; injection E as <-; auto].
Defined.
(** The bins before the first one without a value. *)
Fixpoint before_gap (bs : list bin) : list (bin * C) :=
  match bs with
  | b :: r => match b_tf b with Some z => (b, z) :: before_gap r | None => [] end
  | [] => []
  end.
(** Pairs (frequency, unwrapped phase) used by method 'multi': bins below the frequency limit up to the
    first missing value are unwrapped together; then those coherent enough are kept. *)
Definition multi_points (coh_limit freq_limit : option R) (bs : list bin) : list (R * R) :=
  let use := before_gap (filter (fun b => if below_dec freq_limit b then true else false) bs) in
  map (fun q => (b_freq (fst (fst q)), snd q))
      (filter (fun q => if coherent_dec coh_limit (fst (fst q)) then true else false)
              (combine use (unwrap (map (fun p => angle (snd p)) use)))).
(** The bins passing both limits, in order (method 'fit' and the reported mask). *)
Definition used (coh_limit freq_limit : option R) (bs : list bin) : list bin :=
  filter (fun b => if below_dec freq_limit b then if coherent_dec coh_limit b then true else false else false) bs.
Definition sum_f (pts : list (R * R)) : R := Rsum (map fst pts).
Definition sum_p (pts : list (R * R)) : R := Rsum (map snd pts).
Definition sum_ff (pts : list (R * R)) : R := Rsum (map (fun p => fst p ^ 2) pts).
Definition sum_fp (pts : list (R * R)) : R := Rsum (map (fun p => fst p * snd p) pts).
(** The bins of one column of a table with frequencies [freqs]. *)
Definition bins_of (freqs : list R) (tf : list (option C)) (coh : list (option R)) : list bin :=
  map (fun p => mkBin (fst p) (fst (snd p)) (snd (snd p))) (combine freqs (combine tf coh)).
