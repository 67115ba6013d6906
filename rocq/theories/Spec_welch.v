(** Independent vocabulary for spectral estimates (C47-C49, C88). *)
From Coq Require Import String.
From Verif Require Import Prelude RealBase.
From Coquelicot Require Import Complex.
Local Open Scope R_scope.

(** The [N] samples of a record from position [start]. *)
Definition chunk (x : list R) (start N : nat) : list R := map (fun j => nth (start + j) x 0) (seq 0 N).
(** Samples weighted by a window. *)
Definition tapered (w v : list R) : list R := map (fun j => nth j w 0 * nth j v 0) (seq 0 (length v)).
(** Fourier sum of [v] at [k] cycles per record: (sum of v cos, - sum of v sin). *)
Definition fourier (v : list R) (k : nat) : C :=
  (Rsum (map (fun j => nth j v 0 * cos (2 * PI * INR k * INR j / INR (length v))) (seq 0 (length v))),
   - Rsum (map (fun j => nth j v 0 * sin (2 * PI * INR k * INR j / INR (length v))) (seq 0 (length v)))).
(** Segments of [N] samples overlapping by [V]: [K] of them fit into [n] samples and no more. *)
Definition segments_fit (n N V K : nat) : Prop :=
  (1 <= K)%nat /\ ((K - 1) * (N - V) + N <= n)%nat /\ (n < K * (N - V) + N)%nat.
(** Segment length and overlap in samples the arguments ask for. *)
Definition welch_grid (n navgs : nat) (overlap : R) (N V : nat) : Prop :=
  (1 <= navgs)%nat /\ (navgs * N <= n)%nat /\ (n < navgs * (N + 1))%nat /\ (1 <= N)%nat /\
  INR V <= INR N * overlap < INR V + 1 /\ (V < N)%nat.
(** One-sided weight of bin [k]: bins other than zero and Nyquist stand for two. *)
Definition sides (N k : nat) : R := if (Nat.eqb k 0 || Nat.eqb (2 * k) N)%bool then 1 else 2.
(** Mean over the segments *)
Definition avg (K : nat) (f : nat -> R) : R := Rsum (map f (seq 0 K)) / INR K.
Definition cavg (K : nat) (f : nat -> C) : C := (avg K (fun s => fst (f s)), avg K (fun s => snd (f s))).
(** Sum of squared window weights. *)
Definition power (w : list R) : R := Rsum (map (fun v => v ^ 2) w).
(** What scipy guarantees of window vectors and of detrending. *)
Definition windows (win : string -> nat -> list R) : Prop := forall s n, length (win s n) = n.
Definition keeps_length (dtr : string -> list R -> list R) : Prop := forall s v, length (dtr s v) = length v.
Definition detrend_by (dtr : string -> list R -> list R) (d : option string) (v : list R) : list R :=
  match d with None => v | Some s => dtr s v end.
(** The spectrum of segment [s]. *)
Definition seg_spectrum (w : list R) (dt : list R -> list R) (x : list R) (N V s k : nat) : C :=
  fourier (tapered w (dt (chunk x (s * (N - V)) N))) k.
(** The column matched with result [i]: a single column serves every result. *)
Definition partner {A} (l : list A) (i : nat) : option A := nth_error l (if Nat.eqb (length l) 1 then 0%nat else i).
(** Column counts that can be matched. *)
Definition matchable {A B} (ins : list A) (outs : list B) : Prop :=
  length ins = length outs \/ length ins = 1%nat \/ length outs = 1%nat.
(** Averaged auto and cross spectra of segment spectra [X], [Y]. *)
Definition auto (K : nat) (X : nat -> C) : R := avg K (fun s => Cmod (X s) ^ 2).
Definition cross (K : nat) (X Y : nat -> C) : C := cavg K (fun s => Cmult (Cconj (X s)) (Y s)).
(** Detrending that scales with its input. *)
Definition homogeneous (dtr : string -> list R -> list R) : Prop :=
  forall s g v, dtr s (map (Rmult g) v) = map (Rmult g) (dtr s v).
