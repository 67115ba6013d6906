(** Model of hope_campaign.py flag_qc on tables whose labels differ and interp_nan on arbitrary time stamps (M_hope.v has the same
    functions on tables that line up and on 1 Hz stamps). No proofs in this file. *)
From Coq Require Import String.
From Verif Require Import Prelude RealBase M_hope M_field_remap.
Local Open Scope R_scope.

Section Labelled.
  Context {K C : Type} `{Label K} `{Label C}.
  (** The flag for a row and column label, if the flag table has one (a NaN flag is [Some None]). *)
  Definition flag_at (flag : M_field_remap.table K C R) (k : K) (c : C) : option (option R) :=
    match dget (t_rows flag) k, pos_of c (t_cols flag) with
    | Some row, Some j => nth_error row j
    | _, _ => None
    end.
  (** hope_campaign.py:116-137 flag_qc: datanew[flag >= level] = nan. pandas aligns the mask with the data by label; where the mask has
      no entry the data is kept. Simplification: labels are unique. *)
  Definition flag_qc_labelled (data flag : M_field_remap.table K C R) (level : R) : M_field_remap.table K C R :=
    mkTable (t_cols data)
      (map (fun r => (fst r, map2 (fun c v => blank (match flag_at flag (fst r) c with Some (Some x) => Rleb level x | _ => false end) v)
                                  (t_cols data) (snd r))) (t_rows data)).
End Labelled.

(** Never going down, never going up. *)
Fixpoint never_down (l : list Z) : bool :=
  match l with a :: (b :: _) as r => (a <=? b)%Z && never_down r | _ => true end.
(** 's' in pandas offsets, in ns *)
Definition ns_per_s : Z := 1000000000.
(** np.isnan(s).rolling(f'{limit}s').mean() > (limit-1)/limit: the window of sample i holds the samples up to i whose stamps are
    less than [limit] seconds before its own. *)
Definition rolling_blank_t (limit : nat) (times : list Z) (l : list (option R)) : list bool :=
  map (fun i =>
         let t := nth i times 0%Z in
         let w := filter (fun tv => (t - Z.of_nat limit * ns_per_s <? fst tv)%Z) (firstn (S i) (combine times l)) in
         let gone := length (filter (fun tv => match snd tv with None => true | Some _ => false end) w) in
         Rltb (INR (limit - 1) / INR limit) (INR gone / INR (length w))) (seq 0 (length l)).
(** hope_campaign.py:181-196, one column with its stamps in ns. A rolling window over time needs stamps that never go down or never go
    up; stamps going up are compared as they are, stamps going down reversed. *)
Definition interp_column_t (limit : nat) (times : list Z) (l : list (option R)) : result (list (option R)) :=
  if (limit =? 0)%nat then Err ValueError
  else
    let d := interpolate limit l in
    let! times := if never_down times then Ok times
                  else if never_down (map Z.opp times) then Ok (map Z.opp times) else Err ValueError in
    let blanks := rolling_blank_t limit times d in
    let front := firstn (length blanks - 2 * limit) blanks in
    let back := skipn (2 * limit) blanks in
    let mask := repeat false limit ++ map2 orb front back ++ repeat false limit in
    if (length mask =? length l)%nat then Ok (map2 (fun b v => blank b v) mask d) else Err ValueError.
(** hope_campaign.py:160-198 interp_nan: the columns in order. *)
Definition interp_nan_t (times : list Z) (columns : list (list (option R))) (limit : nat) : result (list (list (option R))) :=
  mapM (interp_column_t limit times) columns.
