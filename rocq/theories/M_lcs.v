(** Model of latlon2lcs (src/solarspatialtools/spatial.py) with origins of every shape its branches
    distinguish. No proofs in this file. *)
From Verif Require Import Prelude RealBase Fl M_spatial.
Local Open Scope R_scope.

Section LcsSeq.
  Context {K : Type} `{Label K}.
  Variable proj_fwd : Z -> bool -> R -> R -> R * R.

  (** spatial.py:155-170: (E, N) taken out of what latlon2utm returned. The zone is dropped. An empty
      array is 1-dimensional and cannot be unpacked into three names. *)
  Definition extract_en (u : shaped K (R * R * Z)) : result (shaped K (R * R)) :=
    match u with
    | SScalar r => Ok (SScalar (fst r))
    | SArray [] => Err ValueError
    | SArray l => Ok (SArray (map fst l))
    | SFrame idx l => Ok (SFrame idx (map fst l))
    end.

  (** One (E, N) minus another. *)
  Definition sub_en (t o : R * R) : option (R * R) := Some (fst t - fst o, snd t - snd o).

  (** The row of a frame with a given index label. Simplification: labels are unique, the first one is taken. *)
  Definition at_label (idx : list K) (l : list (R * R)) (k : K) : option (R * R) :=
    match pos_of k idx with Some j => nth_error l j | None => None end.

  (** numpy broadcasting of a one-dimensional target against a one-dimensional origin in place: the
      target's length cannot change. *)
  Definition sub_rows (t o : list (R * R)) : result (list (option (R * R))) :=
    if Nat.eqb (length t) (length o) then Ok (map (fun p => sub_en (fst p) (snd p)) (combine t o))
    else match o with
         | [oo] => Ok (map (fun x => sub_en x oo) t)
         | _ => Err ValueError
         end.

  (** spatial.py:174-175 [e_t -= e_i; n_t -= n_o]. Both columns have the same shape and index, so the
      two statements succeed together; None stands for (NaN, NaN). Between two Series pandas aligns by
      index label and then keeps the target's index. A Series subtracted in place from an array does not
      broadcast. *)
  Definition shift_en (t o : shaped K (R * R)) : result (shaped K (option (R * R))) :=
    match t, o with
    | SScalar a, SScalar b => Ok (SScalar (sub_en a b))
    | SScalar a, SArray l => Ok (SArray (map (sub_en a) l))
    | SScalar a, SFrame idx l => Ok (SFrame idx (map (sub_en a) l))
    | SArray l, SScalar b => Ok (SArray (map (fun x => sub_en x b) l))
    | SFrame idx l, SScalar b => Ok (SFrame idx (map (fun x => sub_en x b) l))
    | SArray l, SArray m => rmap SArray (sub_rows l m)
    | SArray l, SFrame _ m =>
        if Nat.eqb (length l) (length m) then rmap SArray (sub_rows l m) else Err ValueError
    | SFrame idx l, SArray m => rmap (SFrame idx) (sub_rows l m)
    | SFrame idx l, SFrame jdx m =>
        Ok (SFrame idx (map (fun p => match at_label jdx m (fst p) with
                                      | Some b => sub_en (snd p) b
                                      | None => None
                                      end) (combine idx l)))
    end.

  (** spatial.py:124-177 latlon2lcs. *)
  Definition latlon2lcs_seq (lat lon origin_lat origin_lon : coord K) (zone : option Z)
    : result (shaped K (option (R * R))) :=
    let! utm_i := latlon2utm proj_fwd origin_lat origin_lon zone in
    let! utm_t := latlon2utm proj_fwd lat lon zone in
    let! o := extract_en utm_i in
    let! t := extract_en utm_t in
    shift_en t o.
End LcsSeq.
