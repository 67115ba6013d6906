(** cmv.py:44-82 WindspeedData.to_dict on the results of compute_cmv. *)
From Coq Require Import String.
From Verif Require Import Prelude Fl M_cmv.

(** An entry of method_data. The covariance matrix of gagne stands for whatever leastsq reports. *)
Inductive mval : Type := MNum (x : fl) | MNums (l : list fl) | MTwo (l l' : list fl) | MCount (n : nat) | MCovariance.
(** A value of the dictionary. *)
Inductive dval (K : Type) : Type :=
| DPairs (l : list (K * K)) | DNums (l : list fl) | DNum (x : fl) | DFlags (l : list Flag) | DFlag (f : Flag) | DMethod (d : list (string * mval)).
Arguments DPairs {K}. Arguments DNums {K}. Arguments DNum {K}. Arguments DFlags {K}. Arguments DFlag {K}. Arguments DMethod {K}.

(** cmv.py:624-634 the entries of method_out in the order they are created, with the values of cmv.py:336-350, 553-571;
    cmv.py:639-641, 362 for gagne. *)
Definition method_dict (md : option jamaly_out) : list (string * mval) :=
  match md with
  | Some j => [("error_index", MNum (j_err j)); ("velocity", MNums (j_velocity j)); ("v60", MNum (j_v60 j)); ("v40", MNum (j_v40 j));
               ("r_qc", MNums (map snd (j_qc j)));
               ("var_s", MTwo (map (fun q => fst (fst q)) (j_qc j)) (map (fun q => snd (fst q)) (j_qc j)));
               ("r_corr", MNum (j_rcorr j)); ("stderr_corr", MNum (j_stderr j)); ("ngood", MCount (j_ngood j))]
  | None => [("pcov", MCovariance)]
  end%string.

(** cmv.py:60-72, 74-76 to_dict over _fields; a field never set is the class attribute None. *)
Definition to_dict {K} (w : windspeed K) : list (string * option (dval K)) :=
  let fit {A} (g : fitdata -> option A) := match w_fit w with Some f => g f | None => None end in
  [("corr_raw", fit (fun f => option_map DNums (w_corr_raw f)));
   ("corr_lag", fit (fun f => Some (DNums (w_corr_lag f))));
   ("allpairs", Some (DPairs (w_allpairs w)));
   ("pair_lag", fit (fun f => Some (DNums (w_pair_lag f))));
   ("pair_coh", fit (fun f => option_map DNums (w_pair_coh f)));
   ("pair_dists", fit (fun f => Some (DNums (w_pair_dists f))));
   ("wind_speed", fit (fun f => Some (DNum (w_wind_speed f))));
   ("wind_angle", fit (fun f => Some (DNum (w_wind_angle f))));
   ("pair_flag", Some (DFlags (w_pair_flag w)));
   ("flag", Some (DFlag (w_flag w)));
   ("method_data", fit (fun f => Some (DMethod (method_dict (w_method_data f)))))]%string.
