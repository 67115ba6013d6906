(** Property theorems. Concrete cases for the spectra, transfer functions, delays and the cloud advection filter.
    Proofs are in the X_ file of the same name. *)
From Coq Require Import String.
From Verif Require Import Prelude PreludeFacts RealBase Fl RealStat Dft Phase Spec_welch Spec_tfdelay Spec_plant M_cmv M_signal_corr M_signal_tf M_signal_plant P_signal P_corr P_dft P_welch P_parseval
  X_signal_psd X_signal_tf X_signal_tfdelay X_signal_tfx X_signal_cam.
From Coq Require Import Lra Psatz.
From Coquelicot Require Import Complex.
Local Open Scope string_scope.
Local Open Scope R_scope.
From Verif Require Import X_ex_signal.

(** C47. a two-sample record and a rectangular window meet the hypotheses for both scalings *)
Example C47_psd_example :
  windows box_win /\ keeps_length no_dtr /\ welch_grid 2 1 (/ 2) 2 1 /\ segments_fit 2 2 1 1 /\
  norm_is (box_win "boxcar" 2) 1 "density" (1 / 2) /\ norm_is (box_win "boxcar" 2) 1 "spectrum" (1 / 4) /\
  exists v, averaged_psd box_win no_dtr 1 2 (Frame [("a", [3; 4])]) 1 (/ 2) "boxcar" None "spectrum" = Ok ([0; / 2], [("a", v)]) /\
    length v = 2%nat /\ nth 0 v 0 = 49 / 4.
Proof. exact (@psd_example). Qed.

(** C48. one input against two outputs: the single column is used twice *)
Example C48_tf_example :
  welch_grid 4 2 0 2 0 /\ segments_fit 4 2 0 2 /\ matchable [("a", [1; 0; 1; 0])] [("b", [1; 0; -1; 0]); ("c", [2; 0; 2; 0])] /\
  exists f out, averaged_tf box_win no_dtr 1 4 (Frame [("a", [1; 0; 1; 0])]) (Frame [("b", [1; 0; -1; 0]); ("c", [2; 0; 2; 0])]) 2 0 "boxcar" None = Ok (f, out) /\
    map fst out = ["a_b"; "a_c"].
Proof. exact (@tf_example). Qed.

(** C51. all three methods find a quarter second in a noiseless table *)
Example C51_delay_example :
  exists ls, solver ls /\ table [0; 1; 2; 3] [(map Some quarter, map (fun _ => Some 1) quarter)] /\
  forall method, In method ["multi"; "fit"; "diff"] -> exists ix,
    tf_delay ls [0; 1; 2; 3] [(map Some quarter, map (fun _ => Some 1) quarter)] (Some (/ 2)) (Some 4) method = Ok ([Some (/ 4)], ix).
Proof. exact (@delay_example). Qed.

(** C52. of four bins one fails the coherence limit, one has no coherence and one lies at the frequency limit *)
Example C52_mask_example :
  exists ls ds m, solver ls /\
  tf_delay ls [0; 1; 2; 3] [(map Some quarter, [Some 1; Some (/ 2); None; Some 1])] (Some (/ 2)) (Some 3) "multi" = Ok (ds, [m]) /\ m = [true; false; false; false].
Proof. exact (@mask_example). Qed.

(** C57. a two-point grid from -1: symmetric, and the filter of a site at -1 passed at speed 2 leads by half a second *)
Example C57_cam_example :
  2 * -1 = IZR (-1) * (INR 2 * 1) /\
  exists rows, plant1d_to_camfilter [Some 1; Some 0] [-1; 0] 2 = Ok rows /\
    map fst rows = [0; -1] /\ map snd rows = [Some (advected 2 0 [(-1, 1); (0, 0)]); Some (advected 2 (-1) [(-1, 1); (0, 0)])].
Proof. exact (@cam_example). Qed.

