(** Model of the time series denoisers.
    Source: src/hookeai/utilities/data_denoisers.py 49-206 (denoise,
    _dn_moving_average, _dn_savitzky_golay).
    A features tensor is modelled by its columns: one list (over time) for each
    feature, which is how the code processes it (tensor.T, one convolution group
    for each feature).
    Simplifications: real arithmetic; the Savitzky-Golay coefficients
    (scipy.signal.savgol_coeffs) are an argument; window_size >= 1 and at least
    one time are hypotheses of the theorems (torch raises otherwise);
    _dn_frequency_low_pass is in LowPassModel. *)
From Coq Require Import Reals List Arith.
From Verif Require Import Lib.
Import ListNotations.
Local Open Scope R_scope.

(** 121-123, 188-190: F.pad(..., mode='replicate') *)
Definition pad_left (w : nat) : nat := (w / 2)%nat.
Definition pad_right (w : nat) : nat := (w - 1 - w / 2)%nat.
Definition pad (w : nat) (x : list R) : list R :=
  repeat (hd 0 x) (pad_left w) ++ x ++ repeat (last x 0) (pad_right w).
(** F.conv1d without padding: cross-correlation with the kernel *)
Definition conv (ker x : list R) : list R :=
  map (fun t => rsum (length ker) (fun k => nth k ker 0 * nth (t + k) x 0)) (seq 0 (length x + 1 - length ker)).
(** 184-206 for one feature *)
Definition filter1 (ker x : list R) : list R := conv ker (pad (length ker) x).
(** 127: torch.ones(n_features, 1, window_size)/window_size *)
Definition mean_kernel (w : nat) : list R := repeat (1 / INR w) w.
Definition moving_average (w : nat) (tensor : list (list R)) : list (list R) := map (filter1 (mean_kernel w)) tensor.
Definition savitzky_golay (coeffs : list R) (tensor : list (list R)) : list (list R) := map (filter1 coeffs) tensor.

Inductive method := Moving_average (window_size : nat) | Savitzky_golay (coeffs : list R) | Unknown_method.
Definition kernel_of (m : method) : option (list R) :=
  match m with Moving_average w => Some (mean_kernel w) | Savitzky_golay c => Some c | Unknown_method => None end.
(** 72-91 *)
Definition denoise (m : method) (n_denoise_cycle : nat) (tensor : list (list R)) : res (list (list R)) :=
  match m with
  | Moving_average w => Ok (Nat.iter n_denoise_cycle (moving_average w) tensor)
  | Savitzky_golay c => Ok (Nat.iter n_denoise_cycle (savitzky_golay c) tensor)
  | Unknown_method => Err RuntimeError
  end.
