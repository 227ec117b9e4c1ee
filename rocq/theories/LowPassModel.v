(** Model of the frequency low-pass denoiser.
    Source: src/hookeai/utilities/data_denoisers.py 49-91 (denoise) and 208-298
    (_dn_frequency_low_pass).
    A features tensor is modelled by its columns, as in DenoiseModel: one list
    (over time) for each feature; torch.fft works on each column.
    Simplifications: real arithmetic; the discrete Fourier transform, its
    inverse and fftfreq are given by their definitions (not by the fast
    algorithm); of the optional plot (245-283) only the shape of its data array
    is kept, because filling it can raise. *)
From Coq Require Import Reals List Arith ZArith.
From Verif Require Import Lib HardeningModel.
Import ListNotations.
Local Open Scope R_scope.

(** 2 pi k t / n *)
Definition angle (n k t : nat) : R := 2 * PI * INR k * INR t / INR n.
(** torch.fft.fft of one column: real and imaginary part *)
Definition dft (x : list R) (k : nat) : R * R :=
  (rsum (length x) (fun t => nth t x 0 * cos (angle (length x) k t)),
   - rsum (length x) (fun t => nth t x 0 * sin (angle (length x) k t))).
(** torch.fft.fftfreq(n, 1) *)
Definition fftfreq (n k : nat) : R :=
  if Nat.leb k ((n - 1) / 2) then INR k / INR n else (INR k - INR n) / INR n.
(** 286: the filter *)
Definition low_pass_filter (n : nat) (cutoff : R) (k : nat) : bool := rleb (Rabs (fftfreq n k)) cutoff.
(** 292: the filtered spectrum (a Boolean times a complex number) *)
Definition filtered (cutoff : R) (x : list R) (k : nat) : R * R :=
  let b := if low_pass_filter (length x) cutoff k then 1 else 0 in
  (b * fst (dft x k), b * snd (dft x k)).
(** 296: torch.fft.ifft(...).real *)
Definition ifft_real (n : nat) (X : nat -> R * R) : list R :=
  map (fun t => / INR n * rsum n (fun k => fst (X k) * cos (angle n k t) - snd (X k) * sin (angle n k t))) (seq 0 n).
Definition low_pass1 (cutoff : R) (x : list R) : list R := ifft_real (length x) (filtered cutoff x).

(** 250-254: the plot data array has n_time//2 columns, of which
    2*n_features are written. *)
Definition plot_data_fits (n_time n_features : nat) : bool := Nat.leb (2 * n_features) (n_time / 2).
(** 208-298 *)
Definition low_pass (cutoff : R) (plot : bool) (tensor : list (list R)) : res (list (list R)) :=
  let n_time := match tensor with [] => O | c :: _ => length c end in
  if plot then
    if plot_data_fits n_time (length tensor) then Ok (map (low_pass1 cutoff) tensor) else Err IndexError
  else Ok (map (low_pass1 cutoff) tensor).
(** 72-91 for this method *)
Fixpoint denoise_low_pass (cutoff : R) (plot : bool) (cycles : nat) (tensor : list (list R)) : res (list (list R)) :=
  match cycles with
  | O => Ok tensor
  | S c => rbind (low_pass cutoff plot tensor) (denoise_low_pass cutoff plot c)
  end.
