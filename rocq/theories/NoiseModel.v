(** Model of the noise generator and of the injection of noise into the nodes
    displacements of a simulation.

    Modelled: data_generation/strain_paths/noise_generator.py 45-221 and
    miscellaneous/noisy_data/inject_disp_noise_csv.py 39-147.

    Simplifications: real numbers for floats; numpy's global generator is a
    stream of standard draws, uniform on [0, 1) ([unif]) or Gaussian ([gauss]),
    and the number of draws already taken; each scalar sample takes one draw; a
    Bernoulli sample is one when its uniform draw is less than p.  The names of
    the data files are parsed by a given function (the number of the time step,
    or none when the file is not a time step file); data frames are a number of
    columns and a list of rows. *)
From Coq Require Import String Reals List Arith Bool ZArith.
From Verif Require Import Lib PyDict HardeningModel HybridModel.
Import ListNotations.
Local Open Scope list_scope.
Local Open Scope R_scope.

(** noise_generator.py 45-50: constructor. *)
Record noise_gen := NoiseGen { ng_dist : option string; ng_params : option (dict R) }.
Definition noise_init : noise_gen := NoiseGen None None.
(** 52-66 set_noise_distribution. *)
Definition set_noise_distribution (g : noise_gen) (d : string) : res noise_gen :=
  if negb (existsb (String.eqb d) ["uniform"; "gaussian"; "spiked_gaussian"]%string) then Err RuntimeError
  else Ok (NoiseGen (Some d) (ng_params g)).
(** 90-113 get_required_parameters. *)
Definition get_required_parameters (d : option string) : res (list string) :=
  match d with
  | Some "uniform"%string => Ok ["amp"%string]
  | Some "gaussian"%string => Ok ["std"%string]
  | Some "spiked_gaussian"%string => Ok ["std"; "spike"; "p_spike"]%string
  | _ => Err RuntimeError
  end.
(** 68-88 set_noise_parameters. *)
Definition set_noise_parameters (g : noise_gen) (p : dict R) : res noise_gen :=
  rbind (get_required_parameters (ng_dist g)) (fun req =>
  if forallb (fun x => existsb (String.eqb x) (dkeys p)) req then Ok (NoiseGen (ng_dist g) (Some p)) else Err RuntimeError).
(** self._noise_parameters[...]: subscripting None is a TypeError. *)
Definition param (g : noise_gen) (x : string) : res R :=
  match ng_params g with
  | None => Err TypeError
  | Some p => match dget p x with Some v => Ok v | None => Err KeyError end
  end.

Section Draws.
  Variables unif gauss : nat -> R.

  (** numpy arrays of shape (T, n) filled row by row with the draws k, k+1, ... *)
  Definition grid (f : nat -> R) (T n k : nat) : list (list R) :=
    map (fun t => map (fun j => f (k + t * n + j)%nat) (seq 0 n)) (seq 0 T).
  (** np.random.uniform, np.random.normal (a negative scale is refused) and
      np.random.binomial with one trial (probabilities outside [0, 1] are
      refused). *)
  Definition np_uniform (low high : R) (q : nat) : R := low + (high - low) * unif q.
  Definition np_normal (loc scale : R) : res (nat -> R) :=
    if rltb scale 0 then Err ValueError else Ok (fun q => loc + scale * gauss q).
  Definition np_binomial (p : R) : res (nat -> R) :=
    if (rltb p 0 || rltb 1 p)%bool then Err ValueError else Ok (fun q => if rltb (unif q) p then 1 else 0).
  Definition is_gaussian (d : option string) : bool :=
    match d with Some x => (String.eqb x "gaussian" || String.eqb x "spiked_gaussian")%bool | None => false end.
  Definition is_uniform (d : option string) : bool :=
    match d with Some x => String.eqb x "uniform" | None => false end.

  (** 150-165: homoscedastic noise; NameError: noise_path is not assigned. *)
  Definition hom_noise (g : noise_gen) (T n k : nat) : res (list (list R) * nat) :=
    if is_uniform (ng_dist g) then
      rbind (param g "amp") (fun amp =>
      let low := - (1 / 2) * Rabs amp in
      let high := - low in
      Ok (grid (np_uniform low high) T n k, (k + T * n)%nat))
    else if is_gaussian (ng_dist g) then
      rbind (param g "std") (fun std =>
      rbind (np_normal 0 std) (fun f => Ok (grid f T n k, (k + T * n)%nat)))
    else Err NameError.

  (** 174-208: heteroscedastic noise, one time step: a homoscedastic draw plus a
      weighted one. *)
  Definition het_step (g : noise_gen) (w : R) (n k : nat) : res (list R * nat) :=
    if is_uniform (ng_dist g) then
      rbind (param g "amp") (fun amp =>
      let hom_low := - (1 / 2) * Rabs amp in
      let hom_high := - hom_low in
      let het_low := - (1 / 2) * Rabs amp * w in
      let het_high := - het_low in
      Ok (map (fun j => np_uniform hom_low hom_high (k + j)%nat + np_uniform het_low het_high (k + n + j)%nat) (seq 0 n),
          (k + 2 * n)%nat))
    else if is_gaussian (ng_dist g) then
      rbind (param g "std") (fun std =>
      rbind (np_normal 0 std) (fun f =>
      rbind (np_normal 0 (std * w)) (fun h =>
      Ok (map (fun j => f (k + j)%nat + h (k + n + j)%nat) (seq 0 n), (k + 2 * n)%nat))))
    else Err NameError.
  Fixpoint het_noise (g : noise_gen) (ws : list R) (ts : list nat) (n k : nat) : res (list (list R) * nat) :=
    match ts with
    | [] => Ok ([], k)
    | t :: rest =>
      match nth_error ws t with
      | None => Err IndexError
      | Some w => rbind (het_step g w n k) (fun r => rbind (het_noise g ws rest n (snd r)) (fun rs => Ok (fst r :: fst rs, snd rs)))
      end
    end.
  Definition add_rows (a b : list (list R)) : list (list R) :=
    map (fun p => map (fun q => fst q + snd q) (combine (fst p) (snd p))) (combine a b).

  (** 115-221 generate_noise_path; only the shape (T, n) of the path is used.
      An unknown variability leaves noise_path unassigned. *)
  Definition generate_noise_path (g : noise_gen) (T n : nat) (variability : string) (weights : option (list R)) (k : nat)
    : res (list (list R) * nat) :=
    let noise :=
      if String.eqb variability "homoscedastic" then Some (hom_noise g T n k)
      else if String.eqb variability "heteroscedastic" then
        let ws := match weights with Some w => w | None => repeat 1 T end in
        Some (het_noise g ws (seq 0 T) n k)
      else None in
    match noise with
    | Some (Err e) => Err e
    | _ =>
      if match ng_dist g with Some d => String.eqb d "spiked_gaussian" | None => false end then
        rbind (param g "spike") (fun spike =>
        rbind (param g "p_spike") (fun p_spike =>
        rbind (np_binomial p_spike) (fun b =>
        match noise with
        | Some (Ok (path, k')) => Ok (add_rows path (grid (fun q => spike * b q) T n k'), (k' + T * n)%nat)
        | _ => Err NameError
        end)))
      else match noise with Some r => r | None => Err NameError end
    end.

  (** ** Injection of noise into displacements *)

  Record frame := Frame { fr_cols : nat; fr_rows : list (list R) }.
  (** inject_disp_noise_csv.py: the noise parameters used by the function. *)
  Record inject_params := InjectParams { ip_dist : option string; ip_dirname : option string; ip_values : dict R }.
  (** The directory of the data: its files, or none when it does not exist. *)
  Definition directory := option (dict frame).

  Variable tstep : string -> option nat.
  (** 73-95: time step files sorted by their number. *)
  Definition step_files (files : list string) : list string :=
    isort (fun x => match tstep x with Some k => Z.of_nat k | None => 0%Z end)
      (filter (fun x => match tstep x with Some _ => true | None => false end) files).
  (** 116-139: columns 4 to 6 of a frame. *)
  Definition disps (r : list R) : list R := firstn 3 (skipn 4 r).
  Definition set_disps (r v : list R) : list R := firstn 4 r ++ v ++ skipn 7 r.
  Definition noisy_frame (g : noise_gen) (d : frame) (k : nat) : res (frame * nat) :=
    if negb (Nat.eqb (fr_cols d) 10) then Err RuntimeError
    else rbind (generate_noise_path g (length (fr_rows d)) 3 "homoscedastic" None k) (fun nk =>
         let noisy := map (fun p => map (fun q => fst q + snd q) (combine (disps (fst p)) (snd p))) (combine (fr_rows d) (fst nk)) in
         Ok (Frame (fr_cols d) (map (fun p => set_disps (fst p) (snd p)) (combine (fr_rows d) noisy)), snd nk)).
  (** 108-147: loop over the files after the first one. *)
  Fixpoint noisy_files (g : noise_gen) (files : dict frame) (names : list string) (k : nat) : res (dict frame) :=
    match names with
    | [] => Ok []
    | x :: rest =>
      match dget files x with
      | None => Err RuntimeError
      | Some d => rbind (noisy_frame g d k) (fun r => rbind (noisy_files g files rest (snd r)) (fun out => Ok ((x, fst r) :: out)))
      end
    end.
  (** 39-147: the files left in the data directory, and the files of the new
      directory or the error.  make_directory removes an existing directory:
      with an empty name or a dot that is the data directory itself. *)
  Definition inject (dir : directory) (p : inject_params) (k : nat) : directory * res (dict frame) :=
    match dir with
    | None => (dir, Err RuntimeError)
    | Some files =>
      match ip_dist p with
      | None => (dir, Err KeyError)
      | Some dist =>
        match rbind (set_noise_distribution noise_init dist) (fun g => set_noise_parameters g (ip_values p)) with
        | Err e => (dir, Err e)
        | Ok g =>
          match ip_dirname p with
          | None => (dir, Err KeyError)
          | Some name =>
            let files' := if (String.eqb name "" || String.eqb name ".")%bool then [] else files in
            (Some files',
             match step_files (dkeys files') with
             | [] => Err IndexError
             | x :: rest =>
               match dget files' x with
               | None => Err RuntimeError
               | Some d => rbind (noisy_files g files' rest k) (fun out => Ok ((x, d) :: out))
               end
             end)
          end
        end
      end
    end.
End Draws.
