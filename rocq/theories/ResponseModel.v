(** Model of the generation of material response data sets.

    Modelled: user_scripts/synthetic_data/gen_response_dataset.py 156-370
    (generate_response_dataset, in memory), 372-510 (compute_stress_path),
    513-575 (build_tensor_from_comps, store_tensor_comps), 577-812
    (gen_response_dataset_from_csv), 814-945
    (gen_response_dataset_from_strain_dataset), 1558-1590
    (compute_stress_invariants); gen_noisy_response_dataset.py 191-300, 302-497
    (generate_noiseless_dataset, generate_noisy_dataset), 499-629
    (compute_stress_path), 632-670 (compute_norm_path);
    data_generation/strain_paths/interface.py 98-160 (build_strain_tensor);
    simulators/fetorch/material/material_su.py 22-69 (the state update of the
    model, infinitesimal strains).

    Simplifications: real numbers for floats; a path has one row per entry of
    the time history; the constitutive model is any function from a strain
    increment and a state to a state; the k-th strain path drawn by a generator
    is any function of k; the samples are records (the keys of the dictionaries
    are distinct); figures, timing and messages are left out except for the
    division by the number of paths.  Component digits start from 1. *)
From Coq Require Import String Reals List Arith Bool ZArith.
From Verif Require Import Lib PyDict MatrixModel RcModel HardeningModel HybridModel DenoiseModel NoiseModel.
Import ListNotations.
Local Open Scope list_scope.
Local Open Scope R_scope.

(** ** Tensors *)
(** gen_response_dataset.py 513-548, gen_noisy_response_dataset.py 672-710. *)
Definition assign_comp (n : nat) (arr : list R) (is_symmetric : bool) (t : T2) (kc : nat * comp) : res T2 :=
  let i := row (snd kc) in let j := col (snd kc) in
  if negb (Nat.ltb (fst kc) (length arr)) then Err IndexError
  else if negb (Nat.ltb i n && Nat.ltb j n) then Err IndexError
  else
    let t1 := set2 t i j (nth (fst kc) arr 0) in
    Ok (if is_symmetric && negb (Nat.eqb i j) then set2 t1 j i (nth (fst kc) arr 0) else t1).
Definition build_tensor (n : nat) (comps : list comp) (arr : list R) (is_symmetric : bool) : res T2 :=
  rfold (assign_comp n arr is_symmetric) (combine (seq 0 (length comps)) comps) zero2.
(** 550-575, 712-735. *)
Definition store_tensor (n : nat) (comps : list comp) (t : T2) : res (list R) :=
  rmap (fun c => if Nat.ltb (row c) n && Nat.ltb (col c) n then Ok (t (row c) (col c)) else Err IndexError) comps.

(** interface.py 98-160: components are strings of digits, given here by their
    list of digits. *)
Definition build_strain_tensor (n : nat) (arr : list R) (order : list (list nat)) (is_symmetric : bool) : res T2 :=
  if existsb (fun x => negb (Nat.leb 1 x && Nat.leb x n)) (concat order) then Err RuntimeError
  else if existsb (fun c => negb (Nat.eqb (length c) 2)) order then Err RuntimeError
  else if negb (Nat.eqb (length (nodup (list_eq_dec Nat.eq_dec) order)) (length order)) then Err RuntimeError
  (* 0.5*n_dim(n_dim + 1) in the message calls an integer *)
  else if is_symmetric && negb (Nat.eqb (2 * length order) (n * (n + 1))) then Err TypeError
  else if negb is_symmetric && negb (Nat.eqb (length order) (n * n)) then Err RuntimeError
  else build_tensor n (map (fun c => (nth 0 c 0%nat, nth 1 c 0%nat)) order) arr is_symmetric.

(** gen_response_dataset.py 1558-1590; np.linalg.det of a three by three
    matrix. *)
Definition np_det3 (a : T2) : R :=
  a 0%nat 0%nat * a 1%nat 1%nat * a 2%nat 2%nat + a 0%nat 1%nat * a 1%nat 2%nat * a 2%nat 0%nat
  + a 0%nat 2%nat * a 1%nat 0%nat * a 2%nat 1%nat - a 0%nat 2%nat * a 1%nat 1%nat * a 2%nat 0%nat
  - a 0%nat 1%nat * a 1%nat 0%nat * a 2%nat 2%nat - a 0%nat 0%nat * a 1%nat 2%nat * a 2%nat 1%nat.
Definition np_trace (a : T2) : R := rsum 3 (fun i => a i i).
Definition np_matmul (a b : T2) : T2 := fun i j => rsum 3 (fun k => a i k * b k j).
Definition compute_stress_invariants (s : T2) : (R * R * R) * (R * R * R) :=
  let i1 := np_trace s in
  let i2 := 5 / 10 * (np_trace s ^ 2 - np_trace (np_matmul s s)) in
  let i3 := np_det3 s in
  ((i1, i2, i3), (0, 1 / 3 * i1 ^ 2 - i2, 2 / 27 * i1 ^ 3 - 1 / 3 * i1 * i2 + i3)).

(** ** Stress response of a strain path *)
(** numpy: assignment of a row; one entry is broadcast. *)
Definition set_row (m : list (list R)) (t : nat) (v : list R) : res (list (list R)) :=
  let w := length (nth t m []) in
  if negb (Nat.ltb t (length m)) then Err IndexError
  else if Nat.eqb (length v) w then Ok (upd m t v)
  else if Nat.eqb (length v) 1 then Ok (upd m t (repeat (nth 0 v 0) w))
  else Err ValueError.
Record path_out := { po_stress : list (list R); po_state : dict (list (list R)); po_fail : bool }.
Definition np_zeros (t k : nat) : list (list R) := repeat (repeat 0 k) t.

Section Stress.
  (** self._n_dim, self._comp_order_sym *)
  Variable n_dim : nat.
  Variable comp_order_sym : list comp.
  (** material_state_update with the constitutive model, state_init *)
  Variable su : T2 -> rc_state -> rc_state.
  Variable init : rc_state.
  (** state_features *)
  Variable state_features : list (string * nat).
  (** gen_noisy_response_dataset.py pops without a test (605-607) *)
  Variable is_noisy_script : bool.
  (** strain_comps_order *)
  Variable order : list comp.

  (** 482-508, 603-627 *)
  Definition store_state_var (s : rc_state) (t : nat) (sp : dict (list (list R))) (f : string * nat)
    : res (dict (list (list R))) :=
    match dget (rc_vars s) (fst f) with
    | None =>
      match dget sp (fst f) with
      | Some _ => Ok (ddel sp (fst f))
      | None => if is_noisy_script then Err KeyError else Ok sp
      end
    | Some v =>
      rbind (if is_strain_var (fst f)
             then rbind (get_tensor_from_mf2 v n_dim comp_order_sym true) (store_tensor n_dim order)
             else Ok v) (fun r =>
      rbind (dlookup sp (fst f)) (fun m => rbind (set_row m t r) (fun m' => Ok (dset sp (fst f) m'))))
    end.
  (** 436-508, 557-627 *)
  Fixpoint stress_loop (t : nat) (s : rc_state) (old : list R) (rows : list (list R)) (o : path_out) : res path_out :=
    match rows with
    | [] => Ok o
    | r :: rest =>
      rbind (build_tensor n_dim order old true) (fun e_old =>
      rbind (build_tensor n_dim order r true) (fun e =>
      let s' := su (fun i j => e i j - e_old i j) s in
      if rc_fail s' then Ok {| po_stress := po_stress o; po_state := po_state o; po_fail := true |}
      else
      rbind (dlookup (rc_vars s') "stress_mf") (fun mf =>
      rbind (get_tensor_from_mf2 mf n_dim comp_order_sym true) (fun stress =>
      rbind (store_tensor n_dim order stress) (fun sr =>
      rbind (set_row (po_stress o) t sr) (fun m =>
      rbind (rfold (store_state_var s' t) state_features (po_state o)) (fun sp =>
      stress_loop (S t) s' r rest {| po_stress := m; po_state := sp; po_fail := false |})))))))
    end.
  (** 372-510, 499-629 *)
  Definition compute_stress_path (strain_path : list (list R)) : res path_out :=
    let n_time := length strain_path in
    let o := {| po_stress := np_zeros n_time (length order);
                po_state := fold_left (fun d f => dset d (fst f) (np_zeros n_time (snd f))) state_features [];
                po_fail := false |} in
    match strain_path with
    | [] => Ok o
    | r :: rest => stress_loop 1 init r rest o
    end.
End Stress.

(** ** Data sets *)
Record sample := { sm_order : list comp; sm_time : list R; sm_strain : list (list R); sm_stress : list (list R);
                   sm_state : dict (list (list R)); sm_strain_noise : option (list (list R));
                   sm_stress_noise : option (list (list R)) }.
Definition max_path_trials : nat := 10.
Definition known_path_type (x : string) : bool := (String.eqb x "random" || String.eqb x "proportional")%bool.
Definition known_model (x : string) : bool :=
  existsb (String.eqb x) ["elastic"; "von_mises"; "drucker_prager"; "lou_zhang_yoon"]%string.
(** avg_time_sec = total_time_sec/n_path *)
Definition average_time {A} (n_path : nat) (dataset : A) : res A :=
  if Nat.eqb n_path 0 then Err ZeroDivisionError else Ok dataset.

Section Datasets.
  Variable n_dim : nat.
  Variable comp_order_sym : list comp.
  Variable su : T2 -> rc_state -> rc_state.
  Variable init : rc_state.
  Variable state_features : list (string * nat).
  Variable is_noisy_script : bool.
  (** the strain paths drawn by the generator: components, times, strains *)
  Variable draw : nat -> list comp * list R * list (list R).
  Definition material_response (p : list comp * list R * list (list R)) : res path_out :=
    compute_stress_path n_dim comp_order_sym su init state_features is_noisy_script (fst (fst p)) (snd p).
  Definition sample_of (p : list comp * list R * list (list R)) (o : path_out) : sample :=
    {| sm_order := fst (fst p); sm_time := snd (fst p); sm_strain := snd p; sm_stress := po_stress o;
       sm_state := po_state o; sm_strain_noise := None; sm_stress_noise := None |}.

  (** gen_response_dataset.py 269-300, gen_noisy_response_dataset.py 252-277:
      [left] is the number of further trials after which the check of the
      number of trials still passes. *)
  Fixpoint trials (left q : nat) : res (sample * nat) :=
    rbind (material_response (draw q)) (fun o =>
    match left with
    | O => Err RuntimeError
    | S l => if po_fail o then trials l (S q) else Ok (sample_of (draw q) o, S q)
    end).
  Fixpoint generate_samples (n_path q : nat) : res (list sample) :=
    match n_path with
    | O => Ok []
    | S n => rbind (trials max_path_trials q) (fun r =>
             rbind (generate_samples n (snd r)) (fun l => Ok (fst r :: l)))
    end.
  (** 156-370 (in memory), 191-300 *)
  Definition generate_response_dataset (n_path : nat) (strain_path_type model_name : string) : res (list sample) :=
    if negb (known_path_type strain_path_type) then Err RuntimeError
    else if negb (known_model model_name) then Err RuntimeError
    else rbind (generate_samples n_path 0) (average_time n_path).

  (** 814-945: the responses of the paths of a given data set *)
  Definition response_of_sample (s : sample) : res sample :=
    let p := (sm_order s, sm_time s, sm_strain s) in
    rbind (material_response p) (fun o => if po_fail o then Err RuntimeError else Ok (sample_of p o)).
  Definition gen_from_strain_dataset (dataset : option (list sample)) (model_name : string) : res (list sample) :=
    match dataset with
    | None => Err RuntimeError
    | Some l =>
      if negb (known_model model_name) then Err RuntimeError
      else rbind (rmap response_of_sample l) (average_time (length l))
    end.
End Datasets.

(** ** Data sets from tables (577-812) *)
Section Csv.
  Variable n_dim : nat.
  Variable comp_order_sym : list comp.
  (** last integer of a file name; re.search returns None without digits *)
  Variable last_int : string -> option nat.
  Definition strain_cols : list nat := if Nat.eqb n_dim 2 then [1; 2; 4]%nat else seq 1 6.
  Definition stress_cols : list nat := if Nat.eqb n_dim 2 then [7; 8; 10]%nat else seq 7 6.
  Definition columns (cols : list nat) (d : frame) : list (list R) := map (fun r => map (fun c => nth c r 0) cols) (fr_rows d).
  (** torch.allclose with zeros: the default tolerances leave 1e-8 *)
  Definition null_path (p : list (list R)) : bool :=
    forallb (forallb (fun x => rleb (Rabs x) (1 / 100000000))) p.
  Definition read_sample (d : frame) : res (option sample) :=
    if negb (Nat.eqb (fr_cols d) 13) then Err RuntimeError
    else
      let s := {| sm_order := comp_order_sym; sm_time := map (fun r => nth 0 r 0) (fr_rows d);
                  sm_strain := columns strain_cols d; sm_stress := columns stress_cols d;
                  sm_state := []; sm_strain_noise := None; sm_stress_noise := None |} in
      Ok (if null_path (sm_stress s) then None else Some s).
  Definition file_key (f : string * frame) : Z := match last_int (fst f) with Some k => Z.of_nat k | None => 0%Z end.
  Definition gen_from_csv (files : list (string * frame)) (is_in_memory : bool) (dataset_directory : option string)
    : res (list sample) :=
    (* dataset_basename is not a parameter of the method *)
    if negb is_in_memory then (match dataset_directory with None => Err RuntimeError | Some _ => Err NameError end)
    else if negb (forallb (fun f => match last_int (fst f) with Some _ => true | None => false end) files) then Err AttributeError
    else rbind (rmap (fun f => read_sample (snd f)) (isort file_key files)) (fun l =>
         (* ratio_valid = .../n_path_files *)
         if Nat.eqb (length files) 0 then Err ZeroDivisionError
         else
         let kept := flat_map (fun o => match o with Some s => [s] | None => [] end) l in
         average_time (length kept) kept).
End Csv.

(** ** Noisy data sets (gen_noisy_response_dataset.py 302-497) *)
Definition madd (a b : list (list R)) : list (list R) :=
  map (fun p => map (fun q => fst q + snd q) (combine (fst p) (snd p))) (combine a b).
Definition msub (a b : list (list R)) : list (list R) :=
  map (fun p => map (fun q => fst q - snd q) (combine (fst p) (snd p))) (combine a b).
Definition zero_first (p : list (list R)) : list (list R) :=
  match p with [] => [] | r :: t => repeat 0 (length r) :: t end.
(** np.linalg.norm of a tensor, np.max of a vector *)
Definition frobenius (n : nat) (t : T2) : R := sqrt (sum2 n (fun i j => t i j * t i j)).
Fixpoint np_max (l : list R) : res R :=
  match l with
  | [] => Err ValueError
  | [x] => Ok x
  | x :: t => rbind (np_max t) (fun m => Ok (Rmax x m))
  end.
(** the denoiser works on the columns of a path (one for each feature) *)
Definition denoise_rows (p : list (list R)) : res (list (list R)) :=
  rbind (denoise (Moving_average 5) 1 (map (fun j => map (fun r => nth j r 0) p) (seq 0 (length (nth 0 p []))))) (fun cols =>
  Ok (map (fun t => map (fun col => nth t col 0) cols) (seq 0 (length p)))).
Record noise_settings := { ns_generator : noise_gen; ns_variability : string; ns_denoise : bool;
                           ns_scaler : option ((list (list R) -> list (list R)) * (list (list R) -> list (list R)));
                           (* the globals used in the method are those of the script *)
                           ns_is_main : bool }.

Section Noisy.
  Variables unif gauss : nat -> R.
  Variable n_dim : nat.
  Variable comp_order_sym : list comp.
  Variable su : T2 -> rc_state -> rc_state.
  Variable init : rc_state.
  Variable state_features : list (string * nat).
  Variable c : noise_settings.

  (** 632-670 *)
  Definition compute_norm_path (comps_path : list (list R)) (order : list comp) : res (list R) :=
    rmap (fun r => rbind (build_tensor n_dim order r true) (fun t => Ok (frobenius n_dim t))) comps_path.
  (** 403-416; a null normaliser gives NaN weights, which are not modelled
      (refused) *)
  Definition het_weights (s : sample) (normalizer : option R) : res (option (list R) * option R) :=
    if String.eqb (ns_variability c) "heteroscedastic" then
      if negb (ns_is_main c) then Err NameError
      else
      rbind (compute_norm_path (sm_strain s) (sm_order s)) (fun norms =>
      rbind (match normalizer with Some v => Ok v | None => np_max norms end) (fun nz =>
      if Req_EM_T nz 0 then Err ValueError
      else Ok (Some (map (fun x => x / nz) norms), Some nz)))
    else Ok (None, normalizer).
  (** 418-458: the noise and the noisy strains *)
  Definition noisy_strain (strain noise : list (list R)) : res (list (list R)) :=
    let strain' := match ns_scaler c with Some f => fst f strain | None => strain end in
    let noisy := madd strain' noise in
    let noisy := match ns_scaler c with Some f => snd f noisy | None => noisy end in
    if ns_denoise c then
      rbind (denoise_rows noisy) (fun d =>
      match d with
      | [] => Err IndexError
      | _ :: t => Ok (nth 0 strain' [] :: t)
      end)
    else Ok noisy.
  (** one trial: 383-477; q counts the draws of the generator *)
  Definition noisy_trial (s : sample) (normalizer : option R) (q : nat)
    : res (list (list R) * list (list R) * path_out * option R * nat) :=
    rbind (het_weights s normalizer) (fun w =>
    rbind (generate_noise_path unif gauss (ns_generator c) (length (sm_strain s)) (length (sm_order s))
             (ns_variability c) (fst w) q) (fun g =>
    let noise := zero_first (fst g) in
    rbind (noisy_strain (sm_strain s) noise) (fun strain =>
    rbind (compute_stress_path n_dim comp_order_sym su init state_features true (sm_order s) strain) (fun o =>
    Ok (noise, strain, o, snd w, snd g))))).
  Fixpoint noisy_trials (left : nat) (s : sample) (normalizer : option R) (q : nat) : res (sample * option R * nat) :=
    rbind (noisy_trial s normalizer q) (fun r =>
    let '(noise, strain, o, nz, q') := r in
    match left with
    | O => Err RuntimeError
    | S l =>
      if po_fail o then noisy_trials l s nz q'
      else Ok ({| sm_order := sm_order s; sm_time := sm_time s; sm_strain := strain; sm_stress := po_stress o;
                  sm_state := po_state o; sm_strain_noise := Some noise;
                  sm_stress_noise := Some (msub (po_stress o) (sm_stress s)) |}, nz, q')
    end).
  (** the normaliser set by one path is the argument of the next *)
  Fixpoint noisy_samples (l : list sample) (normalizer : option R) (q : nat) : res (list sample) :=
    match l with
    | [] => Ok []
    | s :: t => rbind (noisy_trials max_path_trials s normalizer q) (fun r =>
                rbind (noisy_samples t (snd (fst r)) (snd r)) (fun rest => Ok (fst (fst r) :: rest)))
    end.
  Definition generate_noisy_dataset (noiseless : list sample) (heteroscedastic_normalizer : option R) (q : nat)
    : res (list sample) :=
    rbind (noisy_samples noiseless heteroscedastic_normalizer q) (average_time (length noiseless)).
End Noisy.
