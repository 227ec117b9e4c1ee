(** Generation and assembly of the material data sets of the local model update
    (user_scripts/complete_pipelines/local_model_update.py, 84-530, 690-755,
    1035-1055).

    Randomness and the material response are arguments: [ut], [uc] the numbers
    in [0, 1] behind random.uniform for a pair, a data set type and a sample,
    [fails] whether a trial of a sample fails, [pick] random.sample and
    [shuffle] the random permutation. A sample is described by the type of its
    strain path and its temperature and composition. Products of integers and
    fractions are exact. Data set types and base names are taken literally in the
    regular expressions (they are, without regular expression characters). *)
From Coq Require Import Reals String Ascii List Bool Arith ZArith.
Import ListNotations.
From Verif Require Import Lib PyStr PyDict HardeningModel ThermoParModel.
Local Open Scope list_scope.
Local Open Scope R_scope.

(** int(x) *)
Definition ztrunc (x : R) : Z := if Rlt_dec x 0 then (- Int_part (- x))%Z else Int_part x.

Inductive path_kind := RandomPath | ProportionalPath.
Record msample := { ms_kind : path_kind; ms_temp : R; ms_comp : R }.
Definition ratios := list (string * R).
Definition rget (d : ratios) (k : string) : option R := gget String.eqb d k.

(** 141-164: default ratios and checks; the dictionary is updated in place. *)
Fixpoint check_ratios (types : list (string * nat)) (d : ratios) : res ratios :=
  match types with
  | [] => Ok d
  | (ty, n) :: t =>
    let d := match rget d ty with Some _ => d | None => gset String.eqb d ty 1 end in
    let r := match rget d ty with Some r => r | None => 1 end in
    let n_rnd := ztrunc (INR n * r) in
    let n_prp := (Z.of_nat n - n_rnd)%Z in
    if (n_rnd <? 1)%Z then Err RuntimeError
    else if (n_prp <? 1)%Z then Err RuntimeError
    else check_ratios t d
  end.

(** 222-262: trials of a sample (numbered from 1), at most max_sample_trials. *)
Definition max_trials : nat := 10.
Fixpoint trial_loop (fuel k : nat) (fails : nat -> bool) : res nat :=
  match fuel with
  | O => Err RuntimeError
  | S fuel => if Nat.ltb max_trials (S k) then Err RuntimeError
              else if fails (S k) then trial_loop fuel (S k) fails else Ok (S k)
  end.

(** '{x:.2f}': hundredths of x (ties, which concern numbers such as 0.125 only,
    are rounded up here). *)
Definition hund (x : R) : Z := Int_part (100 * x + 1 / 2).
Definition dir_key : Type := (Z * Z)%type.
Definition key_eqb (a b : dir_key) : bool := ((fst a =? fst b) && (snd a =? snd b))%Z.

Section Generate.
  Variable ut uc : nat -> string -> nat -> R.
  Variable fails : nat -> string -> nat -> nat -> bool.
  (** The module variable base_dir: absent unless the file is run as a script,
      otherwise whether the directory exists. *)
  Variable base : option bool.
  Variable model : string.
  Variable temps comps : list R.

  (** 189-262: a sample *)
  Definition gen_sample (k : nat) (t c : R) (ty : string) (n_rnd : Z) (i : nat) : res msample :=
    let te := effective ty temps t (ut k ty i) in
    let ce := effective ty comps c (uc k ty i) in
    let kind := if (Z.of_nat i <? n_rnd)%Z then RandomPath else ProportionalPath in
    rbind (get_model_parameters model te ce) (fun _ =>
    rbind (trial_loop 11 0 (fails k ty i)) (fun _ =>
    Ok {| ms_kind := kind; ms_temp := te; ms_comp := ce |})).
  (** 176-318: the data set of a type, in the directory of its type *)
  Definition gen_type (d : ratios) (k : nat) (t c : R) (tn : string * nat) : res (string * list msample) :=
    let r := match rget d (fst tn) with Some r => r | None => 1 end in
    rbind (rmap (gen_sample k t c (fst tn) (ztrunc (INR (snd tn) * r))) (seq 0 (snd tn))) (fun l =>
    Ok ((fst tn ++ "_dataset")%string, l)).
  (** 690-720: set_dependencies_dir tests base_dir, not its argument. *)
  Definition gen_pair (d : ratios) (types : list (string * nat)) (kp : nat * (R * R))
    : res (dir_key * list (string * list msample)) :=
    let '(k, (t, c)) := kp in
    match base with
    | None => Err NameError
    | Some false => Err RuntimeError
    | Some true => rbind (rmap (gen_type d k t c) types) (fun l => Ok ((hund t, hund c), l))
    end.
  Definition enumerate {A} (l : list A) : list (nat * A) := combine (seq 0 (length l)) l.
  (** The directory of a pair replaces one with the same name. *)
  Definition tree := list (dir_key * list (string * list msample)).
  Definition store_pairs (l : tree) : tree :=
    fold_left (fun tr kd => gset key_eqb tr (fst kd) (snd kd)) l [].
  (** 84-330: generate_material_data *)
  Definition generate (types : list (string * nat)) (d : ratios) : res tree :=
    rbind (check_ratios types d) (fun d =>
    rbind (rmap (gen_pair d types) (enumerate (list_prod temps comps))) (fun l => Ok (store_pairs l))).
End Generate.

(** 492-530: preview_material_datasets_sizes *)
Definition preview_size (temps comps : list R) (n : nat) : nat := (length temps * length comps * n)%nat.

(** ** Assembly *)
(** Directories below 0_simulation with the files in each. *)
Definition sdir : Type := (string * list (string * list msample))%type.
(** The file of a data set (save_dataset with the number of samples). *)
Definition data_file (base : string) (l : list msample) : string := (base ++ "_n" ++ nat_str (length l) ++ ".pkl")%string.
Definition dirs_of (base : string) (tr : tree) : list sdir :=
  flat_map (fun kd => map (fun d => (fst d, [(data_file base (snd d), snd d)])) (snd kd)) tr.
Fixpoint strip_prefix (p s : string) : option string :=
  match p with
  | EmptyString => Some s
  | String a p' => match s with String b s' => if Ascii.eqb a b then strip_prefix p' s' else None | EmptyString => None end
  end.
(** re.match(base + '_n\d+\.pkl', name): the end of the name is free. *)
Definition match_file (base name : string) : bool :=
  match strip_prefix (base ++ "_n") name with
  | Some (String c rest) => is_digit c && starts_with ".pkl" (skip_digits rest)
  | _ => false
  end.
(** 380-402 *)
Definition collect (base ty : string) (dirs : list sdir) : list (list msample) :=
  flat_map (fun d => if starts_with (ty ++ "_dataset") (fst d)
                     then map snd (filter (fun f => match_file base (fst f)) (snd d)) else []) dirs.
(** 412-438: a fraction that is not a float, or out of range, keeps everything. *)
Definition kept (frac : option R) (n : nat) : nat :=
  let f := match frac with Some f => if rleb 0 f && rleb f 1 then f else 1 | None => 1 end in
  Z.to_nat (ztrunc (INR n * f)).
Definition target_dir (ty : string) (prev : option string) : option string :=
  if String.eqb ty "training" then Some "1_training_dataset"%string
  else if String.eqb ty "validation" then Some "2_validation_dataset"%string
  else if String.eqb ty "testing_id" then Some "5_testing_id_dataset"%string
  else prev.
Section Assemble.
  Variable pick : nat -> list msample -> list msample.
  Variable shuffle : list msample -> list msample.
  Variable base : string.
  Variable dirs : list sdir.
  (** size_balanced_reduction: absent entries keep the file as it is. *)
  Variable reduction : list (string * option R).
  Definition reduce (ty : string) (l : list msample) : list msample :=
    match gget String.eqb reduction ty with None => l | Some f => pick (kept f (length l)) l end.
  (** 335-490: assemble_material_datasets; the concatenation of no data sets is
      refused by torch (an AssertionError, recorded as RuntimeError); the
      directory name of an unknown type is that of the previous one. *)
  Fixpoint assemble_from (prev : option string) (out : list (string * list msample)) (types : list string)
    : res (list (string * list msample)) :=
    match types with
    | [] => Ok out
    | ty :: t =>
      let sets := map (reduce ty) (collect base ty dirs) in
      match sets with
      | [] => Err RuntimeError
      | _ => let data := shuffle (concat sets) in
             match target_dir ty prev with
             | None => Err NameError
             | Some d => assemble_from (Some d) (gset String.eqb out d data) t
             end
      end
    end.
  Definition assemble (types : list string) : res (list (string * list msample)) := assemble_from None [] types.
End Assemble.
