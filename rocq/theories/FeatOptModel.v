(** The features options of the training and prediction of the material models.

    src/hookeai/user_scripts/local_model_update/rnn_material_model/
      train_model.py 78-205 (options and schedule), 206-290 (data sets),
      predict.py 98-220 (the same options and the same data set operations).

    The data set operations are those of DatasetModel and FeaturesModel, on paths
    of real rows: concatenation along the features (torch.cat, dim=1) and weighted
    sums (torch.stack and torch.sum) are written out here. The scale of a
    component order, a TypeError in Python, is left to the sum, which refuses it. *)
From Coq Require Import String Reals List Bool Arith.
From Verif Require Import Lib PyDict MatrixModel DatasetModel FeaturesModel.
Import ListNotations.
Local Open Scope string_scope.
Local Open Scope list_scope.

Definition as_rows (v : fval) : res (list (list R)) := match v with Path rows => Ok rows | Order _ => Err TypeError end.
(** torch.cat(features, dim=1) *)
Definition tcat (vs : list fval) : res fval :=
  rbind (rmap as_rows vs) (fun rs =>
  match rs with
  | [] => Err RuntimeError
  | r0 :: rest =>
    if forallb (fun r : list (list R) => Nat.eqb (length r) (length r0)) rest
    then Ok (Path (map (fun t => concat (map (fun r => nth t r []) rs)) (seq 0 (length r0))))
    else Err RuntimeError
  end).
Definition tscale (w : R) (v : fval) : fval :=
  match v with Path rows => Path (map (map (Rmult w)) rows) | Order o => Order o end.
(** torch.sum(torch.stack(features, dim=0), dim=0) *)
Definition radd (a b : list (list R)) : list (list R) :=
  map (fun p => map (fun q => fst q + snd q)%R (combine (fst p) (snd p))) (combine a b).
Definition same_shape (a b : list (list R)) : bool := if list_eq_dec Nat.eq_dec (map (@length R) a) (map (@length R) b) then true else false.
Definition tsum (vs : list fval) : res fval :=
  rbind (rmap as_rows vs) (fun rs =>
  match rs with
  | [] => Err RuntimeError
  | r0 :: rest => if forallb (same_shape r0) rest then Ok (Path (fold_left radd rest r0)) else Err RuntimeError
  end).

Inductive fbuild := Cat | Sum (weights : dict R).
Record foption := Fopt { new_strain : list string; in_list : list string; in_build : fbuild; out_list : list string; out_build : fbuild;
  n_features_in : nat; n_features_out : nat }.
(** train_model.py 85-176, predict.py 104-194 *)
Definition foption_of (name : string) : res foption :=
  let inv := ["i1_strain"; "i2_strain"] in
  let plastic := Sum [("strain_path", 1%R); ("e_strain_mf", (-1)%R)] in
  if String.eqb name "strain_to_stress" then Ok (Fopt [] ["strain_path"] Cat ["stress_path"] Cat 6 6)
  else if String.eqb name "strain_i1_i2_to_stress" then Ok (Fopt inv ("strain_path" :: inv) Cat ["stress_path"] Cat 8 6)
  else if String.eqb name "strain_to_p_strain" then Ok (Fopt [] ["strain_path"] (Sum [("strain_path", 1%R)]) ["strain_path"; "e_strain_mf"] plastic 6 6)
  else if String.eqb name "strain_i1_i2_to_p_strain" then Ok (Fopt inv ("strain_path" :: inv) Cat ["strain_path"; "e_strain_mf"] plastic 8 6)
  else if String.eqb name "stress_acc_p_strain" then Ok (Fopt [] ["strain_path"] Cat ["stress_path"; "acc_p_strain"] Cat 6 7)
  else if String.eqb name "strain_vf_to_stress" then Ok (Fopt [] ["strain_path"; "vf_path"] Cat ["stress_path"] Cat 7 6)
  else if String.eqb name "strain_temperature_composition_to_stress" then
    Ok (Fopt [] ["strain_path"; "temperature_hist"; "composition_hist"] Cat ["stress_path"] Cat 8 6)
  else Err RuntimeError.

(** train_model.py 237-251, 275-285 *)
Definition build_feature (b : fbuild) (d : dset_t) (new : string) (labels : list string) (st : store fval) : store fval * option exn :=
  match b with
  | Cat => concatenate tcat d new labels false st
  | Sum ws => sum_features 1%R tscale tsum d new labels (Some ws) false st
  end.
Definition then_ (r : store fval * option exn) (f : store fval -> store fval * option exn) : store fval * option exn :=
  match r with (st, None) => f st | _ => r end.
Fixpoint add_all (d : dset_t) (labels : list string) (st : store fval) : store fval * option exn :=
  match labels with [] => (st, None) | l :: t => then_ (add_strain_features d l st) (add_all d t) end.
(** train_model.py 265-290, predict.py 199-222 *)
Definition prepare (o : foption) (hidden : list (list R)) (d : dset_t) (st : store fval) : store fval * option exn :=
  then_ (add_all d (new_strain o) st) (fun st =>
  then_ (build_feature (in_build o) d "features_in" (in_list o) st) (fun st =>
  then_ (build_feature (out_build o) d "features_out" (out_list o) st) (fun st =>
  add_feature d "hidden_features_in" (Path hidden) st))).
(** predict.py 230: min((512, len(dataset))) *)
Definition predict_batch_size (d : dset_t) : nat := Nat.min 512 (dlen d).
(** train_model.py 191-194: factor of the exponential schedule *)
Definition gamma (lr_init lr_end : R) (n : nat) : R := Rpower (lr_end / lr_init) (1 / INR n).
Definition rate_after (lr_init lr_end : R) (n k : nat) : R := (lr_init * gamma lr_init lr_end n ^ k)%R.
