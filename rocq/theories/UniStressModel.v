(** Uniaxial stress paths and evaluation of material models
    (user_scripts/complete_pipelines/evaluate_gru_model.py, 185-222, 334-493,
    820-850).

    The von Mises model and the recurrent model (with its normalisation) are
    arguments, from paths to paths; the jacobian of automatic differentiation is
    an argument. Numbers are real; torch.linalg.solve refuses a singular matrix
    (an error recorded as RuntimeError). *)
From Coq Require Import Reals String List Bool Arith ZArith.
Import ListNotations.
From Verif Require Import Lib PyStr PyDict HardeningModel MatDataModel.
Local Open Scope list_scope.
Local Open Scope R_scope.

Definition spath := list (list R).
(** 185-222: build_gru_features_in *)
Definition gru_features (t c : R) (p : spath) : spath := map (fun r => r ++ [t; c]) p.
(** 371-378: shapes of strain and stress paths (rows of six components). *)
Fixpoint same_shape (a b : spath) : bool :=
  match a, b with
  | [], [] => true
  | r :: a, s :: b => Nat.eqb (length r) (length s) && same_shape a b
  | _, _ => false
  end.
(** 334-381: forward_material_model *)
Definition forward_material (vm gru : spath -> spath) (name : string) (t c : R) (p : spath) : res spath :=
  rbind (if String.eqb name "von_mises" then Ok (vm p)
         else if String.eqb name "gru" then Ok (map (firstn 6) (gru (gru_features t c p)))
         else Err ValueError) (fun s =>
  if same_shape s p then Ok s else Err ValueError).

(** 428-437: the iterated strain *)
Definition uni_row (x y e : R) : list R := [x; y; e; 0; 0; 0].

Section Uniaxial.
  Variable forward : spath -> res spath.
  Variable jac : spath -> R -> R * R -> (R * R) * (R * R).
  Variable tol : R.
  Variable max_iter : nat.

  (** 424-446: residual, the two lateral stresses of the last step *)
  Definition lateral (s : spath) : R * R :=
    let r := nth (length s - 1) s [] in (nth 0 r 0, nth 1 r 0).
  Definition residual (path : spath) (e : R) (x : R * R) : res (R * R) :=
    rbind (forward (path ++ [uni_row (fst x) (snd x) e])) (fun s => Ok (lateral s)).
  (** 463: the criterion; a division by zero is infinite or not a number *)
  Definition small_residual (r : R * R) (e : R) : bool :=
    if Req_EM_T e 0 then false else rltb (sqrt (fst r * fst r + snd r * snd r) / Rabs e) tol.
  (** 470-472: torch.linalg.solve(jacobian, -res) *)
  Definition solve2 (j : (R * R) * (R * R)) (r : R * R) : option (R * R) :=
    let '((a, b), (c, d)) := j in
    let det := a * d - b * c in
    if Req_EM_T det 0 then None
    else Some ((b * snd r - d * fst r) / det, (c * fst r - a * snd r) / det).
  (** 458-474: Newton iterations of a step *)
  Fixpoint newton (fuel : nat) (path : spath) (e : R) (x : R * R) : res (R * R) :=
    match fuel with
    | O => Ok x
    | S f => rbind (residual path e x) (fun r =>
      if small_residual r e then Ok x
      else match solve2 (jac path e x) r with
           | None => Err RuntimeError
           | Some dx => newton f path e (fst x + fst dx, snd x + snd dx)
           end)
    end.
  (** 448-477: the steps after the first, each from a zero lateral strain *)
  Fixpoint uni_steps (es : list R) (path : spath) : res spath :=
    match es with
    | [] => Ok path
    | e :: t => rbind (newton max_iter path e (0, 0)) (fun x => uni_steps t (path ++ [uni_row (fst x) (snd x) e]))
    end.
  (** 383-493: get_uniaxial_stress_path; the first row stays zero *)
  Definition uniaxial (es : list R) : res (spath * spath) :=
    rbind (match es with [] => Ok [] | _ :: t => uni_steps t [uni_row 0 0 0] end) (fun p =>
    rbind (forward p) (fun s => Ok (p, s))).
End Uniaxial.

(** 823: key of a data set, T_{temperature}_C_{int(composition*100)} *)
Definition data_key (t : nat) (c : R) : string :=
  ("T_" ++ nat_str t ++ "_C_" ++ nat_str (Z.to_nat (ztrunc (c * 100))))%string.
(** 820-850: the dictionary of the uniaxial data sets *)
Definition build_dataset {A} (temps : list nat) (comps : list R) (f : nat -> R -> A) : list (string * A) :=
  fold_left (fun d tc => gset String.eqb d (data_key (fst tc) (snd tc)) (f (fst tc) (snd tc))) (list_prod temps comps) [].
