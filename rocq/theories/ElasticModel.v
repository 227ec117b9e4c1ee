(** Elastic constitutive model:
    src/hookeai/simulators/fetorch/material/models/standard/elastic.py.

    Matricial forms are lists of reals.  Material properties are an association
    list from property names to numbers.  Only infinitesimal strains (the only
    formulation supported by the finite element code, see GradientModel).
    Divisions follow Coq's convention (x / 0 = 0); theorems exclude zero
    denominators. *)
From Coq Require Import Reals List Arith Bool.
From Verif Require Import Lib MatrixModel TensorModel.
Import ListNotations.
Local Open Scope R_scope.

(** torch.matmul(matrix, vector) and entrywise operations. *)
Definition mv (m : list (list R)) (v : list R) : list R :=
  map (fun r => lsum (map (fun p => fst p * snd p) (combine r v))) m.
Definition vadd (a b : list R) : list R := map (fun p => fst p + snd p) (combine a b).
Definition vsub (a b : list R) : list R := map (fun p => fst p - snd p) (combine a b).
Definition vscale (c : R) (a : list R) : list R := map (fun x => c * x) a.
(** torch.norm of a vector. *)
Definition vnorm (a : list R) : R := sqrt (lsum (map (fun x => x * x) a)).

(** Property names: 'E', 'v', 'Eijkl', and 'ijkl' (the string built at 443 and
    575, which lacks the leading 'E'). *)
Inductive pname :=
| PE | Pv
| PM (c d : comp)
| PRaw (c d : comp).
Definition pname_eqb (a b : pname) : bool :=
  match a, b with
  | PE, PE | Pv, Pv => true
  | PM c d, PM c' d' | PRaw c d, PRaw c' d' => comp_eqb c c' && comp_eqb d d'
  | _, _ => false
  end.
Fixpoint pget (props : list (pname * R)) (k : pname) : option R :=
  match props with
  | [] => None
  | (k', x) :: t => if pname_eqb k k' then Some x else pget t k
  end.

Inductive symmetry := Isotropic | TransverseIsotropic | Orthotropic | Monoclinic | Triclinic.

(** 335-360: get_available_elastic_symmetries. *)
Definition c11 : comp := (1, 1)%nat. Definition c22 : comp := (2, 2)%nat. Definition c33 : comp := (3, 3)%nat.
Definition c12 : comp := (1, 2)%nat. Definition c23 : comp := (2, 3)%nat. Definition c13 : comp := (1, 3)%nat.
Definition required_moduli (s : symmetry) : list (comp * comp) :=
  match s with
  | Isotropic => [(c11, c11); (c11, c22)]
  | TransverseIsotropic => [(c11, c11); (c33, c33); (c11, c22); (c11, c33); (c23, c23)]
  | Orthotropic => [(c11, c11); (c22, c22); (c33, c33); (c11, c22); (c11, c33); (c22, c33);
                    (c12, c12); (c23, c23); (c13, c13)]
  | Monoclinic => [(c11, c11); (c22, c22); (c33, c33); (c11, c22); (c11, c33); (c22, c33);
                   (c11, c12); (c22, c12); (c33, c12); (c12, c12); (c23, c23); (c13, c13); (c23, c13)]
  | Triclinic => [(c11, c11); (c11, c22); (c11, c33); (c11, c12); (c11, c23); (c11, c13);
                  (c22, c22); (c22, c33); (c22, c12); (c22, c23); (c22, c13); (c33, c33);
                  (c33, c12); (c33, c23); (c33, c13); (c12, c12); (c12, c23); (c12, c13);
                  (c23, c23); (c23, c13); (c13, c13)]
  end.

Definition lame_lambda (E v : R) : R := (E * v) / ((1 + v) * (1 - 2 * v)).
Definition lame_mu (E v : R) : R := E / (2 * (1 + v)).

(** 416-424 (also von_mises.py:314-318, 363-367). *)
Definition iso_tangent (E v : R) : T4 :=
  fun i j k l => lame_lambda E v * fodiagtrace i j k l + 2 * lame_mu E v * fosym 3 i j k l.

(** 440-451, 572-583: value of one required modulus; the symmetric alternative
    is looked up without the leading 'E'.  At 431-435 only names of the
    triclinic list are kept before the lookup, which does not change the
    result for required names (all in that list) and removes the others. *)
Definition modulus (props : list (pname * R)) (filtered : bool) (cd : comp * comp) : res R :=
  match pget props (PM (fst cd) (snd cd)) with
  | Some x => Ok x
  | None => if filtered then Err RuntimeError
            else match pget props (PRaw (snd cd) (fst cd)) with
                 | Some x => Ok x
                 | None => Err RuntimeError
                 end
  end.
Fixpoint moduli (props : list (pname * R)) (filtered : bool) (l : list (comp * comp))
  : res (list ((comp * comp) * R)) :=
  match l with
  | [] => Ok []
  | cd :: t => rbind (modulus props filtered cd) (fun x =>
               rbind (moduli props filtered t) (fun r => Ok ((cd, x) :: r)))
  end.
(** ind_moduli[name] (zero unless required). *)
Fixpoint ind (ms : list ((comp * comp) * R)) (cd : comp * comp) : R :=
  match ms with
  | [] => 0
  | (cd', x) :: t => if comp_eqb (fst cd) (fst cd') && comp_eqb (snd cd) (snd cd') then x else ind t cd
  end.

(** 453-502: all_moduli of each symmetry. *)
Definition all_moduli (s : symmetry) (ms : list ((comp * comp) * R)) (cd : comp * comp) : R :=
  let eq a b := comp_eqb (fst cd) a && comp_eqb (snd cd) b in
  match s with
  | Isotropic =>
      if eq c11 c11 || eq c22 c22 || eq c33 c33 then ind ms (c11, c11)
      else if eq c11 c22 || eq c11 c33 || eq c22 c33 then ind ms (c11, c22)
      else if eq c12 c12 || eq c23 c23 || eq c13 c13 then
        (5 / 10) * (ind ms (c11, c11) - ind ms (c11, c22))
      else 0
  | TransverseIsotropic =>
      if eq c11 c11 || eq c22 c22 then ind ms (c11, c11)
      else if eq c33 c33 then ind ms (c33, c33)
      else if eq c11 c22 then ind ms (c11, c22)
      else if eq c11 c33 || eq c22 c33 then ind ms (c11, c33)
      else if eq c12 c12 then (5 / 10) * (ind ms (c11, c11) - ind ms (c11, c22))
      else if eq c23 c23 || eq c13 c13 then ind ms (c23, c23)
      else 0
  | Orthotropic =>
      if eq c11 c11 || eq c22 c22 || eq c33 c33 || eq c11 c22 || eq c11 c33 || eq c22 c33
         || eq c12 c12 || eq c23 c23 || eq c13 c13
      then ind ms cd else 0
  | Monoclinic =>
      if eq c11 c11 || eq c22 c22 || eq c33 c33 || eq c11 c22 || eq c11 c33 || eq c22 c33
         || eq c12 c12 || eq c23 c23 || eq c13 c13
         || eq c11 c12 || eq c22 c12 || eq c33 c12 || eq c23 c13
      then ind ms cd else 0
  | Triclinic => ind ms cd
  end.

(** 504-521: assembly of the matricial form, looping over the triclinic
    names. *)
Definition idx3 (c : comp) : nat := match index_of c order_sym_3d with Some m => m | None => O end.
Definition assemble_modulus (f : comp * comp -> R) (m : list (list R)) (cd : comp * comp)
  : list (list R) :=
  let i := idx3 (fst cd) in
  let j := idx3 (snd cd) in
  let m' := upd2 m i j (kelvin_factor1 i order_sym_3d * kelvin_factor1 j order_sym_3d * f cd) in
  if Nat.eqb i j then m' else upd2 m' j i (nth j (nth i m' []) 0).

(** 363-523: elastic_tangent_modulus. *)
Definition elastic_tangent_modulus (props : list (pname * R)) (s : symmetry) : res (list (list R)) :=
  match s, pget props PE, pget props Pv with
  | Isotropic, Some E, Some v => vget_tensor_mf4 (iso_tangent E v) 3 order_sym_3d true
  | _, _, _ =>
      rbind (moduli props true (required_moduli s)) (fun ms =>
      Ok (fold_left (assemble_modulus (all_moduli s ms)) (required_moduli Triclinic)
            (repeat (repeat 0 6) 6)))
  end.

(** 525-610: get_technical_from_elastic_moduli: (E, v). *)
Definition get_technical (s : symmetry) (props : list (pname * R)) : res (R * R) :=
  match s with
  | Isotropic =>
      match pget props PE, pget props Pv with
      | Some E, Some v => Ok (E, v)
      | _, _ =>
          rbind (moduli props false (required_moduli Isotropic)) (fun ms =>
          let a := ind ms (c11, c11) in
          let b := ind ms (c11, c22) in
          Ok ((1 / (a + b)) * (a ^ 2 + a * b - 2 * b ^ 2), b / (a + b)))
      end
  | _ => rbind (moduli props false (required_moduli s)) (fun _ => Err RuntimeError)
  end.

(** 82-132: the constructor; [update] puts the technical constants first. *)
Definition elastic_init (s : symmetry) (props : list (pname * R)) : res (list (pname * R)) :=
  match s with
  | Isotropic => rbind (get_technical s props) (fun Ev => Ok ((PE, fst Ev) :: (Pv, snd Ev) :: props))
  | _ => Err RuntimeError
  end.

(** 157-233: state variables (the flags is_plast, is_su_fail stay False). *)
Record el_state := EState
  { el_e : list R; el_strain : list R; el_stress : list R; el_e33 : R; el_s33 : R }.

Definition el_state_init (pt : nat) : res el_state :=
  rbind (get_problem_type_parameters pt) (fun p =>
  let '(n, order, _) := p in
  rbind (vget_tensor_mf2 zero2 n order true) (fun z => Ok (EState z z z 0 0))).

(** 235-333: state_update. *)
Definition el_state_update (pt : nat) (s : symmetry) (props : list (pname * R)) (inc : T2)
  (st : el_state) : res (el_state * list (list R)) :=
  rbind (get_problem_type_parameters pt) (fun p =>
  let '(n, order, _) := p in
  rbind (vget_tensor_mf2 inc n order true) (fun inc_mf =>
  if Nat.eqb pt 4 then
    let e := vadd (el_e st) inc_mf in
    rbind (elastic_tangent_modulus props s) (fun C =>
    Ok (EState e e (mv C e) 0 0, C))
  else
    rbind (vget_state_3Dmf_from_2Dmf inc_mf 0) (fun inc3 =>
    rbind (vget_state_3Dmf_from_2Dmf (el_e st) (el_e33 st)) (fun e_old =>
    let e := vadd e_old inc3 in
    rbind (elastic_tangent_modulus props s) (fun C =>
    let sig := mv C e in
    rbind (vget_state_2Dmf_from_3Dmf e) (fun e2 =>
    rbind (vget_state_2Dmf_from_3Dmf sig) (fun sig2 =>
    rbind (vget_state_2Dmf_from_3Dmf_mat C) (fun C2 =>
    Ok (EState e2 e2 sig2 (nth 2 e 0) (nth 2 sig 0), C2))))))))).

Fixpoint el_run (pt : nat) (s : symmetry) (props : list (pname * R)) (incs : list T2) (st : el_state)
  : res el_state :=
  match incs with
  | [] => Ok st
  | inc :: t => rbind (el_state_update pt s props inc st) (fun r => el_run pt s props t (fst r))
  end.
