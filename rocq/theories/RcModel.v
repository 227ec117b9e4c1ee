(** Model of the recurrent constitutive model (stress response of strain paths).
    Source: src/hookeai/model_architectures/rc_base_model/model/recurrent_model.py
    973-1059 (_recurrent_constitutive_model), 1061-1172 (_compute_stress_path),
    1329-1392 (_vrecurrent_constitutive_model), 1394-1543
    (_vcompute_stress_path), 1546-1614 (vbuild_tensor_from_comps,
    vstore_tensor_comps).
    A strain path is the list (over time) of its rows of strain components; a
    batch is a list of paths.  The material state update is an argument (any
    function of the strain increment and the last state).
    Simplifications: real arithmetic (the NaN check of the whole stress path is
    not modelled, the is_su_fail check is); torch.vmap over paths is the map over
    paths; state variables are lists of numbers (a scalar has one entry). *)
From Coq Require Import String List Arith Bool Reals.
From Verif Require Import Lib PyDict MatrixModel.
Import ListNotations.
Local Open Scope list_scope.
Local Open Scope R_scope.

Record rc_state := { rc_vars : dict (list R); rc_fail : bool }.

(** 1546-1582: comps_array[index_map].view(n_dim, n_dim) *)
Definition vbuild (order : list comp) (comps : list R) : T2 :=
  fun i j => match sym_index i j order with Some m => nth m comps 0 | None => 0 end.
(** 1585-1614 *)
Definition vstore (order : list comp) (t : T2) : list R := map (fun c => t (row c) (col c)) order.

Section Rc.
  Variable n_dim : nat.
  Variable order : list comp.
  (** the constitutive model: material_state_update and state_init *)
  Variable su : T2 -> rc_state -> rc_state.
  Variable init : rc_state.
  (** self._state_features_out: names and numbers of features *)
  Variable feats : list (string * nat).
  Variable check : bool.

  Definition zeros (k : nat) : list R := repeat 0 k.
  (** 'strain_mf' in state_var *)
  Definition is_strain_var (x : string) : bool :=
    match String.index 0 "strain_mf"%string x with Some _ => true | None => false end.
  (** 1135-1146, 1488-1500: components of the tensor stored in a matricial form *)
  Definition tensor_comps (mf : list R) : res (list R) :=
    rbind (vget_tensor_from_mf2 mf n_dim order true) (fun t => Ok (vstore order t)).
  Definition stress_row (s : rc_state) : res (list R) := rbind (dlookup (rc_vars s) "stress_mf"%string) tensor_comps.
  (** assignment to a row of fixed width: one entry broadcasts *)
  Definition fit (k : nat) (v : list R) : res (list R) :=
    if Nat.eqb (length v) k then Ok v else if Nat.eqb (length v) 1 then Ok (repeat (nth 0 v 0) k) else Err RuntimeError.
  (** 1148-1170: one state variable of the standard implementation *)
  Definition state_var_std (s : rc_state) (f : string * nat) : res (list R) :=
    match dget (rc_vars s) (fst f) with
    | None => Ok (zeros (snd f))
    | Some v => if is_strain_var (fst f) then rbind (tensor_comps v) (fit (snd f)) else fit (snd f) v
    end.
  (** the columns of the state variables are concatenated afterwards (1040-1043) *)
  Definition emit_std (s : rc_state) : res (list R * list R) :=
    rbind (stress_row s) (fun st => rbind (rmap (state_var_std s) feats) (fun vs => Ok (st, concat vs))).

  (** 1503-1534: one state variable of the vectorised implementation; a
      one-dimensional tensor cannot be concatenated along dimension 1 *)
  Definition state_var_v (s : rc_state) (f : string * nat) : res (list (list R)) :=
    match dget (rc_vars s) (fst f) with
    | None => Ok []
    | Some v => if is_strain_var (fst f) then rbind (tensor_comps v) (fun _ => Err IndexError)
                else if Nat.eqb (length v) (snd f) then Ok [v] else Err RuntimeError
    end.
  Definition emit_v (s : rc_state) : res (list R * list R) :=
    rbind (stress_row s) (fun st =>
      match feats with
      | [] => Ok (st, [])
      | _ => rbind (rmap (state_var_v s) feats) (fun vs =>
               match concat vs with
               | [] => Err RuntimeError           (* torch.cat of an empty list *)
               | _ => Ok (st, concat (concat vs))
               end)
      end).

  (** 1104-1170, 1457-1534: loop over discrete time *)
  Definition increment (old new : list R) : T2 := fun i j => vbuild order new i j - vbuild order old i j.
  Fixpoint rc_loop (emit : rc_state -> res (list R * list R)) (s : rc_state) (old : list R) (rows : list (list R))
    : res (list (list R * list R)) :=
    match rows with
    | [] => Ok []
    | r :: t =>
      let s' := su (increment old r) s in
      if check && rc_fail s' then Err RuntimeError
      else rbind (emit s') (fun o => rbind (rc_loop emit s' r t) (fun os => Ok (o :: os)))
    end.
  Definition n_state : nat := fold_right Nat.add 0%nat (map snd feats).
  Definition first_row : list R * list R := (zeros (length order), zeros n_state).
  (** 1061-1172 *)
  Definition path_std (rows : list (list R)) : res (list (list R * list R)) :=
    match rows with
    | [] => Ok []
    | r :: t => rbind (rc_loop emit_std init r t) (fun os => Ok (first_row :: os))
    end.
  (** 1394-1543: torch.cat along time needs equally wide rows *)
  Definition path_v (rows : list (list R)) : res (list (list R * list R)) :=
    match rows with
    | [] => Ok [first_row]
    | r :: t => rbind (rc_loop emit_v init r t) (fun os =>
                  if forallb (fun o => Nat.eqb (length (snd o)) n_state) os then Ok (first_row :: os) else Err RuntimeError)
    end.
  (** 1039-1053, 1378-1386 *)
  Definition response (n_features_out : nat) (p : list (list R * list R)) : res (list (list R)) :=
    let rows := map (fun o => fst o ++ snd o) p in
    if forallb (fun r => Nat.eqb (length r) n_features_out) rows then Ok rows else Err RuntimeError.
  (** 1020-1053: the paths of a batch, one after the other *)
  Definition batch_std (n_features_out : nat) (paths : list (list (list R))) : res (list (list (list R))) :=
    rmap (fun p => rbind (path_std p) (response n_features_out)) paths.
  Definition batch_v (n_features_out : nat) (paths : list (list (list R))) : res (list (list (list R))) :=
    rmap (fun p => rbind (path_v p) (response n_features_out)) paths.
End Rc.
