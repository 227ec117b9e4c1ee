(** Vectorised material models: fixed number of masked Newton iterations.
    src/hookeai/simulators/fetorch/material/models/vmap/von_mises.py (the same
    loop is used in vmap/von_mises_mixed.py:674-704 and twice in
    vmap/drucker_prager.py:701-728, 891-917).

    NaN is [None] as in [VonMisesModel].  torch.where on a boolean tensor that
    is constant over the components is an if. *)
From Coq Require Import Reals List Arith Bool.
From Verif Require Import Lib MatrixModel TensorModel HardeningModel ElasticModel VonMisesModel.
Import ListNotations.
Local Open Scope R_scope.

(** 643-663: the loop body for nr_iter, ..., nr_iter + left.  [conv] is the
    comparison of the error with the tolerance, [step] is _nr_iteration and
    [el] is is_elastic_step.  The result is the last iterate with the last
    value of is_converged. *)
Fixpoint masked_loop {X} (el : bool) (conv : X -> bool) (step : X -> X) (nr_iter left : nat) (x : X)
  : X * bool :=
  let conv_cond := conv x && Nat.ltb 0 nr_iter in
  let is_converged := if el then el else conv_cond in
  let x' := if is_converged then x else step x in
  match left with
  | O => (x', is_converged)
  | S l => masked_loop el conv step (S nr_iter) l x'
  end.

(** 645-654. *)
Definition vv_conv (hl : hlaw) (vm G acc_old tol : R) (x : option R) : bool :=
  match x with
  | None => false
  | Some x =>
      match hl (acc_old + x) with
      | None => false
      | Some (y, _) => quot_lt (Rabs (vm - 3 * G * x - y)) (Rabs y) tol
      end
  end.
(** 645-648 and 686-713. *)
Definition vv_step (hl : hlaw) (vm G acc_old : R) (x : option R) : option R :=
  match x with
  | None => None
  | Some x =>
      match hl (acc_old + x) with
      | None => None
      | Some (_, Infinite) => Some x
      | Some (y, Fin h) =>
          let J := - 3 * G - h in
          if Req_EM_T J 0 then None else Some (x + - (vm - 3 * G * x - y) / J)
      end
  end.
(** 334. *)
Definition vv_max_n_iterations : nat := 10.

(** 640-668: increment of the plastic multiplier (NaN on failure) and flag. *)
Definition vv_multiplier (el : bool) (hl : hlaw) (vm G acc_old tol : R) (n : nat) : option R * bool :=
  let '(x, ok) := masked_loop el (vv_conv hl vm G acc_old tol) (vv_step hl vm G acc_old) 0 n (Some 0) in
  (if ok then x else None, ok).

(** 420-426: [small] is added to every component before the norm is taken. *)
Definition vv_flow_vector (s : list R) : list R :=
  let norm_div_factor := if rltb small (vnorm s) then 1 / vnorm (map (fun a => a + small) s) else 0 in
  vscale (sqrt (3 / 2) * norm_div_factor) s.

(** 396-463, 500-527 in three dimensions. *)
Record vv_out := VVOut
  { vv_e : option (list R); vv_stress : option (list R); vv_acc : option R;
    vv_plast : bool; vv_fail : bool; vv_tangent : option (list (list R)) }.
Definition vv_core (E v : R) (hl : hlaw) (e_trial : option (list R)) (acc_old : option R) : res vv_out :=
  let G := lame_mu E v in
  rbind (vget_tensor_mf4 (fodevprojsym 3) 3 order_sym_3d true) (fun Pd =>
  rbind (vget_tensor_mf4 (iso_tangent E v) 3 order_sym_3d true) (fun Ce =>
  match e_trial, acc_old with
  | Some et, Some acc =>
      let trial := mv Ce et in
      let s := mv Pd trial in
      let vm := vm_equivalent s in
      let flow := vv_flow_vector s in
      let el := match hl acc with
                | None => false
                | Some (y, _) => quot_le (vm - y) y su_conv_tol
                end in
      (* both branches are computed and one is selected: 442-454 *)
      let '(x, ok) := vv_multiplier el hl vm G acc su_conv_tol vv_max_n_iterations in
      let e_p := match x with Some x => Some (vsub et (vscale x flow)) | None => None end in
      let s_p := match e_p with Some e => Some (mv Ce e) | None => None end in
      let a_p := match x with Some x => Some (acc + x) | None => None end in
      let e := if el then Some et else e_p in
      let stress := if el then Some trial else s_p in
      let a := if el then Some acc else a_p in
      let xx := if el then Some 0 else x in
      let plast := negb el in
      let fail := if el then false else negb ok in
      rbind (vget_tensor_from_mf2 flow 3 order_sym_3d true) (fun flow_t =>
      let tan := if plast
                 then match xx, a with
                      | Some x, Some a =>
                          match hl a with
                          | Some (_, H) => vm_tangent E v G vm flow_t (OPlastic x H)
                          | None => None
                          end
                      | _, _ => None
                      end
                 else Some (iso_tangent E v) in
      rbind (match tan with
             | Some t => rbind (vget_tensor_mf4 t 3 order_sym_3d true) (fun m => Ok (Some m))
             | None => Ok None
             end) (fun tan_mf => Ok (VVOut e stress a plast fail tan_mf)))
  | _, _ => Ok (VVOut None None None true true None)
  end)).
