(** Isotropic hardening laws:
    src/hookeai/simulators/fetorch/material/models/standard/hardening.py.

    A law maps an accumulated plastic strain to the yield stress and the
    hardening slope.  [None] stands for NaN in either value; an infinite slope
    is a separate value (its sign is not needed by any caller, which only
    divides by it).  The optional data checks (is_check_data, off by default and
    never switched on) are not modelled. *)
From Coq Require Import Reals List Arith Bool.
From Verif Require Import Lib.
Import ListNotations.
Local Open Scope R_scope.

Inductive slope := Fin (h : R) | Infinite.
Definition hlaw := R -> option (R * slope).

Definition rleb (x y : R) : bool := if Rle_dec x y then true else false.
Definition rltb (x y : R) : bool := if Rlt_dec x y then true else false.

(** torch.relu, torch.sign. *)
Definition relu (x : R) : R := Rmax x 0.
Definition sign (x : R) : R := if Rlt_dec 0 x then 1 else if Rlt_dec x 0 then -1 else 0.

(** hardening.py:263-265, 423-425: number of points not above x, minus one,
    clamped to [0, hi].  torch.clamp with max < min returns max, so that with a
    single point the index is -1, handled separately below. *)
Definition count_ge (x : R) (a : list R) : nat := length (filter (fun p => rleb p x) a).
Definition bracket (x : R) (a : list R) : nat := Nat.min (count_ge x a - 1) (length a - 2).

(** hardening.py:380-442: torch_interp, evaluated at one point, default data
    checks; m is indexed by the bracket, which fails with IndexError when there
    are fewer than two points. *)
Definition torch_interp (x : R) (xp fp : list R) (left right : R) : res R :=
  if Nat.leb (length xp) 1 then Err IndexError
  else
    let k := bracket x xp in
    let m := (nth (S k) fp 0 - nth k fp 0) / (nth (S k) xp 0 - nth k xp 0) in
    let b := nth k fp 0 - m * nth k xp 0 in
    let y := m * x + b in
    let y := if rltb x (nth 0 xp 0) then left else y in
    let y := if rltb (last xp 0) x then right else y in
    Ok y.

(** hardening.py:240-283: _hardening_slope. *)
Definition hardening_slope (x : R) (a b : list R) : R :=
  let k := bracket x a in
  (nth (S k) b 0 - nth k b 0) / (nth (S k) a 0 - nth k a 0)
  * (sign (relu (x - nth 0 a 0)) * sign (relu (last a 0 - x))).

(** hardening.py:180-238: PiecewiseLinearIHL.hardening_law. *)
Definition piecewise_linear (points : list (R * R)) (acc : R) : res (R * slope) :=
  let a := map fst points in
  let b := map snd points in
  match points with
  | [] => Err IndexError
  | _ =>
      let x := relu acc in
      rbind (torch_interp x a b (nth 0 b 0) (last b 0)) (fun y =>
      let h := if rltb x (nth 0 a 0) then 0
               else if rleb (last a 0) x then 0 else hardening_slope x a b in
      Ok (y, Fin h))
  end.

(** hardening.py:285-328: LinearIHL.hardening_law. *)
Definition linear_law (s0 a : R) (acc : R) : option (R * slope) :=
  Some (s0 + a * relu acc, Fin a).

(** torch.pow with a real exponent (non-integer exponents of negative numbers
    are NaN; integer exponents of negative numbers are not modelled). *)
Inductive ext := ENan | EInf | EFin (x : R).
Definition tpow (x b : R) : ext :=
  if Rlt_dec 0 x then EFin (Rpower x b)
  else if Req_EM_T x 0 then
    (if Rlt_dec 0 b then EFin 0 else if Req_EM_T b 0 then EFin 1 else EInf)
  else ENan.

(** hardening.py:330-378: NadaiLudwikIHL.hardening_law.  The offset ep0 is added
    at 370 and again at 373 and 375.  An infinite yield stress (b < 0 at 0) is
    treated as undefined. *)
Definition nadai_ludwik (s0 a b ep0 : R) (acc : R) : option (R * slope) :=
  let x := relu acc + ep0 in
  match tpow (x + ep0) b, tpow (x + ep0) (b - 1) with
  | EFin y, EFin d => Some (s0 + a * y, Fin (a * b * d))
  | EFin y, EInf => if Req_EM_T (a * b) 0 then None else Some (s0 + a * y, Infinite)
  | _, _ => None
  end.

(** hardening.py:106-136: get_hardening_law. *)
Inductive hname := HPiecewiseLinear | HLinear | HNadaiLudwik | HOther.
Inductive hparams := PPoints (points : list (R * R)) | PLin (s0 a : R) | PNadai (s0 a b ep0 : R).
Definition get_hardening_law (n : hname) : res (hparams -> R -> res (option (R * slope))) :=
  match n with
  | HPiecewiseLinear => Ok (fun p acc => match p with
      | PPoints pts => rbind (piecewise_linear pts acc) (fun r => Ok (Some r)) | _ => Err KeyError end)
  | HLinear => Ok (fun p acc => match p with
      | PLin s0 a => Ok (linear_law s0 a acc)
      | PNadai s0 a _ _ => Ok (linear_law s0 a acc)
      | _ => Err KeyError end)
  | HNadaiLudwik => Ok (fun p acc => match p with
      | PNadai s0 a b ep0 => Ok (nadai_ludwik s0 a b ep0 acc) | _ => Err KeyError end)
  | HOther => Err RuntimeError
  end.
