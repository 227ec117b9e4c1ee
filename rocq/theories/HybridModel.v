(** Model of the hybridisation of models.
    Sources: src/hookeai/model_architectures/hybrid_base_model/model/
    hybrid_model.py 301-407 (get_hybridization_channels), 409-432
    (get_hybridized_model), 580-657 (forward), 660-709; hybridization.py 57-62
    and the identity and additive models.
    Features are abstract; a hybridised model is a function on features with
    its flags. torch.argsort(stable=True) is a stable insertion sort of the
    indices. Simplifications: the dictionary of channels, whose keys are
    str(0), str(1), ... in order, is the list of its values; checks of tensor
    types, tuples of outputs and the normalisation of the hybrid model itself
    are omitted. *)
From Coq Require Import String List Bool Arith ZArith.
From Verif Require Import Lib PyDict.
Import ListNotations.
Local Open Scope list_scope.

Section Sort.
  Context {A : Type} (key : A -> Z).
  Fixpoint insert (x : A) (l : list A) : list A :=
    match l with [] => [x] | y :: t => if (key x <=? key y)%Z then x :: y :: t else y :: insert x t end.
  Fixpoint isort (l : list A) : list A := match l with [] => [] | x :: t => insert x (isort t) end.
End Sort.
(** torch.argsort(keys, stable=True) *)
Definition argsort (keys : list Z) : list nat := isort (fun i => nth i keys 0%Z) (seq 0 (length keys)).
(** [l[i] for i in idx] and tensor[idx] *)
Definition gather {A} (d : A) (l : list A) (idx : list nat) : list A := map (fun i => nth i l d) idx.

Section Hybrid.
  Context {Fe : Type} (cat : Fe -> Fe -> Fe).
  Record hmodel := mkHm { h_row : Z; h_col : Z; h_resid : bool; h_fwd : Fe -> Fe; h_in : bool; h_out : bool;
    (** the method data_scaler_transform, if the class has one: normalisation
        of input features, denormalisation of output features *)
    h_scale : option ((Fe -> Fe) * (Fe -> Fe)) }.

  (** hybrid_model.py 363-404: the loop over the sorted models *)
  Fixpoint channels (prev : option (Z * Z)) (cur : list nat) (acc : list (list nat)) (idx : nat) (l : list (Z * Z))
    : res (list (list nat)) :=
    match l with
    | [] => Ok (acc ++ [cur])
    | (r, c) :: t =>
      match cur, prev with
      | [], _ => channels (Some (r, c)) [idx] acc (S idx) t
      | _, Some (r', c') =>
        if (r =? r')%Z then
          if (c =? c')%Z then Err RuntimeError else channels (Some (r, c)) (cur ++ [idx]) acc (S idx) t
        else channels (Some (r, c)) [idx] (acc ++ [cur]) (S idx) t
      | _, None => Err RuntimeError
      end
    end.

  (** hybrid_model.py 328-407; the models themselves are read from the
      dictionary by name *)
  Definition get_channels (d : dict hmodel) : res (list string * list (list nat)) :=
    let names := map fst d in
    let indices := map (fun p => (h_row (snd p), h_col (snd p))) d in
    let s1 := argsort (map snd indices) in
    let names1 := gather EmptyString names s1 in
    let indices1 := gather (0, 0)%Z indices s1 in
    let s2 := argsort (map fst indices1) in
    let names2 := gather EmptyString names1 s2 in
    let indices2 := gather (0, 0)%Z indices1 s2 in
    rbind (channels None [] [] 0 indices2) (fun ch => Ok (names2, ch)).

  (** hybrid_model.py 615-643 *)
  Definition apply_model (x0 x : Fe) (m : hmodel) : res Fe :=
    let x1 := if h_resid m then cat x x0 else x in
    rbind (if h_in m then match h_scale m with Some (f, _) => Ok (f x1) | None => Err AttributeError end else Ok x1) (fun x2 =>
    let y := h_fwd m x2 in
    if h_out m then match h_scale m with Some (_, g) => Ok (g y) | None => Err AttributeError end else Ok y).
  Fixpoint apply_channel (x0 x : Fe) (ms : list hmodel) : res Fe :=
    match ms with [] => Ok x | m :: t => rbind (apply_model x0 x m) (fun y => apply_channel x0 y t) end.
  (** hybrid_model.py 580-649: get_hybridized_model looks the name up *)
  Definition channel_models (d : dict hmodel) (names : list string) (ch : list nat) : res (list hmodel) :=
    rmap (fun i => match nth_error names i with
                   | Some n => dlookup d n
                   | None => Err IndexError end) ch.
  Definition forward (hyb : list Fe -> res Fe) (d : dict hmodel) (x : Fe) : res Fe :=
    rbind (get_channels d) (fun '(names, chs) =>
    rbind (rmap (fun ch => rbind (channel_models d names ch) (apply_channel x x)) chs) hyb).
  (** hybridization.py: identity and additive *)
  Definition hm_identity (l : list Fe) : res Fe := match l with [] => Err IndexError | x :: _ => Ok x end.
End Hybrid.
Arguments hmodel : clear implicits.
