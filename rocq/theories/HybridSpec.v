(** What the channels should be: models grouped by row, rows ascending,
    columns ascending within a row. *)
From Coq Require Import String List Bool Arith ZArith Sorted.
From Verif Require Import Lib PyDict HybridModel.
Import ListNotations.

Section Spec.
  Context {Fe : Type}.
  Notation hm := (hmodel Fe).
  Definition pos (m : hm) : Z * Z := (h_row m, h_col m).
  Definition same_row (a b : string * hm) : Prop := h_row (snd a) = h_row (snd b).
  Definition col_lt (a b : string * hm) : Prop := (h_col (snd a) < h_col (snd b))%Z.
  (** a channel: non-empty, one row, columns strictly ascending *)
  Definition good_channel (g : list (string * hm)) : Prop :=
    g <> [] /\ (forall a b, In a g -> In b g -> same_row a b) /\ StronglySorted col_lt g.
  Definition before (g h : list (string * hm)) : Prop :=
    forall a b, In a g -> In b h -> (h_row (snd a) < h_row (snd b))%Z.
  (** the channels use every entry of the dictionary exactly once *)
  Definition good_channels (d : dict hm) (gs : list (list (string * hm))) : Prop :=
    Permutation.Permutation (concat gs) d /\ Forall good_channel gs /\ StronglySorted before gs.
End Spec.

Section Eval.
  Context {Fe : Type} (cat : Fe -> Fe -> Fe).
  (** one model of a channel: residual models see the input of the hybrid
      model too; a model working on normalised data gets normalised input and
      its normalised output is mapped back *)
  Definition stage (x0 y : Fe) (m : hmodel Fe) : Fe :=
    let z := if h_resid m then cat y x0 else y in
    match h_scale m with
    | Some (f, g) => let w := h_fwd m (if h_in m then f z else z) in if h_out m then g w else w
    | None => h_fwd m z
    end.
  Definition channel_output (x0 : Fe) (g : list (string * hmodel Fe)) : Fe :=
    fold_left (fun y e => stage x0 y (snd e)) g x0.
  (** the normalisation of a model is available when it is needed *)
  Definition scalable (m : hmodel Fe) : Prop := h_in m = true \/ h_out m = true -> h_scale m <> None.
End Eval.
