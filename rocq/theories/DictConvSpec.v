(** Vocabulary for statements about dictionary conversion: the dictionaries
    reachable from a dictionary, and the tree a dictionary stands for. *)
From Coq Require Import String List Bool Arith.
From Verif Require Import Lib PyDict DictConvModel.
Import ListNotations.

Section Spec.
  Context {P N O : Type}.
  Notation heap := (heap P N O).
  Inductive reach (h : heap) : nat -> nat -> Prop :=
  | reach_refl l : reach h l l
  | reach_step l k m n : dget (mem h l) k = Some (VDict m) -> reach h m n -> reach h l n.

  (** [d'] is [d] with every leaf mapped by [f] and every reference kept. *)
  Definition leaves_mapped (f : leaf P N O -> leaf P N O) (d d' : dict (value P N O)) : Prop :=
    dkeys d' = dkeys d /\
    forall k, dget d' k = match dget d k with
                          | Some (VLeaf x) => Some (VLeaf (f x))
                          | Some (VDict m) => Some (VDict m)
                          | None => None end.

  (** The nested dictionary as a mathematical object. *)
  Inductive tree := TLeaf (x : leaf P N O) | TDict (l : list (string * tree)).
  Fixpoint tmap (f : leaf P N O -> leaf P N O) (t : tree) : tree :=
    match t with TLeaf x => TLeaf (f x) | TDict l => TDict (map (fun p => (fst p, tmap f (snd p))) l) end.
  Inductive stands (h : heap) : value P N O -> tree -> Prop :=
  | stands_leaf x : stands h (VLeaf x) (TLeaf x)
  | stands_dict l ts : stands_items h (mem h l) ts -> stands h (VDict l) (TDict ts)
  with stands_items (h : heap) : dict (value P N O) -> list (string * tree) -> Prop :=
  | items_nil : stands_items h [] []
  | items_cons k v t d ts : stands h v t -> stands_items h d ts -> stands_items h ((k, v) :: d) ((k, t) :: ts).

  (** What the conversion is for: every floating point tensor gets the type,
      everything else is kept. *)
  Definition wants (cast : dtype -> dtype -> P -> P) (target : dtype) (x y : leaf P N O) : Prop :=
    match x with
    | LTensor F16 p | LTensor F32 p | LTensor F64 p =>
        match y with LTensor d q => d = target /\ (x = LTensor target p -> q = p) /\ (forall d, x = LTensor d p -> d <> target -> q = cast d target p) | _ => False end
    | _ => y = x
    end.
End Spec.
Arguments tree : clear implicits.
