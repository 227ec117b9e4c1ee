(** Model of dictionary type conversion.
    Source: src/hookeai/utilities/type_conversion.py 30-232.
    Dictionaries are heap objects: a location holds an association list whose
    values are leaves or references to dictionaries, so that nested, shared
    and cyclic dictionaries are all represented. Iteration reads the current
    value of every key (Python iterates over the live dictionary; assigning an
    existing key does not disturb it). The recursion limit of Python is the
    [fuel]; exceeding it raises RecursionError, a RuntimeError.
    Simplification: numerical content of a tensor is abstract. *)
From Coq Require Import String List Bool Arith.
From Verif Require Import Lib PyDict.
Import ListNotations.
Local Open Scope list_scope.

Inductive dtype := F16 | F32 | F64 | I64 | B8.
Definition dtype_eqb (a b : dtype) : bool :=
  match a, b with F16, F16 | F32, F32 | F64, F64 | I64, I64 | B8, B8 => true | _, _ => false end.
(** torch.is_floating_point *)
Definition is_floating (d : dtype) : bool := match d with F16 | F32 | F64 => true | _ => false end.

Section Conv.
  (** tensor data, numbers and other objects; casting between types and
      building a tensor from a number are torch operations *)
  Context {P N O : Type} (cast : dtype -> dtype -> P -> P) (of_num : N -> dtype * P).
  Inductive leaf := LTensor (d : dtype) (p : P) | LNum (n : N) | LOther (o : O).
  Inductive value := VDict (l : nat) | VLeaf (x : leaf).
  Record heap := mkHeap { next : nat; mem : nat -> dict value }.

  Definition hset (h : heap) (l : nat) (k : string) (v : value) : heap :=
    mkHeap (next h) (fun l' => if Nat.eqb l' l then dset (mem h l) k v else mem h l').
  (** A new empty dictionary. *)
  Definition halloc (h : heap) : heap * nat :=
    (mkHeap (S (next h)) (fun l' => if Nat.eqb l' (next h) then [] else mem h l'), next h).

  (** Tensor.to: the same tensor if it has the type already *)
  Definition to_dtype (target : dtype) (d : dtype) (p : P) : leaf :=
    if dtype_eqb d target then LTensor d p else LTensor target (cast d target p).
  (** type_conversion.py 99-101, 175-177 and the leaf cases of the loops *)
  Definition conv_leaf (target : dtype) (x : leaf) : leaf :=
    match x with LTensor d p => if is_floating d then to_dtype target d p else x | _ => x end.

  (** The loop over items with in-place conversion; [rec] converts a nested
      dictionary. *)
  Fixpoint conv_items (rec : heap -> nat -> heap * res unit) (target : dtype) (l : nat) (ks : list string) (h : heap)
    : heap * res unit :=
    match ks with
    | [] => (h, Ok tt)
    | k :: t =>
      match dget (mem h l) k with
      | None => conv_items rec target l t h
      | Some (VDict m) =>
        let '(h1, r) := rec h m in
        match r with Ok _ => conv_items rec target l t (hset h1 l k (VDict m)) | Err e => (h1, Err e) end
      | Some (VLeaf x) => conv_items rec target l t (hset h l k (VLeaf (conv_leaf target x)))
      end
    end.
  (** type_conversion.py 126-136 and 202-212 (is_inplace=True): returns the
      dictionary itself *)
  Fixpoint convert_inplace (fuel : nat) (target : dtype) (h : heap) (l : nat) : heap * res unit :=
    match fuel with
    | 0 => (h, Err RuntimeError)
    | S n => conv_items (fun h m => convert_inplace n target h m) target l (dkeys (mem h l)) h
    end.
  (** type_conversion.py 137-154 and 213-230 (is_inplace=False): the recursive
      call of 145/221 does not pass is_inplace on. *)
  Fixpoint conv_into (rec : heap -> nat -> heap * res unit) (target : dtype) (l new : nat) (ks : list string) (h : heap)
    : heap * res unit :=
    match ks with
    | [] => (h, Ok tt)
    | k :: t =>
      match dget (mem h l) k with
      | None => conv_into rec target l new t h
      | Some (VDict m) =>
        let '(h1, r) := rec h m in
        match r with Ok _ => conv_into rec target l new t (hset h1 new k (VDict m)) | Err e => (h1, Err e) end
      | Some (VLeaf x) => conv_into rec target l new t (hset h new k (VLeaf (conv_leaf target x)))
      end
    end.
  (** convert_dict_to_float32 / convert_dict_to_float64 (target F32 / F64) *)
  Definition convert_dict (fuel : nat) (target : dtype) (h : heap) (l : nat) (is_inplace : bool) : heap * res nat :=
    match fuel with
    | 0 => (h, Err RuntimeError)
    | S n =>
      if is_inplace then let '(h1, r) := convert_inplace (S n) target h l in (h1, rbind r (fun _ => Ok l))
      else let '(h0, new) := halloc h in
           let '(h1, r) := conv_into (fun h m => convert_inplace n target h m) target l new (dkeys (mem h l)) h0 in
           (h1, rbind r (fun _ => Ok new))
    end.

  (** type_conversion.py 30-80: the recursive calls of lines 58 and 72 use a
      keyword argument (in_place) that the function does not have. *)
  Definition num_leaf (x : leaf) : option leaf :=
    match x with LNum n => Some (LTensor (fst (of_num n)) (snd (of_num n))) | _ => None end.
  Fixpoint tensor_items (inplace : bool) (l new : nat) (ks : list string) (h : heap) : heap * res unit :=
    match ks with
    | [] => (h, Ok tt)
    | k :: t =>
      match dget (mem h l) k with
      | None => tensor_items inplace l new t h
      | Some (VDict _) => (h, Err TypeError)
      | Some (VLeaf x) =>
        match num_leaf x with
        | Some y => tensor_items inplace l new t (hset h (if inplace then l else new) k (VLeaf y))
        | None => tensor_items inplace l new t h
        end
      end
    end.
  Definition convert_to_tensor (h : heap) (l : nat) (is_inplace : bool) : heap * res nat :=
    if is_inplace then let '(h1, r) := tensor_items true l l (dkeys (mem h l)) h in (h1, rbind r (fun _ => Ok l))
    else let '(h0, new) := halloc h in
         let '(h1, r) := tensor_items false l new (dkeys (mem h l)) h0 in (h1, rbind r (fun _ => Ok new)).
End Conv.
Arguments leaf : clear implicits.
Arguments value : clear implicits.
Arguments heap : clear implicits.
