(** Specification of the elements state storage: two finite maps of values
    (no objects, no sharing) and the values held by the client. *)
From Coq Require Import List Bool Arith.
From Verif Require Import Lib StateStoreModel.
Import ListNotations.

Section Spec.
  Context {V : Type}.
  (** [None]: no entry; [Some None]: the state None; [Some (Some v)]: value v *)
  Definition smap := nat -> option (option V).
  Definition sput (m : smap) (e : nat) (x : option V) : smap := fun k => if Nat.eqb k e then Some x else m k.
  Record spec := mkSpec { s_cur : smap; s_old : smap; s_hand : list (option V) }.
  Definition spec0 : spec := mkSpec (fun _ => None) (fun _ => None) [].

  Definition sinit (module_dict : bool) (k : kind V) (es : list nat) (a : spec) : spec * res unit :=
    match k with
    | UnknownName => (a, Err RuntimeError)
    | Recurrent =>
      let p m := fun e => if existsb (Nat.eqb e) es then Some None else m e in
      (mkSpec (p (s_cur a)) (p (s_old a)) (s_hand a), Ok tt)
    | Standard g =>
      if module_dict then (a, Err RuntimeError) else
      let p m := fun e => if existsb (Nat.eqb e) es then Some (Some (g e)) else m e in
      (mkSpec (p (s_cur a)) (p (s_old a)) (s_hand a), Ok tt)
    end.
  Definition set_hand (h : nat) (v : V) (l : list (option V)) : list (option V) :=
    match nth h l None with None => l | Some _ => upd_nth h (Some v) l end.

  Definition sstep (a : spec) (o : op V) : spec * res (option V) :=
    match o with
    | New v => (mkSpec (s_cur a) (s_old a) (s_hand a ++ [Some v]), Ok None)
    | Mutate h v => (mkSpec (s_cur a) (s_old a) (set_hand h v (s_hand a)), Ok None)
    | Look h => (a, Ok (nth h (s_hand a) None))
    | Update e h Last _ => (mkSpec (s_cur a) (sput (s_old a) e (nth h (s_hand a) None)) (s_hand a), Ok None)
    | Update e h Current _ => (mkSpec (sput (s_cur a) e (nth h (s_hand a) None)) (s_old a) (s_hand a), Ok None)
    | Update _ _ OtherTime _ => (a, Err RuntimeError)
    | Get e Last _ => match s_old a e with
                      | Some x => (mkSpec (s_cur a) (s_old a) (s_hand a ++ [x]), Ok x)
                      | None => (a, Err KeyError) end
    | Get e Current _ => match s_cur a e with
                         | Some x => (mkSpec (s_cur a) (s_old a) (s_hand a ++ [x]), Ok x)
                         | None => (a, Err KeyError) end
    | Get _ OtherTime _ => (a, Err RuntimeError)
    | Commit _ => (mkSpec (s_cur a) (s_cur a) (s_hand a), Ok None)
    | Init m k es => let '(a', r) := sinit m k es a in (a', rbind r (fun _ => Ok None))
    end.
  Fixpoint srun (a : spec) (ops : list (op V)) : spec * list (res (option V)) :=
    match ops with
    | [] => (a, [])
    | o :: t => let '(a1, r) := sstep a o in let '(a2, rs) := srun a1 t in (a2, r :: rs)
    end.

  (** Operations that use the default is_copy=True. *)
  Definition copying (o : op V) : Prop :=
    match o with Update _ _ _ b | Get _ _ b | Commit b => b = true | _ => True end.
End Spec.
Arguments spec : clear implicits.
Arguments smap : clear implicits.
