(** Independent specification of the state file protocol: an abstract store with
    one initial state, one default state, one state per epoch and at most one
    best state, next to unrelated files. *)
From Coq Require Import List Arith Bool.
From Verif Require Import Lib.

Section Store.
  Context {S : Type}.
  Record store := Store {
    st_init : option S;
    st_default : option S;
    st_epochs : nat -> option S;
    st_best : option (nat * S) }.

  Inductive op :=
  | SaveInit (s : S)
  | SaveDefault (s : S)
  | SaveEpoch (e : nat) (s : S) (remove : bool)
  | SaveBest (e : nat) (s : S) (remove : bool)
  | LoadInit (remove : bool)
  | LoadDefault
  | LoadEpoch (e : nat) (remove : bool)
  | LoadBest (remove : bool)
  | LoadLast.

  (** States of epochs later than [e] are forgotten (when asked). *)
  Definition rewind (remove : bool) (e : nat) (f : nat -> option S) : nat -> option S :=
    fun k => if remove && Nat.ltb e k then None else f k.
  Definition put (e : nat) (s : S) (f : nat -> option S) : nat -> option S :=
    fun k => if Nat.eqb k e then Some s else f k.

  Definition with_epochs (a : store) (f : nat -> option S) : store :=
    Store (st_init a) (st_default a) f (st_best a).
  (** The best state as a partial map from epochs. *)
  Definition best_at (a : store) (e : nat) : option S :=
    match st_best a with Some (b, s) => if Nat.eqb b e then Some s else None | None => None end.

  Definition found (o : option S) (e : option nat) : res (option (S * option nat)) :=
    match o with Some s => Ok (Some (s, e)) | None => Err RuntimeError end.

  (** New store and answer of each operation. *)
  Inductive sstep : store -> op -> store -> res (option (S * option nat)) -> Prop :=
  | s_save_init a s : sstep a (SaveInit s) (Store (Some s) (st_default a) (st_epochs a) (st_best a)) (Ok None)
  | s_save_default a s : sstep a (SaveDefault s) (Store (st_init a) (Some s) (st_epochs a) (st_best a)) (Ok None)
  | s_save_epoch a e s r : sstep a (SaveEpoch e s r) (with_epochs a (rewind r e (put e s (st_epochs a)))) (Ok None)
  | s_save_best a e s r :
      sstep a (SaveBest e s r) (Store (st_init a) (st_default a) (rewind r e (st_epochs a)) (Some (e, s))) (Ok None)
  | s_load_init a r : sstep a (LoadInit r) (with_epochs a (rewind r 0 (st_epochs a))) (found (st_init a) (Some 0))
  | s_load_default a : sstep a LoadDefault a (found (st_default a) None)
  | s_load_epoch a e r : sstep a (LoadEpoch e r) (with_epochs a (rewind r e (st_epochs a))) (found (st_epochs a e) (Some e))
  | s_load_best a e s r : st_best a = Some (e, s) ->
      sstep a (LoadBest r) (with_epochs a (rewind r e (st_epochs a))) (Ok (Some (s, Some e)))
  | s_load_no_best a r : st_best a = None -> sstep a (LoadBest r) a (Err RuntimeError)
  | s_load_last a e s : st_epochs a e = Some s -> (forall k, e < k -> st_epochs a k = None) ->
      sstep a LoadLast a (Ok (Some (s, Some e)))
  | s_load_no_last a : (forall k, st_epochs a k = None) -> sstep a LoadLast a (Err RuntimeError).

  Inductive srun : store -> list op -> store -> list (res (option (S * option nat))) -> Prop :=
  | srun_nil a : srun a nil a nil
  | srun_cons a o a1 r os a2 rs : sstep a o a1 r -> srun a1 os a2 rs -> srun a (o :: os) a2 (r :: rs).
End Store.
Arguments store : clear implicits.
Arguments op : clear implicits.
