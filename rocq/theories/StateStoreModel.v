(** Model of the elements constitutive state storage.
    Sources: src/hookeai/simulators/fetorch/structure/structure_state.py
    119-136 (init), 341-392 (init_elements_model), 449-480
    (update_element_state), 482-517 (get_element_state), 519-532
    (update_converged_elements_state); the access pattern of
    src/hookeai/material_model_finder/model/material_discovery.py 928-982 and
    1057-1134.
    Python objects live in a heap: an element state is either None or a
    reference to a cell whose whole content is one value of type [V]; mutating
    any part of a state is one write of its cell; the two dictionaries of
    states are heap objects too, so that they can be the same object.
    Simplifications: sharing between parts of two different state objects is
    not modelled; the construction of the constitutive model itself is
    abstracted by the kind of model it yields. *)
From Coq Require Import String List Bool Arith.
From Verif Require Import Lib PyDict PyStr.
Import ListNotations.
Local Open Scope list_scope.

Inductive tm := Last | Current | OtherTime.
Inductive val := VNone | VCell (l : nat).

Section Store.
  Context {V : Type}.
  Record sst := mkSst { cells : list V; dicts : list (dict val); cur : nat; old : nat;
                        is_rec : dict bool; n_mat : nat }.

  Definition set_cells s c := mkSst c (dicts s) (cur s) (old s) (is_rec s) (n_mat s).
  Fixpoint upd_nth {A} (n : nat) (a : A) (l : list A) : list A :=
    match l, n with [], _ => [] | _ :: t, 0 => a :: t | b :: t, S m => b :: upd_nth m a t end.
  Definition dict_at (s : sst) (d : nat) : dict val := nth d (dicts s) [].
  Definition set_dict (s : sst) (d : nat) (x : dict val) : sst :=
    mkSst (cells s) (upd_nth d x (dicts s)) (cur s) (old s) (is_rec s) (n_mat s).

  (** A new object. *)
  Definition alloc (s : sst) (v : V) : sst * val := (set_cells s (cells s ++ [v]), VCell (length (cells s))).
  (** A mutation of an object. *)
  Definition write (s : sst) (x : val) (v : V) : sst :=
    match x with VNone => s | VCell l => set_cells s (upd_nth l v (cells s)) end.
  Definition content (s : sst) (x : val) : option V := match x with VNone => None | VCell l => nth_error (cells s) l end.

  (** copy.deepcopy of a state (None is immutable). *)
  Definition deepcopy (s : sst) (x : val) : sst * val :=
    match x with
    | VNone => (s, VNone)
    | VCell l => match nth_error (cells s) l with Some v => alloc s v | None => (s, x) end
    end.
  (** copy.deepcopy of a dictionary of states: the memo keeps shared states
      shared. *)
  Definition copy_item (s : sst) (memo : list (nat * nat)) (x : val) : sst * list (nat * nat) * val :=
    match x with
    | VNone => (s, memo, VNone)
    | VCell l => match gget Nat.eqb memo l with
                 | Some l' => (s, memo, VCell l')
                 | None => let '(s1, y) := deepcopy s x in
                           (s1, match y with VCell l' => (l, l') :: memo | VNone => memo end, y)
                 end
    end.
  Fixpoint deepcopy_items (s : sst) (memo : list (nat * nat)) (d : dict val) : sst * dict val :=
    match d with
    | [] => (s, [])
    | (k, x) :: t =>
      let '(s1, m1, y) := copy_item s memo x in
      let '(s2, t') := deepcopy_items s1 m1 t in (s2, (k, y) :: t')
    end.

  (** structure_state.py 119-136; two different empty dictionaries *)
  Definition init_state : sst := mkSst [] [[]; []] 0 1 [] 0.

  (** structure_state.py 449-480 *)
  Definition update_element_state (s : sst) (e : nat) (x : val) (t : tm) (is_copy : bool) : sst * res unit :=
    let '(s1, y) := if is_copy then deepcopy s x else (s, x) in
    match t with
    | Last => (set_dict s1 (old s1) (dset (dict_at s1 (old s1)) (nat_str e) y), Ok tt)
    | Current => (set_dict s1 (cur s1) (dset (dict_at s1 (cur s1)) (nat_str e) y), Ok tt)
    | OtherTime => (s1, Err RuntimeError)
    end.

  (** structure_state.py 482-517 *)
  Definition get_element_state (s : sst) (e : nat) (t : tm) (is_copy : bool) : sst * res val :=
    match (match t with
           | Last => dlookup (dict_at s (old s)) (nat_str e)
           | Current => dlookup (dict_at s (cur s)) (nat_str e)
           | OtherTime => Err RuntimeError
           end) with
    | Err x => (s, Err x)
    | Ok x => if is_copy then let '(s1, y) := deepcopy s x in (s1, Ok y) else (s, Ok x)
    end.

  (** structure_state.py 519-532 *)
  Definition update_converged (s : sst) (is_copy : bool) : sst :=
    if is_copy then
      let '(s1, d) := deepcopy_items s [] (dict_at s (cur s)) in
      mkSst (cells s1) (dicts s1 ++ [d]) (cur s1) (length (dicts s1)) (is_rec s1) (n_mat s1)
    else mkSst (cells s) (dicts s) (cur s) (cur s) (is_rec s) (n_mat s).

  (** The constitutive model built in structure_state.py 171-343: a torch
      module with recurrent structure, a standard model with its initial
      Gauss points state (given the element type), or an unknown name. *)
  Inductive kind := Recurrent | Standard (init : nat -> V) | UnknownName.

  (** structure_state.py 363-392 *)
  Definition init_element (k : kind) (s : sst) (e : nat) : sst :=
    let s0 := mkSst (cells s) (dicts s) (cur s) (old s)
                (dset (is_rec s) (nat_str e) (match k with Recurrent => true | _ => false end)) (n_mat s) in
    match k with
    | Standard g =>
      let '(s1, x) := alloc s0 (g e) in
      let s2 := set_dict s1 (cur s1) (dset (dict_at s1 (cur s1)) (nat_str e) x) in
      let '(s3, y) := deepcopy s2 x in
      set_dict s3 (old s3) (dset (dict_at s3 (old s3)) (nat_str e) y)
    | _ =>
      let s2 := set_dict s0 (cur s0) (dset (dict_at s0 (cur s0)) (nat_str e) VNone) in
      set_dict s2 (old s2) (dset (dict_at s2 (old s2)) (nat_str e) VNone)
    end.
  (** structure_state.py 341-392; [module_dict] is true in the code (line 128):
      the check 346-354 rejects models that are not torch modules. *)
  Definition init_elements_model (module_dict : bool) (s : sst) (k : kind) (es : list nat) : sst * res unit :=
    match k with
    | UnknownName => (s, Err RuntimeError)
    | Standard _ => if module_dict then (s, Err RuntimeError)
                    else (fold_left (init_element k) es
                            (mkSst (cells s) (dicts s) (cur s) (old s) (is_rec s) (S (n_mat s))), Ok tt)
    | Recurrent => (fold_left (init_element k) es
                            (mkSst (cells s) (dicts s) (cur s) (old s) (is_rec s) (S (n_mat s))), Ok tt)
    end.

  (** A client program: it creates objects, keeps the objects it creates and
      the ones returned by the store (handles), mutates and inspects them, and
      calls the store. *)
  Inductive op :=
  | New (v : V) | Mutate (h : nat) (v : V) | Look (h : nat)
  | Update (e : nat) (h : nat) (t : tm) (is_copy : bool)
  | Get (e : nat) (t : tm) (is_copy : bool)
  | Commit (is_copy : bool)
  | Init (module_dict : bool) (k : kind) (es : list nat).

  Definition step (c : sst * list val) (o : op) : (sst * list val) * res (option V) :=
    let '(s, hs) := c in
    match o with
    | New v => let '(s1, x) := alloc s v in ((s1, hs ++ [x]), Ok None)
    | Mutate h v => ((write s (nth h hs VNone) v, hs), Ok None)
    | Look h => ((s, hs), Ok (content s (nth h hs VNone)))
    | Update e h t b => let '(s1, r) := update_element_state s e (nth h hs VNone) t b in
                        ((s1, hs), rbind r (fun _ => Ok None))
    | Get e t b => let '(s1, r) := get_element_state s e t b in
                   match r with
                   | Ok x => ((s1, hs ++ [x]), Ok (content s1 x))
                   | Err x => ((s1, hs), Err x)
                   end
    | Commit b => ((update_converged s b, hs), Ok None)
    | Init m k es => let '(s1, r) := init_elements_model m s k es in ((s1, hs), rbind r (fun _ => Ok None))
    end.
  Fixpoint run (c : sst * list val) (ops : list op) : (sst * list val) * list (res (option V)) :=
    match ops with
    | [] => (c, [])
    | o :: t => let '(c1, r) := step c o in let '(c2, rs) := run c1 t in (c2, r :: rs)
    end.

  (** material_discovery.py 1057-1134 (forward_sequential_element): per element
      the stored converged state is read without copy, the new state is a new
      object computed from it over the whole history, stored without copy; one
      commit without copy at the end. *)
  Definition forward_element (f : nat -> option V -> V) (s : sst) (e : nat) : sst * res unit :=
    let '(s1, r) := get_element_state s e Last false in
    match r with
    | Err x => (s1, Err x)
    | Ok x => let '(s2, y) := alloc s1 (f e (content s1 x)) in update_element_state s2 e y Current false
    end.
  Fixpoint forward_elements (f : nat -> option V -> V) (s : sst) (es : list nat) : sst * res unit :=
    match es with
    | [] => (s, Ok tt)
    | e :: t => let '(s1, r) := forward_element f s e in
                match r with Err x => (s1, Err x) | Ok _ => forward_elements f s1 t end
    end.
  Definition forward_sequential_element f s es : sst * res unit :=
    let '(s1, r) := forward_elements f s es in
    match r with Err x => (s1, Err x) | Ok _ => (update_converged s1 false, Ok tt) end.

  (** material_discovery.py 928-982 (forward_sequential_time): per time step,
      the converged state of every element is read by copy, the new state is
      stored by copy, then one commit by copy. *)
  Definition time_element (f : nat -> option V -> V) (s : sst) (e : nat) : sst * res unit :=
    let '(s1, r) := get_element_state s e Last true in
    match r with
    | Err x => (s1, Err x)
    | Ok x => let '(s2, y) := alloc s1 (f e (content s1 x)) in update_element_state s2 e y Current true
    end.
  Fixpoint time_elements (f : nat -> option V -> V) (s : sst) (es : list nat) : sst * res unit :=
    match es with
    | [] => (s, Ok tt)
    | e :: t => let '(s1, r) := time_element f s e in
                match r with Err x => (s1, Err x) | Ok _ => time_elements f s1 t end
    end.
  Fixpoint forward_sequential_time (fs : list (nat -> option V -> V)) s es : sst * res unit :=
    match fs with
    | [] => (s, Ok tt)
    | f :: t => let '(s1, r) := time_elements f s es in
                match r with Err x => (s1, Err x) | Ok _ => forward_sequential_time t (update_converged s1 true) es end
    end.
End Store.
Arguments sst : clear implicits.
Arguments op : clear implicits.
Arguments kind : clear implicits.
