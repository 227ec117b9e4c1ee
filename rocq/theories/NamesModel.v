(** Model of fresh directory and file names.
    Sources: src/hookeai/ioput/iostandard.py 32-98 (make_directory,
    new_file_path_with_int), src/hookeai/model_architectures/procedures/
    model_prediction.py 41-68 (make_predictions_subdir).
    A file system is the list of its directories and the list of its regular
    files, given by absolute normalised paths. Simplifications: paths are
    already absolute (os.path.abspath is the identity); no regular file among
    the ancestors of a new directory; no permissions, no links, no
    concurrent process. Loops carry a bound on the number of iterations, which
    is proved to be never reached. *)
From Coq Require Import String Ascii List Bool Arith.
From Verif Require Import Lib PyStr.
Import ListNotations.
Local Open Scope string_scope.

Record fs := mkFs { dirs : list string; files : list string }.
Definition mem (p : string) (l : list string) : bool := existsb (String.eqb p) l.
Definition isdir (f : fs) (p : string) : bool := mem p (dirs f).
Definition isfile (f : fs) (p : string) : bool := mem p (files f).
Definition path_exists (f : fs) (p : string) : bool := isdir f p || isfile f p.

(** Proper ancestors of a path: the prefixes that end before a '/'. *)
Fixpoint ancestors_from (pre p : string) : list string :=
  match p with
  | EmptyString => []
  | String c t =>
    let rest := ancestors_from (pre ++ String c EmptyString) t in
    if Ascii.eqb c "/" then pre :: rest else rest
  end.
Definition ancestors (p : string) : list string := filter (fun q => negb (String.eqb q "")) (ancestors_from "" p).
(** os.makedirs *)
Definition makedirs (f : fs) (p : string) : fs * res unit :=
  if path_exists f p then (f, Err FileExistsError)
  else (mkFs (dirs f ++ filter (fun q => negb (isdir f q)) (ancestors p) ++ [p])%list (files f), Ok tt).
(** shutil.rmtree *)
Definition below (p q : string) : bool := String.eqb p q || starts_with (p ++ "/") q.
Definition rmtree (f : fs) (p : string) : fs :=
  mkFs (filter (fun q => negb (below p q)) (dirs f)) (filter (fun q => negb (below p q)) (files f)).

(** while taken(new): new = name(i); i += 1 *)
Fixpoint search (taken : string -> bool) (name : nat -> string) (fuel : nat) (new : string) (i : nat) : option string :=
  if taken new then
    match fuel with 0 => None | S n => search taken name n (name i) (S i) end
  else Some new.

(** iostandard.py 32-70 *)
Definition make_directory (f : fs) (d : string) (is_overwrite : bool) : fs * res string :=
  if isdir f d then
    if is_overwrite then
      let f1 := rmtree f d in let '(f2, r) := makedirs f1 d in (f2, rbind r (fun _ => Ok d))
    else
      match search (isdir f) (fun i => d ++ "_" ++ nat_str i) (S (length (dirs f))) d 1 with
      | None => (f, Err RuntimeError)
      | Some d' => let '(f2, r) := makedirs f d' in (f2, rbind r (fun _ => Ok d'))
      end
  else let '(f2, r) := makedirs f d in (f2, rbind r (fun _ => Ok d)).

(** os.path.splitext (posix): the extension starts at the last dot of the last
    component, unless only dots precede it there. [seen] is the part of the
    last component read so far that is not a dot. *)
Fixpoint has_slash (s : string) : bool := match s with EmptyString => false | String c t => Ascii.eqb c "/" || has_slash t end.
Fixpoint splitext_from (nondot : bool) (s : string) : string * string :=
  match s with
  | EmptyString => ("", "")
  | String c t =>
    if Ascii.eqb c "/" then let '(r, e) := splitext_from false t in (String c r, e)
    else if Ascii.eqb c "." then
      if nondot && negb (has_char "." t) && negb (has_slash t) then ("", s)
      else let '(r, e) := splitext_from nondot t in (String c r, e)
    else let '(r, e) := splitext_from true t in (String c r, e)
  end.
Definition splitext (s : string) : string * string := splitext_from false s.

(** iostandard.py 72-98 *)
Definition new_file_path_with_int (f : fs) (p : string) : option string :=
  let '(root, ext) := splitext p in
  search (isfile f) (fun i => root ++ "_" ++ nat_str i ++ ext) (S (length (files f))) p 1.

(** str.split(c)[-1] *)
Fixpoint after_last (c : ascii) (s : string) : string :=
  match s with
  | EmptyString => ""
  | String a t => if Ascii.eqb a c && negb (has_char c t) then t else if has_char c t then after_last c t else s
  end.
(** os.path.join of a directory and a relative name *)
Definition join (d n : string) : string := d ++ "/" ++ n.
(** model_prediction.py 59-64: the number is read back from the current name *)
Fixpoint predict_search (f : fs) (d : string) (fuel : nat) (cur : string) : res string :=
  if path_exists f cur then
    match fuel with
    | 0 => Err RuntimeError
    | S n => rbind (int_of (after_last "_" cur)) (fun k => predict_search f d n (join d ("prediction_set_" ++ nat_str (k + 1))))
    end
  else Ok cur.
(** model_prediction.py 41-68 *)
Definition make_predictions_subdir (f : fs) (d : string) : fs * res string :=
  if path_exists f d then
    match predict_search f d (S (length (dirs f) + length (files f))) (join d "prediction_set_0") with
    | Err e => (f, Err e)
    | Ok p => make_directory f p false
    end
  else (f, Err RuntimeError).
