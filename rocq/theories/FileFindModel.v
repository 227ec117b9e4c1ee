(** Search of files by regular expressions, and the data set files.

    src/hookeai/ioput/iostandard.py 153-222 (find_unique_file_with_regex);
    src/hookeai/time_series_data/time_dataset.py 125-166 (save_dataset, the name of
      the file);
    src/hookeai/user_scripts/complete_pipelines/local_model_update.py 1057-1090
      (find_dataset_file).

    Regular expressions are modelled by a syntax with classes of characters,
    concatenation, alternatives, repetition and the two anchors; re.search is
    decided with derivatives. A directory is the list of its entries in the order
    of os.listdir; [None] is a missing directory. Invalid patterns are not in the
    syntax. *)
From Coq Require Import String Ascii List Bool Arith.
From Verif Require Import Lib PyStr PyDict.
Import ListNotations.
Local Open Scope string_scope.
Local Open Scope list_scope.

(** ** Regular expressions *)
Inductive rx := RNone | REmpty | RClass (p : ascii -> bool) | RCat (a b : rx) | RAlt (a b : rx) | RStar (a : rx).
Fixpoint nullable (r : rx) : bool :=
  match r with
  | RNone => false | REmpty => true | RClass _ => false
  | RCat a b => nullable a && nullable b | RAlt a b => nullable a || nullable b | RStar _ => true
  end.
Fixpoint deriv (c : ascii) (r : rx) : rx :=
  match r with
  | RNone => RNone | REmpty => RNone
  | RClass p => if p c then REmpty else RNone
  | RCat a b => if nullable a then RAlt (RCat (deriv c a) b) (deriv c b) else RCat (deriv c a) b
  | RAlt a b => RAlt (deriv c a) (deriv c b)
  | RStar a => RCat (deriv c a) (RStar a)
  end.
Fixpoint full_match (r : rx) (s : string) : bool :=
  match s with EmptyString => nullable r | String c t => full_match (deriv c r) t end.

Definition newline : ascii := ascii_of_nat 10.
Definition any_char : rx := RClass (fun _ => true).
(** the dot of a pattern *)
Definition rdot : rx := RClass (fun c => negb (Ascii.eqb c newline)).
Definition rdigits : rx := RCat (RClass is_digit) (RStar (RClass is_digit)).
Fixpoint rlit (s : string) : rx :=
  match s with EmptyString => REmpty | String c t => RCat (RClass (Ascii.eqb c)) (rlit t) end.
(** A pattern: anchored at the start (^), the body, anchored at the end ($,
    which also accepts a final line break) *)
Record pattern := mkPattern { p_start : bool; p_body : rx; p_end : bool }.
Definition search (p : pattern) (s : string) : bool :=
  full_match (RCat (if p_start p then REmpty else RStar any_char)
             (RCat (p_body p) (if p_end p then RAlt REmpty (RClass (Ascii.eqb newline)) else RStar any_char))) s.

(** ** Search of a file *)
Inductive regex_arg := OnePattern (p : pattern) | Patterns (l : list pattern) | OtherArg.
Fixpoint find_pattern (ps : list pattern) (listing : list string) : option string :=
  match ps with
  | [] => None
  | p :: t => match find (search p) listing with Some f => Some f | None => find_pattern t listing end
  end.
(** iostandard.py 153-222 *)
Definition find_file (regex : regex_arg) (listing : option (list string)) : res (option string) :=
  match listing with
  | None => Err RuntimeError
  | Some l =>
    match regex with
    | OtherArg => Err RuntimeError
    | OnePattern p => Ok (find_pattern [p] l)
    | Patterns ps => Ok (find_pattern ps l)
    end
  end.

(** ** Data set files *)
(** time_dataset.py 153-160 *)
Definition dataset_name (basename : string) (n : nat) (append_n : bool) : string :=
  ((basename ++ (if append_n then "_n" ++ nat_str n else "")) ++ ".pkl")%string.
(** ^base_n[0-9]+.pkl$, as in the training and prediction scripts *)
Definition script_pattern (basename : string) : pattern :=
  mkPattern true (RCat (rlit (basename ++ "_n")) (RCat rdigits (RCat rdot (rlit "pkl")))) true.
(** base_n\d+\.pkl, local_model_update.py 1074 *)
Definition pipeline_pattern (basename : string) : pattern :=
  mkPattern false (RCat (rlit (basename ++ "_n")) (RCat rdigits (rlit ".pkl"))) false.
(** 1057-1090 *)
Definition find_dataset (basename : string) (listing : option (list string)) : res string :=
  rbind (find_file (OnePattern (pipeline_pattern basename)) listing) (fun f =>
  match f with Some f => Ok f | None => Err RuntimeError end).
(** Saving in a directory: the file is added to it or replaced in place. *)
Definition save_in (name : string) (listing : list string) : list string :=
  if existsb (String.eqb name) listing then listing else listing ++ [name].
