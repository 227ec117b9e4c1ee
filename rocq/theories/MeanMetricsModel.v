(** Model of the mean prediction metrics of a directory of prediction files,
    of the file they are written to and read from, and of the convergence data.
    Source: src/hookeai/utilities/output_prediction_metrics.py.
    A number is [Some x] or [None] (NaN or infinity), as in MetricsModel.
    Simplifications: a directory is the list of its entries in the order of
    os.listdir, each with the object pickled in it; real arithmetic; the file is
    one string split at newlines (no carriage returns); how Python rounds a
    number for '{:15.8e}' is the parameter [show], which returns the digits; a
    number read from text is the pair of its decimal mantissa and exponent;
    printing to the standard output, figures and plot data files are not
    modelled; the path handling of set_prediction_metrics_dir is in NamesModel. *)
From Coq Require Import Reals String Ascii List Arith Bool ZArith.
From Verif Require Import Lib HardeningModel ScalerModel PyDict PyStr TextLines MetricsModel HybridModel.
Import ListNotations.
Local Open Scope list_scope.

(** ** Prediction files *)
Fixpoint drop_prefix (p s : string) : option string :=
  match p, s with
  | EmptyString, _ => Some s
  | String a p', String b s' => if Ascii.eqb a b then drop_prefix p' s' else None
  | _, _ => None
  end.
Fixpoint take_digits (s : string) : string :=
  match s with String c t => if is_digit c then String c (take_digits t) else EmptyString | EmptyString => EmptyString end.
Definition newline : ascii := ascii_of_nat 10.
(** 'pkl$': the end of the name, or a newline before it *)
Definition pkl_end (s : string) : bool := String.eqb s "pkl" || String.eqb s ("pkl" ++ String newline "").
Fixpoint butlast (s : string) : string :=
  match s with String c t => match t with EmptyString => EmptyString | String _ _ => String c (butlast t) end | EmptyString => EmptyString end.
(** output_prediction_metrics.py:204-216: the number captured by
    '^prediction_sample_([0-9]+).pkl$'. The digits are taken greedily; the dot
    matches any character but a newline, the last of the digits if need be. *)
Definition sample_number (name : string) : option nat :=
  match drop_prefix "prediction_sample_" name with
  | None => None
  | Some t =>
    let digits := take_digits t in
    let number (s : string) := match int_of s with Ok n => Some n | Err _ => None end in
    match skip_digits t with
    | String c r => if negb (Ascii.eqb c newline) && pkl_end r then number digits
                    else if pkl_end (String c r) then number (butlast digits) else None
    | EmptyString => None
    end
  end.
Definition directory := list (string * pickled).
(** 181-219: get_samples_prediction_files; the files are given by their content *)
Definition get_samples_prediction_files (d : directory) : res (list pickled * list nat) :=
  match d with
  | [] => Err RuntimeError
  | _ =>
    let keep := filter (fun e => match sample_number (fst e) with Some _ => true | None => false end) d in
    Ok (map snd keep, map (fun e => match sample_number (fst e) with Some n => n | None => 0%nat end) keep)
  end.

(** ** Means over the samples *)
(** division of tensors of the same length *)
Definition ndiv (a b : num) : num := match a, b with Some x, Some y => fdiv x y | _, _ => None end.
Definition tdiv (a b : list num) : list num := map (fun p => ndiv (fst p) (snd p)) (combine a b).
Definition metric_of_sample (metric : string) (rmse mav_gt : list num) : res (list num) :=
  if String.eqb metric "rmse" then Ok rmse
  else if String.eqb metric "nrmse" then Ok (tdiv rmse mav_gt)
  else Err RuntimeError.
(** 247-258: the loop over the metrics of one sample *)
Definition collect_metric (rmse mav_gt : list num) (acc : dict (list (list num))) (metric : string) : res (dict (list (list num))) :=
  rbind (metric_of_sample metric rmse mav_gt) (fun v =>
  rbind (dlookup acc metric) (fun l => Ok (dset acc metric (l ++ [v])))).
(** 235-258: the loop over the samples *)
Definition collect_sample (metrics : list string) (acc : dict (list (list num))) (f : pickled) : res (dict (list (list num))) :=
  rbind (compute_prediction_metrics (Some f) ["rmse"; "mav_gt"]%string) (fun r =>
  rbind (dlookup r "rmse") (fun rmse =>
  rbind (dlookup r "mav_gt") (fun mav_gt =>
  rfold (collect_metric rmse mav_gt) metrics acc))).
(** torch.mean(torch.stack(l, dim=0), dim=0) for a non-empty [l] *)
Definition stack_mean (l : list (list num)) : res (list num) :=
  match l with
  | [] => Ok []
  | r :: _ =>
    if forallb (fun x => Nat.eqb (length x) (length r)) l
    then Ok (map (fun j => nmean (map (fun x => nth j x None) l)) (seq 0 (length r)))
    else Err RuntimeError
  end.
(** 233: {x: [] for x in mean_prediction_metrics} *)
Definition empty_collection (metrics : list string) : dict (list (list num)) :=
  fold_left (fun d m => dset d m []) metrics [].
(** 260-271 *)
Definition mean_metric (collected : dict (list (list num))) (acc : dict (list num)) (metric : string) : res (dict (list num)) :=
  rbind (dlookup collected metric) (fun l => rbind (stack_mean l) (fun v => Ok (dset acc metric v))).
(** 221-271: compute_mean_prediction_metrics *)
Definition compute_mean_prediction_metrics (files : list pickled) (metrics : list string) : res (dict (list num)) :=
  rbind (rfold (collect_sample metrics) files (empty_collection metrics)) (fun collected =>
  rfold (mean_metric collected) metrics []).
(** 92-152: compute_directory_prediction_metrics, without file and display *)
Definition compute_directory_prediction_metrics (d : directory) (metrics : list string) : res (nat * dict (list num)) :=
  rbind (get_samples_prediction_files d) (fun p =>
  rbind (compute_mean_prediction_metrics (fst p) metrics) (fun r => Ok (length (fst p), r))).

(** ** The file of mean metrics *)
(** The digits of '{:.8e}' of a number *)
Inductive shown := SNum (neg : bool) (lead frac : string) (eneg : bool) (ex : string) | SNan | SInf (neg : bool).
Definition sign (b : bool) (pos : string) : string := if b then "-"%string else pos.
Local Open Scope string_scope.
Definition show_str (s : shown) : string :=
  match s with
  | SNum neg lead frac eneg ex => sign neg "" ++ lead ++ "." ++ frac ++ "e" ++ sign eneg "+" ++ ex
  | SNan => "nan"
  | SInf neg => sign neg "" ++ "inf"
  end.
Section file.
  Variable X : Type.
  Variable show : X -> shown.
  (** 418-424: one metric *)
  Definition metric_line (m : string * list X) : string :=
    "    > " ++ fst m ++ ": [" ++ join ", " (map (fun x => pad_left 15 (show_str (show x))) (snd m)) ++ "]".
  Definition nl (s : string) : string := String newline s.
  (** 393-428: format_mean_metrics_results *)
  Definition format_mean_metrics_results (n_sample : nat) (results : list (string * list X)) (process_label : string) : list string :=
    ([nl ("> Process: " ++ process_label); nl ("    > n_sample = " ++ nat_str n_sample)]
     ++ map (fun m => nl (metric_line m)) results ++ [nl (nl "")])%list.
  Definition header : string := nl ("Mean prediction metrics" ++ nl ("-----------------------" ++ nl "")).
  Definition write_lines (l : list string) : string := fold_right append "" l.
  (** 273-325: write_mean_metrics_results_file; [old] is the content of the file
      if there is one, [None] for a missing saving directory in [is_dir] *)
  Definition write_mean_metrics_results_file (is_dir : bool) (old : option string) (n_sample : nat)
      (results : list (string * list X)) (process_label : string) (is_overwrite : bool) : res string :=
    if is_dir then
      let body := format_mean_metrics_results n_sample results process_label in
      match old with
      | Some text => if is_overwrite then Ok (write_lines (header :: body)) else Ok (text ++ write_lines body)
      | None => Ok (write_lines (header :: body))
      end
    else Err RuntimeError.
End file.
Arguments metric_line {X}. Arguments format_mean_metrics_results {X}. Arguments write_mean_metrics_results_file {X}.

(** re.search of a literal, ignoring case *)
Fixpoint search_ci (p s : string) : bool :=
  match drop_ci p s with
  | Some _ => true
  | None => match s with EmptyString => false | String _ t => search_ci p t end
  end.
(** 365-366: re.search('n_sample\s*=\s*(\d+)', line).group(1) *)
Definition n_sample_here (s : string) : option nat :=
  match drop_prefix "n_sample" s with
  | None => None
  | Some t =>
    match drop_prefix "=" (lstrip t) with
    | None => None
    | Some u => match int_of (take_digits (lstrip u)) with Ok n => Some n | Err _ => None end
    end
  end.
Fixpoint n_sample_of (s : string) : option nat :=
  match n_sample_here s with
  | Some n => Some n
  | None => match s with EmptyString => None | String _ t => n_sample_of t end
  end.
Definition number := (Z * Z)%type.
Definition signed (neg : bool) (n : Z) : Z := if neg then (- n)%Z else n.
Definition digit_val (c : ascii) : Z := (Z.of_nat (nat_of_ascii c) - 48)%Z.
Fixpoint digits_from (acc : Z) (s : string) : Z :=
  match s with EmptyString => acc | String c t => digits_from (10 * acc + digit_val c)%Z t end.
Definition digits_val (s : string) : Z := digits_from 0 s.
Definition drop_minus (s : string) : bool * string :=
  match s with String c t => if Ascii.eqb c "-" then (true, t) else (false, s) | EmptyString => (false, s) end.
(** one number of the list: '-?\d*\.?\d*(?:e[-+]?\d+)?', [None] if the pattern
    does not match, then float(), an error if there are no digits *)
Definition parse_number (s : string) : option (res number) :=
  let '(neg, s1) := drop_minus s in
  let a := take_digits s1 in
  let s2 := skip_digits s1 in
  let '(b, s3) := match s2 with
                  | String c t => if Ascii.eqb c "." then (take_digits t, skip_digits t) else ("", s2)
                  | EmptyString => ("", "")
                  end in
  let value (e : Z) : res number :=
    if String.eqb (a ++ b) "" then Err ValueError
    else Ok (signed neg (digits_val (a ++ b)), (e - Z.of_nat (String.length b))%Z) in
  match s3 with
  | EmptyString => Some (value 0%Z)
  | String c t =>
    if Ascii.eqb c "e" then
      let '(eneg, u) := match t with
                        | String d v => if Ascii.eqb d "-" then (true, v) else if Ascii.eqb d "+" then (false, v) else (false, t)
                        | EmptyString => (false, t)
                        end in
      match u with
      | EmptyString => None
      | _ => if all_digits u then Some (value (signed eneg (digits_val u))) else None
      end
    else None
  end.
Fixpoint take_word (s : string) : string * string :=
  match s with
  | String c t => if is_word c then (String c (fst (take_word t)), snd (take_word t)) else ("", s)
  | EmptyString => ("", "")
  end.
Fixpoint before_bracket (s : string) : option string :=
  match s with
  | EmptyString => None
  | String c t => if Ascii.eqb c "]" then Some "" else match before_bracket t with Some u => Some (String c u) | None => None end
  end.
(** 377-392: '^\s*>\s*(\w+):\s*' and the list in brackets; [None] if the
    pattern does not match. Empty entries are skipped. *)
Fixpoint parse_entries (l : list string) : option (res (list number)) :=
  match l with
  | [] => Some (Ok [])
  | x :: rest =>
    match (if blank x then Some (Ok None) else match parse_number (strip x) with
                                               | None => None
                                               | Some (Ok v) => Some (Ok (Some v))
                                               | Some (Err e) => Some (Err e)
                                               end), parse_entries rest with
    | Some r, Some rs => Some (rbind r (fun v => rbind rs (fun vs => Ok (match v with Some w => w :: vs | None => vs end))))
    | _, _ => None
    end
  end.
Definition parse_metric (line : string) : option (res (string * list number)) :=
  match drop_prefix ">" (lstrip line) with
  | None => None
  | Some t =>
    let '(w, u) := take_word (lstrip t) in
    if String.eqb w "" then None
    else match drop_prefix ":" u with
         | None => None
         | Some v =>
           match drop_prefix "[" (lstrip v) with
           | None => None
           | Some x =>
             match before_bracket x with
             | None => None
             | Some body => match parse_entries (split_on "," body) with
                            | None => None
                            | Some r => Some (rbind r (fun vs => Ok (w, vs)))
                            end
             end
           end
         end
  end.
(** 360-395: the loop over the lines *)
Fixpoint read_loop (n_sample : option nat) (found : bool) (acc : dict (list number)) (lines : list string) : res (dict (list number)) :=
  match lines with
  | [] => Ok acc
  | line :: rest =>
    if search_ci "n_sample =" line then
      match n_sample_of line with
      | None => Err AttributeError
      | Some k => read_loop n_sample (match n_sample with None => true | Some n => Nat.eqb k n || found end) acc rest
      end
    else if found then
      if section_end line || blank line then Ok acc
      else match parse_metric line with
           | None => Err AttributeError
           | Some r => rbind r (fun m => read_loop n_sample true (dset acc (fst m) (snd m)) rest)
           end
    else read_loop n_sample false acc rest
  end.
(** 327-391: read_mean_metrics_results_file; [None] if there is no file *)
Definition read_mean_metrics_results_file (file : option string) (n_sample : option nat) : res (dict (list number)) :=
  match file with
  | None => Err RuntimeError
  | Some text =>
    rbind (read_loop n_sample false [] (split_on newline text)) (fun r =>
    match r with [] => Err RuntimeError | _ => Ok r end)
  end.

(** ** Convergence data *)
(** 467-477: the size of the label of a process: re.search('^n([0-9]+)$'). The
    test of line 471 is on the builtin [id], which is never None. *)
Definition training_size (label : string) : res nat :=
  match label with
  | String c t =>
    if Ascii.eqb c "n" && negb (String.eqb (take_digits t) "")
       && (String.eqb (skip_digits t) "" || String.eqb (skip_digits t) (String newline ""))
    then int_of (take_digits t) else Err AttributeError
  | EmptyString => Err AttributeError
  end.
Definition process_results := (nat * dict (list num))%type.
(** torch.vstack *)
Definition vstack (rows : list (list num)) : res (list (list num)) :=
  match rows with
  | [] => Err RuntimeError
  | r :: _ => if forallb (fun x => Nat.eqb (length x) (length r)) rows then Ok rows else Err RuntimeError
  end.
(** 479-505: data_xy of one metric: for each size the pairs (size, value) *)
Definition convergence_data (processes : dict process_results) (metric : string) : res (list (list (R * num))) :=
  rbind (rmap training_size (dkeys processes)) (fun sizes =>
  let sorted := isort Z.of_nat sizes in
  rbind (rmap (fun k => rbind (dlookup processes ("n" ++ nat_str k)) (fun p => dlookup (snd p) metric)) sorted) (fun rows =>
  rbind (vstack rows) (fun rows =>
  Ok (map (fun p => map (fun v => (INR (fst p), v)) (snd p)) (combine sorted rows))))).
