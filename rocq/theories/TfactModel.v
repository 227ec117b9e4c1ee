(** History of the total load factor read from a Links input data file:
    src/hookeai/simulators/links/utilities/links_plot_tfact.py
      40-135 (plot_links_tfact_hist, without the text file and the figure),
      167-216 (gen_links_loading_incrementation_file), 218-251 (scale_tfact_hist);
    src/hookeai/simulators/links/links.py 902-973, 1035-1046 (the lines written).

    A file is the list of its lines.  float() is the argument [pf] and the printed
    load factors are the argument [fmt]; the arrays hold real numbers. *)
From Coq Require Import String Ascii List Bool Arith ZArith Reals.
From Verif Require Import Lib PyDict PyStr TextLines StrainPathModel LinksLoadModel.
Import ListNotations.
Local Open Scope list_scope.

Section Tfact.
Variable pf : string -> res R.

(** the columns of dfact_hist and tfact_hist and the counter of the increments *)
Record hist := mkH { h_n : Z; h_d : list R; h_t : list R; h_inc : nat }.
(** np.zeros((n + 1, 2)) *)
Definition zeros_hist (n : Z) : res hist :=
  if Z.ltb (n + 1) 0 then Err ValueError
  else let z := repeat 0%R (Z.to_nat (n + 1)) in Ok (mkH n z z 1).
(** int(line.split()[1]) *)
Definition second_int (line : string) : res Z :=
  match nth_error (words line) 1 with None => Err IndexError | Some w => py_int w end.
(** 70-88 *)
Definition even_hist (line : string) : res hist :=
  rbind (second_int line) (fun n =>
  rbind (zeros_hist n) (fun h =>
  if Z.eqb n 0 then Err ZeroDivisionError
  else if Z.ltb n 0 then Err ValueError
  else let m := Z.to_nat n in
       Ok (mkH n (0%R :: repeat (1 / INR m)%R m) (map (fun k => lsum (repeat (1 / INR m)%R k)) (seq 0 (S m))) 1))).
(** 107-123 *)
Definition store (h : hist) (line : string) : res hist :=
  let ws := words line in
  rbind (match length ws with
         | 3 => pf (nth 0 ws EmptyString)
         | 4 => pf (nth 1 ws EmptyString)
         | _ => Err RuntimeError
         end) (fun d =>
  if Nat.ltb (h_inc h) (length (h_d h))
  then Ok (mkH (h_n h) (upd (h_d h) (h_inc h) d) (upd (h_t h) (h_inc h) (nth (h_inc h - 1) (h_t h) 0%R + d)%R) (S (h_inc h)))
  else Err IndexError).
(** 68-123; [st]: None before the keyword INCREMENTS *)
Fixpoint scan (lines : list string) (st : option hist) : res (option hist) :=
  match lines with
  | [] => Ok st
  | line :: rest =>
    if search_kw "Number_of_Increments" line then rbind (even_hist line) (fun h => Ok (Some h))
    else if search_kw "INCREMENTS" line then rbind (second_int line) (fun n => rbind (zeros_hist n) (fun h => scan rest (Some h)))
    else match st with
         | None => scan rest st
         | Some h => if section_end line || blank line then Ok st
                     else rbind (store h line) (fun h' => scan rest (Some h'))
         end
  end.
(** the increments, the times and totals, and the accumulated absolute factor *)
Record tfact := mkT { t_inc : list R; t_hist : list (R * R); t_acc : R }.
Definition read_tfact (lines : list string) : res tfact :=
  rbind (scan lines None) (fun st =>
  match st with
  | None => Err NameError
  | Some h => Ok (mkT (h_d h) (combine (StrainPathModel.linspace 0 1 (length (h_t h))) (h_t h)) (lsum (map Rabs (h_d h))))
  end).
End Tfact.

(** links.py 902-973, 1035-1046: the lines; [tol] and [iters] are constants *)
Section Lines.
Variable fmt : R -> string.
Definition increment_line (tol iters : string) (d : R) : string := ("1.0 " ++ fmt d ++ " " ++ tol ++ " " ++ iters)%string.
Definition loading_lines (tol iters : string) (l : loading) : list string :=
  match l with
  | EvenLoading n => [""; "Number_of_Increments " ++ nat_str n; ""; "CONVERGENCE_TOLERANCE"; tol]%string
  | ListedLoading n f => ""%string :: ("INCREMENTS " ++ nat_str n)%string :: map (increment_line tol iters) f
  end.
End Lines.

(** 218-251 *)
Definition scale_tfact_hist (h : list (R * R)) (s : R) : list (R * R) := map (fun p => (fst p, s * snd p)%R) h.
