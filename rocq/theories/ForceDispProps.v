(** Force-displacement curves and Gauss point paths of Links simulations (C110). *)
From Coq Require Import Reals Lra String List Bool Arith ZArith Lia Permutation Sorting.Sorted.
From Verif Require Import Lib PyStr PyDict HistoryModel HistoryProps ForceDispModel.
Import ListNotations.
Local Open Scope string_scope.
Local Open Scope list_scope.

(** ** Specification *)
(** Displacement of a node in a direction (1 to 3) in the rows of a step: the
    row of the label, columns 7 to 9 *)
Definition disp_of (label dir : nat) (rows : list (list R)) : R := nth (5 + dir) (nth (label - 1) rows []) 0%R.
(** A line of the file of reactions: group, time, three components *)
Definition reac_line (gr : R) (t : R) (v : R * R * R) : list R := let '(x, y, z) := v in [gr; t; x; y; z].
Definition comp_of (dir : nat) (v : R * R * R) : R :=
  let '(x, y, z) := v in match dir with 1 => x | 2 => y | _ => z end.

Lemma node_disp_in f label dir : f_cols f = 18 -> 1 <= label <= List.length (f_rows f) -> 1 <= dir ->
  node_disp (Z.of_nat label) dir f = Ok (disp_of label dir (f_rows f)).
Proof.
  intros Hc Hl Hd. unfold node_disp. rewrite Hc. cbn [Nat.eqb negb].
  assert (E : (Z.of_nat (List.length (f_rows f)) <? Z.of_nat label - 1)%Z = false) by (apply Z.ltb_ge; lia).
  rewrite E. unfold row_at.
  assert (E2 : ((0 <=? Z.of_nat label - 1) && (Z.of_nat label - 1 <? Z.of_nat (List.length (f_rows f))))%Z = true)
    by (apply andb_true_iff; split; [apply Z.leb_le|apply Z.ltb_lt]; lia).
  rewrite E2. cbn [rbind]. unfold disp_of. do 2 f_equal; [lia|f_equal; lia].
Qed.
Lemma group_of_lines group dir lines : 1 <= dir <= 3 ->
  group_reactions group dir (map (fun l => reac_line (fst (fst l)) (snd (fst l)) (snd l)) lines)
  = map (fun l => comp_of dir (snd l)) (filter (fun l => if Req_EM_T (fst (fst l)) group then true else false) lines).
Proof.
  intros Hd. unfold group_reactions. induction lines as [|[[g t] [[x y] z]] lines IH]; [reflexivity|]. cbn [map filter fst snd reac_line nth].
  destruct (Req_EM_T g group); [|exact IH]. cbn [map]. rewrite IH. f_equal.
  destruct dir as [|[|[|[|d]]]]; try lia; reflexivity.
Qed.

(** The curve: the points are the displacement of the reference node and the
    reaction of the group, step by step, with their multipliers. Reactions of
    other groups, other files and the order of the directory do not matter. *)
Theorem force_disp_curve sim mid dir_path dm rm group dir label (steps : list (nat * frame R)) others listing lines :
  steps <> [] -> StronglySorted lt (map fst steps) -> 1 <= dir <= 3 ->
  (forall s, In s steps -> f_cols (snd s) = 18 /\ 1 <= label <= List.length (f_rows (snd s))) ->
  (forall f, In f others -> ~ exists a, fst f = (sim ++ a ++ ".nodedata")%string) ->
  Permutation listing (step_files (sim ++ mid)%string ".nodedata" steps ++ others) ->
  let forces := filter (fun l => if Req_EM_T (fst (fst l)) group then true else false) lines in
  List.length forces = List.length steps ->
  force_disp sim dir_path dm rm group dir (Z.of_nat label) (Some (map (fun l => reac_line (fst (fst l)) (snd (fst l)) (snd l)) lines)) (Some listing)
  = Ok (combine (map (fun s => disp_of label dir (f_rows (snd s)) * dm)%R steps) (map (fun l => comp_of dir (snd l) * rm)%R forces)).
Proof.
  intros Hne Hk Hd Hf Ho HP forces Hl. unfold force_disp. rewrite (node_data_in_time_order sim mid dir_path steps others listing) by assumption.
  cbn [rbind]. rewrite group_of_lines by exact Hd. fold forces.
  assert (E : rmap (node_disp (Z.of_nat label) dir) (map snd steps) = Ok (map (fun s => disp_of label dir (f_rows (snd s))) steps)).
  { rewrite (rmap_all _ _ (fun f => disp_of label dir (f_rows f))); [now rewrite map_map|].
    intros f Hin. apply in_map_iff in Hin as [s [<- Hs]]. destruct (Hf s Hs). apply node_disp_in; [assumption|assumption|lia]. }
  destruct (map snd steps) as [|f0 fs] eqn:M; [destruct steps; [contradiction|discriminate]|]. rewrite <- M in *.
  rewrite E. cbn [rbind]. unfold set_column. rewrite !map_length, Hl, Nat.eqb_refl. cbn [rbind]. now rewrite !map_map.
Qed.

(** Another number of reactions than of steps is refused, except a single one. *)
Theorem reaction_count_refused sim dir_path dm rm group dir label reac listing files :
  collect sim dir_path listing = Ok files -> (exists disps, rmap (node_disp label dir) files = Ok disps) -> files <> [] ->
  List.length (group_reactions group dir reac) <> List.length files -> List.length (group_reactions group dir reac) <> 1 ->
  force_disp sim dir_path dm rm group dir label (Some reac) (Some listing) = Err ValueError.
Proof.
  intros C [disps E] Hn H1 H2. unfold force_disp. rewrite C. cbn [rbind]. destruct files as [|f0 fs]; [contradiction|]. set (files := f0 :: fs) in *.
  rewrite E. cbn [rbind]. unfold set_column. destruct (Nat.eqb_spec (List.length (group_reactions group dir reac)) (List.length files)); [contradiction|].
  destruct (group_reactions group dir reac) as [|v [|w l]]; [reflexivity|now destruct H2|reflexivity].
Qed.
(** A single reaction is repeated for every step. *)
Theorem single_reaction_refuted sim mid dir_path dm rm group dir label (steps : list (nat * frame R)) listing t v :
  steps <> [] -> StronglySorted lt (map fst steps) -> 1 <= dir <= 3 ->
  (forall s, In s steps -> f_cols (snd s) = 18 /\ 1 <= label <= List.length (f_rows (snd s))) ->
  Permutation listing (step_files (sim ++ mid)%string ".nodedata" steps) ->
  force_disp sim dir_path dm rm group dir (Z.of_nat label) (Some [reac_line group t v]) (Some listing)
  = Ok (map (fun s => (disp_of label dir (f_rows (snd s)) * dm, comp_of dir v * rm)%R) steps).
Proof.
  intros Hne Hk Hd Hf HP. unfold force_disp.
  rewrite (node_data_in_time_order sim mid dir_path steps [] listing); [|assumption|intros f []|now rewrite app_nil_r]. cbn [rbind].
  change [reac_line group t v] with (map (fun l : R * R * (R * R * R) => reac_line (fst (fst l)) (snd (fst l)) (snd l)) [((group, t), v)]).
  rewrite group_of_lines by exact Hd. cbn [filter fst]. destruct (Req_EM_T group group) as [_|N]; [|now destruct N]. cbn [map snd].
  assert (E : rmap (node_disp (Z.of_nat label) dir) (map snd steps) = Ok (map (fun s => disp_of label dir (f_rows (snd s))) steps)).
  { rewrite (rmap_all _ _ (fun f => disp_of label dir (f_rows f))); [now rewrite map_map|].
    intros f Hin. apply in_map_iff in Hin as [s [<- Hs]]. destruct (Hf s Hs). apply node_disp_in; [assumption|assumption|lia]. }
  destruct (map snd steps) as [|f0 fs] eqn:M; [destruct steps; [contradiction|discriminate]|]. rewrite <- M in *.
  rewrite E. cbn [rbind]. unfold set_column. rewrite map_length. cbn [List.length].
  assert (X : (if Nat.eqb 1 (List.length steps) then Ok [comp_of dir v] else Ok (repeat (comp_of dir v) (List.length steps))) = Ok (repeat (comp_of dir v) (List.length steps))).
  { destruct (Nat.eqb_spec 1 (List.length steps)) as [<-|]; reflexivity. }
  rewrite X. cbn [rbind]. f_equal. clear. induction steps as [|s steps IH]; [reflexivity|]. cbn. f_equal. exact IH.
Qed.
(** A label beyond the mesh is refused, but the next one not as documented. *)
Theorem node_beyond_refused f label dir : f_cols f = 18 -> (Z.of_nat (List.length (f_rows f)) + 1 < label)%Z ->
  node_disp label dir f = Err RuntimeError.
Proof. intros Hc H. unfold node_disp. rewrite Hc. cbn [Nat.eqb negb]. destruct (Z.ltb_spec (Z.of_nat (List.length (f_rows f))) (label - 1)); [reflexivity|lia]. Qed.
Theorem node_next_refuted f dir : f_cols f = 18 -> node_disp (Z.of_nat (List.length (f_rows f)) + 1) dir f = Err IndexError.
Proof.
  intros Hc. unfold node_disp. rewrite Hc. cbn [Nat.eqb negb]. replace (Z.of_nat (List.length (f_rows f)) + 1 - 1)%Z with (Z.of_nat (List.length (f_rows f))) by lia.
  rewrite Z.ltb_irrefl. unfold row_at. rewrite Z.ltb_irrefl, andb_false_r.
  assert (E : (Z.of_nat (List.length (f_rows f)) <? 0)%Z = false) by (apply Z.ltb_ge; lia). now rewrite E, andb_false_r.
Qed.
(** Label zero stands for the last node without notice. *)
Theorem label_zero_refuted f dir : f_cols f = 18 -> f_rows f <> [] -> 1 <= dir ->
  node_disp 0 dir f = Ok (disp_of (List.length (f_rows f)) dir (f_rows f)).
Proof.
  intros Hc Hn Hd. unfold node_disp. rewrite Hc. cbn [Nat.eqb negb].
  assert (L : 0 < List.length (f_rows f)) by (destruct (f_rows f); [contradiction|cbn; lia]).
  assert (E : (Z.of_nat (List.length (f_rows f)) <? 0 - 1)%Z = false) by (apply Z.ltb_ge; lia). rewrite E. unfold row_at.
  cbn [Z.sub Z.opp Z.add Z.leb Z.compare andb].
  assert (E2 : ((- Z.of_nat (List.length (f_rows f)) <=? -1) && (-1 <? 0))%Z = true) by (apply andb_true_iff; split; [apply Z.leb_le|apply Z.ltb_lt]; lia).
  rewrite E2. cbn [rbind]. unfold disp_of. do 2 f_equal; [lia|f_equal; lia].
Qed.

(** ** Gauss point paths *)
(** A symmetric tensor and a state of a Gauss point; the line that holds it: the
    time first, stresses from column 12 on, total strains from column 54 on with
    doubled shears, anything elsewhere *)
Record sym := mkSym { s11 : R; s22 : R; s33 : R; s12 : R; s23 : R; s13 : R }.
Definition gp_line (t : R) (e s : sym) (a b c : list R) : list R :=
  t :: a ++ [s11 s; s22 s; s33 s; s12 s; s23 s; s13 s] ++ b
    ++ [s11 e; s22 e; s33 e; 2 * s12 e; 2 * s23 e; 2 * s13 e]%R ++ c.
Definition gp_state : Type := R * sym * sym * (list R * list R * list R).
Definition line_of (g : gp_state) : list R := let '(t, e, s, (a, b, c)) := g in gp_line t e s a b c.
Definition gp_ok (n_cols : nat) (g : gp_state) : Prop :=
  let '(_, _, _, (a, b, c)) := g in List.length a = 10 /\ List.length b = 36 /\ 59 + List.length c = n_cols.
Definition sym_row (s : sym) : list R := [s11 s; s22 s; s33 s; s12 s; s23 s; s13 s].

Lemma gp_nth t e s a b c : List.length a = 10 -> List.length b = 36 ->
  (forall k, k < 6 -> nth (11 + k) (gp_line t e s a b c) 0%R = nth k (sym_row s) 0%R) /\
  (forall k, k < 6 -> nth (53 + k) (gp_line t e s a b c) 0%R = nth k [s11 e; s22 e; s33 e; 2 * s12 e; 2 * s23 e; 2 * s13 e]%R 0%R).
Proof.
  intros Ha Hb. unfold gp_line. split; intros k Hk.
  - change (11 + k) with (S (10 + k)). cbn [nth]. rewrite app_nth2 by lia. replace (10 + k - List.length a) with k by lia. now rewrite app_nth1 by (cbn; lia).
  - change (53 + k) with (S (10 + (6 + (36 + k)))). cbn [nth]. rewrite app_nth2 by lia. replace (10 + (6 + (36 + k)) - List.length a) with (6 + (36 + k)) by lia.
    rewrite app_nth2 by (cbn; lia). cbn [List.length]. replace (6 + (36 + k) - 6) with (36 + k) by lia.
    rewrite app_nth2 by lia. replace (36 + k - List.length b) with k by lia. now rewrite app_nth1 by (cbn; lia).
Qed.
Lemma of_columns_law {X} (l : list X) (fs : list (X -> R)) :
  of_columns (List.length l) (map (fun f => map f l) fs) = map (fun x => map (fun f => f x) fs) l.
Proof.
  unfold of_columns.
  assert (G : forall t x, nth_error l t = Some x -> map (fun c => nth t c 0%R) (map (fun f => map f l) fs) = map (fun f => f x) fs).
  { intros t x H. rewrite map_map. apply map_ext. intros f. apply (map_nth_error f) in H. now apply nth_error_nth. }
  clear - G. revert G. set (F := fun t => map (fun c => nth t c 0%R) (map (fun f => map f l) fs)). intros G.
  assert (W : forall a m, (forall t x, nth_error m t = Some x -> F (a + t) = map (fun f => f x) fs) -> map F (seq a (List.length m)) = map (fun x => map (fun f => f x) fs) m).
  { intros a m. revert a. induction m as [|x m IH]; intros a H; [reflexivity|]. cbn [List.length seq map]. f_equal.
    - rewrite <- (Nat.add_0_r a). now apply H.
    - apply IH. intros t y Hy. replace (S a + t) with (a + S t) by lia. now apply H. }
  apply (W 0 l). intros t x H. cbn [Nat.add]. now apply G.
Qed.

(** The path of a Gauss point: the strain tensors, shears included, and the
    stress tensors of every line. *)
Theorem gauss_point_path n_dim n_cols states : n_dim <> 2 -> 59 <= n_cols -> (forall g, In g states -> gp_ok n_cols g) ->
  extract_path n_dim (Some (mkFrame n_cols (map line_of states)))
  = Ok (mkOutPath [(1, 1); (2, 2); (3, 3); (1, 2); (2, 3); (1, 3)]
        (map (fun g => sym_row (snd (fst (fst g)))) states) (map (fun g => sym_row (snd (fst g))) states) (map (fun g => fst (fst (fst g))) states)).
Proof.
  intros Hd Hc Hg. unfold extract_path, out_comps, out_strain_index. destruct (Nat.eqb_spec n_dim 2); [contradiction|].
  assert (C : forall j, j < 59 -> column (mkFrame n_cols (map line_of states)) j = Ok (map (fun g => nth j (line_of g) 0%R) states)).
  { intros j Hj. unfold column. cbn [f_cols f_rows]. destruct (Nat.ltb_spec j n_cols); [|lia]. now rewrite map_map. }
  cbn [List.length seq combine rmap fst snd Nat.add]. rewrite !C by lia. cbn [rbind].
  assert (N : forall g, In g states -> (forall k, k < 6 -> nth (11 + k) (line_of g) 0%R = nth k (sym_row (snd (fst g))) 0%R) /\
    (forall k, k < 6 -> nth (53 + k) (line_of g) 0%R = nth k (let e := snd (fst (fst g)) in [s11 e; s22 e; s33 e; 2 * s12 e; 2 * s23 e; 2 * s13 e]%R) 0%R)).
  { intros [[[t e] s] [[a b] c]] Hin. destruct (Hg _ Hin) as [H1 [H2 _]]. now apply gp_nth. }
  assert (TM : map (fun g => nth 0 (line_of g) 0%R) states = map (fun g => fst (fst (fst g))) states).
  { apply map_ext. intros [[[t e] s] [[a b] c]]. reflexivity. }
  f_equal. rewrite map_length. f_equal.
  - pose proof (of_columns_law states (map (fun k (g : gp_state) => Rmult (voigt_factor (nth k [(1, 1); (2, 2); (3, 3); (1, 2); (2, 3); (1, 3)] (0, 0))) (nth (53 + k) (line_of g) 0%R)) (seq 0 6))) as O.
    cbn [seq map Nat.add nth] in O. rewrite !map_map. rewrite O. clear O. apply map_ext_in. intros g Hin. destruct (N g Hin) as [_ N2].
    pose proof (N2 0 ltac:(lia)) as A0. pose proof (N2 1 ltac:(lia)) as A1. pose proof (N2 2 ltac:(lia)) as A2.
    pose proof (N2 3 ltac:(lia)) as A3. pose proof (N2 4 ltac:(lia)) as A4. pose proof (N2 5 ltac:(lia)) as A5.
    cbn [Nat.add] in A0, A1, A2, A3, A4, A5. rewrite A0, A1, A2, A3, A4, A5. cbn [nth]. unfold voigt_factor, sym_row. cbn [fst snd Nat.eqb].
    do 6 (apply (f_equal2 (@cons R)); [field|]). reflexivity.
  - pose proof (of_columns_law states (map (fun k (g : gp_state) => nth (11 + k) (line_of g) 0%R) (seq 0 6))) as O.
    cbn [seq map Nat.add] in O. rewrite O. clear O. apply map_ext_in. intros g Hin. destruct (N g Hin) as [N1 _].
    pose proof (N1 0 ltac:(lia)) as A0. pose proof (N1 1 ltac:(lia)) as A1. pose proof (N1 2 ltac:(lia)) as A2.
    pose proof (N1 3 ltac:(lia)) as A3. pose proof (N1 4 ltac:(lia)) as A4. pose proof (N1 5 ltac:(lia)) as A5.
    cbn [Nat.add] in A0, A1, A2, A3, A4, A5. rewrite A0, A1, A2, A3, A4, A5. reflexivity.
  - exact TM.
Qed.
(** In two dimensions no file can be read. *)
Theorem plane_path_refuted f : extract_path 2 (Some f) = Err TypeError.
Proof. reflexivity. Qed.
Theorem plane_dataset_refuted files ds : files <> [] -> build_out_dataset 2 files <> Ok ds.
Proof. intros H. destruct files as [|[f|] files]; [contradiction|discriminate|discriminate]. Qed.
(** Files with fewer columns and missing files are refused. *)
Theorem narrow_file_refused n_dim f : n_dim <> 2 -> f_cols f < 59 -> extract_path n_dim (Some f) = Err IndexError.
Proof.
  intros Hd Hc. unfold extract_path, out_comps, out_strain_index. destruct (Nat.eqb_spec n_dim 2); [contradiction|].
  cbn [List.length seq combine rmap fst snd]. unfold column.
  repeat match goal with |- context [Nat.ltb ?a ?b] => destruct (Nat.ltb_spec a b); cbn [rbind]; try reflexivity end; lia.
Qed.
Theorem out_dataset_law n_dim files ds : build_out_dataset n_dim files = Ok ds <-> Forall2 (fun f p => extract_path n_dim f = Ok p) files ds.
Proof.
  unfold build_out_dataset. split; [apply rmap_ok|]. induction 1 as [|f p l m Hp F IH]; [reflexivity|]. cbn [rmap]. rewrite Hp. cbn [rbind]. now rewrite IH.
Qed.

(** ** Case *)
Definition ex_node (u : R) : list R := [1; 0; 0; 5; 5; 5; u; u + 1; u + 2; 0; 0; 0; 0; 0; 0; 7; 8; 9]%R.
Example ex_force_disp :
  force_disp "bar" "NODE_DATA" 2 3 1 2 1
    (Some [[1; 0; 10; 20; 30]; [2; 0; 5; 5; 5]; [1; 1; 11; 21; 31]]%R)
    (Some [("bar_10.nodedata", mkFrame 18 [ex_node 40]); ("bar_9.nodedata", mkFrame 18 [ex_node 30])])
  = Ok [((30 + 1) * 2, 20 * 3); ((40 + 1) * 2, 21 * 3)]%R.
Proof.
  unfold force_disp.
  assert (C : collect "bar" "NODE_DATA" [("bar_10.nodedata", mkFrame 18 [ex_node 40]); ("bar_9.nodedata", mkFrame 18 [ex_node 30])]
            = Ok [mkFrame 18 [ex_node 30]; mkFrame 18 [ex_node 40]]) by reflexivity.
  rewrite C. cbn [rbind]. unfold group_reactions. cbn [filter nth].
  destruct (Req_EM_T 1 1) as [_|N]; [|now destruct N]. destruct (Req_EM_T 2 1) as [N|_]; [lra|]. reflexivity.
Qed.

Print Assumptions force_disp_curve.
Print Assumptions reaction_count_refused.
Print Assumptions single_reaction_refuted.
Print Assumptions node_beyond_refused.
Print Assumptions node_next_refuted.
Print Assumptions label_zero_refuted.
Print Assumptions gauss_point_path.
Print Assumptions plane_dataset_refuted.
Print Assumptions narrow_file_refused.
Print Assumptions out_dataset_law.
