(** Figures of strain paths and of data sets of material responses (C142). *)
From Coq Require Import String Reals List Bool Arith Lia.
From Verif Require Import Lib PyDict PyStr MatrixModel ResponseModel StressSpaceModel EqPathModel EqPathProps DataPlotModel.
Import ListNotations.
Local Open Scope list_scope.

(** A path of [n] times whose rows have at least [c] components. *)
Definition full_path (n c : nat) (t : list R) (rows : list (list R)) : Prop :=
  length t = n /\ length rows = n /\ Forall (fun r => (c <= length r)%nat) rows.
(** A figure has one curve for each component, with its name and its value at
    every time. *)
Definition shows (what : string) (comps : list comp) (t : list R) (rows : list (list R)) (cs : list curve) : Prop :=
  length cs = length comps /\ forall j c, nth_error comps j = Some c -> exists pts, nth_error cs j = Some ((what ++ " " ++ comp_name c)%string, pts) /\
    length pts = length t /\ forall i, (i < length t)%nat -> nth_error pts i = Some (nth i t 0%R, nth j (nth i rows []) 0%R).

Lemma map_ok {A B} (f : A -> res B) (g : A -> B) l : (forall x, In x l -> f x = Ok (g x)) -> rmap f l = Ok (map g l).
Proof.
  induction l as [|a l IH]; intros H; [reflexivity|]. cbn [rmap map]. rewrite (H a) by (left; reflexivity). cbn [rbind].
  rewrite IH by (intros; apply H; right; assumption). reflexivity.
Qed.
Lemma column_ok rows j c : Forall (fun r => (c <= length r)%nat) rows -> (j < c)%nat ->
  path_column rows j = Ok (map (fun r => nth j r 0%R) rows).
Proof.
  intros F L. unfold path_column. apply map_ok. intros r I. rewrite Forall_forall in F. specialize (F r I).
  rewrite (nth_error_nth' r 0%R) by lia. reflexivity.
Qed.
Lemma curves_ok what comps n t rows : full_path n (length comps) t rows ->
  exists cs, path_curves what n comps t rows = Ok cs /\ shows what comps t rows cs.
Proof.
  intros (Lt & Lr & F). unfold path_curves.
  rewrite (map_ok _ (fun jc : nat * comp => ((what ++ " " ++ comp_name (snd jc))%string, combine t (map (fun r => nth (fst jc) r 0%R) rows)))).
  - eexists. split; [reflexivity|]. split; [rewrite map_length, combine_length, seq_length; lia|]. intros j c E.
    assert (Lj : (j < length comps)%nat) by (apply nth_error_Some; congruence).
    assert (P : nth_error (combine (seq 0 (length comps)) comps) j = Some (j, c)).
    { rewrite (nth_error_nth' _ (0%nat, c)) by (rewrite combine_length, seq_length; lia).
      rewrite combine_nth by apply seq_length. rewrite seq_nth by exact Lj. rewrite (nth_error_nth _ _ _ E). reflexivity. }
    eexists. split; [rewrite (map_nth_error _ _ _ P); reflexivity|]. cbn [fst snd]. split; [rewrite combine_length, map_length; lia|].
    intros i Li. rewrite (nth_error_nth' _ (0%R, nth j [] 0%R)) by (rewrite combine_length, map_length; lia).
    rewrite combine_nth by (rewrite map_length; lia). rewrite (map_nth (fun r => nth j r 0%R)). reflexivity.
  - intros [j c] I. apply in_combine_l in I. apply in_seq in I. cbn [fst snd]. unfold assign_column. rewrite Lt, Nat.eqb_refl. cbn [rbind].
    rewrite (column_ok rows j (length comps)) by (assumption || lia). cbn [rbind]. rewrite map_length, Lr, Nat.eqb_refl. reflexivity.
Qed.
Lemma max_same (ts : list (list R)) n : ts <> [] -> (forall t, In t ts -> length t = n) -> n_time_max ts = n.
Proof.
  unfold n_time_max. intros N H. destruct ts as [|t ts]; [congruence|]. clear N.
  assert (Z : (list_max (map (@length R) ts) <= n)%nat).
  { apply list_max_le, Forall_forall. intros x I. apply in_map_iff in I as (y & <- & I). rewrite (H y); [lia|right; exact I]. }
  cbn [map list_max]. change (fold_right Nat.max 0%nat (map (@length R) ts)) with (list_max (map (@length R) ts)).
  cbn. unfold list_max in Z. rewrite (H t) by (left; reflexivity). lia.
Qed.
Lemma times_ok (ts : list (list R)) : ts <> [] -> (forall t, In t ts -> t <> []) -> check_times ts = Ok ts.
Proof.
  intros N H. unfold check_times. destruct ts as [|t ts]; [congruence|]. destruct (existsb _ _) eqn:E; [|reflexivity].
  apply existsb_exists in E as (x & I & Q). specialize (H x I). destruct x; [congruence|discriminate].
Qed.
(** With paths of the same times length, each of the first five paths has its
    figure, under its own name, with all components; there are no others. *)
Theorem strain_figures_law : forall what filename comps times paths n, times <> [] -> (0 < n)%nat -> length times = length paths ->
  (forall k t p, nth_error times k = Some t -> nth_error paths k = Some p -> full_path n (length comps) t p) ->
  exists figs, plot_strain_path what filename comps times paths = Ok figs /\ length figs = Nat.min (length paths) 5 /\
  forall k t p, (k < 5)%nat -> nth_error times k = Some t -> nth_error paths k = Some p -> exists cs, 
    nth_error figs k = Some ((if Nat.eqb (length paths) 1 then filename else filename ++ "_sample_" ++ nat_str k)%string, cs) /\ shows what comps t p cs.
Proof.
  intros what filename comps times paths n N Hn L H. unfold plot_strain_path. rewrite L, Nat.eqb_refl. cbn [negb].
  assert (A : forall t, In t times -> length t = n).
  { intros t I. apply In_nth_error in I as [k E]. assert (K : (k < length paths)%nat) by (rewrite <- L; apply nth_error_Some; congruence).
    destruct (nth_error paths k) as [p|] eqn:Ep; [|apply nth_error_None in Ep; lia]. apply (H k t p E Ep). }
  rewrite times_ok; [|exact N|intros t I Z; specialize (A t I); subst t; cbn in A; lia]. cbn [rbind]. rewrite (max_same times n N A).
  set (f := fun k => match nth_error times k with Some t => match nth_error paths k with Some p => _ | None => _ end | None => _ end).
  assert (G : forall k, (k < length paths)%nat -> exists cs, f k = Ok (figure_name filename (length paths) k, cs) /\
    forall t p, nth_error times k = Some t -> nth_error paths k = Some p -> shows what comps t p cs).
  { intros k K. unfold f. destruct (nth_error times k) as [t|] eqn:Et; [|apply nth_error_None in Et; lia].
    destruct (nth_error paths k) as [p|] eqn:Ep; [|apply nth_error_None in Ep; lia].
    destruct (curves_ok what comps n t p (H k t p Et Ep)) as (cs & E & S). exists cs. rewrite E. cbn [rbind]. split; [reflexivity|].
    intros t' p' E1 E2. injection E1 as <-. injection E2 as <-. exact S. }
  assert (M : forall a b, (a + b <= length paths)%nat -> exists figs, rmap f (seq a b) = Ok figs /\ length figs = b /\
    forall k, (k < b)%nat -> exists x, f (a + k)%nat = Ok x /\ nth_error figs k = Some x).
  { intros a b. revert a. induction b as [|b IH]; intros a B; [exists []; repeat split; intros; lia|].
    destruct (G a ltac:(lia)) as (cs & E & _). destruct (IH (S a) ltac:(lia)) as (figs & E' & Lf & Q).
    exists ((figure_name filename (length paths) a, cs) :: figs). cbn [seq rmap]. rewrite E. cbn [rbind]. rewrite E'. split; [reflexivity|].
    split; [cbn; lia|]. intros [|k] K; [rewrite Nat.add_0_r; eexists; split; [exact E|reflexivity]|].
    destruct (Q k ltac:(lia)) as (x & X1 & X2). exists x. replace (a + S k)%nat with (S a + k)%nat by lia. auto. }
  destruct (M 0%nat (Nat.min (length paths) 5) ltac:(lia)) as (figs & E & Lf & Q). exists figs. split; [exact E|]. split; [exact Lf|].
  intros k t p K Et Ep. assert (K' : (k < length paths)%nat) by (apply nth_error_Some; congruence).
  destruct (Q k ltac:(lia)) as (x & X1 & X2). destruct (G k K') as (cs & Y1 & Y2). cbn [Nat.add] in X1. rewrite Y1 in X1. injection X1 as <-.
  exists cs. split; [|exact (Y2 t p Et Ep)]. rewrite X2. unfold figure_name. destruct (Nat.ltb_spec 1 (length paths)), (Nat.eqb_spec (length paths) 1); try lia; reflexivity.
Qed.
(** Other numbers of histories and paths are refused. *)
Theorem strain_figures_refused : forall what filename comps times paths, length times <> length paths ->
  plot_strain_path what filename comps times paths = Err RuntimeError.
Proof. intros. unfold plot_strain_path. rewrite (proj2 (Nat.eqb_neq _ _)) by assumption. reflexivity. Qed.
(** Refuted: every path has its figure.  If one of the first five paths is
    shorter than the longest one (of several times), there is no figure of any
    path. *)
Theorem unequal_paths_refuted : forall what filename comps times paths k t, comps <> [] -> (k < 5)%nat -> nth_error times k = Some t ->
  (1 < length t < n_time_max times)%nat -> forall figs, plot_strain_path what filename comps times paths <> Ok figs.
Proof.
  intros what filename comps times paths k t C K Et B figs E. unfold plot_strain_path in E.
  destruct (Nat.eqb_spec (length times) (length paths)) as [L|]; [|discriminate]. cbn [negb] in E.
  destruct (check_times times) as [ts|] eqn:Ct; [|discriminate]. cbn [rbind] in E.
  assert (ts = times) as -> by (unfold check_times in Ct; destruct times; [discriminate|]; destruct (existsb _ _); [discriminate|]; congruence).
  apply rmap_ok in E.
  assert (K' : (k < length paths)%nat) by (rewrite <- L; apply nth_error_Some; congruence).
  assert (I : In k (seq 0 (Nat.min (length paths) 5))) by (apply in_seq; lia).
  assert (Z : exists x, match nth_error times k, nth_error paths k with
                   | Some t, Some p => rbind (path_curves what (n_time_max times) comps t p) (fun cs => Ok (figure_name filename (length paths) k, cs))
                   | _, _ => Err IndexError end = Ok x).
  { clear - E I. induction E as [|a b l r H F IH]; [destruct I|]. destruct I as [->|I]; eauto. }
  destruct Z as [x Z]. rewrite Et in Z. destruct (nth_error paths k) as [p|]; [|discriminate].
  unfold path_curves in Z. destruct comps as [|c comps]; [congruence|]. cbn [length seq combine rmap] in Z.
  replace (assign_column (n_time_max times) t) with (@Err (list R) ValueError) in Z; [discriminate|].
  unfold assign_column. rewrite (proj2 (Nat.eqb_neq _ _)) by lia. destruct t as [|a [|b t]]; cbn in B; try lia; reflexivity.
Qed.

(** ** Data sets *)
Definition sample_figure (filename : string) (n k : nat) : string := (if Nat.eqb n 1 then filename else filename ++ "_sample_" ++ nat_str k)%string.
(** A data set with the same components and times length everywhere. *)
Definition uniform (n : nat) (order : list comp) (data : list dsample) : Prop := forall s, In s data ->
  full_path n (length order) (p_time (d_path s)) (p_strain (d_path s)) /\ full_path n (length order) (p_time (d_path s)) (p_stress (d_path s)) /\
  d_strain_order s = order.
Lemma uniform_figs n order data what filename (get : rpath -> list (list R)) : data <> [] -> (0 < n)%nat ->
  (forall s, In s data -> full_path n (length order) (p_time (d_path s)) (get (d_path s))) ->
  exists figs, plot_strain_path what filename order (map (fun s => p_time (d_path s)) data) (map (fun s => get (d_path s)) data) = Ok figs /\
   length figs = Nat.min (length data) 5 /\ forall k s, (k < 5)%nat -> nth_error data k = Some s -> exists cs, nth_error figs k = Some (sample_figure filename (length data) k, cs) /\ shows what order (p_time (d_path s)) (get (d_path s)) cs.
Proof.
  intros N Hn U.
  destruct (strain_figures_law what filename order (map (fun s => p_time (d_path s)) data) (map (fun s => get (d_path s)) data) n) as (figs & E & Lf & Q).
  - destruct data; [congruence|discriminate].
  - exact Hn.
  - rewrite !map_length. reflexivity.
  - intros k t p Et Ep. rewrite nth_error_map in Et, Ep. destruct (nth_error data k) as [s|] eqn:Es; [|discriminate].
    injection Et as <-. injection Ep as <-. apply U. eapply nth_error_In, Es.
  - exists figs. split; [exact E|]. rewrite map_length in Lf. split; [exact Lf|]. intros k s K Es.
    destruct (Q k (p_time (d_path s)) (get (d_path s)) K) as (cs & F1 & F2); [rewrite nth_error_map, Es; reflexivity..|]. rewrite map_length in F1. eauto.
Qed.
(** The figures of the first five samples show their strains and, if both orders
    agree, their stresses; the figure of the state variable is that of all
    samples, and there is none if no sample has it. *)
Theorem dataset_plots_law : forall n order data, data <> [] -> (0 < n)%nat -> uniform n order data -> (forall s, In s data -> d_stress_order s = order) ->
  (forall s x, In s data -> d_state s = Some x -> s_cols x = 1%nat /\ length (concat (s_rows x)) = n) ->
  (forall s s', In s data -> In s' data -> (d_state s = None <-> d_state s' = None)) ->
  exists g, generate_dataset_plots data = Ok g /\ length (g_strain g) = Nat.min (length data) 5 /\ length (g_stress g) = Nat.min (length data) 5 /\
  (forall k s, (k < 5)%nat -> nth_error data k = Some s ->
    (exists cs, nth_error (g_strain g) k = Some (sample_figure "strain_path" (length data) k, cs) /\ shows "Strain" (d_strain_order s) (p_time (d_path s)) (p_strain (d_path s)) cs) /\
    (exists cs, nth_error (g_stress g) k = Some (sample_figure "stress_path" (length data) k, cs) /\ shows "Stress" (d_stress_order s) (p_time (d_path s)) (p_stress (d_path s)) cs)) /\
  (g_state g = None <-> forall s, In s data -> d_state s = None) /\
  (forall cs values, g_state g = Some (cs, values) -> forall k s, nth_error data k = Some s -> exists x c, d_state s = Some x /\ nth_error cs k = Some c /\
     forall i, (i < n)%nat -> nth_error c i = Some (Some (nth i (p_time (d_path s)) 0%R, nth i (concat (s_rows x)) 0%R))).
Proof.
  intros n order data N Hn U SO ST SAME.
  destruct (uniform_figs n order data "Strain" "strain_path" p_strain N Hn) as (f1 & E1 & L1 & Q1); [intros s I; apply (U s I)|].
  destruct (uniform_figs n order data "Stress" "stress_path" p_stress N Hn) as (f2 & E2 & L2 & Q2); [intros s I; apply (U s I)|].
  assert (S3 : exists f3, state_plots (map (fun s => p_time (d_path s)) data) data = Ok f3 /\ (f3 = None <-> forall s, In s data -> d_state s = None) /\
   (forall cs values, f3 = Some (cs, values) -> forall k s, nth_error data k = Some s -> exists x c, d_state s = Some x /\ nth_error cs k = Some c /\
     forall i, (i < n)%nat -> nth_error c i = Some (Some (nth i (p_time (d_path s)) 0%R, nth i (concat (s_rows x)) 0%R)))).
  { destruct data as [|s0 rest] eqn:Ed; [congruence|]. rewrite <- Ed in *. assert (I0 : In s0 data) by (rewrite Ed; left; reflexivity).
    destruct (d_state s0) as [x0|] eqn:X0.
    - assert (ALL : forall s, In s data -> exists x, d_state s = Some x).
      { intros s I. destruct (d_state s) eqn:X; [eauto|]. apply (SAME s s0 I I0) in X. congruence. }
      set (st := fun s => match d_state s with Some x => x | None => x0 end).
      assert (FM : flat_map (fun s => match d_state s with Some x => [x] | None => [] end) data = map st data).
      { clear - ALL. induction data as [|s l IH]; [reflexivity|]. cbn [flat_map map]. destruct (ALL s (or_introl eq_refl)) as [x E].
        unfold st at 1. rewrite E, IH by (intros; apply ALL; right; assumption). reflexivity. }
      destruct (state_figure_law (map (fun s => p_time (d_path s)) data) (map st data)) as (cs & vals & E & _ & _ & Q).
      + rewrite Ed. discriminate.
      + rewrite !map_length. reflexivity.
      + intros k t s Et Es. rewrite nth_error_map in Et, Es. destruct (nth_error data k) as [d|] eqn:Ek; [|discriminate].
        injection Et as <-. injection Es as <-. apply nth_error_In in Ek. destruct (ALL d Ek) as [x X]. unfold st. rewrite X.
        destruct (ST d x Ek X) as [C1 C2]. destruct (U d Ek) as ((T & _) & _). split; [intros Z; rewrite Z in T; cbn in T; lia|]. split; [exact C1|]. rewrite C2, T. reflexivity.
      + unfold state_plots. rewrite FM. cbv zeta. destruct (map st data) as [|y ys] eqn:Em; [rewrite Ed in Em; discriminate|]. rewrite E. cbn [rbind]. eexists. split; [reflexivity|]. split.
        * split; [discriminate|]. intros Z. rewrite (Z s0 I0) in X0. discriminate.
        * intros cs' v' Q' k s Ek. injection Q' as <- <-. pose proof (nth_error_In _ _ Ek) as Is. destruct (ALL s Is) as [x X].
          destruct (Q k (p_time (d_path s)) (st s)) as (c & C1 & C2 & _); [rewrite nth_error_map, Ek; reflexivity|rewrite <- Em, nth_error_map, Ek; reflexivity|].
          exists x, c. split; [exact X|]. split; [exact C1|]. intros i Hi. destruct (U s Is) as ((T & _) & _). unfold st in C2. rewrite X in C2. apply C2. lia.
    - assert (NONE : forall s, In s data -> d_state s = None) by (intros s I; apply (SAME s0 s I0 I); exact X0).
      exists None. split; [|split; [split; [intros _; exact NONE|reflexivity]|discriminate]]. unfold state_plots.
      replace (flat_map _ data) with (@nil spath); [reflexivity|]. symmetry. clear - NONE. induction data as [|s l IH]; [reflexivity|].
      cbn [flat_map]. rewrite (NONE s (or_introl eq_refl)). apply IH. intros; apply NONE; right; assumption. }
  destruct S3 as (f3 & E3 & Q3 & Q4).
  exists (mkPlots f1 f2 f3). split; [|split; [exact L1|split; [exact L2|split; [|split; [exact Q3|exact Q4]]]]].
  - unfold generate_dataset_plots. destruct data as [|s0 rest] eqn:Ed; [congruence|]. rewrite <- Ed in *.
    assert (I0 : In s0 data) by (rewrite Ed; left; reflexivity). destruct (U s0 I0) as (_ & _ & ->). rewrite E1. cbn [rbind]. rewrite E2. cbn [rbind]. rewrite E3. reflexivity.
  - intros k s K Ek. pose proof (nth_error_In _ _ Ek) as I. cbn [g_strain g_stress]. destruct (U s I) as (_ & _ & ->). rewrite (SO s I). split; [apply Q1|apply Q2]; assumption.
Qed.
(** Refuted: samples without the state variable are left out of its figure.  If
    some samples have it and others do not, the call fails. *)
Theorem mixed_states_refuted : forall n order data s s' x, (0 < n)%nat -> uniform n order data -> In s data -> d_state s = Some x -> In s' data -> d_state s' = None ->
  generate_dataset_plots data = Err RuntimeError.
Proof.
  intros n order data s s' x Hn U I X I' X'. assert (N : data <> []) by (intros ->; destruct I).
  destruct (uniform_figs n order data "Strain" "strain_path" p_strain N Hn) as (f1 & E1 & _ & _); [intros d Id; apply (U d Id)|].
  destruct (uniform_figs n order data "Stress" "stress_path" p_stress N Hn) as (f2 & E2 & _ & _); [intros d Id; apply (U d Id)|].
  unfold generate_dataset_plots. destruct data as [|s0 rest] eqn:Ed; [congruence|]. rewrite <- Ed in *.
  assert (I0 : In s0 data) by (rewrite Ed; left; reflexivity). destruct (U s0 I0) as (_ & _ & ->). rewrite E1. cbn [rbind]. rewrite E2. cbn [rbind].
  unfold state_plots. set (states := flat_map _ data).
  assert (P : In x states) by (apply in_flat_map; exists s; split; [exact I|rewrite X; left; reflexivity]).
  assert (L : (length states < length data)%nat).
  { unfold states. clear - I' X'. assert (W : forall l, (length (flat_map (fun s => match d_state s with Some x => [x] | None => [] end) l) <= length l)%nat).
    { induction l as [|a l IH]; [cbn; lia|]. cbn [flat_map]. rewrite app_length. destruct (d_state a); cbn [length]; lia. }
    induction data as [|a l IH]; [destruct I'|]. cbn [flat_map length]. rewrite app_length. destruct I' as [->|I'].
    - rewrite X'. cbn [length]. specialize (W l). lia.
    - specialize (IH I'). destruct (d_state a); cbn [length]; lia. }
  rewrite state_numbers by (rewrite map_length; lia). destruct states; [destruct P|reflexivity].
Qed.
(** Refuted: the stress curves have the names of the stress components.  The
    order of the strain components of the first sample is used. *)
Definition swapped (e1 e2 s1 s2 : R) : dsample :=
  mkSample (mkPath [0%R] [[e1; e2]] [[s2; s1]]) None [(1%nat, 1%nat); (2%nat, 2%nat)] [(2%nat, 2%nat); (1%nat, 1%nat)].
Theorem stress_names_refuted : forall e1 e2 s1 s2, exists g, generate_dataset_plots [swapped e1 e2 s1 s2] = Ok g /\
  nth_error (p_stress (d_path (swapped e1 e2 s1 s2))) 0 = Some [s2; s1] /\ d_stress_order (swapped e1 e2 s1 s2) = [(2%nat, 2%nat); (1%nat, 1%nat)] /\
  g_stress g = [("stress_path", [("Stress 11", [(0%R, s2)]); ("Stress 22", [(0%R, s1)])])]%string.
Proof. intros. eexists. repeat split; reflexivity. Qed.
(** Six samples: the last has no figure. *)
Example six_samples : exists g, generate_dataset_plots (map (fun k => mkSample (mkPath [0%R; 1%R] [[INR k]; [INR k]] [[0%R]; [INR k]]) (Some (mkState 1 [[0%R]; [INR k]]))
    [(1%nat, 1%nat)] [(1%nat, 1%nat)]) (seq 0 6)) = Ok g /\ map fst (g_strain g) = ["strain_path_sample_0"; "strain_path_sample_1"; "strain_path_sample_2"; "strain_path_sample_3"; "strain_path_sample_4"]%string
  /\ exists cs v, g_state g = Some (cs, v) /\ length cs = 6%nat.
Proof. eexists. split; [reflexivity|]. split; [reflexivity|]. eexists. eexists. split; reflexivity. Qed.

Print Assumptions strain_figures_law.
Print Assumptions strain_figures_refused.
Print Assumptions unequal_paths_refuted.
Print Assumptions dataset_plots_law.
Print Assumptions mixed_states_refuted.
Print Assumptions stress_names_refuted.
