(** GRU: gate equations, bounded hidden states, causality, streaming and
    independence of batch members. *)
From Coq Require Import Reals List Arith Bool Lia Lra.
From Verif Require Import Lib GruModel.
Import ListNotations.
Local Open Scope R_scope.

(** ** Specification: the gate equations of one unit, one batch member *)
Definition gate_in (c : cell) (x h : vec) (k : nat) : R := dot x (nth k (w_ih c) []) + nth k (b_ih c) 0.
Definition gate_hid (c : cell) (x h : vec) (k : nat) : R := dot h (nth k (w_hh c) []) + nth k (b_hh c) 0.
Definition gru_unit (c : cell) (x h : vec) (j : nat) : R :=
  let H := hidden c in
  let r := sigmoid (gate_in c x h j + gate_hid c x h j) in
  let z := sigmoid (gate_in c x h (H + j) + gate_hid c x h (H + j)) in
  let n := tanh (gate_in c x h (2 * H + j) + r * gate_hid c x h (2 * H + j)) in
  (1 - z) * n + z * nth j h 0.
(** shapes of the weights *)
Definition shaped (c : cell) : Prop :=
  length (w_ih c) = (3 * hidden c)%nat /\ length (w_hh c) = (3 * hidden c)%nat /\
  length (b_ih c) = (3 * hidden c)%nat /\ length (b_hh c) = (3 * hidden c)%nat.
(** layers stacked: each reads the updated state of the previous one *)
Fixpoint stack {A} (f : cell -> A -> A -> A) (cells : list cell) (x : A) (hs : list A) : list A :=
  match cells, hs with
  | c :: cs, h :: hs' => let h' := f c x h in h' :: stack f cs h' hs'
  | _, _ => []
  end.

(** ** The cell *)
Definition cell1 (c : cell) (x h : vec) : vec :=
  let gi := map2 Rplus (map (dot x) (w_ih c)) (b_ih c) in
  let gh := map2 Rplus (map (dot h) (w_hh c)) (b_hh c) in
  let H := hidden c in
  let part k g := firstn H (skipn (k * H) g) in
  let z := map sigmoid (map2 Rplus (part 1%nat gi) (part 1%nat gh)) in
  let r := map sigmoid (map2 Rplus (part 0%nat gi) (part 0%nat gh)) in
  let n := map tanh (map2 Rplus (part 2%nat gi) (map2 Rmult r (part 2%nat gh))) in
  map2 Rplus (map2 Rmult z (map2 Rminus h n)) n.
Lemma map2_nil_r : forall {A B C} (f : A -> B -> C) a, map2 f a [] = [].
Proof. intros A B C f [|x a]; reflexivity. Qed.
Lemma cell_rows : forall c input hx, cell_forward c input hx = map2 (cell1 c) input hx.
Proof.
  intros c. induction input as [|x input IH]; intros hx.
  - unfold cell_forward, ew2, ew1, chunk, add_row, mm_t. cbn [map map2]. now rewrite ?map2_nil_r.
  - destruct hx as [|h hx].
    + unfold cell_forward, ew2, ew1, chunk, add_row, mm_t. cbn [map map2]. now rewrite ?map2_nil_r.
    + cbn [map2]. rewrite <- IH. reflexivity.
Qed.

Lemma map2_len : forall {A B C} (f : A -> B -> C) a b, length (map2 f a b) = Nat.min (length a) (length b).
Proof. intros A B C f. induction a as [|x a IH]; intros [|y b]; cbn; auto. Qed.
Lemma map2_nth : forall {A B C} (f : A -> B -> C) a b k da db dc, (k < length a)%nat -> (k < length b)%nat ->
  nth k (map2 f a b) dc = f (nth k a da) (nth k b db).
Proof.
  intros A B C f. induction a as [|x a IH]; intros [|y b] k da db dc Ha Hb; cbn in *; try lia.
  destruct k as [|k]; [reflexivity|]. apply IH; lia.
Qed.
Lemma map_nth' : forall {A B} (f : A -> B) l k da db, (k < length l)%nat -> nth k (map f l) db = f (nth k l da).
Proof. intros. rewrite (nth_indep _ db (f da)) by (now rewrite map_length). apply map_nth. Qed.
Lemma nth_firstn_lt : forall {A} (l : list A) n k d, (k < n)%nat -> nth k (firstn n l) d = nth k l d.
Proof.
  intros A l. induction l as [|x l IH]; intros n k d Hk; destruct n; try lia; cbn; [reflexivity|].
  destruct k; [reflexivity|]. apply IH. lia.
Qed.
Lemma nth_skipn' : forall {A} (l : list A) n k d, nth k (skipn n l) d = nth (n + k) l d.
Proof.
  intros A l. induction l as [|x l IH]; intros n k d; destruct n; cbn; try reflexivity; [now destruct k|]. apply IH.
Qed.

(** C28: the cell computes the gate equations *)
Theorem cell_is_gru_unit : forall c x h, shaped c -> length h = hidden c ->
  length (cell1 c x h) = hidden c /\ forall j, (j < hidden c)%nat -> nth j (cell1 c x h) 0 = gru_unit c x h j.
Proof.
  intros c x h [S1 [S2 [S3 S4]]] Lh. unfold cell1. cbv zeta. set (H := hidden c) in *.
  set (gi := map2 Rplus (map (dot x) (w_ih c)) (b_ih c)). set (gh := map2 Rplus (map (dot h) (w_hh c)) (b_hh c)).
  assert (Li : length gi = (3 * H)%nat) by (unfold gi; rewrite map2_len, map_length; lia).
  assert (Lg : length gh = (3 * H)%nat) by (unfold gh; rewrite map2_len, map_length; lia).
  assert (Gi : forall k, (k < 3 * H)%nat -> nth k gi 0 = gate_in c x h k).
  { intros k Hk. unfold gi. rewrite (map2_nth _ _ _ _ 0 0 0) by (rewrite ?map_length; lia). now rewrite (map_nth' (dot x) (w_ih c) k [] 0) by lia. }
  assert (Gh : forall k, (k < 3 * H)%nat -> nth k gh 0 = gate_hid c x h k).
  { intros k Hk. unfold gh. rewrite (map2_nth _ _ _ _ 0 0 0) by (rewrite ?map_length; lia). now rewrite (map_nth' (dot h) (w_hh c) k [] 0) by lia. }
  assert (Lp : forall k (g : list R), (k < 3)%nat -> length g = (3 * H)%nat -> length (firstn H (skipn (k * H) g)) = H).
  { intros k g Hk Lgg. rewrite firstn_length, skipn_length. nia. }
  assert (Np : forall k (g : list R) j, (j < H)%nat -> nth j (firstn H (skipn (k * H) g)) 0 = nth (k * H + j) g 0).
  { intros k g j Hj. rewrite nth_firstn_lt by exact Hj. apply nth_skipn'. }
  set (z := map sigmoid (map2 Rplus (firstn H (skipn (1 * H) gi)) (firstn H (skipn (1 * H) gh)))).
  set (r := map sigmoid (map2 Rplus (firstn H (skipn (0 * H) gi)) (firstn H (skipn (0 * H) gh)))).
  set (n := map tanh (map2 Rplus (firstn H (skipn (2 * H) gi)) (map2 Rmult r (firstn H (skipn (2 * H) gh))))).
  assert (Lz : length z = H) by (unfold z; rewrite map_length, map2_len, !Lp by (assumption || lia); lia).
  assert (Lr : length r = H) by (unfold r; rewrite map_length, map2_len, !Lp by (assumption || lia); lia).
  assert (Ln : length n = H) by (unfold n; rewrite map_length, !map2_len, !Lp by (assumption || lia); lia).
  split; [rewrite !map2_len; lia|]. intros j Hj.
  rewrite (map2_nth _ _ _ _ 0 0 0) by (rewrite ?map2_len; lia). rewrite (map2_nth _ _ _ _ 0 0 0) by (rewrite ?map2_len; lia).
  rewrite (map2_nth _ _ _ _ 0 0 0) by lia.
  assert (Ez : nth j z 0 = sigmoid (gate_in c x h (H + j) + gate_hid c x h (H + j))).
  { unfold z. rewrite (map_nth' _ _ _ 0 0) by (rewrite map2_len, !Lp by (assumption || lia); lia).
    rewrite (map2_nth _ _ _ _ 0 0 0) by (rewrite Lp by (assumption || lia); lia). rewrite !Np by exact Hj.
    rewrite Nat.mul_1_l, Gi, Gh by lia. reflexivity. }
  assert (Er : nth j r 0 = sigmoid (gate_in c x h j + gate_hid c x h j)).
  { unfold r. rewrite (map_nth' _ _ _ 0 0) by (rewrite map2_len, !Lp by (assumption || lia); lia).
    rewrite (map2_nth _ _ _ _ 0 0 0) by (rewrite Lp by (assumption || lia); lia). rewrite !Np by exact Hj.
    cbn [Nat.mul Nat.add]. rewrite Gi, Gh by lia. reflexivity. }
  assert (En : nth j n 0 = tanh (gate_in c x h (2 * H + j) + nth j r 0 * gate_hid c x h (2 * H + j))).
  { unfold n. rewrite (map_nth' _ _ _ 0 0) by (rewrite !map2_len, !Lp by (assumption || lia); lia).
    rewrite (map2_nth _ _ _ _ 0 0 0) by (rewrite ?map2_len, Lp by (assumption || lia); lia).
    rewrite (map2_nth _ _ _ _ 0 0 0) by (rewrite ?Lp by (assumption || lia); lia). rewrite !Np by exact Hj.
    rewrite Gi, Gh by lia. reflexivity. }
  unfold gru_unit. fold H. cbv zeta. rewrite <- Er, <- En, <- Ez. ring.
Qed.

(** ** Bounds *)
Lemma sigmoid_bounds : forall x, 0 < sigmoid x < 1.
Proof.
  intros x. unfold sigmoid. pose proof (exp_pos (- x)). split.
  - apply Rmult_lt_0_compat; [lra|]. apply Rinv_0_lt_compat. lra.
  - apply (Rmult_lt_reg_r (1 + exp (- x))); [lra|]. replace (1 / (1 + exp (- x)) * (1 + exp (- x))) with 1 by (field; lra). lra.
Qed.
Lemma tanh_bounds : forall x, -1 < tanh x < 1.
Proof.
  intros x. unfold tanh, sinh, cosh. pose proof (exp_pos x). pose proof (exp_pos (- x)). set (a := exp x) in *. set (b := exp (- x)) in *.
  replace ((a - b) / 2 / ((a + b) / 2)) with ((a - b) / (a + b)) by (field; lra).
  split; apply (Rmult_lt_reg_r (a + b)); try lra; replace ((a - b) / (a + b) * (a + b)) with (a - b) by (field; lra); lra.
Qed.
Definition unit_vec (v : vec) : Prop := forall y, In y v -> -1 <= y <= 1.
Definition unit_mat (m : mat) : Prop := forall v, In v m -> unit_vec v.
Definition unit_layers (hs : list mat) : Prop := forall m, In m hs -> unit_mat m.
Lemma convex_unit : forall z h n, (forall y, In y z -> 0 <= y <= 1) -> unit_vec h -> unit_vec n ->
  unit_vec (map2 Rplus (map2 Rmult z (map2 Rminus h n)) n).
Proof.
  induction z as [|a z IH]; intros h n Hz Hh Hn y Hy; [destruct Hy|].
  destruct h as [|b h]; [destruct Hy|]. destruct n as [|e n]; [destruct Hy|]. cbn [map2 In] in Hy. destruct Hy as [<-|Hy].
  - specialize (Hz a (or_introl eq_refl)). specialize (Hh b (or_introl eq_refl)). specialize (Hn e (or_introl eq_refl)). nra.
  - apply (IH h n); [intros; apply Hz; now right|intros ? ?; apply Hh; now right|intros ? ?; apply Hn; now right|exact Hy].
Qed.
Lemma cell1_unit : forall c x h, unit_vec h -> unit_vec (cell1 c x h).
Proof.
  intros c x h Hh. unfold cell1. cbv zeta. apply convex_unit; [|exact Hh|].
  - intros y Hy. apply in_map_iff in Hy as [u [<- _]]. pose proof (sigmoid_bounds u). lra.
  - intros y Hy. apply in_map_iff in Hy as [u [<- _]]. pose proof (tanh_bounds u). lra.
Qed.
Lemma cell_unit : forall c input hx, unit_mat hx -> unit_mat (cell_forward c input hx).
Proof.
  intros c input. rewrite <- (rev_involutive input). rewrite rev_involutive. intros hx. rewrite cell_rows. revert hx.
  induction input as [|x input IH]; intros hx Hh v Hv; [destruct Hv|]. destruct hx as [|h hx]; [destruct Hv|].
  cbn [map2 In] in Hv. destruct Hv as [<-|Hv]; [apply cell1_unit, Hh; now left|]. apply (IH hx); [intros ? ?; apply Hh; now right|exact Hv].
Qed.

(** ** The layers of one time step *)
Lemma upd_app : forall {A} (a b : list A) y v, upd (a ++ y :: b) (length a) v = a ++ v :: b.
Proof. induction a as [|z a IH]; intros; cbn; [reflexivity|]. now rewrite IH. Qed.
Lemma time_step_stack : forall cells x hs, length hs = length cells -> time_step cells x hs = stack cell_forward cells x hs.
Proof.
  intros cells x hs L. unfold time_step.
  assert (G : forall crest cpre pre rest, cells = cpre ++ crest -> length pre = length cpre -> length rest = length crest ->
    fold_left (layer_step cells x) (seq (length cpre) (length crest)) (pre ++ rest)
    = pre ++ stack cell_forward crest (last pre x) rest).
  { induction crest as [|c crest IH]; intros cpre pre rest Ec Lp Lr.
    - destruct rest; [|discriminate]. cbn. reflexivity.
    - destruct rest as [|h rest]; [discriminate|]. cbn [length seq fold_left stack].
      assert (Es : layer_step cells x (pre ++ h :: rest) (length cpre) = (pre ++ [cell_forward c (last pre x) h]) ++ rest).
      { unfold layer_step. rewrite <- Lp, upd_app.
        assert (Ecl : nth (length pre) cells (Build_cell [] [] [] [] 0) = c) by (rewrite Ec, app_nth2 by lia; rewrite Lp, Nat.sub_diag; reflexivity).
        assert (Eh : nth (length pre) (pre ++ h :: rest) [] = h) by (rewrite app_nth2 by lia; rewrite Nat.sub_diag; reflexivity).
        assert (Ei : (if Nat.eqb (length pre) 0 then x else nth (length pre - 1) (pre ++ h :: rest) []) = last pre x).
        { clear - Lp. destruct pre as [|p pre]; [reflexivity|]. cbn [length Nat.eqb]. rewrite app_nth1 by (cbn; lia).
          clear. revert p. induction pre as [|q pre IH]; intros p; [reflexivity|].
          change (last (p :: q :: pre) x) with (last (q :: pre) x). rewrite <- IH.
          change (length (q :: pre)) with (S (length pre)). replace (S (S (length pre)) - 1)%nat with (S (S (length pre) - 1)) by lia. reflexivity. }
        rewrite Ecl, Eh, Ei. now rewrite <- app_assoc. }
      rewrite Es. replace (S (length cpre)) with (length (cpre ++ [c])) by (rewrite app_length; cbn; lia).
      rewrite IH; [| |rewrite !app_length; cbn; lia|cbn in Lr; lia].
      + rewrite <- app_assoc. cbn [app]. rewrite last_last. reflexivity.
      + now rewrite <- app_assoc. }
  exact (G cells [] [] hs eq_refl eq_refl L).
Qed.
Lemma stack_len : forall {A} (f : cell -> A -> A -> A) cells x hs, length hs = length cells -> length (stack f cells x hs) = length cells.
Proof. intros A f. induction cells as [|c cells IH]; intros x [|h hs] L; cbn in *; try lia. rewrite IH; lia. Qed.
Lemma time_step_len : forall cells x hs, length hs = length cells -> length (time_step cells x hs) = length cells.
Proof. intros. rewrite time_step_stack by assumption. now apply stack_len. Qed.

(** C28: one time step updates the layers from the first to the last *)
Theorem layers_are_stacked : forall cells x hs, length hs = length cells -> time_step cells x hs = stack cell_forward cells x hs.
Proof. exact time_step_stack. Qed.

(** ** The sequence *)
Theorem output_lengths : forall cells input hs out hn, length hs = length cells -> gru_loop cells hs input = (out, hn) ->
  length out = length input /\ length hn = length cells.
Proof.
  intros cells. induction input as [|x t IH]; intros hs out hn L H; cbn [gru_loop] in H.
  - injection H as <- <-. auto.
  - destruct (gru_loop cells (time_step cells x hs) t) as [o h] eqn:E. injection H as <- <-.
    destruct (IH _ _ _ (time_step_len cells x hs L) E). cbn. lia.
Qed.

(** C28: hidden states stay in [-1, 1], so do the outputs *)
Lemma time_step_unit : forall cells x hs, length hs = length cells -> unit_layers hs -> unit_layers (time_step cells x hs).
Proof.
  intros cells x hs L H. rewrite time_step_stack by exact L. clear L. revert x hs H.
  induction cells as [|c cells IH]; intros x [|h hs] H m Hm; try destruct Hm.
  - subst m. apply cell_unit, H. now left.
  - apply (IH (cell_forward c x h) hs); [intros ? ?; apply H; now right|assumption].
Qed.
Theorem hidden_states_bounded : forall cells input hs out hn, cells <> [] -> length hs = length cells -> unit_layers hs ->
  gru_loop cells hs input = (out, hn) -> unit_layers out /\ unit_layers hn.
Proof.
  intros cells input hs out hn Hne. revert hs out hn. induction input as [|x t IH]; intros hs out hn L Hu H; cbn [gru_loop] in H.
  - injection H as <- <-. split; [intros m []|exact Hu].
  - destruct (gru_loop cells (time_step cells x hs) t) as [o h] eqn:E. injection H as <- <-.
    pose proof (time_step_unit cells x hs L Hu) as Hu'.
    destruct (IH _ _ _ (time_step_len cells x hs L) Hu' E) as [H1 H2]. split; [|exact H2].
    intros m [<-|Hm]; [|now apply H1]. apply Hu', nth_In. rewrite time_step_len by exact L. destruct cells; [contradiction|cbn; lia].
Qed.
Theorem default_hidden_bounded : forall n b h, unit_layers (zero_hidden n b h).
Proof.
  intros n b h m Hm v Hv y Hy. unfold zero_hidden in Hm. apply repeat_spec in Hm. subst m. apply repeat_spec in Hv. subst v.
  apply repeat_spec in Hy. subst y. lra.
Qed.

(** C28: causality and streaming *)
Theorem gru_streaming : forall cells a b hs oa ha, gru_loop cells hs a = (oa, ha) ->
  gru_loop cells hs (a ++ b) = (oa ++ fst (gru_loop cells ha b), snd (gru_loop cells ha b)).
Proof.
  intros cells. induction a as [|x t IH]; intros b hs oa ha H; cbn [gru_loop app] in *.
  - injection H as <- <-. cbn. now destruct (gru_loop cells hs b).
  - destruct (gru_loop cells (time_step cells x hs) t) as [o h] eqn:E. injection H as <- <-.
    rewrite (IH b _ _ _ E). reflexivity.
Qed.
Theorem outputs_are_causal : forall cells input hs k, fst (gru_loop cells hs (firstn k input)) = firstn k (fst (gru_loop cells hs input)).
Proof.
  intros cells. induction input as [|x t IH]; intros hs k; [destruct k; reflexivity|]. destruct k as [|k]; [reflexivity|].
  cbn [firstn gru_loop]. specialize (IH (time_step cells x hs) k).
  destruct (gru_loop cells (time_step cells x hs) t) as [o h]. destruct (gru_loop cells (time_step cells x hs) (firstn k t)) as [o' h'].
  cbn [fst firstn] in *. now rewrite IH.
Qed.
Theorem last_output_is_last_hidden : forall cells a x hs out hn, gru_loop cells hs (a ++ [x]) = (out, hn) ->
  last out [] = nth (length cells - 1) hn [].
Proof.
  intros cells a x hs out hn H. destruct (gru_loop cells hs a) as [oa ha] eqn:E.
  rewrite (gru_streaming cells a [x] hs oa ha E) in H. cbn in H. injection H as <- <-. apply last_last.
Qed.

(** C28: batch members are independent of each other *)
Definition member (b : nat) (ms : list mat) : list vec := map (fun m => nth b m []) ms.
Definition same_batch (n : nat) (ms : list mat) : Prop := forall m, In m ms -> length m = n.
Lemma cell_member : forall c X H b, (b < length X)%nat -> (b < length H)%nat -> nth b (cell_forward c X H) [] = cell1 c (nth b X []) (nth b H []).
Proof. intros. rewrite cell_rows. now apply map2_nth. Qed.
Lemma stack_member : forall n b cells X hs, (b < n)%nat -> length hs = length cells -> length X = n -> same_batch n hs ->
  member b (stack cell_forward cells X hs) = stack cell1 cells (nth b X []) (member b hs) /\ same_batch n (stack cell_forward cells X hs).
Proof.
  intros n b. induction cells as [|c cells IH]; intros X [|h hs] Hb L LX Hs; try discriminate.
  - split; [reflexivity|intros m []].
  - cbn [stack member map].
    assert (Lh : length h = n) by (apply Hs; now left).
    assert (Lc : length (cell_forward c X h) = n) by (rewrite cell_rows, map2_len; lia).
    destruct (IH (cell_forward c X h) hs Hb ltac:(cbn in L; lia) Lc ltac:(intros m Hm; apply Hs; now right)) as [E S].
    split.
    + pose proof (cell_member c X h b ltac:(lia) ltac:(lia)) as Em. unfold member in *. rewrite E, Em. reflexivity.
    + intros m [<-|Hm]; [exact Lc|now apply S].
Qed.
Lemma stack_single : forall cells x (hs : list vec), length hs = length cells ->
  stack cell_forward cells [x] (map (fun v => [v]) hs) = map (fun v => [v]) (stack cell1 cells x hs).
Proof.
  induction cells as [|c cells IH]; intros x [|h hs] L; try discriminate; [reflexivity|]. cbn [map stack].
  assert (Ec : cell_forward c [x] [h] = [cell1 c x h]) by (rewrite cell_rows; reflexivity). rewrite Ec. rewrite IH by (cbn in L; lia). reflexivity.
Qed.
(** the sequence for one member, from the stacked cells *)
Fixpoint loop1 (cells : list cell) (hs : list vec) (input : list vec) : list vec * list vec :=
  match input with
  | [] => ([], hs)
  | x :: t => let h' := stack cell1 cells x hs in
              let (out, hn) := loop1 cells h' t in (nth (length cells - 1) h' [] :: out, hn)
  end.
Lemma loop_member : forall n b cells input hs out hn, cells <> [] -> (b < n)%nat -> length hs = length cells -> same_batch n hs -> same_batch n input ->
  gru_loop cells hs input = (out, hn) -> loop1 cells (member b hs) (member b input) = (member b out, member b hn).
Proof.
  intros n b cells. induction input as [|x t IH]; intros hs out hn Hne Hb L Hs Hi H; cbn [gru_loop] in H.
  - injection H as <- <-. reflexivity.
  - destruct (gru_loop cells (time_step cells x hs) t) as [o h] eqn:E. injection H as <- <-.
    destruct (stack_member n b cells x hs Hb L ltac:(apply Hi; now left) Hs) as [Em Es].
    cbn [member map loop1]. fold (member b t) (member b hs). rewrite <- Em.
    rewrite (time_step_stack cells x hs L) in *.
    assert (L' : length (stack cell_forward cells x hs) = length cells) by now apply stack_len.
    rewrite (IH _ _ _ Hne Hb L' Es ltac:(intros m Hm; apply Hi; now right) E).
    f_equal. f_equal. unfold member. apply (map_nth' (fun m => nth b m [])). destruct cells; [contradiction|]. rewrite L'. cbn. lia.
Qed.
Lemma loop_single : forall cells input hs, cells <> [] -> length hs = length cells ->
  gru_loop cells (map (fun v => [v]) hs) (map (fun v => [v]) input)
  = (map (fun v => [v]) (fst (loop1 cells hs input)), map (fun v => [v]) (snd (loop1 cells hs input))).
Proof.
  intros cells. induction input as [|x t IH]; intros hs Hne L; [reflexivity|]. cbn [map gru_loop loop1].
  rewrite time_step_stack by (rewrite map_length; exact L). rewrite stack_single by exact L.
  assert (L' : length (stack cell1 cells x hs) = length cells) by now apply stack_len.
  rewrite IH by assumption. destruct (loop1 cells (stack cell1 cells x hs) t) as [o h]. cbn [fst snd map]. f_equal. f_equal.
  apply (map_nth' (fun v => [v])). destruct cells; [contradiction|]. rewrite L'. cbn. lia.
Qed.
Lemma unwrap : forall l : list vec, map (fun m : mat => nth 0 m []) (map (fun v => [v]) l) = l.
Proof. induction l; cbn; congruence. Qed.
Lemma unbatched_is_loop1 : forall cells input hs, cells <> [] -> length hs = length cells ->
  gru_unbatched cells input (Some hs) = loop1 cells hs input.
Proof.
  intros cells input hs Hne L. unfold gru_unbatched, gru_forward. cbn [option_map]. rewrite loop_single by assumption.
  destruct (loop1 cells hs input) as [o h]. cbn [fst snd]. now rewrite !unwrap.
Qed.
Theorem gru_batch_members_independent : forall n b cells input hs out hn, cells <> [] -> (b < n)%nat -> length hs = length cells ->
  same_batch n hs -> same_batch n input -> gru_forward cells input (Some hs) = (out, hn) ->
  gru_unbatched cells (member b input) (Some (member b hs)) = (member b out, member b hn).
Proof.
  intros n b cells input hs out hn Hne Hb L Hs Hi H. unfold gru_forward in H.
  rewrite unbatched_is_loop1; [|exact Hne|unfold member; now rewrite map_length]. now apply (loop_member n).
Qed.
Theorem gru_batch_members_independent_default : forall n b cells input out hn, cells <> [] -> input <> [] -> (b < n)%nat ->
  same_batch n input -> gru_forward cells input None = (out, hn) ->
  gru_unbatched cells (member b input) None = (member b out, member b hn).
Proof.
  intros n b cells input out hn Hne Hin Hb Hi H. unfold gru_forward in H. cbv zeta in H.
  set (h := hidden (nth 0 cells (Build_cell [] [] [] [] 0))) in *.
  assert (Ln : length (nth 0 input []) = n) by (apply Hi, nth_In; destruct input; [contradiction|cbn; lia]). rewrite Ln in H.
  assert (L : length (zero_hidden (length cells) n h) = length cells) by apply repeat_length.
  assert (Hs : same_batch n (zero_hidden (length cells) n h)) by (intros m Hm; apply repeat_spec in Hm; subst m; apply repeat_length).
  pose proof (loop_member n b cells input _ out hn Hne Hb L Hs Hi H) as G.
  assert (Em : member b (zero_hidden (length cells) n h) = repeat (repeat 0 h) (length cells)).
  { unfold member, zero_hidden. clear - Hb. induction (length cells) as [|k IH]; [reflexivity|]. cbn [repeat map]. rewrite IH. f_equal.
    clear - Hb. revert b Hb. induction n as [|n IH]; intros b Hb; [lia|]. destruct b as [|b]; [reflexivity|]. cbn [repeat nth]. apply IH. lia. }
  rewrite Em in G. rewrite <- unbatched_is_loop1 in G by (assumption || apply repeat_length). rewrite <- G.
  unfold gru_unbatched, gru_forward. cbn [option_map]. cbv zeta. fold h.
  assert (Ez : zero_hidden (length cells) (length (nth 0 (map (fun v : vec => [v]) (member b input)) [])) h
             = map (fun v => [v]) (repeat (repeat 0 h) (length cells))).
  { destruct input as [|x t]; [contradiction|]. cbn [member map nth length]. unfold zero_hidden.
    clear. induction (length cells) as [|k IH]; [reflexivity|]. cbn [repeat map] in *. now rewrite IH. }
  rewrite Ez. reflexivity.
Qed.

(** non-vacuity: one unit with zero weights halves its state at every step *)
Definition zero_cell : cell := Build_cell [[0]; [0]; [0]] [[0]; [0]; [0]] [0; 0; 0] [0; 0; 0] 1.
Example zero_cell_halves : forall h x, gru_unbatched [zero_cell] [[x]] (Some [[h]]) = ([[h / 2]], [[h / 2]]).
Proof.
  intros h x. rewrite unbatched_is_loop1 by (discriminate || reflexivity).
  assert (E : cell1 zero_cell [x] [h] = [h / 2]).
  { destruct (cell_is_gru_unit zero_cell [x] [h]) as [L N]; [repeat split|reflexivity|]. specialize (N 0%nat ltac:(cbn; lia)).
    cbn [hidden zero_cell] in L. destruct (cell1 zero_cell [x] [h]) as [|a [|? ?]]; try discriminate. cbn [nth] in N. rewrite N. f_equal.
    assert (T : tanh 0 = 0) by (unfold tanh, sinh; rewrite Ropp_0, exp_0; unfold Rdiv; ring).
    assert (G0 : sigmoid 0 = 1 / 2) by (unfold sigmoid; rewrite Ropp_0, exp_0; field).
    unfold gru_unit, gate_in, gate_hid, dot. cbn -[sigmoid tanh].
    replace (x * 0 + 0 + 0 + (h * 0 + 0 + 0)) with 0 by ring. rewrite G0.
    replace (x * 0 + 0 + 0 + 1 / 2 * (h * 0 + 0 + 0)) with 0 by field. rewrite T. field. }
  cbn [loop1 stack]. rewrite E. reflexivity.
Qed.

Print Assumptions cell_is_gru_unit.
Print Assumptions hidden_states_bounded.
Print Assumptions gru_batch_members_independent_default.
