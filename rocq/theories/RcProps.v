(** The recurrent constitutive model responds to strain increments, causally. *)
From Coq Require Import String List Arith Bool Reals Lia Lra.
From Verif Require Import Lib PyDict MatrixModel RcModel.
Import ListNotations.
Local Open Scope list_scope.
Local Open Scope R_scope.

(** ** Specification: the states driven by a sequence of strain tensors *)
Fixpoint state_at (su : T2 -> rc_state -> rc_state) (s0 : rc_state) (E : nat -> T2) (k : nat) : rc_state :=
  match k with
  | O => s0
  | S k' => su (fun i j => E (S k') i j - E k' i j) (state_at su s0 E k')
  end.
Lemma state_at_shift : forall su s0 E k,
  state_at su s0 E (S k) = state_at su (su (fun i j => E 1%nat i j - E 0%nat i j) s0) (fun m => E (S m)) k.
Proof. intros su s0 E. induction k as [|k IH]; [reflexivity|]. cbn [state_at] in *. now rewrite IH. Qed.

Section Rc.
  Variable n_dim : nat.
  Variable order : list comp.
  Variable su : T2 -> rc_state -> rc_state.
  Variable init : rc_state.
  Variable feats : list (string * nat).
  Variable check : bool.
  Notation loop := (rc_loop order su check).
  Notation std := (path_std n_dim order su init feats check).
  Notation vec := (path_v n_dim order su init feats check).
  Definition tensors (rows : list (list R)) (k : nat) : T2 := vbuild order (nth k rows []).

  Lemma loop_iff : forall emit rows s old os, loop emit s old rows = Ok os <->
    length os = length rows /\
    forall k, (k < length rows)%nat -> let sk := state_at su s (tensors (old :: rows)) (S k) in
      check && rc_fail sk = false /\ emit sk = Ok (nth k os ([], [])).
  Proof.
    intros emit. induction rows as [|r t IH]; intros s old os; cbn [rc_loop].
    - split; [intros [= <-]; split; [reflexivity|cbn; lia]|]. intros [L _]. destruct os; [reflexivity|discriminate].
    - set (s' := su (increment order old r) s).
      assert (Hs : forall k, state_at su s (tensors (old :: r :: t)) (S k) = state_at su s' (tensors (r :: t)) k).
      { intros k. rewrite state_at_shift. reflexivity. }
      destruct (check && rc_fail s') eqn:Ec.
      + split; [discriminate|]. intros [L H]. specialize (H 0%nat ltac:(cbn; lia)). cbv zeta in H. rewrite Hs in H. cbn [state_at] in H.
        destruct H as [H _]. congruence.
      + destruct (emit s') as [o|e] eqn:Eo; cbn [rbind].
        * destruct (loop emit s' r t) as [os'|e] eqn:El; cbn [rbind].
          -- apply IH in El as [L H]. split.
             ++ intros [= <-]. split; [cbn; lia|]. intros [|k] Hk; cbv zeta; rewrite Hs; [now cbn [state_at]|]. apply H. cbn in Hk. lia.
             ++ intros [L' H']. destruct os as [|o1 os1]; [discriminate|].
                assert (Eo1 : o1 = o).
                { specialize (H' 0%nat ltac:(cbn; lia)). cbv zeta in H'. rewrite Hs in H'. cbn [state_at nth] in H'. destruct H' as [_ H']. congruence. }
                subst o1. assert (E1 : os1 = os'); [|now subst].
                assert (G : loop emit s' r t = Ok os1).
                { apply IH. split; [cbn in L'; lia|]. intros k Hk. specialize (H' (S k) ltac:(cbn; lia)). cbv zeta in H'. rewrite Hs in H'. exact H'. }
                assert (G2 : loop emit s' r t = Ok os') by (apply IH; split; assumption). congruence.
          -- split; [discriminate|]. intros [L' H']. destruct os as [|o1 os1]; [discriminate|].
             assert (G : loop emit s' r t = Ok os1).
             { apply IH. split; [cbn in L'; lia|]. intros k Hk. specialize (H' (S k) ltac:(cbn; lia)). cbv zeta in H'. rewrite Hs in H'. exact H'. }
             congruence.
        * split; [discriminate|]. intros [L H]. specialize (H 0%nat ltac:(cbn; lia)). cbv zeta in H. rewrite Hs in H. cbn [state_at] in H.
          destruct H as [_ H]. congruence.
  Qed.

  (** C27: the response of a path: zero at the first time, then the stress and
      the state features of the states driven by the strain increments; defined
      exactly when every step is *)
  Theorem response_is_incremental : forall rows out, rows <> [] ->
    (std rows = Ok out <->
     length out = length rows /\ nth 0 out ([], []) = (zeros (length order), zeros (n_state feats)) /\
     forall k, (S k < length rows)%nat -> let sk := state_at su init (tensors rows) (S k) in
       check && rc_fail sk = false /\ emit_std n_dim order feats sk = Ok (nth (S k) out ([], []))).
  Proof.
    intros [|r t] out Hne; [contradiction|]. unfold path_std. clear Hne.
    destruct (loop (emit_std n_dim order feats) init r t) as [os|e] eqn:El; cbn [rbind].
    - apply loop_iff in El as [L H]. split.
      + intros [= <-]. split; [cbn; lia|]. split; [reflexivity|]. intros k Hk. cbn in Hk. apply H. lia.
      + intros [L' [H0 H']]. destruct out as [|o out]; [discriminate|]. cbn in H0. subst o. f_equal. f_equal.
        apply (nth_ext _ _ ([], []) ([], [])); [cbn in L'; lia|]. intros k Hk. specialize (H k ltac:(lia)). specialize (H' k ltac:(cbn; lia)).
        cbv zeta in *. destruct H as [_ H], H' as [_ H']. cbn [nth] in H'. congruence.
    - split; [discriminate|]. intros [L' [H0 H']]. destruct out as [|o out]; [discriminate|].
      assert (G : loop (emit_std n_dim order feats) init r t = Ok out).
      { apply loop_iff. split; [cbn in L'; lia|]. intros k Hk. apply (H' k). cbn. lia. }
      congruence.
  Qed.

  (** C27: causality *)
  Lemma loop_firstn : forall emit rows s old os k, loop emit s old rows = Ok os ->
    loop emit s old (firstn k rows) = Ok (firstn k os).
  Proof.
    intros emit. induction rows as [|r t IH]; intros s old os k H; cbn [rc_loop] in H.
    - injection H as <-. destruct k; reflexivity.
    - destruct k as [|k]; [reflexivity|]. cbn [firstn rc_loop]. destruct (check && _); [discriminate|].
      destruct (emit _) as [o|e]; cbn [rbind] in *; [|discriminate].
      destruct (loop emit _ r t) as [os'|e] eqn:El; cbn [rbind] in H; [|discriminate]. injection H as <-.
      rewrite (IH _ _ _ k El). reflexivity.
  Qed.
  Theorem response_is_causal : forall rows out k, std rows = Ok out -> std (firstn k rows) = Ok (firstn k out).
  Proof.
    intros [|r t] out k H; cbn [path_std] in H.
    - injection H as <-. destruct k; reflexivity.
    - destruct k as [|k]; [reflexivity|]. cbn [firstn path_std].
      destruct (loop _ init r t) as [os|e] eqn:El; cbn [rbind] in H; [|discriminate]. injection H as <-.
      now rewrite (loop_firstn _ _ _ _ _ k El).
  Qed.
  Theorem same_past_same_response : forall rows1 rows2 out1 out2 k, firstn k rows1 = firstn k rows2 ->
    std rows1 = Ok out1 -> std rows2 = Ok out2 -> firstn k out1 = firstn k out2.
  Proof.
    intros rows1 rows2 out1 out2 k E H1 H2. apply (response_is_causal _ _ k) in H1, H2. rewrite E in H1. congruence.
  Qed.

  (** C27: a constant strain offset has no effect; the update sees only the
      entries of the increment *)
  Definition shift_rows (c : list R) (rows : list (list R)) : list (list R) :=
    map (fun r => map (fun p => fst p + snd p) (combine r c)) rows.
  Lemma shift_nth : forall c r m, length r = length c -> nth m (map (fun p => fst p + snd p) (combine r c)) 0 = nth m r 0 + nth m c 0.
  Proof.
    induction c as [|a c IH]; intros [|b r] m L; try discriminate; cbn.
    - destruct m; ring.
    - destruct m; [reflexivity|]. apply IH. cbn in L. lia.
  Qed.
  Theorem offset_has_no_effect : forall c rows,
    (forall e e' s, eq2 n_dim e e' -> su e s = su e' s) -> (forall r, In r rows -> length r = length c) ->
    std (shift_rows c rows) = std rows.
  Proof.
    intros c rows Hsu Hl. destruct rows as [|r t]; [reflexivity|]. cbn [shift_rows map path_std].
    assert (G : forall rows s old, length old = length c -> (forall r, In r rows -> length r = length c) ->
      loop (emit_std n_dim order feats) s (map (fun p => fst p + snd p) (combine old c)) (shift_rows c rows)
      = loop (emit_std n_dim order feats) s old rows).
    { clear r t Hl. induction rows as [|r t IH]; intros s old Ho Hl; [reflexivity|]. cbn [shift_rows map rc_loop].
      assert (Hr : length r = length c) by (apply Hl; now left).
      assert (Es : su (increment order (map (fun p => fst p + snd p) (combine old c)) (map (fun p => fst p + snd p) (combine r c))) s
                 = su (increment order old r) s).
      { apply Hsu. intros i j _ _. unfold increment, vbuild. destruct (sym_index i j order); [|ring].
        rewrite !shift_nth by assumption. ring. }
      rewrite Es. destruct (check && _); [reflexivity|]. destruct (emit_std _ _ _ _); [|reflexivity]. cbn [rbind].
      change (map (fun r => map (fun p => fst p + snd p) (combine r c)) t) with (shift_rows c t).
      rewrite IH; [reflexivity|exact Hr|]. intros; apply Hl; now right. }
    change (map (fun r => map (fun p => fst p + snd p) (combine r c)) t) with (shift_rows c t).
    rewrite G; [reflexivity|apply Hl; now left|]. intros; apply Hl; now right.
  Qed.

  (** C27: processing in two pieces, carrying the state and the last strain *)
  Lemma state_at_ext : forall s E E' k, (forall m, (m <= k)%nat -> E m = E' m) -> state_at su s E k = state_at su s E' k.
  Proof.
    intros s E E' k. induction k as [|k IH]; intros H; [reflexivity|]. cbn [state_at]. rewrite IH by (intros; apply H; lia).
    rewrite (H (S k)), (H k) by lia. reflexivity.
  Qed.
  Theorem two_pieces : forall emit a b s old,
    loop emit s old (a ++ b) =
    rbind (loop emit s old a) (fun oa =>
      rbind (loop emit (state_at su s (tensors (old :: a)) (length a)) (last a old) b) (fun ob => Ok (oa ++ ob))).
  Proof.
    intros emit a b. induction a as [|r t IH]; intros s old.
    - cbn. destruct (loop emit s old b); reflexivity.
    - cbn [app rc_loop]. destruct (check && _); [reflexivity|]. destruct (emit _); [|reflexivity]. cbn [rbind]. rewrite IH.
      cbn [length]. rewrite state_at_shift.
      change (fun m => tensors (old :: r :: t) (S m)) with (tensors (r :: t)).
      change (fun i j => tensors (old :: r :: t) 1 i j - tensors (old :: r :: t) 0 i j) with (increment order old r).
      assert (El : last (r :: t) old = last t r).
      { clear. destruct t as [|y t]; [reflexivity|]. change (last (y :: t) old = last (y :: t) r). revert y. induction t as [|z t IH]; intros y; [reflexivity|].
        apply (IH z). }
      rewrite El. destruct (loop emit (su (increment order old r) s) r t); cbn [rbind]; [|reflexivity].
      destruct (loop emit _ (last t r) b); reflexivity.
  Qed.

  (** C27: the paths of a batch do not influence each other *)
  Theorem rc_batch_members_independent : forall nf paths outs i, batch_std n_dim order su init feats check nf paths = Ok outs ->
    (i < length paths)%nat -> length outs = length paths /\
    rbind (std (nth i paths [])) (response nf) = Ok (nth i outs []).
  Proof.
    intros nf paths outs i H Hi. apply rmap_ok in H. revert outs i H Hi.
    induction paths as [|p paths IH]; intros outs i H Hi; [cbn in Hi; lia|]. inversion H as [|? o ? os Ho Hos]; subst.
    destruct i as [|i].
    - split; [|exact Ho]. cbn. f_equal. clear - Hos. induction Hos; cbn; auto.
    - cbn in Hi. destruct (IH os i Hos ltac:(lia)) as [L G]. split; [cbn; lia|exact G].
  Qed.

  (** C27: every row of the response has the declared number of features: the
      stress components first, then the state features *)
  Theorem rc_response_layout : forall nf p rows, response nf p = Ok rows ->
    length rows = length p /\ forall k, (k < length p)%nat ->
      let o := nth k p ([], []) in let r := nth k rows [] in
      length r = nf /\ (forall j, (j < length (fst o))%nat -> nth j r 0%R = nth j (fst o) 0%R) /\
      (forall j, nth (length (fst o) + j) r 0%R = nth j (snd o) 0%R).
  Proof.
    intros nf p rows H. unfold response in H. destruct (forallb _ _) eqn:E; [|discriminate]. injection H as <-.
    rewrite forallb_forall in E. split; [apply map_length|]. intros k Hk o r.
    assert (Er : r = fst o ++ snd o).
    { unfold r, o. rewrite (nth_indep _ [] ((fun o : list R * list R => fst o ++ snd o) ([], []))) by (now rewrite map_length).
      apply (map_nth (fun o : list R * list R => fst o ++ snd o)). }
    split; [|split].
    - apply Nat.eqb_eq, E. unfold r. apply nth_In. now rewrite map_length.
    - intros j Hj. rewrite Er. now apply app_nth1.
    - intros j. rewrite Er, app_nth2 by lia. f_equal. lia.
  Qed.

  (** C27: when the vectorised implementation succeeds, the standard one gives
      the same response *)
  Lemma total_width : forall (l : list (list R)), length (concat l) = fold_right Nat.add 0%nat (map (@length R) l).
  Proof. induction l as [|x l IH]; [reflexivity|]. cbn. rewrite app_length, IH. reflexivity. Qed.
  Lemma emit_v_std : forall s o, emit_v n_dim order feats s = Ok o -> length (snd o) = n_state feats -> emit_std n_dim order feats s = Ok o.
  Proof.
    intros s [st row] H Hw. unfold emit_v in H. unfold emit_std. destruct (stress_row n_dim order s) as [st'|e]; cbn [rbind] in *; [|discriminate].
    assert (G : forall fs vs, rmap (state_var_v n_dim order s) fs = Ok vs ->
      (length (concat (concat vs)) <= fold_right Nat.add 0%nat (map snd fs))%nat /\
      (length (concat (concat vs)) = fold_right Nat.add 0%nat (map snd fs) ->
       exists ws, rmap (state_var_std n_dim order s) fs = Ok ws /\ concat ws = concat (concat vs))).
    { induction fs as [|f fs IH]; intros vs Hv; cbn [rmap] in *.
      - injection Hv as <-. cbn. split; [lia|]. intros _. exists []. auto.
      - destruct (state_var_v n_dim order s f) as [v|e] eqn:Ev; cbn [rbind] in Hv; [|discriminate].
        destruct (rmap (state_var_v n_dim order s) fs) as [vs'|e] eqn:Evs; cbn [rbind] in Hv; [|discriminate]. injection Hv as <-.
        destruct (IH vs' eq_refl) as [Hle Heq]. unfold state_var_v in Ev. cbn [concat map fold_right].
        destruct (dget (rc_vars s) (fst f)) as [x|] eqn:Ed.
        + destruct (is_strain_var (fst f)) eqn:Es; [destruct (tensor_comps n_dim order x); discriminate|].
          destruct (Nat.eqb (length x) (snd f)) eqn:Ex; [|discriminate]. injection Ev as <-. apply Nat.eqb_eq in Ex.
          cbn [app concat]. rewrite app_length. split; [lia|]. intros He. destruct Heq as [ws [Hws Hc]]; [lia|].
          exists (x :: ws).
          assert (E1 : state_var_std n_dim order s f = Ok x) by (unfold state_var_std, fit; rewrite Ed, Es, Ex, Nat.eqb_refl; reflexivity).
          rewrite E1. cbn [rbind]. rewrite Hws. cbn [rbind concat]. now rewrite Hc.
        + injection Ev as <-. cbn [app]. split; [lia|]. intros He. assert (Hz : snd f = 0%nat) by lia.
          destruct Heq as [ws [Hws Hc]]; [lia|]. exists ([] :: ws).
          assert (E1 : state_var_std n_dim order s f = Ok []) by (unfold state_var_std; rewrite Ed, Hz; reflexivity).
          rewrite E1. cbn [rbind]. rewrite Hws. cbn [rbind concat app]. auto. }
    destruct feats as [|f fs] eqn:Ef.
    - injection H as <- <-. reflexivity.
    - rewrite <- Ef in *. destruct (rmap (state_var_v n_dim order s) feats) as [vs|e] eqn:Ev; cbn [rbind] in H; [|discriminate].
      destruct (G feats vs Ev) as [_ Gv]. destruct (concat vs) as [|w ws] eqn:Ec; [discriminate|]. rewrite <- Ec in *. injection H as <- <-.
      cbn [snd] in Hw. destruct (Gv Hw) as [us [Hus Hc]]. rewrite Hus. cbn [rbind]. now rewrite Hc.
  Qed.
  Theorem vectorised_success_agrees : forall rows out, rows <> [] -> vec rows = Ok out -> std rows = Ok out.
  Proof.
    intros [|r t] out Hne H; [contradiction|]. cbn [path_v path_std] in *. clear Hne.
    destruct (loop (emit_v n_dim order feats) init r t) as [os|e] eqn:El; cbn [rbind] in H; [|discriminate].
    destruct (forallb _ os) eqn:Ew; [|discriminate]. injection H as <-.
    assert (G : loop (emit_std n_dim order feats) init r t = Ok os).
    { apply loop_iff in El as [L H]. apply loop_iff. split; [exact L|]. intros k Hk. destruct (H k Hk) as [H1 H2]. split; [exact H1|].
      apply emit_v_std; [exact H2|]. rewrite forallb_forall in Ew. apply Nat.eqb_eq. apply Ew. apply nth_In. lia. }
    now rewrite G.
  Qed.
  (** C27: it succeeds whenever the state features are available, of the declared
      width and not strain-like *)
  Theorem vectorised_succeeds_partial : forall rows out, rows <> [] ->
    (forall e s f, In f feats -> is_strain_var (fst f) = false /\ exists v, dget (rc_vars (su e s)) (fst f) = Some v /\ length v = snd f) ->
    std rows = Ok out -> vec rows = Ok out.
  Proof.
    intros [|r t] out Hne Hf H; [contradiction|]. cbn [path_v path_std] in *. clear Hne.
    destruct (loop (emit_std n_dim order feats) init r t) as [os|e] eqn:El; cbn [rbind] in H; [|discriminate]. injection H as <-.
    assert (Hem : forall e s o, emit_std n_dim order feats (su e s) = Ok o ->
      emit_v n_dim order feats (su e s) = Ok o /\ length (snd o) = n_state feats).
    { intros e s [st w] He. unfold emit_std in He. unfold emit_v.
      destruct (stress_row n_dim order (su e s)) as [st'|]; cbn [rbind] in *; [|discriminate].
      assert (G : forall fs, (forall f, In f fs -> In f feats) ->
        exists vs, rmap (state_var_v n_dim order (su e s)) fs = Ok (map (fun v => [v]) vs) /\ length vs = length fs /\
                   rmap (state_var_std n_dim order (su e s)) fs = Ok vs /\ length (concat vs) = fold_right Nat.add 0%nat (map snd fs)).
      { induction fs as [|f fs IH]; intros Hin; [exists []; cbn; auto|].
        destruct (IH ltac:(intros; apply Hin; now right)) as [vs [G1 [G2 [G3 G4]]]].
        destruct (Hf e s f (Hin f (or_introl eq_refl))) as [Hs [v [Hv Lv]]].
        exists (v :: vs). cbn [rmap map]. unfold state_var_v at 1, state_var_std at 1. rewrite Hv, Hs. unfold fit. rewrite Lv, Nat.eqb_refl.
        cbn [rbind]. rewrite G1, G3. cbn [rbind]. repeat split; cbn; [lia|]. rewrite app_length, G4. lia. }
      destruct (G feats (fun f H => H)) as [vs [G1 [G2 [G3 G4]]]]. rewrite G3 in He. cbn [rbind] in He. injection He as <- <-.
      split; [|exact G4]. destruct feats as [|f fs]; [destruct vs; [reflexivity|discriminate]|]. rewrite G1. cbn [rbind].
      assert (Ec : forall vs : list (list R), concat (map (fun v => [v]) vs) = vs) by (induction vs0; cbn; congruence). rewrite Ec.
      destruct vs as [|v vs]; [discriminate|]. reflexivity. }
    apply loop_iff in El as [L H].
    assert (G : loop (emit_v n_dim order feats) init r t = Ok os).
    { apply loop_iff. split; [exact L|]. intros k Hk. destruct (H k Hk) as [H1 H2]. split; [exact H1|]. now apply Hem in H2. }
    rewrite G. cbn [rbind]. replace (forallb _ os) with true; [reflexivity|]. symmetry. apply forallb_forall. intros o Ho.
    destruct (In_nth _ _ ([], []) Ho) as [k [Hk <-]]. apply Nat.eqb_eq. destruct (H k ltac:(lia)) as [_ H2]. now apply Hem in H2.
  Qed.
End Rc.

(** C27, counterexample: a strain-like state feature breaks the vectorised
    implementation only *)
Definition toy_su (e : T2) (s : rc_state) : rc_state :=
  {| rc_vars := [("stress_mf"%string, [e 0%nat 0%nat; e 1%nat 1%nat; e 0%nat 1%nat]);
                 ("e_strain_mf"%string, [e 0%nat 0%nat; e 1%nat 1%nat; e 0%nat 1%nat])]; rc_fail := false |}.
Definition toy_init : rc_state := {| rc_vars := []; rc_fail := false |}.
Theorem strain_feature_refuted :
  let feats := [("e_strain_mf"%string, 3%nat)] in
  let rows := [[0; 0; 0]; [1; 0; 0]] in
  (exists out, path_std 2 order_sym_2d toy_su toy_init feats true rows = Ok out) /\
  path_v 2 order_sym_2d toy_su toy_init feats true rows = Err IndexError.
Proof. split; [eexists|]; reflexivity. Qed.
(** C27, counterexample: for an empty path they differ *)
Theorem empty_path_refuted : path_std 2 order_sym_2d toy_su toy_init [] true [] <> path_v 2 order_sym_2d toy_su toy_init [] true [].
Proof. cbn. discriminate. Qed.
(** non-vacuity: three strains, the response to the increments *)
Example response_case : exists out, path_std 2 order_sym_2d toy_su toy_init [] true [[5; 0; 0]; [6; 0; 0]; [8; 1; 0]] = Ok out /\
  length out = 3%nat /\ nth 0 (fst (nth 2 out ([], []))) 0 = 2.
Proof.
  eexists. split; [reflexivity|]. split; [reflexivity|]. cbn. unfold kfac, offdiag, increment, vbuild. cbn. field.
Qed.

Print Assumptions response_is_incremental.
Print Assumptions offset_has_no_effect.
Print Assumptions vectorised_success_agrees.
