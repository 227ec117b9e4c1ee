(** C102: nested dictionary of the parameters of a model. *)
From Coq Require Import String Ascii List Bool Arith Lia.
From Verif Require Import Lib PyDict PyStr TextLines ParamTreeModel.
Import ListNotations.
Local Open Scope list_scope.

(** ** Specification *)
Section ParamTreeProofs.
Context {V : Type}.
Notation dict := (list (string * ptree V)).
(** what is found by following the keys *)
Fixpoint follow (d : dict) (p : list string) : option (ptree V) :=
  match p with
  | [] => Some (PDict d)
  | [k] => gget String.eqb d k
  | k :: p' => match gget String.eqb d k with Some (PDict sub) => follow sub p' | _ => None end
  end.
Definition prefix (p q : list string) : Prop := exists r, q = p ++ r.
Definition apart (p q : list string) : Prop := ~ prefix p q /\ ~ prefix q p.

Lemma follow_cons : forall d k p, p <> [] -> follow d (k :: p) = match gget String.eqb d k with Some (PDict sub) => follow sub p | _ => None end.
Proof. intros d k [|x p] H; [congruence|reflexivity]. Qed.
Lemma gg : forall (d : dict) k x k', gget String.eqb (gset String.eqb d k x) k' = if String.eqb k' k then Some x else gget String.eqb d k'.
Proof. intros. rewrite (gget_gset String.eqb String.eqb_eq), String.eqb_sym. reflexivity. Qed.

(** one parameter: stored at its path, nothing else changes *)
Lemma set_follow : forall p d v d', set_parameter_in_dict d p v = Ok d' -> follow d' p = Some (PLeaf v).
Proof.
  induction p as [|k p IH]; intros d v d' H; [discriminate|]. cbn [set_parameter_in_dict] in H. destruct p as [|k2 p].
  - injection H as <-. cbn [follow]. rewrite gg, String.eqb_refl. reflexivity.
  - rewrite follow_cons by discriminate. destruct (gget String.eqb d k) as [[w|sub]|].
    + discriminate.
    + destruct (set_parameter_in_dict sub (k2 :: p) v) as [sub'|] eqn:E; [|discriminate]. injection H as <-. rewrite gg, String.eqb_refl. exact (IH _ _ _ E).
    + destruct (set_parameter_in_dict [] (k2 :: p) v) as [sub'|] eqn:E; [|discriminate]. injection H as <-. rewrite gg, String.eqb_refl. exact (IH _ _ _ E).
Qed.
Lemma follow_nil : forall p, p <> [] -> follow [] p = None.
Proof. intros [|k [|k2 p]] H; [congruence|reflexivity|reflexivity]. Qed.
Lemma set_keeps : forall p d v d' q, set_parameter_in_dict d p v = Ok d' -> q <> [] -> apart p q -> follow d' q = follow d q.
Proof.
  induction p as [|k p IH]; intros d v d' q H Hq [A1 A2]; [discriminate|]. destruct q as [|k' q]; [congruence|]. cbn [set_parameter_in_dict] in H.
  destruct (String.eqb_spec k' k) as [->|Hk].
  - assert (Hp : p <> []) by (intros ->; apply A1; exists q; reflexivity). assert (Hq' : q <> []) by (intros ->; apply A2; exists p; reflexivity).
    assert (Ap : apart p q). { split; intros [r E]; [apply A1|apply A2]; exists r; cbn [app]; now rewrite E. }
    destruct p as [|k2 p]; [congruence|]. rewrite !follow_cons by exact Hq'. destruct (gget String.eqb d k) as [[w|sub]|] eqn:Eg.
    + discriminate.
    + destruct (set_parameter_in_dict sub (k2 :: p) v) as [sub'|] eqn:E; [|discriminate]. injection H as <-. rewrite gg, String.eqb_refl. exact (IH _ _ _ _ E Hq' Ap).
    + destruct (set_parameter_in_dict [] (k2 :: p) v) as [sub'|] eqn:E; [|discriminate]. injection H as <-. rewrite gg, String.eqb_refl.
      rewrite (IH _ _ _ _ E Hq' Ap). now apply follow_nil.
  - assert (G : gget String.eqb d' k' = gget String.eqb d k').
    { assert (F : forall x, gget String.eqb (gset String.eqb d k x) k' = gget String.eqb d k') by (intros x; rewrite gg; apply String.eqb_neq in Hk; now rewrite Hk).
      destruct p as [|k2 p]; [injection H as <-; apply F|]. destruct (gget String.eqb d k) as [[w|sub]|]; [discriminate| |];
        (destruct (set_parameter_in_dict _ (k2 :: p) v); [|discriminate]); injection H as <-; apply F. }
    destruct q as [|k2' q]; cbn [follow]; now rewrite G.
Qed.
(** when it is refused *)
Lemma set_success : forall p d v, p <> [] -> (forall r w, r <> [] -> prefix r p -> r <> p -> follow d r <> Some (PLeaf w)) ->
  exists d', set_parameter_in_dict d p v = Ok d'.
Proof.
  induction p as [|k p IH]; intros d v Hp H; [congruence|]. cbn [set_parameter_in_dict]. destruct p as [|k2 p]; [eexists; reflexivity|].
  destruct (gget String.eqb d k) as [[w|sub]|] eqn:E.
  - exfalso. apply (H [k] w); [discriminate|exists (k2 :: p); reflexivity|discriminate|exact E].
  - destruct (IH sub v) as [d' ->]; [discriminate| |eexists; reflexivity].
    intros r w Hr [s Es] Hne. specialize (H (k :: r) w ltac:(discriminate)). rewrite follow_cons, E in H by exact Hr. apply H; [|congruence].
    exists s. cbn [app]. now rewrite Es.
  - destruct (IH [] v) as [d' ->]; [discriminate| |eexists; reflexivity]. intros r w Hr _ _. rewrite follow_nil by exact Hr. discriminate.
Qed.

(** all the parameters, with names none of which is the beginning of another *)
Definition path (nv : string * V) : list string := split_on "." (fst nv).
Lemma path_nonempty : forall nv, path nv <> [].
Proof. intros nv. apply split_on_nonempty. Qed.
Lemma prefix_trans_total : forall p q r, prefix p r -> prefix q r -> prefix p q \/ prefix q p.
Proof.
  induction p as [|a p IH]; intros q r Hp Hq; [left; exists q; reflexivity|]. destruct q as [|b q]; [right; exists (a :: p); reflexivity|].
  destruct Hp as [s ->], Hq as [t Et]. cbn [app] in Et. injection Et as <- Et.
  destruct (IH q (p ++ s)) as [[u ->]|[u ->]]; [exists s; reflexivity|exists t; exact Et|left; exists u; reflexivity|right; exists u; reflexivity].
Qed.

Lemma collect_inv : forall l done d, (forall nv, In nv done -> follow d (path nv) = Some (PLeaf (snd nv))) ->
  (forall q v, q <> [] -> follow d q = Some (PLeaf v) -> exists nv, In nv done /\ path nv = q /\ snd nv = v) ->
  ForallOrdPairs (fun a b => apart (path a) (path b)) (done ++ l) ->
  exists d', fold_left set_step l (Ok d) = Ok d' /\
    (forall nv, In nv (done ++ l) -> follow d' (path nv) = Some (PLeaf (snd nv))) /\
    (forall q v, q <> [] -> follow d' q = Some (PLeaf v) -> exists nv, In nv (done ++ l) /\ path nv = q /\ snd nv = v).
Proof.
  induction l as [|x l IH]; intros done d H1 H2 H3.
  - exists d. rewrite app_nil_r. repeat split; assumption.
  - assert (Ax : forall nv, In nv done -> apart (path x) (path nv)).
    { intros nv Hnv. clear - H3 Hnv. induction done as [|y done IHd]; [contradiction|]. cbn [app] in H3. inversion H3 as [|? ? Hy H3']; subst.
      destruct Hnv as [->|Hnv]; [|exact (IHd H3' Hnv)]. rewrite Forall_forall in Hy. destruct (Hy x) as [A B]; [apply in_or_app; right; left; reflexivity|]. split; assumption. }
    cbn [fold_left]. unfold set_step at 2. cbn [rbind]. fold (path x).
    destruct (set_success (path x) d (snd x) (path_nonempty x)) as [d1 E1].
    { intros r w Hr Hpr Hne Hf. destruct (H2 r w Hr Hf) as [nv [Hnv [<- _]]]. apply (proj2 (Ax nv Hnv)). exact Hpr. }
    rewrite E1.
    assert (P1 : forall nv, In nv (done ++ [x]) -> follow d1 (path nv) = Some (PLeaf (snd nv))).
    { intros nv Hnv. apply in_app_or in Hnv. destruct Hnv as [Hnv|[<-|[]]]; [|exact (set_follow _ _ _ _ E1)].
      rewrite (set_keeps _ _ _ _ _ E1 (path_nonempty nv) (Ax nv Hnv)). apply H1. exact Hnv. }
    assert (P2 : forall q v, q <> [] -> follow d1 q = Some (PLeaf v) -> exists nv, In nv (done ++ [x]) /\ path nv = q /\ snd nv = v).
    { intros q v Hq Hf. destruct (list_eq_dec string_dec q (path x)) as [->|Hne].
      - rewrite (set_follow _ _ _ _ E1) in Hf. injection Hf as <-. exists x. split; [apply in_or_app; right; left; reflexivity|split; reflexivity].
      - assert (N1 : ~ prefix (path x) q).
        { intros [r Er]. destruct r as [|a r]; [rewrite app_nil_r in Er; congruence|].
          assert (L : forall p e, p <> [] -> follow e p = Some (PLeaf (snd x)) -> follow e (p ++ a :: r) = None).
          { induction p as [|k p IHp]; intros e Hp He; [congruence|]. destruct p as [|k2 p].
            - cbn [app]. rewrite follow_cons by discriminate. cbn [follow] in He. now rewrite He.
            - cbn [app]. rewrite follow_cons by discriminate. rewrite follow_cons in He by discriminate. destruct (gget String.eqb e k) as [[w|sub]|]; [reflexivity| |reflexivity].
              apply (IHp sub); [discriminate|exact He]. }
          rewrite Er, (L (path x) d1 (path_nonempty x) (set_follow _ _ _ _ E1)) in Hf. discriminate. }
        assert (N2 : ~ prefix q (path x)).
        { intros [r Er]. destruct r as [|a r]; [rewrite app_nil_r in Er; congruence|].
          assert (L : forall p e, p <> [] -> follow e p = Some (PLeaf v) -> follow e (p ++ a :: r) = None).
          { induction p as [|k p IHp]; intros e Hp He; [congruence|]. destruct p as [|k2 p].
            - cbn [app]. rewrite follow_cons by discriminate. cbn [follow] in He. now rewrite He.
            - cbn [app]. rewrite follow_cons by discriminate. rewrite follow_cons in He by discriminate. destruct (gget String.eqb e k) as [[w|sub]|]; [reflexivity| |reflexivity].
              apply (IHp sub); [discriminate|exact He]. }
          pose proof (set_follow _ _ _ _ E1) as F. rewrite Er, (L q d1 Hq Hf) in F. discriminate. }
        rewrite (set_keeps _ _ _ _ _ E1 Hq (conj N1 N2)) in Hf. destruct (H2 q v Hq Hf) as [nv [Hnv Q]]. exists nv. split; [apply in_or_app; left; exact Hnv|exact Q]. }
    destruct (IH (done ++ [x]) d1 P1 P2) as [d' [E' [Q1 Q2]]]; [now rewrite <- app_assoc|]. rewrite <- app_assoc in Q1, Q2. cbn [app] in Q1, Q2.
    exists d'. split; [exact E'|]. split; assumption.
Qed.

(** ** C102 *)
(** every parameter is found at the path of its name, and every parameter found
    is one of the model at that path *)
Theorem parameter_dict_exact : forall l, ForallOrdPairs (fun a b => apart (path a) (path b)) l ->
  exists d, get_model_parameter_dict l = Ok d /\
    forall q v, q <> [] -> (follow d q = Some (PLeaf v) <-> exists name, In (name, v) l /\ split_on "." name = q).
Proof.
  intros l H. destruct (collect_inv l [] [] (fun nv Hnv => match Hnv with end)) as [d [E [H1 H2]]].
  - intros q v Hq Hf. rewrite follow_nil in Hf by exact Hq. discriminate.
  - exact H.
  - exists d. split; [exact E|]. intros q v Hq. split.
    + intros Hf. destruct (H2 q v Hq Hf) as [[name w] [Hin [Hp Hw]]]. cbn [snd] in Hw. subst w. exists name. split; [exact Hin|exact Hp].
    + intros [name [Hin <-]]. exact (H1 (name, v) Hin).
Qed.

(** a name that goes on from that of a parameter is refused *)
Theorem parameter_dict_conflict : forall d p q v w, follow d p = Some (PLeaf w) -> p <> [] -> q <> [] ->
  set_parameter_in_dict d (p ++ q) v = Err (match q with [_] => IndexError | _ => RuntimeError end).
Proof.
  intros d p q v w. revert d. induction p as [|k p IH]; intros d Hf Hp Hq; [congruence|]. destruct q as [|a q]; [congruence|].
  destruct p as [|k2 p].
  - cbn [follow] in Hf. cbn [app set_parameter_in_dict]. rewrite Hf. destruct q; reflexivity.
  - rewrite follow_cons in Hf by discriminate. cbn [app]. cbn [set_parameter_in_dict]. destruct (gget String.eqb d k) as [[w'|sub]|]; try discriminate.
    change (rbind (set_parameter_in_dict sub ((k2 :: p) ++ a :: q) v) (fun sub' => Ok (gset String.eqb d k (PDict sub'))) = Err match q with [] => IndexError | _ :: _ => RuntimeError end).
    rewrite (IH sub Hf) by discriminate. reflexivity.
Qed.

(** the other way round, a parameter replaces everything below its name *)
Theorem parameter_dict_overwrite_refuted : forall d p q v w d', follow d (p ++ q) = Some (PLeaf w) -> p <> [] -> q <> [] ->
  set_parameter_in_dict d p v = Ok d' -> follow d' (p ++ q) = None.
Proof.
  intros d p q v w d' _ Hp Hq H. pose proof (set_follow _ _ _ _ H) as F. clear H. revert d' F. induction p as [|k p IH]; intros d' F; [congruence|].
  destruct q as [|a q]; [congruence|]. destruct p as [|k2 p].
  - cbn [app]. rewrite follow_cons by discriminate. cbn [follow] in F. now rewrite F.
  - cbn [app]. rewrite follow_cons by discriminate. rewrite follow_cons in F by discriminate. destruct (gget String.eqb d' k) as [[w'|sub]|]; [reflexivity| |reflexivity].
    apply IH; [discriminate|exact F].
Qed.

(** the keys at the top are the first components of the names, in their order *)
Theorem parameter_dict_top : forall (d : dict) p (v : V) d', set_parameter_in_dict d p v = Ok d' ->
  map fst d' = match p with k :: _ => if existsb (String.eqb k) (map fst d) then map fst d else map fst d ++ [k] | [] => map fst d end.
Proof.
  intros d p v d' H. destruct p as [|k p]; [discriminate|]. cbn [set_parameter_in_dict] in H.
  assert (K : forall x, map fst (gset String.eqb d k x) = if existsb (String.eqb k) (map fst d) then map fst d else map fst d ++ [k]).
  { intros x. clear. induction d as [|[k' y] d IH]; [reflexivity|]. cbn [gset map fst existsb]. destruct (String.eqb k k'); cbn [orb map fst]; [reflexivity|]. rewrite IH.
    destruct (existsb (String.eqb k) (map fst d)); reflexivity. }
  destruct p as [|k2 p]; [injection H as <-; apply K|]. destruct (gget String.eqb d k) as [[w|sub]|]; [discriminate| |];
    (destruct (set_parameter_in_dict _ (k2 :: p) v); [|discriminate]); injection H as <-; apply K.
Qed.
End ParamTreeProofs.

(** the name is recovered from the path *)
Theorem path_name : forall s, join "." (split_on "." s) = s.
Proof.
  induction s as [|c s IH]; [reflexivity|]. cbn [split_on]. destruct (Ascii.eqb_spec c ".") as [->|Hc].
  - pose proof (split_on_nonempty "." s) as N. destruct (split_on "." s) as [|x l]; [congruence|]. cbn [join]. cbn [append]. now rewrite <- IH.
  - pose proof (split_on_nonempty "." s) as N. destruct (split_on "." s) as [|x l]; [congruence|]. rewrite <- IH. destruct l as [|y l]; reflexivity.
Qed.
(** so no two names share a path *)
Theorem path_injective : forall a b, split_on "." a = split_on "." b -> a = b.
Proof. intros a b H. rewrite <- (path_name a), <- (path_name b). now rewrite H. Qed.

Example parameter_dict_case : get_model_parameter_dict [("E", 1); ("gru.w.0", 2); ("gru.b", 3); ("lin.w", 4)]%string
  = Ok [("E", PLeaf 1); ("gru", PDict [("w", PDict [("0", PLeaf 2)]); ("b", PLeaf 3)]); ("lin", PDict [("w", PLeaf 4)])]%string.
Proof. reflexivity. Qed.
Example parameter_dict_order_case :
  get_model_parameter_dict [("a", 1); ("a.b", 2)]%string = Err IndexError /\ get_model_parameter_dict [("a.b", 2); ("a", 1)]%string = Ok [("a", PLeaf 1)]%string.
Proof. split; reflexivity. Qed.

Print Assumptions parameter_dict_exact.
Print Assumptions parameter_dict_conflict.
Print Assumptions parameter_dict_overwrite_refuted.
Print Assumptions parameter_dict_top.
Print Assumptions path_name.
Print Assumptions path_injective.
