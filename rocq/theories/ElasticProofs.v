(** Matricial forms of the isotropic operators in Kelvin notation. *)
From Coq Require Import Reals List Arith Bool Lia Lra Psatz.
From Verif Require Import Lib MatrixModel MatrixSpec TensorModel TensorSpec ElasticModel ElasticSpec.
Import ListNotations.
Local Open Scope R_scope.

Lemma sqrt2_sq : sqrt 2 * sqrt 2 = 2.
Proof. apply sqrt_sqrt. lra. Qed.
Lemma sqrt2_neq : sqrt 2 <> 0.
Proof. intros H. pose proof sqrt2_sq. rewrite H in *. lra. Qed.

(** alpha * (trace operator) + beta * (symmetric identity) in matricial form. *)
Definition iso_mf (a b : R) : list (list R) :=
  [[a + b; a; a; 0; 0; 0]; [a; a + b; a; 0; 0; 0]; [a; a; a + b; 0; 0; 0];
   [0; 0; 0; b; 0; 0]; [0; 0; 0; 0; b; 0]; [0; 0; 0; 0; 0; b]].

Ltac row_eq :=
  apply f_equal2; [try (simpl; ring); try (simpl; field); try (simpl; rewrite <- ?sqrt2_sq; field; try apply sqrt2_neq)|].

Lemma iso_operator_mf a b (t : T4) :
  (forall i j k l, t i j k l = a * fodiagtrace i j k l + b * fosym 3 i j k l) ->
  vget_tensor_mf4 t 3 order_sym_3d true = Ok (iso_mf a b).
Proof.
  intros H. unfold vget_tensor_mf4. cbn [kelvin_flag rbind].
  replace (kelvin_flag 3 order_sym_3d true) with (Ok true) by reflexivity. cbn [rbind].
  unfold order_sym_3d. cbn [map]. unfold iso_mf. apply f_equal. pose proof sqrt2_sq as S2.
  assert (K : forall x, x * (sqrt 2 * sqrt 2) = 2 * x) by (intros; rewrite S2; ring).
  repeat match goal with |- cons _ _ = cons _ _ => apply f_equal2 | |- nil = nil => reflexivity end;
  rewrite H; unfold kfac, offdiag, row, col, fodiagtrace, dyad22_1, soid, fosym, foid, fotransp, set4, zero4;
  simpl; try (rewrite K); lra.
Qed.

Lemma iso_tangent_mf E v :
  vget_tensor_mf4 (iso_tangent E v) 3 order_sym_3d true
  = Ok (iso_mf (lame_lambda E v) (2 * lame_mu E v)).
Proof. apply iso_operator_mf. intros. unfold iso_tangent. ring. Qed.

Lemma devproj_mf : vget_tensor_mf4 (fodevprojsym 3) 3 order_sym_3d true = Ok (iso_mf (-(1/3)) 1).
Proof. apply iso_operator_mf. intros. unfold fodevprojsym. lra. Qed.

(** Trace and application. *)
Definition vtr (v : list R) : R := nth 0 v 0 + nth 1 v 0 + nth 2 v 0.

Lemma mv_iso a b v0 v1 v2 v3 v4 v5 :
  mv (iso_mf a b) [v0; v1; v2; v3; v4; v5]
  = [a * (v0 + v1 + v2) + b * v0; a * (v0 + v1 + v2) + b * v1; a * (v0 + v1 + v2) + b * v2;
     b * v3; b * v4; b * v5].
Proof.
  unfold mv, iso_mf. simpl.
  repeat match goal with |- cons _ _ = cons _ _ => apply f_equal2 | |- nil = nil => reflexivity end; ring.
Qed.

(** Explicit matricial form of a second-order tensor. *)
Definition kmf (e : T2) : list R :=
  [e 0%nat 0%nat; e 1%nat 1%nat; e 2%nat 2%nat;
   sqrt 2 * e 0%nat 1%nat; sqrt 2 * e 1%nat 2%nat; sqrt 2 * e 0%nat 2%nat].
Lemma mf2_3d e : vget_tensor_mf2 e 3 order_sym_3d true = Ok (kmf e).
Proof.
  unfold vget_tensor_mf2. replace (kelvin_flag 3 order_sym_3d true) with (Ok true) by reflexivity.
  cbn [rbind]. apply f_equal. unfold order_sym_3d, kmf. cbn [map].
  unfold kfac, offdiag, row, col. simpl.
  repeat match goal with |- cons _ _ = cons _ _ => apply f_equal2 | |- nil = nil => reflexivity end; ring.
Qed.
Definition kmf2 (e : T2) : list R := [e 0%nat 0%nat; e 1%nat 1%nat; sqrt 2 * e 0%nat 1%nat].
Lemma mf2_2d e : vget_tensor_mf2 e 2 order_sym_2d true = Ok (kmf2 e).
Proof.
  unfold vget_tensor_mf2. replace (kelvin_flag 2 order_sym_2d true) with (Ok true) by reflexivity.
  cbn [rbind]. apply f_equal. unfold order_sym_2d, kmf2. cbn [map].
  unfold kfac, offdiag, row, col. simpl.
  repeat match goal with |- cons _ _ = cons _ _ => apply f_equal2 | |- nil = nil => reflexivity end; ring.
Qed.

Lemma to3d a b c x : vget_state_3Dmf_from_2Dmf [a; b; c] x = Ok [a; b; x; c; 0; 0].
Proof.
  unfold vget_state_3Dmf_from_2Dmf. simpl.
  repeat match goal with |- Ok _ = Ok _ => apply f_equal | |- cons _ _ = cons _ _ => apply f_equal2 | |- nil = nil => reflexivity end; ring.
Qed.
Lemma to2d a b c d e f : vget_state_2Dmf_from_3Dmf [a; b; c; d; e; f] = Ok [a; b; d].
Proof. reflexivity. Qed.

Lemma hooke_kmf lam mu e : 
  mv (iso_mf lam (2 * mu)) (kmf e) = kmf (hooke lam mu e).
Proof.
  unfold kmf. rewrite mv_iso. unfold hooke, trace, ident. simpl.
  repeat match goal with |- cons _ _ = cons _ _ => apply f_equal2 | |- nil = nil => reflexivity end; ring.
Qed.

Lemma kmf_add a b : vadd (kmf a) (kmf b) = kmf (fun i j => a i j + b i j).
Proof.
  unfold vadd, kmf. simpl.
  repeat match goal with |- cons _ _ = cons _ _ => apply f_equal2 | |- nil = nil => reflexivity end; ring.
Qed.

Lemma kmf_ext a b : eq2 3 a b -> kmf a = kmf b.
Proof. intros H. unfold kmf. rewrite !H by lia. reflexivity. Qed.

(** The tensor read back from its matricial form. *)
Lemma from_kmf e : symmetric 3 e ->
  exists t, vget_tensor_from_mf2 (kmf e) 3 order_sym_3d true = Ok t /\ eq2 3 t e.
Proof.
  intros S. eexists. split; [reflexivity|]. intros i j Hi Hj.
  pose proof sqrt2_neq as N.
  destruct i as [|[|[|i]]]; try lia; destruct j as [|[|[|j]]]; try lia;
    unfold kfac, sym_index, index_of, offdiag; simpl; try (field; auto; fail);
    rewrite ?(S 1 0)%nat, ?(S 2 0)%nat, ?(S 2 1)%nat by lia; field; auto.
Qed.
