(** Data scalers of hybridized models (C132). *)
From Coq Require Import String List Bool ZArith.
From Verif Require Import Lib PyDict HybScalerModel.
Import ListNotations.
Local Open Scope string_scope.
Local Open Scope list_scope.

Section Spec.
  Context {Fe : Type} (cat : Fe -> Fe -> Fe).
  (** The scaler of a model for a kind of features *)
  Definition has_scaler (m : smodel Fe) (k : string) (sc : scaler Fe) : Prop := exists d, s_scalers m = Some (Some d) /\ dget d k = Some (Some sc).
  Definition equipped (m : smodel Fe) : Prop :=
    (s_in m = Some true -> exists sc, has_scaler m "features_in" sc) /\ (s_out m = Some true -> exists sc, has_scaler m "features_out" sc).
  Definition needs_scaler (m : smodel Fe) : Prop := s_in m = Some true \/ s_out m = Some true.
  (** The value of a model: residual connection, normalisation, the model on
      normalised features, denormalisation *)
  Inductive value (x0 x : Fe) (m : smodel Fe) : Fe -> Prop :=
  | value_intro x1 x2 y : x1 = (if s_resid m then cat x x0 else x) ->
      (s_in m = Some true /\ (exists sc, has_scaler m "features_in" sc /\ x2 = fst sc x1) \/ s_in m <> Some true /\ x2 = x1) ->
      (s_out m = Some true /\ (exists sc, has_scaler m "features_out" sc /\ y = snd sc (s_fwd m x2)) \/ s_out m <> Some true /\ y = s_fwd m x2) ->
      value x0 x m y.
  Inductive channel_value (x0 : Fe) : Fe -> list (smodel Fe) -> Fe -> Prop :=
  | channel_nil x : channel_value x0 x [] x
  | channel_cons x y z m ms : value x0 x m y -> channel_value x0 y ms z -> channel_value x0 x (m :: ms) z.

  Lemma norm_in_iff (m : smodel Fe) : norm_in m = true <-> s_in m = Some true.
  Proof. unfold norm_in. destruct (s_in m) as [[]|]; split; congruence. Qed.
  Lemma norm_out_iff (m : smodel Fe) : norm_out m = true <-> s_out m = Some true.
  Proof. unfold norm_out. destruct (s_out m) as [[]|]; split; congruence. Qed.
  Lemma check_model_iff (m : smodel Fe) : check_model m = Ok tt <-> equipped m.
  Proof.
    unfold check_model, equipped, has_scaler. rewrite <- norm_in_iff, <- norm_out_iff. destruct (norm_in m), (norm_out m); cbn [negb andb].
    4: { split; [intros _; split; discriminate|reflexivity]. }
    all: destruct (s_scalers m) as [[d|]|]; [| split; [discriminate|intros [A B]; try (destruct (A eq_refl) as (? & ? & ? & _); discriminate); destruct (B eq_refl) as (? & ? & ? & _); discriminate] ..].
    all: unfold available; destruct (dget d "features_in") as [[sa|]|] eqn:E1, (dget d "features_out") as [[sb|]|] eqn:E2; cbn [negb andb]; (split;
      [try discriminate; try (intros _; split; intros X; try discriminate X; eexists; exists d; (split; [reflexivity|eassumption]))|
       intros [A B]; try reflexivity]).
    all: try (exfalso; destruct (A eq_refl) as (? & ? & ? & ?); congruence).
    all: try (exfalso; destruct (B eq_refl) as (? & ? & ? & ?); congruence).
  Qed.
  Lemma check_model_err (m : smodel Fe) : check_model m = Ok tt \/ check_model m = Err RuntimeError.
  Proof. unfold check_model. destruct (_ && _); [now left|]. destruct (s_scalers m) as [[d|]|]; [|now right..]. destruct (_ && _); [now right|]. destruct (_ && _); [now right|now left]. Qed.
  (** The check passes exactly when all models have the scalers they need, and
      otherwise raises RuntimeError. *)
  Theorem check_scalers_iff : forall ms : list (smodel Fe), (check_scalers ms = Ok tt <-> Forall equipped ms) /\ (check_scalers ms = Ok tt \/ check_scalers ms = Err RuntimeError).
  Proof.
    unfold check_scalers. induction ms as [|m ms [IH1 IH2]]; cbn [rmap].
    - split; [split; constructor|now left].
    - destruct (check_model_err m) as [E|E]; rewrite E; cbn [rbind].
      + apply check_model_iff in E. destruct (rmap check_model ms) as [l|e]; cbn [rbind] in *; split; try tauto.
        * split; [constructor; [exact E|now apply IH1]|reflexivity].
        * split; [discriminate|]. intros F. inversion F. apply IH1. assumption.
      + split; [|now right]. split; [discriminate|]. intros F. inversion F as [|? ? A _]; subst. apply check_model_iff in A. congruence.
  Qed.
  Lemma apply_value (x0 x : Fe) m : equipped m -> (needs_scaler m -> s_method m = true) -> exists y, apply_smodel cat x0 x m = Ok y /\ value x0 x m y.
  Proof.
    intros [A B] M. unfold apply_smodel. set (x1 := if s_resid m then cat x x0 else x).
    assert (X : exists x2, (if norm_in m then transform m "features_in" fst x1 else Ok x1) = Ok x2 /\
      (s_in m = Some true /\ (exists sc, has_scaler m "features_in" sc /\ x2 = fst sc x1) \/ s_in m <> Some true /\ x2 = x1)).
    { destruct (norm_in m) eqn:E.
      - apply norm_in_iff in E. destruct (A E) as (sc & d & D & G). exists (fst sc x1). unfold transform. rewrite (M (or_introl E)), D, G. split; [reflexivity|]. left. split; [exact E|]. exists sc. split; [exists d; auto|reflexivity].
      - exists x1. split; [reflexivity|]. right. split; [|reflexivity]. intros C. apply norm_in_iff in C. congruence. }
    destruct X as (x2 & X & P). rewrite X. cbn [rbind].
    destruct (norm_out m) eqn:E.
    - apply norm_out_iff in E. destruct (B E) as (sc & d & D & G). exists (snd sc (s_fwd m x2)). split; [unfold transform; rewrite (M (or_intror E)), D, G; reflexivity|].
      econstructor; [reflexivity|exact P|]. left. split; [exact E|]. exists sc. split; [exists d; auto|reflexivity].
    - exists (s_fwd m x2). split; [reflexivity|]. econstructor; [reflexivity|exact P|]. right. split; [|reflexivity]. intros C. apply norm_out_iff in C. congruence.
  Qed.
  (** After the check, a channel whose normalised models have the method can be
      evaluated, to the composition of the values of its models. *)
  Theorem checked_channel : forall ms x0, check_scalers ms = Ok tt -> Forall (fun m => needs_scaler m -> s_method m = true) ms ->
    exists y, apply_schannel cat x0 ms = Ok y /\ channel_value x0 x0 ms y.
  Proof.
    intros ms x0 C M. apply check_scalers_iff in C. unfold apply_schannel. enough (G : forall x, exists y, rfold (apply_smodel cat x0) ms x = Ok y /\ channel_value x0 x ms y) by exact (G x0).
    induction C as [|m ms E C IH]; intros x; cbn [rfold].
    - exists x. split; [reflexivity|constructor].
    - inversion M as [|? ? M1 M2]; subst. destruct (apply_value x0 x m E M1) as (y & Y & V). rewrite Y. cbn [rbind]. destruct (IH M2 y) as (z & Z & W). exists z. split; [exact Z|]. econstructor; eassumption.
  Qed.
  (** The hybrid model with features that it returns normalised is refused
      unless its own scaler has been fitted. *)
  Theorem own_scaler : forall hyb chs own x l y, rmap (apply_schannel cat x) chs = Ok l -> hyb l = Ok y ->
    hybrid_forward cat hyb chs false own x = Ok y /\
    (forall sc, dget own "features_out" = Some (Some sc) -> hybrid_forward cat hyb chs true own x = Ok (fst sc y)) /\
    ((forall sc, dget own "features_out" <> Some (Some sc)) -> hybrid_forward cat hyb chs true own x = Err RuntimeError).
  Proof.
    intros hyb chs own x l y L H. unfold hybrid_forward. rewrite L. cbn [rbind]. rewrite H. cbn [rbind]. split; [reflexivity|]. split.
    - intros sc ->. reflexivity.
    - intros N. destruct (dget own "features_out") as [[sc|]|]; try reflexivity. exfalso. now apply (N sc).
  Qed.
  (** Refuted: after the check the hybrid model can be evaluated.  A model of
      normalised features whose class has no method data_scaler_transform passes
      the check and fails in every evaluation. *)
  Theorem checked_model_fails_refuted : forall (f g h : Fe -> Fe), let m := mkSm false f (Some true) (Some true) false (Some (Some [("features_in", Some (g, h)); ("features_out", Some (g, h))])) in
    check_scalers [m] = Ok tt /\ forall x, apply_schannel cat x [m] = Err AttributeError.
  Proof. intros f g h. split; reflexivity. Qed.
End Spec.
(** Two models of which the first works on normalised features *)
Example scaled_case : apply_schannel Z.add 7%Z
  [mkSm false (Z.mul 2) (Some true) (Some true) true (Some (Some [("features_in", Some ((fun x => x - 3)%Z, (fun x => x + 3)%Z)); ("features_out", Some ((fun x => x - 10)%Z, (fun x => x + 10)%Z))]));
   mkSm true (Z.mul 1) None None false None] = Ok 25%Z.
Proof. reflexivity. Qed.

Print Assumptions check_scalers_iff.
Print Assumptions checked_channel.
Print Assumptions own_scaler.
Print Assumptions checked_model_fails_refuted.
