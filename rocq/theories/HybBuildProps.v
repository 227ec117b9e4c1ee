(** Properties of the construction of hybridized models (HybBuildModel). *)
From Coq Require Import String List Bool Arith ZArith Lia.
From Verif Require Import Lib PyDict HybridModel HybBuildModel.
Import ListNotations.
Local Open Scope string_scope.
Local Open Scope list_scope.

Section Laws.
  Context {M Sc St A : Type}.
  Variable k : klass.
  Variable construct : list (string * A) -> option bool -> res M.
  Variable from_file : string -> res M.
  Variable state_file : string -> option St.
  Variable load_state : M -> St -> res M.
  Variable set_scalers : M -> option Sc -> option Sc -> M.
  Notation shm := (set_hybridized_model k construct from_file state_file load_state set_scalers).

  (** Specification: what a hybridized model is made of. *)
  Definition created (args : option (list (string * A))) (path : option string) (m : M) : Prop :=
    (exists a, args = Some a /\ ((has_save_init k = true /\ ~ In "is_save_model_init_file" (map fst a) /\ construct a (Some false) = Ok m) \/
                                 (has_save_init k = false /\ construct a None = Ok m))) \/
    (args = None /\ exists p, path = Some p /\ has_from_file k = true /\ from_file p = Ok m).
  Definition in_state (state : option string) (m m' : M) : Prop :=
    (state = None /\ m' = m) \/ (exists p s, state = Some p /\ state_file p = Some s /\ load_state m s = Ok m').
  Definition scaled (d : scalers_arg Sc) (m m' : M) : Prop :=
    (d = DNone /\ m' = m) \/ (exists l, d = DDict l /\ has_set_scalers k = true /\ m' = set_scalers m (gget String.eqb l "features_in") (gget String.eqb l "features_out")).
  Definition two_ints (i : indices) (l : list py) : Prop := i = ITuple l /\ exists a b, l = [a; b] /\ a <> POther /\ b <> POther.

  Lemma init_model_iff args path m : init_model k construct from_file args path = Ok m <-> created args path m.
  Proof.
    unfold init_model, created. destruct args as [a|].
    - destruct (has_save_init k).
      + destruct (existsb _ a) eqn:E.
        * split; [discriminate|]. intros [(a' & H & [(_ & N & _)|(H' & _)])|(H & _)]; try discriminate. injection H as <-. exfalso. apply N.
          apply existsb_exists in E as ([x v] & I & Q). apply String.eqb_eq in Q. cbn in Q. subst x. apply in_map_iff. now exists ("is_save_model_init_file", v).
        * split.
          -- intros H. left. exists a. split; [reflexivity|]. left. repeat split; [|exact H]. intros I. apply in_map_iff in I as ([x v] & Q & I). cbn in Q. subst x.
             assert (existsb (fun e : string * A => String.eqb (fst e) "is_save_model_init_file") a = true); [|congruence]. apply existsb_exists. exists ("is_save_model_init_file", v). split; [exact I|reflexivity].
          -- intros [(a' & H & [(_ & _ & G)|(H' & _)])|(H & _)]; try discriminate. injection H as <-. exact G.
      + split; [intros H; left; exists a; split; [reflexivity|now right]|]. intros [(a' & H & [(H' & _)|(_ & G)])|(H & _)]; try discriminate. now injection H as <-.
    - destruct path as [p|].
      + destruct (has_from_file k); split; try discriminate.
        * intros H. right. split; [reflexivity|]. now exists p.
        * intros [(a & H & _)|(_ & p' & H & _ & G)]; [discriminate|]. now injection H as <-.
        * intros [(a & H & _)|(_ & p' & _ & H & _)]; discriminate.
      + split; [discriminate|]. intros [(a & H & _)|(_ & p' & H & _)]; discriminate.
  Qed.
  Lemma init_state_iff state m m' : init_state state_file load_state m state = Ok m' <-> in_state state m m'.
  Proof.
    unfold init_state, in_state. destruct state as [p|].
    - destruct (state_file p) as [s|] eqn:E; split.
      + intros H. right. now exists p, s.
      + intros [(H & _)|(p' & s' & H & H1 & H2)]; [discriminate|]. injection H as <-. rewrite E in H1. now injection H1 as <-.
      + discriminate.
      + intros [(H & _)|(p' & s' & H & H1 & H2)]; [discriminate|]. injection H as <-. congruence.
    - split; [intros H; injection H as <-; now left|]. intros [(_ & ->)|(p & s & H & _)]; [reflexivity|discriminate].
  Qed.
  Lemma init_scalers_iff d m m' : init_scalers k set_scalers m d = Ok m' <-> scaled d m m'.
  Proof.
    unfold init_scalers, scaled. destruct d as [|l|].
    - split; [intros H; injection H as <-; now left|]. intros [(_ & ->)|(l & H & _)]; [reflexivity|discriminate].
    - destruct (has_set_scalers k); split; try discriminate.
      + intros H. injection H as <-. right. now exists l.
      + intros [(H & _)|(l' & H & _ & ->)]; [discriminate|]. now injection H as <-.
      + intros [(H & _)|(l' & _ & H & _)]; discriminate.
    - destruct (has_set_scalers k); (split; [discriminate|]); intros [(H & _)|(l' & H & _)]; discriminate.
  Qed.
  Lemma check_indices_iff i l : check_indices i = Ok l <-> two_ints i l.
  Proof.
    unfold check_indices, two_ints. destruct i as [t|]; [|split; [discriminate|intros [H _]; discriminate]].
    destruct t as [|a [|b [|c t]]]; cbn; try (split; [discriminate|]; intros [H (x & y & -> & _)]; discriminate).
    destruct (is_int a) eqn:Ea; destruct (is_int b) eqn:Eb; cbn; split; try discriminate.
    - intros H. injection H as <-. split; [reflexivity|]. exists a, b. repeat split; intros ->; discriminate.
    - intros [H _]. now injection H as <-.
    - intros [H (x & y & -> & _ & N)]. injection H as -> ->. destruct y; try discriminate. contradiction.
    - intros [H (x & y & -> & N & _)]. injection H as -> ->. destruct x; try discriminate. contradiction.
    - intros [H (x & y & -> & N & _)]. injection H as -> ->. destruct x; try discriminate. contradiction.
  Qed.
  (** A hybridized model is set exactly when it can be created, its state exists,
      its scalers can be set, its indices are two integers and its residual flag
      is a boolean; it is then the created model in that state with these scalers. *)
  Theorem hybridized_model_iff i args path state r d m l b : shm i args path state r d = Ok (m, l, b) <->
    exists m0 m1, created args path m0 /\ in_state state m0 m1 /\ scaled d m1 m /\ two_ints i l /\ r = PBool b.
  Proof.
    unfold set_hybridized_model. split.
    - destruct (init_model k construct from_file args path) as [m0|] eqn:E0; [|discriminate]. cbn [rbind].
      destruct (init_state state_file load_state m0 state) as [m1|] eqn:E1; [|discriminate]. cbn [rbind].
      destruct (init_scalers k set_scalers m1 d) as [m2|] eqn:E2; [|discriminate]. cbn [rbind].
      destruct (check_indices i) as [l'|] eqn:E3; [|discriminate]. cbn [rbind].
      destruct r as [z|b'|]; cbn; try discriminate. intros H. injection H as -> -> ->. exists m0, m1.
      rewrite <- init_model_iff, <- init_state_iff, <- init_scalers_iff, <- check_indices_iff. now repeat split.
    - intros (m0 & m1 & H0 & H1 & H2 & H3 & ->). apply init_model_iff in H0. apply init_state_iff in H1. apply init_scalers_iff in H2. apply check_indices_iff in H3.
      rewrite H0. cbn [rbind]. rewrite H1. cbn [rbind]. rewrite H2. cbn [rbind]. rewrite H3. reflexivity.
  Qed.
  (** The file is ignored when the arguments are given. *)
  Theorem arguments_override_file i a path path' state r d : shm i (Some a) path state r d = shm i (Some a) path' state r d.
  Proof. reflexivity. Qed.
  (** Scalers for the inputs only: those of the outputs, read from the file, are lost. *)
  Theorem partial_scalers_refuted m s : has_set_scalers k = true ->
    init_scalers k set_scalers m (DDict [("features_in", s)]) = Ok (set_scalers m (Some s) None).
  Proof. intros H. unfold init_scalers. now rewrite H. Qed.
  (** Booleans pass for indices. *)
  Theorem boolean_indices_refuted b z : check_indices (ITuple [PBool b; PInt z]) = Ok [PBool b; PInt z].
  Proof. reflexivity. Qed.
End Laws.

Section ScriptLaws.
  Context {M Sc St A : Type}.
  Variable construct : kind -> list (string * A) -> option bool -> res M.
  Variable from_file : kind -> string -> res M.
  Variable state_file : string -> option St.
  Variable load_state : M -> St -> res M.
  Variable set_scalers : M -> option Sc -> option Sc -> M.
  Variable args_of : string -> list (string * A).

  (** No GRU model can be hybridized: whatever the options, data and indices, the
      class has no method to set the scalers that the script always passes. *)
  Theorem gru_hybridized_refuted fit option_ i :
    exists e, set_hybridized_gru_model construct from_file state_file load_state set_scalers args_of fit option_ i = Err e.
  Proof.
    unfold set_hybridized_gru_model. destruct (existsb _ _); [|eauto]. destruct (fit option_ "features_in") as [s1|]; [|cbn; eauto].
    destruct (fit option_ "features_out") as [s2|]; [|cbn; eauto]. cbn [rbind]. unfold build, set_hybridized_model.
    destruct (init_model _ _ _ _ _); cbn; eauto.
  Qed.
  Theorem gru_scalers_refused fit option_ i m : In option_ gru_options -> (forall t, exists s, fit option_ t = Ok s) ->
    construct GRU (args_of option_) (Some false) = Ok m -> ~ In "is_save_model_init_file" (map fst (args_of option_)) ->
    set_hybridized_gru_model construct from_file state_file load_state set_scalers args_of fit option_ i = Err RuntimeError.
  Proof.
    intros I F C N. unfold set_hybridized_gru_model. replace (existsb (String.eqb option_) gru_options) with true.
    2: { symmetry. apply existsb_exists. exists option_. split; [exact I|apply String.eqb_refl]. }
    destruct (F "features_in") as [s1 ->]. destruct (F "features_out") as [s2 ->]. cbn [rbind]. unfold build, set_hybridized_model.
    assert (E : init_model (klass_of GRU) (construct GRU) (from_file GRU) (Some (args_of option_)) None = Ok m).
    { apply init_model_iff. left. exists (args_of option_). split; [reflexivity|]. left. now repeat split. }
    rewrite E. reflexivity.
  Qed.
  (** Constitutive models and layers of known names are hybridized, with the input
      residual connection for the elastic layer only. *)
  Theorem rcm_hybridized name a b m : In name rcm_names -> a <> POther -> b <> POther ->
    ~ In "is_save_model_init_file" (map fst (args_of name)) -> construct RCM (args_of name) (Some false) = Ok m ->
    set_hybridized_rcm_model construct from_file state_file load_state set_scalers args_of name (ITuple [a; b]) = Ok (m, [a; b], false).
  Proof.
    intros I Ha Hb N C. unfold set_hybridized_rcm_model. replace (existsb (String.eqb name) rcm_names) with true.
    2: { symmetry. apply existsb_exists. exists name. split; [exact I|apply String.eqb_refl]. }
    unfold build. apply hybridized_model_iff. exists m, m. split; [left; exists (args_of name); split; [reflexivity|left; now repeat split]|].
    split; [now left|]. split; [now left|]. split; [|reflexivity]. split; [reflexivity|]. now exists a, b.
  Qed.
  Theorem layer_hybridized layer i m l b : set_hybridized_material_layer construct from_file state_file load_state set_scalers args_of layer i = Ok (m, l, b) <->
    two_ints i l /\ ((layer = "batched_elastic" /\ construct ElasticLayer (args_of layer) None = Ok m /\ b = true) \/
                     (layer = "vd_composition" /\ construct VolDevLayer (args_of layer) None = Ok m /\ b = false)).
  Proof.
    unfold set_hybridized_material_layer, build. destruct (String.eqb_spec layer "batched_elastic") as [->|N1].
    - rewrite hybridized_model_iff. split.
      + intros (m0 & m1 & C & [(_ & ->)|(p & s & H & _)] & [(_ & ->)|(q & H2 & _)] & T & R); try discriminate. injection R as <-. split; [exact T|]. left.
        destruct C as [(a & G & [(G' & _)|(_ & C)])|(G & _)]; try discriminate. injection G as <-. now repeat split.
      + intros [T [(_ & C & ->)|(H & _)]]; [|discriminate]. exists m, m. split; [left; exists (args_of "batched_elastic"); split; [reflexivity|now right]|].
        split; [now left|]. split; [now left|]. now split.
    - destruct (String.eqb_spec layer "vd_composition") as [->|N2].
      + rewrite hybridized_model_iff. split.
        * intros (m0 & m1 & C & [(_ & ->)|(p & s & H & _)] & [(_ & ->)|(q & H2 & _)] & T & R); try discriminate. injection R as <-. split; [exact T|]. right.
          destruct C as [(a & G & [(G' & _)|(_ & C)])|(G & _)]; try discriminate. injection G as <-. now repeat split.
        * intros [T [(H & _)|(_ & C & ->)]]; [discriminate|]. exists m, m. split; [left; exists (args_of "vd_composition"); split; [reflexivity|now right]|].
          split; [now left|]. split; [now left|]. now split.
      + split; [discriminate|]. intros [_ [(H & _)|(H & _)]]; contradiction.
  Qed.
  (** Hence no hybridization scheme of the script can be trained. *)
  Theorem hybridization_schemes_refuted fit n : exists e,
    hyb_models_dict construct from_file state_file load_state set_scalers args_of fit n = Err e.
  Proof.
    unfold hyb_models_dict. destruct n as [|[|[|[|[|n]]]]]; cbn [scheme rbind rmap build_component]; [| | | | |eauto].
    1,2,3,4: match goal with |- context [set_hybridized_gru_model ?c ?f ?s ?l ?t ?a ?g ?o ?i] => destruct (gru_hybridized_refuted g o i) as [e H]; rewrite H end; cbn; eauto.
    destruct (gru_hybridized_refuted fit "strain_to_stress" (ITuple [PInt 1; PInt 0])) as [e H]. rewrite H. cbn [rbind].
    destruct (set_hybridized_rcm_model _ _ _ _ _ _ _ _); cbn; eauto.
  Qed.
End ScriptLaws.

(** The schemes, were their models there, are the compositions of their
    descriptions, whatever the models: [step] gives the function of each component
    and layers of residual connection read the strain beside their input. *)
Definition residual_of (c : component) : bool := match c with LayerOf l => String.eqb l "batched_elastic" | _ => false end.
Definition scheme_models {Fe} (step : component -> Fe -> Fe) (l : list (string * (Z * Z) * component)) : dict (hmodel Fe) :=
  map (fun '(n, (r, c), k) => (n, mkHm r c (residual_of k) (step k) false false None)) l.
Definition hyb_of {Fe} (add : Fe -> Fe -> Fe) (additive : bool) (l : list Fe) : res Fe :=
  match l with [] => Err IndexError | x :: t => Ok (if additive then fold_left add t x else x) end.
Theorem scheme_descriptions {Fe} (cat add : Fe -> Fe -> Fe) (step : component -> Fe -> Fe) x :
  let run n := rbind (scheme n) (fun '(l, a) => forward cat (hyb_of add a) (scheme_models step l) x) in
  let gru o := step (GruOf o) in
  run 0%nat = Ok (gru "strain_to_stress" x) /\
  run 1%nat = Ok (step (LayerOf "batched_elastic") (cat (gru "strain_to_pstrain" x) x)) /\
  run 2%nat = Ok (step (LayerOf "vd_composition") (gru "strain_to_stressvd" x)) /\
  run 3%nat = Ok (step (LayerOf "vd_composition") (gru "strain_i1_i2_to_stressvd" x)) /\
  run 4%nat = Ok (add (step (RcmOf "drucker_prager") x) (gru "strain_to_stress" x)).
Proof. repeat split. Qed.

(** ** Cases *)
Example ex_build : let b k := @build nat nat nat nat (fun _ a s => Ok (length a + match s with None => 0 | Some _ => 10 end)%nat) (fun _ _ => Ok 7%nat)
    (fun p => if String.eqb p "best.pt" then Some 100%nat else None) (fun m s => Ok (m + s)%nat) (fun m i o => (m + match i with Some x => x | None => 0 end)%nat) k in
  b RCM (ITuple [PInt 0; PInt 1]) (Some [("E", 1%nat)]) None (Some "best.pt") (PBool false) DNone = Ok (111%nat, [PInt 0; PInt 1], false) /\
  b RCM (ITuple [PInt 0; PInt 1]) None (Some "init.pkl") None (PBool false) DNone = Ok (7%nat, [PInt 0; PInt 1], false) /\
  b ElasticLayer (ITuple [PInt 0; PInt 1]) None (Some "init.pkl") None (PBool false) DNone = Err RuntimeError /\
  b Regressor (ITuple [PInt 0; PInt 1]) (Some []) None None (PBool true) (DDict [("features_in", 5%nat)]) = Ok (5%nat, [PInt 0; PInt 1], true) /\
  b RCM (ITuple [PInt 0]) (Some []) None None (PBool true) DNone = Err RuntimeError.
Proof. repeat split. Qed.

Print Assumptions hybridized_model_iff.
Print Assumptions arguments_override_file.
Print Assumptions partial_scalers_refuted.
Print Assumptions boolean_indices_refuted.
Print Assumptions gru_hybridized_refuted.
Print Assumptions gru_scalers_refused.
Print Assumptions rcm_hybridized.
Print Assumptions layer_hybridized.
Print Assumptions hybridization_schemes_refuted.
Print Assumptions scheme_descriptions.
