(** Properties of the material sections of a Links input file
    (LinksMatModel.v). *)
From Coq Require Import Reals Lra String Ascii List Bool Arith ZArith Lia.
From Verif Require Import Lib PyStr PyDict TextLines SpecimenModel SpecimenProps LinksFileModel LinksFileProps LinksMatModel.
Import ListNotations.
Local Open Scope string_scope.
Local Open Scope list_scope.

(** ** Specification *)
(** A left-aligned number is one word followed by blanks; the word is read as
    the rounded number; there is no letter t. *)
Record left_laws {C} (pf : string -> res C) (lfmt : C -> string) (rnd : C -> C) : Prop := {
  ll_word : forall c, exists w k, lfmt c = (w ++ spaces (S k))%string /\ words w = [w] /\ pf w = Ok (rnd c);
  ll_t : forall c, has_ci "t" (lfmt c) = false
}.
(** The reader of a line of numbers. *)
Definition numbers {C} (pf : string -> res C) (line : string) : res (list C) := rmap pf (words line).
(** Piecewise linear interpolation of a table of points. *)
Fixpoint interp (t : list (R * R)) (x : R) : R :=
  match t with
  | (p, y) :: (((q, z) :: _) as rest) =>
    if Rle_dec x q then (y + (z - y) * ((x - p) / (q - p)))%R else interp rest x
  | [(_, y)] => y
  | [] => 0%R
  end.
(** torch.linspace(0.0, 2.0, steps=n) *)
Definition lin (n : nat) : list R := map (fun i => (2 * INR i / INR (n - 1))%R) (seq 0 n).

Section Read.
  Context {C : Type} (pf : string -> res C) (lfmt : C -> string) (rnd : C -> C) (linspace : nat -> list C).
  Hypothesis laws : left_laws pf lfmt rnd.

  Lemma app_assoc_s (a b c : string) : ((a ++ b) ++ c = a ++ (b ++ c))%string.
  Proof. induction a as [|x a IH]; [reflexivity|]. cbn. now rewrite IH. Qed.
  Lemma words_left c s : exists w, words (lfmt c ++ s)%string = w :: words s /\ pf w = Ok (rnd c).
  Proof.
    destruct (ll_word _ _ _ laws c) as [w [k [E [W P]]]]. exists w. split; [|exact P].
    rewrite E, app_assoc_s. cbn [spaces]. change ((String " " (spaces k)) ++ s)%string with (String " " (spaces k ++ s)).
    rewrite words_space, W, words_spaces. reflexivity.
  Qed.
  Lemma join_nil_cons a l : join "" (a :: l) = (a ++ join "" l)%string.
  Proof. destruct l; [|reflexivity]. cbn. induction a as [|x a IH]; [reflexivity|]. cbn. now rewrite <- IH. Qed.
  Lemma words_row cs tail : exists ws, words (join "" (map lfmt cs) ++ tail)%string = ws ++ words tail /\ rmap pf ws = Ok (map rnd cs).
  Proof.
    induction cs as [|c cs [ws [E F]]]; [exists []; split; reflexivity|].
    destruct (words_left c (join "" (map lfmt cs) ++ tail)) as [w [E1 P]].
    exists (w :: ws). cbn [map]. rewrite join_nil_cons, app_assoc_s, E1, E. split; [reflexivity|].
    cbn [rmap]. rewrite P. cbn [rbind]. rewrite F. reflexivity.
  Qed.
  Lemma num_line_words phase d keys tail cs :
    rmap (num d) keys = Ok cs ->
    exists line ws, num_line lfmt phase d keys tail = Ok line /\ words line = ws ++ words tail /\ rmap pf ws = Ok (map rnd cs).
  Proof.
    intros E. destruct (words_row cs tail) as [ws [W F]].
    exists (spacing phase ++ join "" (map lfmt cs) ++ tail)%string, ws. unfold num_line. rewrite E. split; [reflexivity|].
    split; [|exact F]. unfold spacing. now rewrite words_spaces.
  Qed.
  Lemma num_line_read phase d keys cs : rmap (num d) keys = Ok cs ->
    exists line, num_line lfmt phase d keys "" = Ok line /\ numbers pf line = Ok (map rnd cs).
  Proof.
    intros E. destruct (num_line_words phase d keys "" cs E) as [l [ws [E1 [E2 E3]]]]. exists l. split; [exact E1|].
    unfold numbers. rewrite E2. cbn [words]. change (words "") with (@nil string). rewrite app_nil_r. exact E3.
  Qed.
  Lemma words_count phase n : words (spacing phase ++ ljust 4 (nat_str n))%string = [nat_str n].
  Proof. unfold spacing, ljust. now rewrite words_spaces, words_trail, words_nat. Qed.

  (** The descriptors are the numbers v under each of the keys. *)
  Definition holds (d : descr C) (v : string -> C) (keys : list string) : Prop :=
    forall k, In k keys -> gget String.eqb d k = Some (DNum (v k)).
  Lemma holds_nums d v keys : holds d v keys -> rmap (num d) keys = Ok (map v keys).
  Proof. intros H. apply rmap_all. intros k I. unfold num. now rewrite (H k I). Qed.
  Lemma rows_read phase d v rows :
    (forall r, In r rows -> holds d v (fst r)) ->
    exists nums, rmap (fun r => num_line lfmt phase d (fst r) (snd r)) rows = Ok nums /\ Forall2 (fun r l => exists ws, words l = ws ++ words (snd r) /\ rmap pf ws = Ok (map rnd (map v (fst r)))) rows nums.
  Proof.
    induction rows as [|r rows IH]; intros H; [exists []; split; constructor|].
    destruct IH as [nums [E F]]; [intros; apply H; right; assumption|].
    destruct (num_line_words phase d (fst r) (snd r) (map v (fst r)) (holds_nums d v (fst r) (H r (or_introl eq_refl))))
      as [l [ws [E1 [E2 E3]]]].
    exists (l :: nums). cbn [rmap]. rewrite E1. cbn [rbind]. rewrite E. split; [reflexivity|]. constructor; [|exact F].
    exists ws. split; assumption.
  Qed.
  Lemma head_words phase name : words name = [name] -> words (nat_str phase ++ " " ++ name)%string = [nat_str phase; name].
  Proof.
    intros W. change (nat_str phase ++ " " ++ name)%string with (nat_str phase ++ String " " name)%string.
    rewrite words_space, words_nat, W. reflexivity.
  Qed.
  Lemma plain_row (keys : list string) (v : string -> C) l :
    (exists ws, words l = ws ++ words "" /\ rmap pf ws = Ok (map rnd (map v keys))) -> numbers pf l = Ok (map rnd (map v keys)).
  Proof. intros [ws [E F]]. unfold numbers. rewrite E. change (words "") with (@nil string). now rewrite app_nil_r. Qed.

  Lemma hard_read phase d n f :
    gget String.eqb d "n_hard_point" = Some (DCount n) -> gget String.eqb d "hardening_law" = Some (DLaw f) ->
    exists count table, hard_lines lfmt linspace phase d = Ok (count :: table) /\ words count = [nat_str n] /\
      map (numbers pf) table = map (fun p => Ok [rnd p; rnd (f p)]) (linspace n).
  Proof.
    intros H1 H2. unfold hard_lines. rewrite H1, H2. eexists _, _. split; [reflexivity|]. split; [apply words_count|].
    rewrite map_map. apply map_ext. intros p. unfold numbers, spacing. rewrite words_spaces.
    destruct (words_left p (lfmt (f p))) as [w [E1 P1]]. rewrite E1.
    destruct (words_left (f p) "") as [v [E2 P2]].
    assert (E3 : (lfmt (f p) ++ "")%string = lfmt (f p)) by (generalize (lfmt (f p)); intros s; induction s as [|x s IH]; [reflexivity|cbn; now rewrite IH]).
    rewrite E3 in E2. rewrite E2. change (words "") with (@nil string). cbn [rmap]. rewrite P1. cbn [rbind]. rewrite P2. reflexivity.
  Qed.

  Lemma section_lines phase d v name keys :
    gget String.eqb d "name" = Some (DText name) -> required name = Ok keys -> forallb (has d) keys = true ->
    (forall r, In r (number_rows name) -> holds d v (fst r)) ->
    exists nums,
      material_lines lfmt linspace phase d =
        rbind (if String.eqb name "ELASTIC" then Ok [] else hard_lines lfmt linspace phase d) (fun hard =>
        Ok ((nat_str phase ++ " " ++ name)%string :: nums ++ hard)) /\
      Forall2 (fun r l => exists ws, words l = ws ++ words (snd r) /\ rmap pf ws = Ok (map rnd (map v (fst r)))) (number_rows name) nums.
  Proof.
    intros Hn Hr Hh Hd. destruct (rows_read phase d v _ Hd) as [nums [E F]]. exists nums. split; [|exact F].
    unfold material_lines. rewrite Hn, Hr. cbn [rbind]. rewrite Hh. cbn [negb]. rewrite E. reflexivity.
  Qed.
  Ltac present Hn Hd H1 H2 H3 :=
    unfold base_keys, hard_keys; cbn [app forallb]; unfold has; rewrite Hn, ?H1, ?H2, ?H3, ?Hd by (cbn; tauto); reflexivity.

  (** ** Each model's section is read back *)
  Theorem links_elastic_section phase d v :
    gget String.eqb d "name" = Some (DText "ELASTIC") -> holds d v ["density"; "young"; "poisson"] ->
    exists head l1 l2,
      material_lines lfmt linspace phase d = Ok [head; l1; l2] /\
      words head = [nat_str phase; "ELASTIC"] /\
      numbers pf l1 = Ok [rnd (v "density")] /\ numbers pf l2 = Ok [rnd (v "young"); rnd (v "poisson")].
  Proof.
    intros Hn Hd.
    destruct (section_lines phase d v "ELASTIC" base_keys Hn eq_refl) as [nums [E F]].
    - present Hn Hd Hn Hn Hn.
    - intros r [<-|[<-|[]]] k Hk; apply Hd; cbn in *; tauto.
    - change (number_rows "ELASTIC") with [(["density"], ""); (["young"; "poisson"], "")] in F.
      inversion F as [|r1 l1 rs1 ls1 F1 G1]; subst. inversion G1 as [|r2 l2 rs2 ls2 F2 G2]; subst. inversion G2; subst.
      exists (nat_str phase ++ " " ++ "ELASTIC")%string, l1, l2. split; [exact E|]. split; [now apply head_words|].
      split; [exact (plain_row ["density"] v l1 F1)|exact (plain_row ["young"; "poisson"] v l2 F2)].
  Qed.

  Theorem links_von_mises_section phase d v n f p :
    gget String.eqb d "name" = Some (DText "VON_MISES") -> holds d v ["density"; "young"; "poisson"] ->
    gget String.eqb d "n_hard_point" = Some (DCount n) -> gget String.eqb d "hardening_law" = Some (DLaw f) ->
    gget String.eqb d "hardening_parameters" = Some p ->
    exists head l1 l2 count table,
      material_lines lfmt linspace phase d = Ok (head :: l1 :: l2 :: count :: table) /\
      words head = [nat_str phase; "VON_MISES"] /\
      numbers pf l1 = Ok [rnd (v "density")] /\ numbers pf l2 = Ok [rnd (v "young"); rnd (v "poisson")] /\
      words count = [nat_str n] /\ map (numbers pf) table = map (fun x => Ok [rnd x; rnd (f x)]) (linspace n).
  Proof.
    intros Hn Hd H1 H2 H3.
    destruct (section_lines phase d v "VON_MISES" (base_keys ++ hard_keys) Hn eq_refl) as [nums [E F]].
    - present Hn Hd H1 H2 H3.
    - intros r [<-|[<-|[]]] k Hk; apply Hd; cbn in *; tauto.
    - change (number_rows "VON_MISES") with [(["density"], ""); (["young"; "poisson"], "")] in F.
      inversion F as [|r1 l1 rs1 ls1 F1 G1]; subst. inversion G1 as [|r2 l2 rs2 ls2 F2 G2]; subst. inversion G2; subst.
      destruct (hard_read phase d n f H1 H2) as [count [table [T1 [T2 T3]]]].
      exists (nat_str phase ++ " " ++ "VON_MISES")%string, l1, l2, count, table.
      split; [rewrite E; change (String.eqb "VON_MISES" "ELASTIC") with false; cbn [rbind]; rewrite T1; reflexivity|].
      split; [now apply head_words|].
      split; [exact (plain_row ["density"] v l1 F1)|]. split; [exact (plain_row ["young"; "poisson"] v l2 F2)|].
      split; assumption.
  Qed.

  Theorem links_drucker_prager_section phase d v n f p :
    gget String.eqb d "name" = Some (DText "DRUCKER_PRAGER") ->
    holds d v ["density"; "young"; "poisson"; "friction_angle_deg"; "dilatancy_angle_deg"] ->
    gget String.eqb d "n_hard_point" = Some (DCount n) -> gget String.eqb d "hardening_law" = Some (DLaw f) ->
    gget String.eqb d "hardening_parameters" = Some p ->
    exists head l1 l2 ws count table,
      material_lines lfmt linspace phase d = Ok (head :: l1 :: l2 :: count :: table) /\
      words head = [nat_str phase; "DRUCKER_PRAGER"] /\
      numbers pf l1 = Ok [rnd (v "density")] /\
      words l2 = ws ++ ["3"] /\
      rmap pf ws = Ok [rnd (v "young"); rnd (v "poisson"); rnd (v "friction_angle_deg"); rnd (v "dilatancy_angle_deg")] /\
      words count = [nat_str n] /\ map (numbers pf) table = map (fun x => Ok [rnd x; rnd (f x)]) (linspace n).
  Proof.
    intros Hn Hd H1 H2 H3.
    destruct (section_lines phase d v "DRUCKER_PRAGER" (base_keys ++ ["friction_angle_deg"; "dilatancy_angle_deg"] ++ hard_keys) Hn eq_refl)
      as [nums [E F]].
    - present Hn Hd H1 H2 H3.
    - intros r [<-|[<-|[]]] k Hk; apply Hd; cbn in *; tauto.
    - change (number_rows "DRUCKER_PRAGER")
        with [(["density"], ""); (["young"; "poisson"; "friction_angle_deg"; "dilatancy_angle_deg"], "3")] in F.
      inversion F as [|r1 l1 rs1 ls1 F1 G1]; subst. inversion G1 as [|r2 l2 rs2 ls2 F2 G2]; subst. inversion G2; subst.
      destruct (hard_read phase d n f H1 H2) as [count [table [T1 [T2 T3]]]]. destruct F2 as [ws [W1 W2]].
      exists (nat_str phase ++ " " ++ "DRUCKER_PRAGER")%string, l1, l2, ws, count, table.
      split; [rewrite E; change (String.eqb "DRUCKER_PRAGER" "ELASTIC") with false; cbn [rbind]; rewrite T1; reflexivity|].
      split; [now apply head_words|].
      split; [exact (plain_row ["density"] v l1 F1)|]. repeat split; assumption.
  Qed.

  Theorem links_lou_section phase d v n f p :
    gget String.eqb d "name" = Some (DText "LOU") ->
    holds d v ["density"; "young"; "poisson"; "yield_a_init"; "a_hard_slope"; "yield_b_init"; "b_hard_slope";
               "yield_c_init"; "c_hard_slope"; "yield_d_init"; "d_hard_slope"] ->
    gget String.eqb d "n_hard_point" = Some (DCount n) -> gget String.eqb d "hardening_law" = Some (DLaw f) ->
    gget String.eqb d "hardening_parameters" = Some p ->
    exists head l1 l2 la lb lc ld count table,
      material_lines lfmt linspace phase d = Ok (head :: l1 :: l2 :: la :: lb :: lc :: ld :: count :: table) /\
      words head = [nat_str phase; "LOU"] /\
      numbers pf l1 = Ok [rnd (v "density")] /\ numbers pf l2 = Ok [rnd (v "young"); rnd (v "poisson")] /\
      numbers pf la = Ok [rnd (v "yield_a_init"); rnd (v "a_hard_slope")] /\
      numbers pf lb = Ok [rnd (v "yield_b_init"); rnd (v "b_hard_slope")] /\
      numbers pf lc = Ok [rnd (v "yield_c_init"); rnd (v "c_hard_slope")] /\
      numbers pf ld = Ok [rnd (v "yield_d_init"); rnd (v "d_hard_slope")] /\
      words count = [nat_str n] /\ map (numbers pf) table = map (fun x => Ok [rnd x; rnd (f x)]) (linspace n).
  Proof.
    intros Hn Hd H1 H2 H3.
    destruct (section_lines phase d v "LOU" (base_keys ++ ["yield_a_init"; "a_hard_slope"; "yield_b_init"; "b_hard_slope"; "yield_c_init"; "c_hard_slope";
                        "yield_d_init"; "d_hard_slope"] ++ hard_keys) Hn eq_refl) as [nums [E F]].
    - present Hn Hd H1 H2 H3.
    - intros r [<-|[<-|[<-|[<-|[<-|[<-|[]]]]]]] k Hk; apply Hd; cbn in *; tauto.
    - change (number_rows "LOU") with [(["density"], ""); (["young"; "poisson"], "");
        (["yield_a_init"; "a_hard_slope"], ""); (["yield_b_init"; "b_hard_slope"], "");
        (["yield_c_init"; "c_hard_slope"], ""); (["yield_d_init"; "d_hard_slope"], "")] in F.
      inversion F as [|r1 l1 rs1 ls1 F1 G1]; subst. inversion G1 as [|r2 l2 rs2 ls2 F2 G2]; subst.
      inversion G2 as [|r3 l3 rs3 ls3 F3 G3]; subst. inversion G3 as [|r4 l4 rs4 ls4 F4 G4]; subst.
      inversion G4 as [|r5 l5 rs5 ls5 F5 G5]; subst. inversion G5 as [|r6 l6 rs6 ls6 F6 G6]; subst. inversion G6; subst.
      destruct (hard_read phase d n f H1 H2) as [count [table [T1 [T2 T3]]]].
      exists (nat_str phase ++ " " ++ "LOU")%string, l1, l2, l3, l4, l5, l6, count, table.
      split; [rewrite E; change (String.eqb "LOU" "ELASTIC") with false; cbn [rbind]; rewrite T1; reflexivity|].
      split; [now apply head_words|].
      split; [exact (plain_row ["density"] v l1 F1)|]. split; [exact (plain_row ["young"; "poisson"] v l2 F2)|].
      split; [exact (plain_row ["yield_a_init"; "a_hard_slope"] v l3 F3)|]. split; [exact (plain_row ["yield_b_init"; "b_hard_slope"] v l4 F4)|].
      split; [exact (plain_row ["yield_c_init"; "c_hard_slope"] v l5 F5)|]. split; [exact (plain_row ["yield_d_init"; "d_hard_slope"] v l6 F6)|].
      split; assumption.
  Qed.

  (** ** Refusals *)
  (** Nothing but the four names is accepted, and any missing descriptor is
      refused whatever the values of the others. *)
  Theorem links_material_unknown phase d name :
    gget String.eqb d "name" = Some (DText name) -> ~ In name ["ELASTIC"; "VON_MISES"; "DRUCKER_PRAGER"; "LOU"] ->
    material_lines lfmt linspace phase d = Err RuntimeError.
  Proof.
    intros Hn Hi. unfold material_lines. rewrite Hn. unfold required.
    destruct (String.eqb_spec name "ELASTIC"); [subst; cbn in Hi; tauto|].
    destruct (String.eqb_spec name "VON_MISES"); [subst; cbn in Hi; tauto|].
    destruct (String.eqb_spec name "DRUCKER_PRAGER"); [subst; cbn in Hi; tauto|].
    destruct (String.eqb_spec name "LOU"); [subst; cbn in Hi; tauto|]. reflexivity.
  Qed.
  Theorem links_material_missing phase d name keys k :
    gget String.eqb d "name" = Some (DText name) ->
    In (name, keys)
      [("ELASTIC", ["density"; "young"; "poisson"]);
       ("VON_MISES", ["density"; "young"; "poisson"; "n_hard_point"; "hardening_law"; "hardening_parameters"]);
       ("DRUCKER_PRAGER", ["density"; "young"; "poisson"; "friction_angle_deg"; "dilatancy_angle_deg";
                           "n_hard_point"; "hardening_law"; "hardening_parameters"]);
       ("LOU", ["density"; "young"; "poisson"; "yield_a_init"; "a_hard_slope"; "yield_b_init"; "b_hard_slope";
                "yield_c_init"; "c_hard_slope"; "yield_d_init"; "d_hard_slope";
                "n_hard_point"; "hardening_law"; "hardening_parameters"])] ->
    In k keys -> gget String.eqb d k = None -> material_lines lfmt linspace phase d = Err RuntimeError.
  Proof.
    intros Hn Hk I Ho.
    assert (A : exists ks, required name = Ok ks /\ In k ks).
    { repeat (destruct Hk as [E|Hk]; [injection E as <- <-; eexists; split; [reflexivity|];
        cbn in I; cbn; tauto|]). destruct Hk. }
    destruct A as [ks [A1 A2]]. unfold material_lines. rewrite Hn, A1. cbn [rbind].
    assert (B : forallb (has d) ks = false).
    { destruct (forallb (has d) ks) eqn:E; [|reflexivity]. rewrite forallb_forall in E. specialize (E k A2).
      unfold has in E. rewrite Ho in E. discriminate E. }
    rewrite B. reflexivity.
  Qed.

  (** ** The section never hides a keyword of the file *)
  Lemma num_line_no_t phase d keys tail l : has_ci "t" tail = false -> num_line lfmt phase d keys tail = Ok l -> has_ci "t" l = false.
  Proof.
    intros Ht E. unfold num_line in E. destruct (rmap (num d) keys) as [cs|e]; [|discriminate E]. injection E as <-.
    unfold spacing. rewrite !has_ci_app, spaces_no_t, Ht. cbn [orb]. rewrite orb_false_r. apply join_no_t; [reflexivity|].
    intros x H. apply in_map_iff in H as [c [<- _]]. apply (ll_t _ _ _ laws).
  Qed.
  Lemma material_clean phase d lines : material_lines lfmt linspace phase d = Ok lines -> Forall clean lines.
  Proof.
    unfold material_lines. destruct (gget String.eqb d "name") as [[name| | | | ]|]; try (intros H; discriminate H).
    destruct (required name) as [keys|e] eqn:Er; [|intros H; discriminate H]. cbn [rbind].
    destruct (negb (forallb (has d) keys)); [intros H; discriminate H|].
    destruct (rmap _ (number_rows name)) as [nums|e] eqn:En; [|intros H; discriminate H]. cbn [rbind].
    assert (Hh : clean (nat_str phase ++ " " ++ name)%string).
    { unfold required in Er.
      destruct (String.eqb_spec name "ELASTIC") as [->|_].
      { intros kw Hk. repeat (destruct Hk as [<-|Hk]; [apply (search_kw_absent "n"); [reflexivity|];
          rewrite !has_ci_app, digits_no_ci; [reflexivity|reflexivity|apply digit_lower|apply nat_str_digits]|]). destruct Hk. }
      destruct (String.eqb_spec name "VON_MISES") as [->|_]; [apply no_t_clean; now rewrite !has_ci_app, nat_no_t|].
      destruct (String.eqb_spec name "DRUCKER_PRAGER") as [->|_]; [apply no_t_clean; now rewrite !has_ci_app, nat_no_t|].
      destruct (String.eqb_spec name "LOU") as [->|_]; [apply no_t_clean; now rewrite !has_ci_app, nat_no_t|discriminate Er]. }
    assert (Hnums : Forall clean nums).
    { apply rmap_ok in En.
      assert (Hs : Forall (fun r => has_ci "t" (snd r) = false) (number_rows name)).
      { unfold number_rows. destruct (String.eqb name "DRUCKER_PRAGER"); [repeat constructor|]. 
        destruct (String.eqb name "LOU"); repeat constructor. }
      induction En as [|r l rs ls E1 _ IH]; constructor; inversion Hs; subst; [|now apply IH].
      apply no_t_clean. eapply num_line_no_t; eassumption. }
    destruct (String.eqb name "ELASTIC"); cbn [rbind].
    { intros E. injection E as <-. constructor; [exact Hh|]. now rewrite app_nil_r. }
    unfold hard_lines. destruct (gget String.eqb d "n_hard_point") as [[| |n| | ]|];
      destruct (gget String.eqb d "hardening_law") as [[| | |law| ]|]; try (intros H; discriminate H).
    cbn [rbind]. intros E. injection E as <-. constructor; [exact Hh|]. apply Forall_app. split; [exact Hnums|].
    constructor.
    - apply no_t_clean. unfold spacing, ljust. now rewrite !has_ci_app, !spaces_no_t, nat_no_t.
    - apply Forall_forall. intros x H. apply in_map_iff in H as [p [<- _]]. apply no_t_clean.
      unfold spacing. now rewrite !has_ci_app, spaces_no_t, !(ll_t _ _ _ laws).
  Qed.
  Theorem links_materials_clean phases ds lines :
    materials_lines lfmt linspace phases ds = Ok lines -> Forall clean lines.
  Proof.
    revert lines. induction phases as [|p ps IH]; intros lines; cbn [materials_lines]; [intros E; injection E as <-; constructor|].
    destruct (gget Nat.eqb ds p) as [d|]; [|intros H; discriminate H].
    destruct (material_lines lfmt linspace p d) as [l|e] eqn:El; [|intros H; discriminate H]. cbn [rbind].
    destruct (materials_lines lfmt linspace ps ds) as [ls|e] eqn:Els; [|intros H; discriminate H]. cbn [rbind].
    intros E. injection E as <-. apply Forall_app. split; [exact (material_clean p d l El)|now apply IH].
  Qed.
  (** The sections follow each other in the order of the phases. *)
  Theorem links_materials_sections phases ds lines :
    materials_lines lfmt linspace phases ds = Ok lines <->
    exists sections, lines = concat sections /\
      Forall2 (fun p l => exists d, gget Nat.eqb ds p = Some d /\ material_lines lfmt linspace p d = Ok l) phases sections.
  Proof.
    revert lines. induction phases as [|p ps IH]; intros lines; cbn [materials_lines].
    - split; [intros E; injection E as <-; exists []; split; constructor|]. intros [ss [-> F]]. inversion F. reflexivity.
    - split.
      + destruct (gget Nat.eqb ds p) as [d|] eqn:Ed; [|intros H; discriminate H].
        destruct (material_lines lfmt linspace p d) as [l|e] eqn:El; [|intros H; discriminate H]. cbn [rbind].
        destruct (materials_lines lfmt linspace ps ds) as [ls|e] eqn:Els; [|intros H; discriminate H]. cbn [rbind].
        intros E. injection E as <-. destruct (proj1 (IH ls) eq_refl) as [ss [-> F]].
        exists (l :: ss). split; [reflexivity|]. constructor; [|exact F]. exists d. split; assumption.
      + intros [ss [-> F]]. inversion F as [|p' l ps' ss' [d [E1 E2]] F']; subst.
        rewrite E1, E2. cbn [rbind]. rewrite (proj2 (IH (concat ss'))); [reflexivity|]. exists ss'. split; [reflexivity|exact F'].
  Qed.
  (** so the reader of the whole file (LinksFileProps.v) finds the other
      sections whatever the materials. *)
  Theorem links_materials_free ip increm phases ds mats :
    materials_lines lfmt linspace phases ds = Ok mats ->
    Forall clean (free_lines ip increm []) -> Forall clean (free_lines ip increm mats).
  Proof.
    intros E H. unfold free_lines in *. rewrite !Forall_app in *. destruct H as [H1 [H2 _]].
    split; [exact H1|]. split; [exact H2|]. eapply links_materials_clean; exact E.
  Qed.

  (** ** The law matters only at the points *)
  Theorem links_hardening_points phase d n f g :
    gget String.eqb d "n_hard_point" = Some (DCount n) -> gget String.eqb d "hardening_law" = Some (DLaw f) ->
    (forall x, In x (linspace n) -> f x = g x) ->
    material_lines lfmt linspace phase (gset String.eqb d "hardening_law" (DLaw g)) = material_lines lfmt linspace phase d.
  Proof.
    intros H1 H2 Hfg.
    assert (G : forall k, k <> "hardening_law" -> gget String.eqb (gset String.eqb d "hardening_law" (DLaw g)) k = gget String.eqb d k).
    { intros k Hk. rewrite (gget_gset String.eqb String.eqb_eq). destruct (String.eqb_spec "hardening_law" k); [subst; contradiction|reflexivity]. }
    assert (G' : gget String.eqb (gset String.eqb d "hardening_law" (DLaw g)) "hardening_law" = Some (DLaw g)).
    { rewrite (gget_gset String.eqb String.eqb_eq). reflexivity. }
    set (d' := gset String.eqb d "hardening_law" (DLaw g)) in *.
    assert (Hh : forall k, has d' k = has d k).
    { intros k. unfold has. destruct (String.eqb_spec k "hardening_law") as [->|Hk]; [now rewrite G', H2|now rewrite G]. }
    assert (Hnum : forall r name, In r (number_rows name) -> num_line lfmt phase d' (fst r) (snd r) = num_line lfmt phase d (fst r) (snd r)).
    { intros r name Hr. unfold num_line.
      assert (E : rmap (num d') (fst r) = rmap (num d) (fst r)); [|now rewrite E].
      assert (Hk : forall k, In k (fst r) -> k <> "hardening_law").
      { unfold number_rows in Hr. intros k Hk. 
        destruct (String.eqb name "DRUCKER_PRAGER"); [|destruct (String.eqb name "LOU")]; cbn in Hr;
          repeat (destruct Hr as [<-|Hr]; [cbn in Hk; intuition (subst; discriminate)|]); destruct Hr. }
      induction (fst r) as [|k ks IH]; [reflexivity|]. cbn [rmap]. unfold num at 1 3. rewrite G by (apply Hk; left; reflexivity).
      rewrite IH; [reflexivity|]. intros; apply Hk; right; assumption. }
    unfold material_lines. rewrite (G "name") by discriminate.
    destruct (gget String.eqb d "name") as [[name| | | | ]|]; try reflexivity.
    destruct (required name) as [keys|e]; [|reflexivity]. cbn [rbind].
    assert (Ef : forallb (has d') keys = forallb (has d) keys).
    { induction keys as [|k ks IH]; [reflexivity|]. cbn [forallb]. now rewrite Hh, IH. }
    rewrite Ef. destruct (negb (forallb (has d) keys)); [reflexivity|].
    assert (Er : rmap (fun r => num_line lfmt phase d' (fst r) (snd r)) (number_rows name)
                 = rmap (fun r => num_line lfmt phase d (fst r) (snd r)) (number_rows name)).
    { specialize (fun r => Hnum r name). revert Hnum. generalize (number_rows name). intros rows Hr.
      induction rows as [|r rows IH]; [reflexivity|]. cbn [rmap]. rewrite Hr by (left; reflexivity). rewrite IH; [reflexivity|].
      intros; apply Hr; right; assumption. }
    rewrite Er.
    assert (El : hard_lines lfmt linspace phase d' = hard_lines lfmt linspace phase d).
    { unfold hard_lines. rewrite G', (G "n_hard_point") by discriminate. rewrite H1, H2. f_equal. f_equal. 
      apply map_ext_in. intros x Hx. now rewrite (Hfg x Hx). }
    rewrite El. reflexivity.
  Qed.
End Read.

(** ** The hardening table *)
Local Open Scope R_scope.
Definition table_of (f : R -> R) (ps : list R) : list (R * R) := map (fun p => (p, f p)) ps.
(** Consecutive points are apart by at most h. *)
Fixpoint chain (h : R) (p : R) (ps : list R) : Prop :=
  match ps with [] => True | q :: qs => p < q <= p + h /\ chain h q qs end.

Lemma lerp_bound f L p q x h :
  p < q -> q <= p + h -> p <= x <= q ->
  (forall a b, p <= a <= q -> p <= b <= q -> Rabs (f a - f b) <= L * Rabs (a - b)) ->
  Rabs (f x - (f p + (f q - f p) * ((x - p) / (q - p)))) <= L * h / 2.
Proof.
  intros Hpq Hh Hx HL. set (t := (x - p) / (q - p)).
  assert (Hd : 0 < q - p) by lra.
  assert (Ht : (q - p) * t = x - p) by (unfold t; field; lra).
  assert (T0 : 0 <= t) by (unfold t; apply Rmult_le_pos; [lra|left; now apply Rinv_0_lt_compat]).
  assert (T1 : t <= 1) by nra.
  assert (A : Rabs (f x - f p) <= L * (x - p)).
  { specialize (HL x p). rewrite (Rabs_right (x - p)) in HL by lra. apply HL; lra. }
  assert (B : Rabs (f x - f q) <= L * (q - x)).
  { specialize (HL x q). rewrite (Rabs_left1 (x - q)) in HL by lra. replace (- (x - q)) with (q - x) in HL by ring. apply HL; lra. }
  assert (C : Rabs (f q - f p) <= L * (q - p)).
  { specialize (HL q p). rewrite (Rabs_right (q - p)) in HL by lra. apply HL; lra. }
  assert (L0 : 0 <= L) by (pose proof (Rabs_pos (f q - f p)); nra).
  replace (f x - (f p + (f q - f p) * t)) with ((1 - t) * (f x - f p) + t * (f x - f q)) by ring.
  eapply Rle_trans; [apply Rabs_triang|]. rewrite !Rabs_mult, (Rabs_right (1 - t)), (Rabs_right t) by lra.
  assert (E1 : (1 - t) * Rabs (f x - f p) <= (1 - t) * (L * (x - p))) by (apply Rmult_le_compat_l; lra).
  assert (E2 : t * Rabs (f x - f q) <= t * (L * (q - x))) by (apply Rmult_le_compat_l; lra).
  assert (X1 : x - p = (q - p) * t) by lra. assert (X2 : q - x = (q - p) * (1 - t)) by lra.
  rewrite X1 in E1. rewrite X2 in E2.
  assert (Q : t * (1 - t) <= 1 / 4) by (pose proof (Rle_0_sqr (t - 1 / 2)) as Sq; unfold Rsqr in Sq; lra).
  assert (Q' : L * (q - p) * (t * (1 - t)) <= L * h * (1 / 4)).
  { apply Rmult_le_compat; [apply Rmult_le_pos; lra|nra|apply Rmult_le_compat_l; lra|exact Q]. }
  lra.
Qed.

Lemma last_in (q : R) qs : forall d, last (q :: qs) d = last (q :: qs) 0.
Proof. revert q. induction qs as [|r qs IH]; intros q d; [reflexivity|]. change (last (r :: qs) d = last (r :: qs) 0). apply IH. Qed.
Lemma chain_last h : forall ps p, chain h p ps -> p <= last (p :: ps) 0.
Proof.
  induction ps as [|q ps IH]; intros p H; [cbn; lra|]. destruct H as [H1 H2]. specialize (IH q H2).
  change (last (p :: q :: ps) 0) with (last (q :: ps) 0). lra.
Qed.
Lemma interp_bound f L h : forall ps p x,
  chain h p ps -> p <= x <= last (p :: ps) 0 -> 0 <= L -> 0 <= h ->
  (forall a b, p <= a <= last (p :: ps) 0 -> p <= b <= last (p :: ps) 0 -> Rabs (f a - f b) <= L * Rabs (a - b)) ->
  Rabs (f x - interp (table_of f (p :: ps)) x) <= L * h / 2.
Proof.
  induction ps as [|q ps IH]; intros p x Hc Hx HL Hh HLip.
  - cbn in *. replace x with p by lra. rewrite Rminus_diag_eq, Rabs_R0 by reflexivity. 
    assert (0 <= L * h) by (apply Rmult_le_pos; lra). lra.
  - destruct Hc as [Hq Hc]. change (last (p :: q :: ps) 0) with (last (q :: ps) 0) in *.
    pose proof (chain_last h ps q Hc) as Hl.
    change (interp (table_of f (p :: q :: ps)) x)
      with (if Rle_dec x q then f p + (f q - f p) * ((x - p) / (q - p)) else interp (table_of f (q :: ps)) x).
    destruct (Rle_dec x q) as [Hle|Hgt].
    + apply lerp_bound; try lra. intros a b Ha Hb. apply HLip; lra.
    + apply IH; try lra; try assumption. intros a b Ha Hb. apply HLip; lra.
Qed.

Lemma interp_affine s0 s1 : forall ps p x h,
  chain h p ps -> p <= x <= last (p :: ps) 0 -> interp (table_of (fun e => s0 + s1 * e) (p :: ps)) x = s0 + s1 * x.
Proof.
  induction ps as [|q ps IH]; intros p x h Hc Hx.
  - cbn in *. replace x with p by lra. reflexivity.
  - destruct Hc as [Hq Hc]. change (last (p :: q :: ps) 0) with (last (q :: ps) 0) in *.
    change (interp (table_of (fun e => s0 + s1 * e) (p :: q :: ps)) x)
      with (if Rle_dec x q then (s0 + s1 * p) + ((s0 + s1 * q) - (s0 + s1 * p)) * ((x - p) / (q - p))
            else interp (table_of (fun e => s0 + s1 * e) (q :: ps)) x).
    destruct (Rle_dec x q) as [Hle|Hgt]; [field; lra|]. apply (IH q x h Hc). lra.
Qed.

Definition lin_step (n : nat) : R := 2 / INR (n - 1).
Lemma lin_cons n : (2 <= n)%nat -> lin n = 0 :: map (fun i => INR i * lin_step n) (seq 1 (n - 1)).
Proof.
  intros H. unfold lin, lin_step. assert (P : INR (n - 1) <> 0) by (apply not_0_INR; lia).
  destruct n as [|n]; [lia|]. cbn [seq map]. f_equal; [cbn [INR]; field; exact P|].
  replace (S n - 1)%nat with n by lia. apply map_ext. intros i. field. replace (S n - 1)%nat with n in P by lia. exact P.
Qed.
Lemma chain_steps h : 0 < h -> forall k i, chain h (INR i * h) (map (fun j => INR j * h) (seq (S i) k)).
Proof.
  intros Hh. induction k as [|k IH]; intros i; [exact I|]. cbn [seq map chain]. split; [rewrite S_INR; lra|apply IH].
Qed.
Lemma last_steps h : forall k i, last (INR i * h :: map (fun j => INR j * h) (seq (S i) k)) 0 = INR (i + k) * h.
Proof.
  induction k as [|k IH]; intros i; [cbn; now rewrite Nat.add_0_r|].
  cbn [seq map]. change (last (INR (S i) * h :: map (fun j => INR j * h) (seq (S (S i)) k)) 0 = INR (i + S k) * h).
  rewrite IH. f_equal. f_equal. lia.
Qed.
Lemma lin_facts n : (2 <= n)%nat -> exists ps, lin n = 0 :: ps /\ chain (lin_step n) 0 ps /\ last (0 :: ps) 0 = 2.
Proof.
  intros H. assert (P : 0 < INR (n - 1)) by (apply lt_0_INR; lia).
  assert (S : 0 < lin_step n) by (unfold lin_step; apply Rmult_lt_0_compat; [lra|now apply Rinv_0_lt_compat]).
  eexists. split; [apply (lin_cons n H)|].
  pose proof (chain_steps (lin_step n) S (n - 1) 0) as A. pose proof (last_steps (lin_step n) (n - 1) 0) as B.
  cbn [INR] in A, B. rewrite Rmult_0_l in A, B. split; [exact A|]. rewrite B. unfold lin_step. rewrite Nat.add_0_l. field. lra.
Qed.

(** The table starts at the initial yield stress, ends at plastic strain 2 and
    has the requested number of points. *)
Theorem links_table_points n : (2 <= n)%nat ->
  length (lin n) = n /\ hd_error (lin n) = Some 0 /\ last (lin n) 0 = 2 /\
  forall i, (S i < n)%nat -> nth (S i) (lin n) 0 - nth i (lin n) 0 = 2 / INR (n - 1).
Proof.
  intros H. split; [unfold lin; now rewrite map_length, seq_length|].
  destruct (lin_facts n H) as [ps [E [_ L]]]. split; [now rewrite E|]. split; [now rewrite E|].
  intros i Hi. unfold lin.
  assert (N : forall j, (j < n)%nat -> nth j (map (fun i => 2 * INR i / INR (n - 1)) (seq 0 n)) 0 = 2 * INR j / INR (n - 1)).
  { intros j Hj. rewrite (nth_indep _ 0 ((fun i => 2 * INR i / INR (n - 1)) 0%nat)) by (now rewrite map_length, seq_length).
    rewrite (map_nth (fun i => 2 * INR i / INR (n - 1))). now rewrite seq_nth. }
  rewrite !N by lia. rewrite S_INR. field. apply not_0_INR. lia.
Qed.
(** Linear hardening is kept exactly up to plastic strain 2, whatever the
    number of points. *)
Theorem links_linear_hardening_exact n s0 s1 x : (2 <= n)%nat -> 0 <= x <= 2 ->
  interp (table_of (fun e => s0 + s1 * e) (lin n)) x = s0 + s1 * x.
Proof.
  intros H Hx. destruct (lin_facts n H) as [ps [E [C L]]]. rewrite E. apply (interp_affine s0 s1 ps 0 x (lin_step n) C). rewrite L. exact Hx.
Qed.
(** Any law with slopes at most L is kept up to L / (n - 1). *)
Theorem links_hardening_error n f L x : (2 <= n)%nat -> 0 <= x <= 2 ->
  (forall a b, 0 <= a <= 2 -> 0 <= b <= 2 -> Rabs (f a - f b) <= L * Rabs (a - b)) ->
  Rabs (f x - interp (table_of f (lin n)) x) <= L / INR (n - 1).
Proof.
  intros H Hx HL. destruct (lin_facts n H) as [ps [E [C La]]]. rewrite E.
  assert (L0 : 0 <= L).
  { specialize (HL 2 0). rewrite (Rabs_right (2 - 0)) in HL by lra. pose proof (Rabs_pos (f 2 - f 0)). specialize (HL ltac:(lra) ltac:(lra)). lra. }
  assert (P : 0 < INR (n - 1)) by (apply lt_0_INR; lia).
  replace (L / INR (n - 1)) with (L * lin_step n / 2) by (unfold lin_step; field; lra).
  apply interp_bound; try assumption; try (rewrite La; assumption).
  unfold lin_step. apply Rmult_le_pos; [lra|left; now apply Rinv_0_lt_compat].
Qed.
(** The bound is attained: a tent law between two points. *)
Theorem links_hardening_error_tight : exists f L x,
  (forall a b, 0 <= a <= 2 -> 0 <= b <= 2 -> Rabs (f a - f b) <= L * Rabs (a - b)) /\ 0 <= x <= 2 /\ 0 < L /\
  Rabs (f x - interp (table_of f (lin 2)) x) = L / INR (2 - 1).
Proof.
  exists (fun e => 1 - Rabs (e - 1)), 1, 1. split.
  { intros a b _ _. rewrite Rmult_1_l. replace (1 - Rabs (a - 1) - (1 - Rabs (b - 1))) with (- (Rabs (a - 1) - Rabs (b - 1))) by ring.
    rewrite Rabs_Ropp. eapply Rle_trans; [apply Rabs_triang_inv2|]. right. f_equal. ring. }
  split; [lra|]. split; [lra|].
  unfold lin. cbn [seq map table_of interp Nat.sub INR].
  destruct (Rle_dec 1 (2 * 1 / 1)) as [_|N]; [|exfalso; apply N; lra].
  replace (2 * 0 / 1 - 1) with (- (1)) by field. replace (2 * 1 / 1 - 1) with 1 by field.
  rewrite Rabs_Ropp, Rabs_R1. replace (1 - 1) with 0 by ring. rewrite Rabs_R0.
  match goal with |- Rabs ?a = _ => replace a with 1 by field end. rewrite Rabs_R1. field.
Qed.

(** ** What the section loses *)
Section Lost.
  Context (lfmt : R -> string).
  Definition vm (n : nat) (f : R -> R) : descr R :=
    [("name", DText "VON_MISES"); ("density", DNum 0); ("young", DNum 1); ("poisson", DNum 0);
     ("n_hard_point", DCount n); ("hardening_law", DLaw f); ("hardening_parameters", DParams)].
  (** With one point every linear law of the same initial yield stress gives the
      same section: the hardening is lost without an error. *)
  Theorem links_one_point_refuted phase s0 s1 s2 :
    exists lines, material_lines lfmt lin phase (vm 1 (fun e => s0 + s1 * e)) = Ok lines /\
                  material_lines lfmt lin phase (vm 1 (fun e => s0 + s2 * e)) = Ok lines.
  Proof.
    assert (Ex : exists lines, material_lines lfmt lin phase (vm 1 (fun e => s0 + s1 * e)) = Ok lines) by (eexists; reflexivity).
    destruct Ex as [lines E]. exists lines. split; [exact E|]. rewrite <- E.
    apply (links_hardening_points lfmt lin phase (vm 1 (fun e => s0 + s1 * e)) 1 (fun e => s0 + s1 * e) (fun e => s0 + s2 * e));
      [reflexivity|reflexivity|].
    intros x Hx. cbn [lin seq map] in Hx. destruct Hx as [<-|[]]. cbn [INR]. unfold Rdiv. ring.
  Qed.
  (** Beyond plastic strain 2 no law is described, however many points. *)
  Theorem links_beyond_two_refuted phase n : (2 <= n)%nat -> exists f g,
    f 3 <> g 3 /\ material_lines lfmt lin phase (vm n f) = material_lines lfmt lin phase (vm n g) /\
    exists lines, material_lines lfmt lin phase (vm n f) = Ok lines.
  Proof.
    intros H. exists (fun e => e), (fun e => Rmin e 2). split; [rewrite Rmin_right; lra|]. split; [|eexists; reflexivity].
    symmetry.
    apply (links_hardening_points lfmt lin phase (vm n (fun e => e)) n (fun e => e) (fun e => Rmin e 2)); [reflexivity|reflexivity|].
    intros x Hx. rewrite Rmin_left; [reflexivity|]. unfold lin in Hx. apply in_map_iff in Hx as [i [<- Hi]]. apply in_seq in Hi.
    assert (P : 0 < INR (n - 1)) by (apply lt_0_INR; lia).
    assert (Q : INR i <= INR (n - 1)) by (apply le_INR; lia).
    apply (Rmult_le_reg_r (INR (n - 1))); [exact P|]. replace (2 * INR i / INR (n - 1) * INR (n - 1)) with (2 * INR i) by (field; lra). lra.
  Qed.
End Lost.
Local Close Scope R_scope.

(** ** A concrete format *)
(** Powers of ten with a sign, in the format '<16.8e'. *)
Definition sci (c : bool * Z) : string :=
  ljust 16 ((if fst c then "-" else "") ++ "1.00000000e" ++ (if (snd c <? 0)%Z then "-" else "+")
            ++ (if Nat.ltb (Z.abs_nat (snd c)) 10 then "0" else "") ++ nat_str (Z.abs_nat (snd c)))%string.
(** A negative number of three exponent digits fills the sixteen columns and is
    joined to the next one: one word is left of the two numbers. *)
Definition tiny : descr (bool * Z) :=
  [("name", DText "LOU"); ("density", DNum (false, 0%Z)); ("young", DNum (false, 5%Z)); ("poisson", DNum (false, (-1)%Z));
   ("yield_a_init", DNum (false, 0%Z)); ("a_hard_slope", DNum (false, 1%Z));
   ("yield_b_init", DNum (false, 0%Z)); ("b_hard_slope", DNum (true, 0%Z));
   ("yield_c_init", DNum (true, (-100)%Z)); ("c_hard_slope", DNum (false, 0%Z));
   ("yield_d_init", DNum (false, 0%Z)); ("d_hard_slope", DNum (false, 0%Z));
   ("n_hard_point", DCount 2); ("hardening_law", DLaw (fun c => c)); ("hardening_parameters", DParams)].
Theorem links_wide_number_refuted : exists lines,
  material_lines sci (fun _ => [(false, 0%Z); (false, 1%Z)]) 1 tiny = Ok lines /\
  map (fun l => length (words l)) lines = [2; 1; 2; 2; 2; 1; 2; 1; 2; 2].
Proof. eexists. split; vm_compute; reflexivity. Qed.

(** A format satisfying the laws, and sections in it. *)
Definition m_fmt (c : nat) : string := (nat_str (c / 10 * 10) ++ spaces 2)%string.
Lemma m_laws : left_laws h_pf m_fmt (fun c => c / 10 * 10).
Proof.
  split; intros c; unfold m_fmt.
  - exists (nat_str (c / 10 * 10)), 1. split; [reflexivity|]. split; [apply words_nat|].
    unfold h_pf. rewrite py_int_str. cbn [rbind]. now rewrite Nat2Z.id.
  - now rewrite has_ci_app, spaces_no_t, nat_no_t.
Qed.
Definition m_dp : descr nat :=
  [("name", DText "DRUCKER_PRAGER"); ("density", DNum 7); ("young", DNum 110); ("poisson", DNum 33);
   ("friction_angle_deg", DNum 15); ("dilatancy_angle_deg", DNum 20);
   ("n_hard_point", DCount 2); ("hardening_law", DLaw (fun e => 100 + 5 * e)); ("hardening_parameters", DParams)].
Example m_section : material_lines m_fmt (fun _ => [0; 20]) 2 m_dp
  = Ok ["2 DRUCKER_PRAGER"; "  0  "; "  110  30  10  20  3"; "  2   "; "  0  100  "; "  20  200  "].
Proof. reflexivity. Qed.
Example m_section_read : exists head l1 l2 ws count table,
  material_lines m_fmt (fun _ => [0; 20]) 2 m_dp = Ok (head :: l1 :: l2 :: count :: table) /\
  words head = ["2"; "DRUCKER_PRAGER"] /\ numbers h_pf l1 = Ok [0] /\ words l2 = ws ++ ["3"] /\ rmap h_pf ws = Ok [110; 30; 10; 20] /\
  words count = ["2"] /\ map (numbers h_pf) table = [Ok [0; 100]; Ok [20; 200]].
Proof.
  apply (links_drucker_prager_section h_pf m_fmt (fun c => c / 10 * 10) (fun _ => [0; 20]) m_laws 2 m_dp
    (fun k => if String.eqb k "density" then 7 else if String.eqb k "young" then 110 else if String.eqb k "poisson" then 33
              else if String.eqb k "friction_angle_deg" then 15 else 20) 2 (fun e => 100 + 5 * e) DParams); try reflexivity.
  intros k [<-|[<-|[<-|[<-|[<-|[]]]]]]; reflexivity.
Qed.
Example m_missing : material_lines m_fmt (fun _ => [0; 20]) 2 (filter (fun p => negb (String.eqb (fst p) "poisson")) m_dp) = Err RuntimeError.
Proof. reflexivity. Qed.
Definition m_phases : list (nat * descr nat) :=
  [(1, [("name", DText "ELASTIC"); ("density", DNum 7); ("young", DNum 110); ("poisson", DNum 33)]); (2, m_dp)].
Example m_clean : exists lines, materials_lines m_fmt (fun _ => [0; 20]) [1; 2] m_phases = Ok lines
  /\ length lines = 9 /\ Forall clean lines.
Proof.
  destruct (materials_lines m_fmt (fun _ => [0; 20]) [1; 2] m_phases) as [lines|e] eqn:E; [|discriminate E].
  exists lines. split; [reflexivity|]. split; [|exact (links_materials_clean h_pf m_fmt _ _ m_laws _ _ _ E)].
  vm_compute in E. injection E as <-. reflexivity.
Qed.

Print Assumptions links_elastic_section.
Print Assumptions links_von_mises_section.
Print Assumptions links_drucker_prager_section.
Print Assumptions links_lou_section.
Print Assumptions links_material_unknown.
Print Assumptions links_material_missing.
Print Assumptions links_materials_sections.
Print Assumptions links_materials_free.
Print Assumptions links_hardening_points.
Print Assumptions links_table_points.
Print Assumptions links_linear_hardening_exact.
Print Assumptions links_hardening_error.
Print Assumptions links_hardening_error_tight.
Print Assumptions links_one_point_refuted.
Print Assumptions links_beyond_two_refuted.
Print Assumptions links_wide_number_refuted.
