(** Proofs about the state file protocol (C32). *)
From Coq Require Import String Ascii List Bool Arith Lia.
From Verif Require Import Lib PyDict PyStr StateFileModel StateFileSpec.
Import ListNotations.
Local Open Scope string_scope.

Section Names.
  Variable name : string.
  Hypothesis plain : has_char dot name = false.

  Lemma strip_self s : strip_name name (name ++ s) = Some s.
  Proof.
    revert plain. induction name as [|c n IH]; intros H; [reflexivity|].
    cbn in H. apply orb_false_iff in H as [H1 H2]. cbn [append strip_name]. unfold char_match.
    rewrite H1, Ascii.eqb_refl. now apply IH.
  Qed.
  Lemma strip_exact f r : strip_name name f = Some r -> f = name ++ r.
  Proof.
    revert f plain. induction name as [|c n IH]; intros f H E; [cbn in E; now injection E as ->|].
    cbn in H. apply orb_false_iff in H as [H1 H2]. destruct f as [|d f]; [discriminate|].
    cbn [strip_name] in E. unfold char_match in E. rewrite H1 in E.
    destruct (Ascii.eqb_spec c d) as [->|]; [|discriminate]. cbn. f_equal. now apply IH.
  Qed.

  Lemma nat_str_cons e : exists c t, nat_str e = String c t /\ is_digit c = true /\ all_digits t = true.
  Proof.
    pose proof (nat_str_digits e) as H. pose proof (nat_str_nonempty e) as H'.
    destruct (nat_str e) as [|c t]; [contradiction|]. cbn in H. apply andb_prop in H as [H1 H2]. now exists c, t.
  Qed.

  Lemma match_state_epoch e : match_state name (epoch_file name e) = true.
  Proof.
    unfold match_state, epoch_file. rewrite strip_self. cbn [append].
    destruct (nat_str_cons e) as (c & t & -> & Hc & Ht). cbn [append]. rewrite Hc. cbn.
    rewrite skip_digits_app by (try exact Ht; reflexivity). reflexivity.
  Qed.
  Lemma match_best_best e : match_best name (best_file name e) = true.
  Proof.
    unfold match_best, best_file. rewrite strip_self.
    apply orb_true_iff. right. cbn [append]. 
    rewrite skip_digits_app by (try apply nat_str_digits; reflexivity). reflexivity.
  Qed.
  Lemma match_best_epoch e : match_best name (epoch_file name e) = false.
  Proof.
    unfold match_best, epoch_file. rewrite strip_self. apply orb_false_iff. split.
    - cbn [append skip_digits]. change (is_digit "-"%char) with false. cbv iota. cbn [starts_with].
      destruct (nat_str_cons e) as (c & t & -> & Hc & Ht). cbn [append starts_with].
      destruct (Ascii.eqb_spec "b" c) as [<-|]; [discriminate|reflexivity].
    - cbn [append]. rewrite skip_digits_app by (try apply nat_str_digits; reflexivity). reflexivity.
  Qed.
  Lemma match_state_best e : match_state name (best_file name e) = false.
  Proof.
    unfold match_state, best_file. rewrite strip_self. cbn [append].
    destruct (nat_str_cons e) as (c & t & -> & Hc & Ht). cbn [append]. rewrite Hc. cbn [andb Ascii.eqb dash].
    rewrite skip_digits_app by (try exact Ht; reflexivity). reflexivity.
  Qed.
  Lemma match_state_init : match_state name (init_file name) = false.
  Proof. unfold match_state, init_file. now rewrite strip_self. Qed.
  Lemma match_best_init : match_best name (init_file name) = false.
  Proof. unfold match_best, init_file. now rewrite strip_self. Qed.
  Lemma match_state_default : match_state name (default_file name) = false.
  Proof. unfold match_state, default_file. now rewrite strip_self. Qed.
  Lemma match_best_default : match_best name (default_file name) = false.
  Proof. unfold match_best, default_file. now rewrite strip_self. Qed.

  Lemma digits_no_dash e : has_char dash (nat_str e) = false.
  Proof. apply digits_no_char; [reflexivity|apply nat_str_digits]. Qed.

  Lemma check_epoch e : check_state_file name (epoch_file name e) = Ok (Some e).
  Proof.
    unfold check_state_file. rewrite match_state_epoch. unfold epoch_file.
    replace (name ++ "-" ++ nat_str e ++ ".pt") with ((name ++ String dash (nat_str e)) ++ String dot "pt").
    - rewrite splitext_app by reflexivity. rewrite split_app, (split_none (nat_str e)) by apply digits_no_dash.
      unfold nth_last. rewrite rev_app_distr. cbn [rev app nth_error rbind].
      rewrite int_of_nat_str. reflexivity.
    - rewrite <- app_assoc_s. reflexivity.
  Qed.
  Lemma check_best e : check_best_state_file name (best_file name e) = Ok (Some e).
  Proof.
    unfold check_best_state_file. rewrite match_best_best. unfold best_file.
    replace (name ++ "-" ++ nat_str e ++ "-best.pt")
      with (((name ++ String dash (nat_str e)) ++ String dash "best") ++ String dot "pt").
    - rewrite splitext_app by reflexivity. rewrite !split_app, (split_none (nat_str e)) by apply digits_no_dash.
      rewrite (split_none "best") by reflexivity.
      unfold nth_last. rewrite rev_app_distr. cbn [rev app]. rewrite rev_app_distr. cbn [rev app nth_error rbind].
      rewrite int_of_nat_str. reflexivity.
    - rewrite <- !app_assoc_s. reflexivity.
  Qed.

  Lemma epoch_file_inj e e' : epoch_file name e = epoch_file name e' -> e = e'.
  Proof. intros H. pose proof (check_epoch e) as E. rewrite H, check_epoch in E. now injection E as ->. Qed.
  Lemma best_file_inj e e' : best_file name e = best_file name e' -> e = e'.
  Proof. intros H. pose proof (check_best e) as E. rewrite H, check_best in E. now injection E as ->. Qed.
  Lemma epoch_neq_best e e' : epoch_file name e <> best_file name e'.
  Proof. intros H. pose proof (match_state_epoch e) as E. rewrite H, match_state_best in E. discriminate. Qed.
  Lemma epoch_neq_init e : epoch_file name e <> init_file name.
  Proof. intros H. pose proof (match_state_epoch e) as E. rewrite H, match_state_init in E. discriminate. Qed.
  Lemma epoch_neq_default e : epoch_file name e <> default_file name.
  Proof. intros H. pose proof (match_state_epoch e) as E. rewrite H, match_state_default in E. discriminate. Qed.
  Lemma best_neq_init e : best_file name e <> init_file name.
  Proof. intros H. pose proof (match_best_best e) as E. rewrite H, match_best_init in E. discriminate. Qed.
  Lemma best_neq_default e : best_file name e <> default_file name.
  Proof. intros H. pose proof (match_best_best e) as E. rewrite H, match_best_default in E. discriminate. Qed.
  Lemma init_neq_default : init_file name <> default_file name.
  Proof. unfold init_file, default_file. intros H. apply app_inj_s in H. discriminate. Qed.

  (** A file is managed if it is one of the names the protocol writes. *)
  Definition managed (f : string) : Prop :=
    f = init_file name \/ f = default_file name \/ (exists e, f = epoch_file name e) \/ (exists e, f = best_file name e).

  Context {S : Type}.
  Notation dir := (@dir S).

  (** ** Loops that remove files *)
  Lemma iter_remove (body : string -> io unit) (b : string -> bool) l (d : dir) :
    NoDup (dkeys d) ->
    (forall f d, In f l -> body f d = ((if b f then ddel d f else d), Ok tt)) ->
    exists d', iter body l d = (d', Ok tt) /\ NoDup (dkeys d') /\
      forall f, dget d' f = if b f && existsb (String.eqb f) l then None else dget d f.
  Proof.
    revert d. induction l as [|a l IH]; intros d Hnd Hbody.
    - exists d. repeat split; [exact Hnd|]. intros f. cbn. now rewrite andb_false_r.
    - cbn [iter]. unfold ibind. rewrite (Hbody a d (or_introl eq_refl)).
      set (d1 := if b a then ddel d a else d).
      assert (Hnd1 : NoDup (dkeys d1)).
      { unfold d1. destruct (b a); [|exact Hnd]. now apply gdel_nodup. }
      destruct (IH d1 Hnd1) as (d' & Hd' & Hnd' & Hget).
      { intros f d0 Hf. apply Hbody. now right. }
      exists d'. split; [exact Hd'|]. split; [exact Hnd'|]. intros f. rewrite Hget. cbn [existsb].
      destruct (String.eqb_spec f a) as [->|Hne]; cbn [orb].
      + unfold d1. destruct (b a) eqn:Eb; cbn [andb].
        * destruct (existsb _ l); [reflexivity|]. apply gget_gdel_same; [apply String.eqb_eq|exact Hnd].
        * reflexivity.
      + destruct (b f && existsb (String.eqb f) l); [reflexivity|].
        unfold d1. destruct (b a); [|reflexivity]. apply gget_gdel_other; [apply String.eqb_eq|congruence].
  Qed.

  (** Files of the directory that the protocol would take for its own are its own. *)
  Definition clean (d : dir) : Prop := forall f, In f (dkeys d) ->
    (match_state name f = true -> exists e, f = epoch_file name e) /\
    (match_best name f = true -> exists e, f = best_file name e).

  Lemma existsb_keys (d : dir) f v : dget d f = Some v -> existsb (String.eqb f) (dkeys d) = true.
  Proof. intros H. apply existsb_exists. exists f. split; [now apply dget_key in H|apply String.eqb_refl]. Qed.
  Lemma clean_keys (d d' : dir) : clean d -> (forall f, dget d' f = None \/ dget d' f = dget d f) -> clean d'.
  Proof.
    intros H Hsub f Hin. apply H. apply dget_some_in in Hin as [v Hv].
    destruct (Hsub f) as [E|E]; [congruence|]. rewrite Hv in E. symmetry in E. now apply dget_key in E.
  Qed.

  Lemma remove_posterior_spec e (d : dir) : clean d -> NoDup (dkeys d) ->
    exists d', remove_posterior_state_files name e d = (d', Ok tt) /\ NoDup (dkeys d') /\ clean d' /\
      (forall k, dget d' (epoch_file name k) = if Nat.ltb e k then None else dget d (epoch_file name k)) /\
      (forall f, match_state name f = false -> dget d' f = dget d f).
  Proof.
    intros Hc Hnd. unfold remove_posterior_state_files, listdir. unfold ibind at 1.
    set (b := fun f => match check_state_file name f with Ok (Some k) => Nat.ltb e k | _ => false end).
    destruct (iter_remove (fun f => ibind (lift (check_state_file name f)) (fun o =>
        match o with Some k => if Nat.ltb e k then remove_file f else iret tt | None => iret tt end)) b (dkeys d) d Hnd)
      as (d' & Hd' & Hnd' & Hget).
    { intros f d0 Hf. unfold ibind, lift, b. destruct (Hc f Hf) as [Hs _].
      unfold check_state_file in *. destruct (match_state name f) eqn:E.
      - destruct (Hs eq_refl) as [k ->]. pose proof (check_epoch k) as Hk. unfold check_state_file in Hk.
        rewrite E in Hk. rewrite Hk. now destruct (Nat.ltb e k).
      - reflexivity. }
    exists d'. split; [exact Hd'|]. split; [exact Hnd'|].
    assert (Hsub : forall f, dget d' f = None \/ dget d' f = dget d f).
    { intros f. rewrite Hget. destruct (_ && _); tauto. }
    split; [now apply (clean_keys d)|]. split.
    - intros k. rewrite Hget. unfold b. rewrite check_epoch.
      destruct (Nat.ltb e k); cbn [andb]; [|reflexivity].
      destruct (existsb _ _) eqn:E; [reflexivity|].
      destruct (dget d (epoch_file name k)) eqn:Eg; [|reflexivity].
      apply existsb_keys in Eg. congruence.
    - intros f Hf. rewrite Hget. unfold b, check_state_file. now rewrite Hf.
  Qed.

  Lemma remove_best_spec (d : dir) : clean d -> NoDup (dkeys d) ->
    exists d', remove_best_state_files name d = (d', Ok tt) /\ NoDup (dkeys d') /\ clean d' /\
      (forall f, dget d' f = if match_best name f then None else dget d f).
  Proof.
    intros Hc Hnd. unfold remove_best_state_files, listdir. unfold ibind at 1.
    set (b := match_best name).
    destruct (iter_remove (fun f => ibind (lift (check_best_state_file name f)) (fun o =>
        match o with Some _ => remove_file f | None => iret tt end)) b (dkeys d) d Hnd)
      as (d' & Hd' & Hnd' & Hget).
    { intros f d0 Hf. unfold ibind, lift, b. destruct (Hc f Hf) as [_ Hs].
      unfold check_best_state_file in *. destruct (match_best name f) eqn:E.
      - destruct (Hs eq_refl) as [k ->]. pose proof (check_best k) as Hk. unfold check_best_state_file in Hk.
        rewrite E in Hk. rewrite Hk. reflexivity.
      - reflexivity. }
    assert (Hget' : forall f, dget d' f = if match_best name f then None else dget d f).
    { intros f. rewrite Hget. unfold b. destruct (match_best name f); cbn [andb]; [|reflexivity].
      destruct (existsb _ _) eqn:E; [reflexivity|].
      destruct (dget d f) eqn:Eg; [|reflexivity]. apply existsb_keys in Eg. congruence. }
    exists d'. split; [exact Hd'|]. split; [exact Hnd'|]. split; [|exact Hget'].
    apply (clean_keys d); [exact Hc|]. intros f. rewrite Hget'. destruct (match_best name f); tauto.
  Qed.

  (** ** Relation between the directory and the abstract store *)
  Definition rel (d : dir) (a : store S) : Prop :=
    NoDup (dkeys d) /\ clean d /\
    dget d (init_file name) = st_init a /\ dget d (default_file name) = st_default a /\
    (forall e, dget d (epoch_file name e) = st_epochs a e) /\
    (forall e, dget d (best_file name e) = best_at a e).

  (** Files that are not managed keep their contents. *)
  Definition same_others (d d' : dir) : Prop := forall f, ~ managed f -> dget d' f = dget d f.

  Definition run_op (o : op S) : io (option (S * option nat)) :=
    match o with
    | SaveInit s => ibind (save_model_state name s TInit None true) (fun _ => iret None)
    | SaveDefault s => ibind (save_model_state name s TOther None true) (fun _ => iret None)
    | SaveEpoch e s r => ibind (save_model_state name s TOther (Some e) r) (fun _ => iret None)
    | SaveBest e s r => ibind (save_model_state name s TBest (Some e) r) (fun _ => iret None)
    | LoadInit r => ibind (load_model_state name LInit r) (fun x => iret (Some x))
    | LoadDefault => ibind (load_model_state name LDefault true) (fun x => iret (Some x))
    | LoadEpoch e r => ibind (load_model_state name (LEpoch e) r) (fun x => iret (Some x))
    | LoadBest r => ibind (load_model_state name LBest r) (fun x => iret (Some x))
    | LoadLast => ibind (load_model_state name LLast true) (fun x => iret (Some x))
    end.

  Lemma same_others_refl d : same_others d d.
  Proof. intros f _. reflexivity. Qed.
  Lemma same_others_trans d1 d2 d3 : same_others d1 d2 -> same_others d2 d3 -> same_others d1 d3.
  Proof. intros H1 H2 f Hf. rewrite H2, H1; auto. Qed.

  Lemma managed_state f (d : dir) : clean d -> match_state name f = true -> ~ managed f -> dget d f = None.
  Proof.
    intros Hc Hm Hn. destruct (dget d f) eqn:E; [|reflexivity]. exfalso. apply dget_key in E.
    destruct (Hc f E) as [Hs _]. apply Hn. right. right. left. auto.
  Qed.
  Lemma managed_best f (d : dir) : clean d -> match_best name f = true -> ~ managed f -> dget d f = None.
  Proof.
    intros Hc Hm Hn. destruct (dget d f) eqn:E; [|reflexivity]. exfalso. apply dget_key in E.
    destruct (Hc f E) as [_ Hs]. apply Hn. right. right. right. auto.
  Qed.

  Lemma clean_write f s (d : dir) : clean d ->
    (match_state name f = true -> exists e, f = epoch_file name e) ->
    (match_best name f = true -> exists e, f = best_file name e) -> clean (dset d f s).
  Proof.
    intros Hc H1 H2 g Hg. unfold dset, dkeys in Hg. rewrite gkeys_in_gset in Hg by apply String.eqb_eq.
    destruct Hg as [->|Hg]; [split; assumption|]. now apply Hc.
  Qed.

  Lemma posterior_rel (r : bool) (e : nat) (d : dir) (a : store S) : rel d a ->
    exists d', (if r then remove_posterior_state_files name e else iret tt) d = (d', Ok tt) /\
      rel d' (with_epochs a (rewind r e (st_epochs a))) /\ same_others d d'.
  Proof.
    intros (Hnd & Hc & Hi & Hdf & He & Hb). destruct r.
    - destruct (remove_posterior_spec e d Hc Hnd) as (d' & Hd & Hnd' & Hc' & Hep & Hot).
      exists d'. split; [exact Hd|]. split.
      + split; [exact Hnd'|]. split; [exact Hc'|].
        cbn [with_epochs st_init st_default st_epochs].
        split; [now rewrite Hot by apply match_state_init|]. split; [now rewrite Hot by apply match_state_default|].
        split.
        * intros k. rewrite Hep, He. unfold rewind. reflexivity.
        * intros k. rewrite Hot by apply match_state_best. apply Hb.
      + intros f Hf. destruct (match_state name f) eqn:E; [|now apply Hot].
        rewrite (managed_state f d Hc E Hf). now apply managed_state.
    - exists d. split; [reflexivity|]. split; [|apply same_others_refl].
      split; [exact Hnd|]. split; [exact Hc|]. cbn [with_epochs st_init st_default st_epochs]. auto.
  Qed.

  Lemma load_read (d : dir) (f : string) (e : option nat) : read_state f e d = (d, match dget d f with Some s => Ok (s, e) | None => Err RuntimeError end).
  Proof. reflexivity. Qed.

  Lemma check_all_spec (check : string -> res (option nat)) (file : nat -> string) l :
    (forall f, In f l -> check f = Ok None \/ exists e, f = file e /\ check f = Ok (Some e)) ->
    exists es, check_all check l = Ok es /\ (forall e, In e es <-> In (file e) l /\ check (file e) = Ok (Some e)) /\
      (NoDup l -> NoDup es).
  Proof.
    intros H. induction l as [|f l IH].
    - exists []. repeat split; try contradiction; try tauto. constructor.
    - destruct IH as (es & Hes & Hin & Hnd); [intros g Hg; apply H; now right|].
      cbn [check_all]. destruct (H f (or_introl eq_refl)) as [E|(e & -> & E)]; rewrite E; cbn [rbind]; rewrite Hes; cbn [rbind].
      + exists es. split; [reflexivity|]. split.
        * intros k. rewrite Hin. cbn [In]. split; [tauto|]. intros [[->|Hl] Hk]; [congruence|tauto].
        * intros Hd. inversion Hd. auto.
      + exists (e :: es). split; [reflexivity|]. split.
        * intros k. cbn [In]. rewrite Hin. split.
          -- intros [->|[Hl Hk]]; [split; [now left|exact E]|tauto].
          -- intros [[Hf|Hl] Hk]; [|tauto]. left. rewrite <- Hf, E in Hk. now injection Hk.
        * intros Hd. inversion Hd as [|? ? Hnot Hd']; subst. constructor; [|auto].
          rewrite Hin. tauto.
  Qed.

  Lemma list_max_in l : l <> [] -> In (list_max l) l.
  Proof.
    induction l as [|a l IH]; [contradiction|]. intros _. destruct l as [|b l]; [cbn; left; lia|].
    specialize (IH ltac:(discriminate)). change (list_max (a :: b :: l)) with (Nat.max a (list_max (b :: l))).
    destruct (Nat.max_spec a (list_max (b :: l))) as [[_ ->]|[_ ->]]; [now right|now left].
  Qed.

  Lemma step_refines (d : dir) (a : store S) (o : op S) : rel d a ->
    exists d' a' r, run_op o d = (d', r) /\ sstep a o a' r /\ rel d' a' /\ same_others d d'.
  Proof.
    intros Hrel. pose proof Hrel as (Hnd & Hc & Hi & Hdf & He & Hb).
    assert (Hwr : forall f s, NoDup (dkeys (dset d f s))) by (intros; apply gset_nodup; [apply String.eqb_eq|exact Hnd]).
    destruct o as [s|s|e s r|e s r|r| |e r|r| ]; cbn [run_op].
    - (* SaveInit *)
      exists (dset d (init_file name) s). eexists. exists (Ok None). split; [reflexivity|]. split; [constructor|]. split.
      + split; [apply Hwr|]. split.
        { apply clean_write; [exact Hc| |]; [rewrite match_state_init|rewrite match_best_init]; discriminate. }
        cbn [st_init st_default st_epochs]. split; [apply dget_dset_same|].
        split; [rewrite dget_dset_other by apply init_neq_default; exact Hdf|]. split; intros k.
        * rewrite dget_dset_other; [apply He|]. intros E. symmetry in E. now apply epoch_neq_init in E.
        * rewrite dget_dset_other; [apply Hb|]. intros E. symmetry in E. now apply best_neq_init in E.
      + intros f Hf. apply dget_dset_other. intros <-. apply Hf. now left.
    - (* SaveDefault *)
      exists (dset d (default_file name) s). eexists. exists (Ok None). split; [reflexivity|]. split; [constructor|]. split.
      + split; [apply Hwr|]. split.
        { apply clean_write; [exact Hc| |]; [rewrite match_state_default|rewrite match_best_default]; discriminate. }
        cbn [st_init st_default st_epochs]. split; [rewrite dget_dset_other; [exact Hi|intros E; symmetry in E; now apply init_neq_default in E]|].
        split; [apply dget_dset_same|]. split; intros k.
        * rewrite dget_dset_other; [apply He|]. intros E. symmetry in E. now apply epoch_neq_default in E.
        * rewrite dget_dset_other; [apply Hb|]. intros E. symmetry in E. now apply best_neq_default in E.
      + intros f Hf. apply dget_dset_other. intros <-. apply Hf. right. now left.
    - (* SaveEpoch *)
      set (d1 := dset d (epoch_file name e) s).
      assert (R1 : rel d1 (with_epochs a (put e s (st_epochs a)))).
      { split; [apply Hwr|]. split.
        { apply clean_write; [exact Hc| |]; [intros _; now exists e|rewrite match_best_epoch; discriminate]. }
        cbn [st_init st_default st_epochs with_epochs].
        split; [unfold d1; rewrite dget_dset_other by apply epoch_neq_init; exact Hi|].
        split; [unfold d1; rewrite dget_dset_other by apply epoch_neq_default; exact Hdf|]. split; intros k.
        - unfold put, d1. destruct (Nat.eqb_spec k e) as [->|Hne]; [apply dget_dset_same|].
          rewrite dget_dset_other; [apply He|]. intros E. apply epoch_file_inj in E. congruence.
        - unfold d1. rewrite dget_dset_other by apply epoch_neq_best. apply Hb. }
      destruct (posterior_rel r e d1 _ R1) as (d' & Hd' & R' & So).
      exists d'. eexists. exists (Ok None). split.
      { unfold save_model_state, ibind, iret, write_file. fold d1. destruct r.
        - rewrite Hd'. reflexivity.
        - injection Hd' as <-. reflexivity. }
      split; [constructor|]. split; [exact R'|].
      apply same_others_trans with d1; [|exact So]. intros f Hf. apply dget_dset_other. intros <-. apply Hf.
      right. right. left. now exists e.
    - (* SaveBest *)
      destruct (remove_best_spec d Hc Hnd) as (d0 & Hd0 & Hnd0 & Hc0 & Hg0).
      set (d1 := dset d0 (best_file name e) s).
      assert (R1 : rel d1 (Store (st_init a) (st_default a) (st_epochs a) (Some (e, s)))).
      { split; [apply gset_nodup; [apply String.eqb_eq|exact Hnd0]|]. split.
        { apply clean_write; [exact Hc0| |]; [rewrite match_state_best; discriminate|intros _; now exists e]. }
        cbn [st_init st_default st_epochs].
        split; [unfold d1; rewrite dget_dset_other by apply best_neq_init; rewrite Hg0, match_best_init; exact Hi|].
        split; [unfold d1; rewrite dget_dset_other by apply best_neq_default; rewrite Hg0, match_best_default; exact Hdf|].
        split; intros k; unfold d1.
        - rewrite dget_dset_other; [|intros E; symmetry in E; now apply epoch_neq_best in E].
          rewrite Hg0, match_best_epoch. apply He.
        - unfold best_at. cbn [st_best]. destruct (Nat.eqb_spec e k) as [->|Hne]; [apply dget_dset_same|].
          rewrite dget_dset_other; [now rewrite Hg0, match_best_best|]. intros E. apply best_file_inj in E. congruence. }
      destruct (posterior_rel r e d1 _ R1) as (d' & Hd' & R' & So).
      exists d'. eexists. exists (Ok None). split.
      { unfold save_model_state, ibind. rewrite Hd0. unfold write_file. fold d1. destruct r.
        - rewrite Hd'. reflexivity.
        - injection Hd' as <-. reflexivity. }
      split; [constructor|]. split; [exact R'|].
      apply same_others_trans with d1; [|exact So]. intros f Hf. unfold d1.
      rewrite dget_dset_other by (intros <-; apply Hf; right; right; right; now exists e).
      rewrite Hg0. destruct (match_best name f) eqn:E; [|reflexivity]. symmetry. now apply managed_best.
    - (* LoadInit *)
      destruct (posterior_rel r 0 d _ Hrel) as (d' & Hd' & R' & So).
      exists d'. eexists. exists (found (st_init a) (Some 0)). split; [|split; [constructor|split; assumption]].
      unfold load_model_state. unfold ibind at 1 2. rewrite Hd'. unfold read_state.
      destruct R' as (_ & _ & Hi' & _). rewrite Hi'. cbn [with_epochs st_init]. unfold found. now destruct (st_init a).
    - (* LoadDefault *)
      exists d, a, (found (st_default a) None). split; [|split; [constructor|split; [assumption|apply same_others_refl]]].
      unfold load_model_state, ibind, read_state. rewrite Hdf. unfold found. now destruct (st_default a).
    - (* LoadEpoch *)
      destruct (posterior_rel r e d _ Hrel) as (d' & Hd' & R' & So).
      exists d'. eexists. exists (found (st_epochs a e) (Some e)). split; [|split; [constructor|split; assumption]].
      unfold load_model_state. unfold ibind at 1 2. rewrite Hd'. unfold read_state.
      destruct R' as (_ & _ & _ & _ & He' & _). rewrite He'. cbn [with_epochs st_epochs]. unfold rewind.
      rewrite Nat.ltb_irrefl, andb_false_r. unfold found. now destruct (st_epochs a e).
    - (* LoadBest *)
      destruct (check_all_spec (check_best_state_file name) (best_file name) (dkeys d)) as (es & Hes & Hin & HND).
      { intros f Hf. destruct (match_best name f) eqn:E.
        - destruct (Hc f Hf) as [_ Hm]. destruct (Hm E) as [k ->]. right. exists k. split; [reflexivity|apply check_best].
        - left. unfold check_best_state_file. now rewrite E. }
      assert (Hmem : forall k, In k es <-> best_at a k <> None).
      { intros k. rewrite Hin. split.
        - intros [Hk _]. apply dget_some_in in Hk as [v Hv]. rewrite Hb in Hv. congruence.
        - intros Hk. split; [|apply check_best]. destruct (best_at a k) eqn:E; [|contradiction].
          apply (dget_key d _ s). rewrite Hb. exact E. }
      unfold load_model_state. unfold ibind at 1 2, listdir. unfold ibind at 1, lift. rewrite Hes.
      destruct (st_best a) as [[b s]|] eqn:Eb.
      + assert (Ees : es = [b]).
        { assert (Hb1 : In b es) by (apply Hmem; unfold best_at; rewrite Eb, Nat.eqb_refl; discriminate).
          assert (Hall : forall k, In k es -> k = b).
          { intros k Hk. apply Hmem in Hk. unfold best_at in Hk. rewrite Eb in Hk.
            destruct (Nat.eqb_spec b k); [auto|contradiction]. }
          specialize (HND Hnd). destruct es as [|x es]; [contradiction|].
          assert (x = b) by (apply Hall; now left). subst x. destruct es as [|y es]; [reflexivity|].
          exfalso. assert (y = b) by (apply Hall; right; now left). subst y. inversion HND. apply H1. now left. }
        rewrite Ees. destruct (posterior_rel r b d _ Hrel) as (d' & Hd' & R' & So).
        exists d'. eexists. exists (Ok (Some (s, Some b))). split; [|split; [now apply s_load_best|split; assumption]].
        unfold ibind. rewrite Hd'. unfold read_state. destruct R' as (_ & _ & _ & _ & _ & Hb'). rewrite Hb'.
        unfold best_at. cbn [with_epochs st_best]. rewrite Eb, Nat.eqb_refl. reflexivity.
      + assert (Ees : es = []).
        { destruct es as [|x es]; [reflexivity|]. exfalso. apply (proj1 (Hmem x) (or_introl eq_refl)).
          unfold best_at. now rewrite Eb. }
        rewrite Ees. exists d, a, (Err RuntimeError). split; [reflexivity|]. split; [now constructor|].
        split; [assumption|apply same_others_refl].
    - (* LoadLast *)
      destruct (check_all_spec (check_state_file name) (epoch_file name) (dkeys d)) as (es & Hes & Hin & _).
      { intros f Hf. destruct (match_state name f) eqn:E.
        - destruct (Hc f Hf) as [Hm _]. destruct (Hm E) as [k ->]. right. exists k. split; [reflexivity|apply check_epoch].
        - left. unfold check_state_file. now rewrite E. }
      assert (Hmem : forall k, In k es <-> st_epochs a k <> None).
      { intros k. rewrite Hin. split.
        - intros [Hk _]. apply dget_some_in in Hk as [v Hv]. rewrite He in Hv. congruence.
        - intros Hk. split; [|apply check_epoch]. destruct (st_epochs a k) eqn:E; [|contradiction].
          apply (dget_key d _ s). rewrite He. exact E. }
      unfold load_model_state. unfold ibind at 1 2, listdir. unfold ibind at 1, lift. rewrite Hes.
      exists d, a. destruct es as [|x es].
      + exists (Err RuntimeError). split; [reflexivity|]. split; [|split; [assumption|apply same_others_refl]].
        constructor. intros k. destruct (st_epochs a k) eqn:E; [|reflexivity].
        exfalso. apply (proj2 (Hmem k)). congruence.
      + assert (Hmax : In (list_max (x :: es)) (x :: es)) by (apply list_max_in; discriminate).
        pose proof (proj1 (Hmem _) Hmax) as Hs. destruct (st_epochs a (list_max (x :: es))) as [s|] eqn:Es; [|contradiction].
        exists (Ok (Some (s, Some (list_max (x :: es))))). split.
        { unfold read_state. rewrite He, Es. reflexivity. }
        split; [|split; [assumption|apply same_others_refl]].
        constructor; [exact Es|]. intros k Hk. destruct (st_epochs a k) eqn:E; [|reflexivity]. exfalso.
        assert (Hk' : In k (x :: es)) by (apply Hmem; congruence).
        pose proof (list_max_le (x :: es) (list_max (x :: es))) as [Hle _].
        specialize (Hle (le_n _)). rewrite Forall_forall in Hle. apply Hle in Hk'. lia.
  Qed.

  Fixpoint run_ops (os : list (op S)) (d : dir) : dir * list (res (option (S * option nat))) :=
    match os with
    | [] => (d, [])
    | o :: os' => let '(d1, r) := run_op o d in let '(d2, rs) := run_ops os' d1 in (d2, r :: rs)
    end.

  Lemma run_refines os (d : dir) a : rel d a ->
    exists d' a' rs, run_ops os d = (d', rs) /\ srun a os a' rs /\ rel d' a' /\ same_others d d'.
  Proof.
    revert d a. induction os as [|o os IH]; intros d a H.
    - exists d, a, []. split; [reflexivity|]. split; [constructor|]. split; [exact H|apply same_others_refl].
    - destruct (step_refines d a o H) as (d1 & a1 & r & H1 & H2 & H3 & H4).
      destruct (IH d1 a1 H3) as (d2 & a2 & rs & K1 & K2 & K3 & K4).
      exists d2, a2, (r :: rs). cbn [run_ops]. rewrite H1, K1. split; [reflexivity|]. split; [now apply srun_cons with a1|].
      split; [exact K3|]. now apply same_others_trans with d1.
  Qed.

  (** A directory without files of this model is related to the empty store. *)
  Lemma rel_empty (d : dir) : NoDup (dkeys d) ->
    (forall f, In f (dkeys d) -> match_state name f = false /\ match_best name f = false /\ ~ managed f) ->
    rel d (Store None None (fun _ => None) None).
  Proof.
    intros Hnd H.
    assert (Hm : forall f, managed f -> dget d f = None).
    { intros f Hf. apply dget_none. intros Hin. now apply (H f Hin). }
    split; [exact Hnd|]. split.
    - intros f Hf. destruct (H f Hf) as (H1 & H2 & _). rewrite H1, H2. split; discriminate.
    - cbn. repeat split; intros; apply Hm; unfold managed; eauto.
  Qed.
End Names.
