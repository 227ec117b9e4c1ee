(** C73, C74: the noise generator and the injection of noise. *)
From Coq Require Import String Reals List Arith Bool Lia Lra ZArith Sorted Permutation FunctionalExtensionality.
From Verif Require Import Lib PyDict HardeningModel HybridModel HybridProps NoiseModel.
Import ListNotations.
Local Open Scope list_scope.
Local Open Scope R_scope.

Lemma rltb_true x y : rltb x y = true <-> x < y.
Proof. unfold rltb. destruct (Rlt_dec x y); split; intros; auto; try discriminate; contradiction. Qed.
Lemma rltb_false x y : rltb x y = false <-> y <= x.
Proof. unfold rltb. destruct (Rlt_dec x y); split; intros; auto; try discriminate; lra. Qed.

(** ** Specification *)
Definition at_ (path : list (list R)) (t j : nat) : R := nth j (nth t path []) 0.
Definition shape (T n : nat) (path : list (list R)) : Prop := length path = T /\ forall r, In r path -> length r = n.
(** The draw of an entry of homoscedastic noise, and the two draws of an entry of
    heteroscedastic noise. *)
Definition pos (n k t j : nat) : nat := (k + t * n + j)%nat.
Definition pos1 (n k t j : nat) : nat := (k + t * (2 * n) + j)%nat.
Definition pos2 (n k t j : nat) : nat := (k + t * (2 * n) + n + j)%nat.
Definition gaussian (std : R) (g : noise_gen) : Prop :=
  (ng_dist g = Some "gaussian" \/ ng_dist g = Some "spiked_gaussian")%string /\ param g "std" = Ok std.
Definition uniform (amp : R) (g : noise_gen) : Prop := ng_dist g = Some "uniform"%string /\ param g "amp" = Ok amp.

(** Different entries use different draws. *)
Theorem positions_distinct n k t j t' j' : (j < n)%nat -> (j' < n)%nat ->
  (pos n k t j = pos n k t' j' -> t = t' /\ j = j') /\
  (pos1 n k t j = pos1 n k t' j' -> t = t' /\ j = j') /\
  (pos2 n k t j = pos2 n k t' j' -> t = t' /\ j = j') /\ pos1 n k t j <> pos2 n k t' j'.
Proof.
  unfold pos, pos1, pos2. intros H H'.
  assert (A : forall m a b, (a < m)%nat -> (b < m)%nat -> (t * m + a = t' * m + b)%nat -> t = t' /\ a = b).
  { intros m a b La Lb Q. assert (t = t') by nia. subst t'. split; auto. lia. }
  split; [|split; [|split]].
  - intros Q. apply (A n j j'); auto. lia.
  - intros Q. apply (A (2 * n)%nat j j'); lia.
  - intros Q. destruct (A (2 * n)%nat (n + j)%nat (n + j')%nat); lia.
  - intros Q. destruct (A (2 * n)%nat j (n + j')%nat); lia.
Qed.

Section Draws.
  Variables unif gauss : nat -> R.

  Lemma grid_at f T n k t j : (t < T)%nat -> (j < n)%nat -> at_ (grid f T n k) t j = f (pos n k t j).
  Proof.
    intros HT Hj. unfold at_, grid. rewrite !nth_map_seq by auto. reflexivity.
  Qed.
  Lemma grid_shape f T n k : shape T n (grid f T n k).
  Proof.
    unfold shape, grid. rewrite map_length, seq_length. split; auto. intros r H.
    apply in_map_iff in H. destruct H as (t & <- & _). rewrite map_length, seq_length. auto.
  Qed.

  Definition not_spiked (g : noise_gen) : Prop := ng_dist g <> Some "spiked_gaussian"%string.
  Lemma not_spiked_test g : not_spiked g ->
    match ng_dist g with Some d => String.eqb d "spiked_gaussian" | None => false end = false.
  Proof. unfold not_spiked. destruct (ng_dist g) as [d|]; auto. intros H. apply String.eqb_neq. congruence. Qed.

  (** Uniform noise: centred, of total width |amp|, one draw per entry. *)
  Theorem noise_uniform g amp T n k w : uniform amp g ->
    exists path, generate_noise_path unif gauss g T n "homoscedastic" w k = Ok (path, (k + T * n)%nat) /\ shape T n path /\
      forall t j, (t < T)%nat -> (j < n)%nat -> at_ path t j = Rabs amp * (unif (pos n k t j) - 1 / 2).
  Proof.
    intros (D & A). unfold generate_noise_path. cbn [String.eqb Ascii.eqb Bool.eqb].
    unfold hom_noise. rewrite A, D. cbn [is_uniform String.eqb Ascii.eqb Bool.eqb rbind].
    eexists. split; [reflexivity|]. split; [apply grid_shape|]. intros t j HT Hj. rewrite grid_at by auto.
    unfold np_uniform. lra.
  Qed.
  Theorem noise_uniform_bounded g amp T n k w path k' t j : uniform amp g -> (forall q, 0 <= unif q <= 1) ->
    generate_noise_path unif gauss g T n "homoscedastic" w k = Ok (path, k') -> (t < T)%nat -> (j < n)%nat ->
    - Rabs amp / 2 <= at_ path t j <= Rabs amp / 2.
  Proof.
    intros U B E HT Hj. destruct (noise_uniform g amp T n k w U) as (p & E' & _ & V). rewrite E' in E. injection E as <- _.
    rewrite V by auto. specialize (B (pos n k t j)). pose proof (Rabs_pos amp). split; nra.
  Qed.

  (** Gaussian noise: the standard deviation times one standard draw per entry. *)
  Lemma hom_gaussian g std T n k : gaussian std g -> 0 <= std ->
    exists path, hom_noise unif gauss g T n k = Ok (path, (k + T * n)%nat) /\ shape T n path /\
      forall t j, (t < T)%nat -> (j < n)%nat -> at_ path t j = std * gauss (pos n k t j).
  Proof.
    intros (D & A) P. unfold hom_noise. rewrite A. apply rltb_false in P.
    replace (is_uniform (ng_dist g)) with false by (destruct D as [-> | ->]; reflexivity).
    replace (is_gaussian (ng_dist g)) with true by (destruct D as [-> | ->]; reflexivity).
    cbn [rbind]. unfold np_normal. rewrite P. cbn [rbind]. eexists. split; [reflexivity|]. split; [apply grid_shape|].
    intros t j HT Hj. rewrite grid_at by auto. ring.
  Qed.
  Theorem noise_gaussian g std T n k w : gaussian std g -> not_spiked g -> 0 <= std ->
    exists path, generate_noise_path unif gauss g T n "homoscedastic" w k = Ok (path, (k + T * n)%nat) /\ shape T n path /\
      forall t j, (t < T)%nat -> (j < n)%nat -> at_ path t j = std * gauss (pos n k t j).
  Proof.
    intros G NS P. destruct (hom_gaussian g std T n k G P) as (path & E & S & V).
    exists path. unfold generate_noise_path. cbn [String.eqb Ascii.eqb Bool.eqb]. rewrite E, (not_spiked_test g NS). auto.
  Qed.
  (** A negative standard deviation is refused. *)
  Theorem noise_gaussian_negative g std T n k w : gaussian std g -> std < 0 ->
    generate_noise_path unif gauss g T n "homoscedastic" w k = Err ValueError.
  Proof.
    intros (D & A) P. unfold generate_noise_path. cbn [String.eqb Ascii.eqb Bool.eqb]. unfold hom_noise. rewrite A.
    apply rltb_true in P. replace (is_uniform (ng_dist g)) with false by (destruct D as [-> | ->]; reflexivity).
    replace (is_gaussian (ng_dist g)) with true by (destruct D as [-> | ->]; reflexivity).
    cbn [rbind]. unfold np_normal. rewrite P. reflexivity.
  Qed.

  (** Heteroscedastic noise. *)
  Lemma het_rows g ws n (F : R -> nat -> nat -> R) :
    (forall w k, In w ws -> het_step unif gauss g w n k = Ok (map (fun j => F w (k + j)%nat (k + n + j)%nat) (seq 0 n), (k + 2 * n)%nat)) ->
    forall m t0 k, (t0 + m <= length ws)%nat ->
    exists path, het_noise unif gauss g ws (seq t0 m) n k = Ok (path, (k + m * (2 * n))%nat) /\ shape m n path /\
      forall t j, (t < m)%nat -> (j < n)%nat -> at_ path t j = F (nth (t0 + t) ws 0) (pos1 n k t j) (pos2 n k t j).
  Proof.
    intros H. induction m as [|m IH]; intros t0 k L.
    - exists []. cbn [seq het_noise]. rewrite Nat.add_0_r. split; [reflexivity|]. split; [split; [auto|intros ? []]|]. intros; lia.
    - cbn [seq het_noise]. assert (NE : nth_error ws t0 = Some (nth t0 ws 0)) by (apply nth_error_nth'; lia). rewrite NE.
      rewrite H by (apply nth_In; lia). cbn [rbind fst snd].
      destruct (IH (S t0) (k + 2 * n)%nat ltac:(lia)) as (path & E & (S1 & S2) & V). rewrite E. cbn [rbind fst snd].
      eexists. split; [do 2 f_equal; lia|]. split.
      + split; [cbn; congruence|]. intros r [<-|R]; [rewrite map_length, seq_length; auto|auto].
      + intros t j HT Hj. unfold at_. destruct t as [|t]; cbn [nth].
        * rewrite nth_map_seq by auto. unfold pos1, pos2. rewrite Nat.add_0_r. f_equal; lia.
        * specialize (V t j ltac:(lia) Hj). unfold at_ in V. rewrite V. unfold pos1, pos2.
          replace (S t0 + t)%nat with (t0 + S t)%nat by lia. f_equal; lia.
  Qed.
  Definition weights_of (w : option (list R)) (T : nat) : list R := match w with Some l => l | None => repeat 1 T end.

  Theorem noise_het_uniform g amp T n k w : uniform amp g -> (T <= length (weights_of w T))%nat ->
    exists path, generate_noise_path unif gauss g T n "heteroscedastic" w k = Ok (path, (k + T * (2 * n))%nat) /\ shape T n path /\
      forall t j, (t < T)%nat -> (j < n)%nat -> at_ path t j =
        Rabs amp * (unif (pos1 n k t j) - 1 / 2) + nth t (weights_of w T) 0 * (Rabs amp * (unif (pos2 n k t j) - 1 / 2)).
  Proof.
    intros (D & A) L.
    destruct (het_rows g (weights_of w T) n (fun w a b => Rabs amp * (unif a - 1 / 2) + w * (Rabs amp * (unif b - 1 / 2)))) with (m := T) (t0 := 0%nat) (k := k)
      as (path & E & S & V); auto.
    - intros v q _. unfold het_step. rewrite A, D. cbn [is_uniform String.eqb Ascii.eqb Bool.eqb rbind].
      do 2 f_equal. apply map_ext. intros j. unfold np_uniform. lra.
    - exists path. unfold generate_noise_path. fold (weights_of w T). cbn [String.eqb Ascii.eqb Bool.eqb]. rewrite E.
      rewrite not_spiked_test by (unfold not_spiked; rewrite D; discriminate). auto.
  Qed.
  Theorem noise_het_gaussian g std T n k w : gaussian std g -> not_spiked g -> 0 <= std ->
    (T <= length (weights_of w T))%nat -> (forall x, In x (weights_of w T) -> 0 <= x) ->
    exists path, generate_noise_path unif gauss g T n "heteroscedastic" w k = Ok (path, (k + T * (2 * n))%nat) /\ shape T n path /\
      forall t j, (t < T)%nat -> (j < n)%nat -> at_ path t j =
        std * gauss (pos1 n k t j) + std * nth t (weights_of w T) 0 * gauss (pos2 n k t j).
  Proof.
    intros (D & A) NS P L W.
    destruct (het_rows g (weights_of w T) n (fun w a b => std * gauss a + std * w * gauss b)) with (m := T) (t0 := 0%nat) (k := k)
      as (path & E & S & V); auto.
    - intros v q I. specialize (W v I). unfold het_step. rewrite A.
      replace (is_uniform (ng_dist g)) with false by (destruct D as [-> | ->]; reflexivity).
      replace (is_gaussian (ng_dist g)) with true by (destruct D as [-> | ->]; reflexivity).
      cbn [rbind]. unfold np_normal.
      replace (rltb std 0) with false by (symmetry; apply rltb_false; auto).
      replace (rltb (std * v) 0) with false by (symmetry; apply rltb_false; nra). cbn [rbind].
      do 2 f_equal. apply map_ext. intros j. ring.
    - exists path. unfold generate_noise_path. fold (weights_of w T). cbn [String.eqb Ascii.eqb Bool.eqb]. rewrite E.
      rewrite not_spiked_test by auto. auto.
  Qed.
  (** Too few weights are refused. *)
  Theorem noise_het_weights g T n k ws : (exists std, gaussian std g /\ 0 <= std /\ forall x, In x ws -> 0 <= x) \/ (exists amp, uniform amp g) ->
    (length ws < T)%nat -> generate_noise_path unif gauss g T n "heteroscedastic" (Some ws) k = Err IndexError.
  Proof.
    intros G L. unfold generate_noise_path. cbn [String.eqb Ascii.eqb Bool.eqb].
    assert (H : forall v q, In v ws -> exists r, het_step unif gauss g v n q = Ok r).
    { intros v q I. unfold het_step. destruct G as [(std & (D & A) & P & W)|(amp & D & A)].
      - rewrite A. replace (is_uniform (ng_dist g)) with false by (destruct D as [-> | ->]; reflexivity).
        replace (is_gaussian (ng_dist g)) with true by (destruct D as [-> | ->]; reflexivity).
        cbn [rbind]. unfold np_normal. specialize (W v I).
        replace (rltb std 0) with false by (symmetry; apply rltb_false; auto).
        replace (rltb (std * v) 0) with false by (symmetry; apply rltb_false; nra). cbn [rbind]. eauto.
      - rewrite A, D. cbn. eauto. }
    assert (K : forall m t0 q, (t0 <= length ws)%nat -> (length ws < t0 + m)%nat -> het_noise unif gauss g ws (seq t0 m) n q = Err IndexError).
    { induction m as [|m IH]; intros t0 q L1 L2; [lia|]. cbn [seq het_noise].
      destruct (nth_error ws t0) as [v|] eqn:E.
      - destruct (H v q (nth_error_In _ _ E)) as (r & ->). cbn [rbind].
        assert (t0 < length ws)%nat by (apply nth_error_Some; congruence). rewrite IH by lia. reflexivity.
      - reflexivity. }
    rewrite K by lia. reflexivity.
  Qed.

  (** Spikes: each entry of the Gaussian noise is kept or raised by the spike. *)
  Theorem noise_spiked g std spike p T n k w : ng_dist g = Some "spiked_gaussian"%string ->
    param g "std" = Ok std -> param g "spike" = Ok spike -> param g "p_spike" = Ok p -> 0 <= std -> 0 <= p <= 1 ->
    exists path, generate_noise_path unif gauss g T n "homoscedastic" w k = Ok (path, (k + 2 * (T * n))%nat) /\ shape T n path /\
      forall t j, (t < T)%nat -> (j < n)%nat ->
        at_ path t j = std * gauss (pos n k t j) + (if rltb (unif (pos n (k + T * n) t j)) p then spike else 0).
  Proof.
    intros D PS PK PP HS HP. destruct (hom_gaussian g std T n k) as (path & E & (S1 & S2) & V); [split; auto|auto|].
    unfold generate_noise_path. cbn [String.eqb Ascii.eqb Bool.eqb]. rewrite E, PK, PP, D. cbn [String.eqb Ascii.eqb Bool.eqb rbind].
    unfold np_binomial. replace (rltb p 0) with false by (symmetry; apply rltb_false; lra).
    replace (rltb 1 p) with false by (symmetry; apply rltb_false; lra). cbn [orb rbind].
    eexists. split; [do 2 f_equal; lia|].
    set (sp := grid (fun q => spike * (if rltb (unif q) p then 1 else 0)) T n (k + T * n)).
    assert (SP : shape T n sp) by apply grid_shape. destruct SP as (P1 & P2).
    assert (AR : forall t, (t < T)%nat -> nth t (add_rows path sp) [] = map (fun q => fst q + snd q) (combine (nth t path []) (nth t sp []))).
    { intros t HT. unfold add_rows. set (f := fun p0 : list R * list R => map (fun q => fst q + snd q) (combine (fst p0) (snd p0))).
      rewrite (nth_indep _ [] (f ([], []))) by (rewrite map_length, combine_length; lia). rewrite map_nth.
      rewrite combine_nth by congruence. reflexivity. }
    split.
    - split; [unfold add_rows; rewrite map_length, combine_length; lia|]. intros r R.
      destruct (In_nth _ _ [] R) as (t & HT & <-). unfold add_rows in HT. rewrite map_length, combine_length, S1, P1, Nat.min_id in HT.
      rewrite AR by auto. rewrite map_length, combine_length, S2, P2 by (apply nth_In; lia). lia.
    - intros t j HT Hj. unfold at_ at 1. rewrite AR by auto.
      assert (L1 : length (nth t path []) = n) by (apply S2, nth_In; lia).
      assert (L2 : length (nth t sp []) = n) by (apply P2, nth_In; lia).
      rewrite (nth_indep _ 0 ((fun q => fst q + snd q) (0, 0))) by (rewrite map_length, combine_length; lia).
      rewrite (map_nth (fun q => fst q + snd q)), combine_nth by congruence. cbn [fst snd].
      fold (at_ path t j) (at_ sp t j). rewrite V by auto. unfold sp. rewrite grid_at by auto.
      destruct (rltb _ p); ring.
  Qed.
  (** Null amplitude or standard deviation: no noise. *)
  Theorem noise_null g T n k w path k' t j : uniform 0 g \/ (gaussian 0 g /\ not_spiked g) ->
    generate_noise_path unif gauss g T n "homoscedastic" w k = Ok (path, k') -> (t < T)%nat -> (j < n)%nat -> at_ path t j = 0.
  Proof.
    intros [U|(G & NS)] E HT Hj.
    - destruct (noise_uniform g 0 T n k w U) as (p & E' & _ & V). rewrite E' in E. injection E as <- _. rewrite V by auto. rewrite Rabs_R0. ring.
    - destruct (noise_gaussian g 0 T n k w G NS) as (p & E' & _ & V); [lra|]. rewrite E' in E. injection E as <- _. rewrite V by auto. ring.
  Qed.
End Draws.

(** ** Moments *)

(** An expectation: a linear functional on random variables. *)
Record expectation (Omega : Type) := Expectation
  { ex :> (Omega -> R) -> R; ex_plus : forall f g, ex (fun o => f o + g o) = ex f + ex g; ex_scal : forall c f, ex (fun o => c * f o) = c * ex f }.
Arguments ex {Omega} _ _.
(** Uncorrelated centred draws of unit variance, up to a number of draws. *)
Definition white {Omega} (E : expectation Omega) (z : nat -> Omega -> R) (N : nat) : Prop :=
  forall q r, (q < N)%nat -> (r < N)%nat -> E (z q) = 0 /\ E (fun o => z q o * z r o) = if Nat.eqb q r then 1 else 0.

Definition path_of (r : res (list (list R) * nat)) : list (list R) := match r with Ok (p, _) => p | Err _ => [] end.

(** Such draws exist, for every number. *)
Definition sign_sum (N : nat) (f : nat * bool -> R) : R := rsum N (fun i => f (i, true) + f (i, false)) / (2 * INR N).
Lemma rsum_delta N q (g : nat -> R) : (q < N)%nat -> rsum N (fun i => if Nat.eqb i q then g i else 0) = g q.
Proof.
  induction N; intros H; [lia|]. cbn [rsum]. destruct (Nat.eq_dec q N) as [->|NE].
  - rewrite Nat.eqb_refl. rewrite rsum_zero; [ring|]. intros i Hi. replace (i =? N)%nat with false by (symmetry; apply Nat.eqb_neq; lia). auto.
  - rewrite IHN by lia. replace (N =? q)%nat with false by (symmetry; apply Nat.eqb_neq; lia). ring.
Qed.
Example white_exists N : (0 < N)%nat -> exists (E : expectation (nat * bool)) z, white E z N.
Proof.
  intros HN. assert (PN : 0 < INR N) by (apply lt_0_INR; auto).
  assert (EP : forall f g, sign_sum N (fun o => f o + g o) = sign_sum N f + sign_sum N g).
  { intros f g. unfold sign_sum. rewrite (rsum_ext N _ (fun i => (f (i, true) + f (i, false)) + (g (i, true) + g (i, false)))) by (intros; ring).
    assert (A : forall n a b, rsum n (fun i => a i + b i) = rsum n a + rsum n b) by (induction n; intros; cbn; [ring|rewrite IHn; ring]).
    rewrite A. field. lra. }
  assert (ES : forall c f, sign_sum N (fun o => c * f o) = c * sign_sum N f).
  { intros c f. unfold sign_sum. rewrite (rsum_ext N _ (fun i => c * (f (i, true) + f (i, false)))) by (intros; ring).
    assert (A : forall n a, rsum n (fun i => c * a i) = c * rsum n a) by (induction n; intros; cbn; [ring|rewrite IHn; ring]).
    rewrite A. field. lra. }
  exists (Expectation _ (sign_sum N) EP ES).
  exists (fun q (o : nat * bool) => if Nat.eqb (fst o) q then (if snd o then sqrt (INR N) else - sqrt (INR N)) else 0).
  intros q r Hq Hr. cbn [ex]. unfold sign_sum. cbn [fst snd]. split.
  - rewrite rsum_zero; [field; lra|]. intros i _. destruct (i =? q)%nat; ring.
  - destruct (Nat.eqb_spec q r) as [<-|NE].
    + rewrite (rsum_ext N _ (fun i => if (i =? q)%nat then 2 * INR N else 0)).
      * rewrite (rsum_delta N q (fun _ => 2 * INR N)) by auto. field. lra.
      * intros i _. destruct (i =? q)%nat; [|ring]. pose proof (sqrt_sqrt (INR N) ltac:(lra)). lra.
    + rewrite rsum_zero; [field; lra|]. intros i _. destruct (Nat.eqb_spec i q), (Nat.eqb_spec i r); subst; try contradiction; ring.
Qed.

Section Moments.
  Context {Omega : Type} (E : expectation Omega) (z : nat -> Omega -> R) (N : nat).
  Hypothesis W : white E z N.

  Lemma cov2 a b c d q r q' r' : (q < N)%nat -> (r < N)%nat -> (q' < N)%nat -> (r' < N)%nat ->
    E (fun o => (a * z q o + b * z r o) * (c * z q' o + d * z r' o))
    = a * c * (if Nat.eqb q q' then 1 else 0) + a * d * (if Nat.eqb q r' then 1 else 0)
      + b * c * (if Nat.eqb r q' then 1 else 0) + b * d * (if Nat.eqb r r' then 1 else 0).
  Proof.
    intros. replace (fun o => (a * z q o + b * z r o) * (c * z q' o + d * z r' o))
      with (fun o => (a * c * (z q o * z q' o) + a * d * (z q o * z r' o)) + (b * c * (z r o * z q' o) + b * d * (z r o * z r' o)))
      by (extensionality o; ring).
    rewrite (ex_plus _ E (fun o => a * c * (z q o * z q' o) + a * d * (z q o * z r' o)) (fun o => b * c * (z r o * z q' o) + b * d * (z r o * z r' o))).
    rewrite (ex_plus _ E (fun o => a * c * (z q o * z q' o)) (fun o => a * d * (z q o * z r' o))).
    rewrite (ex_plus _ E (fun o => b * c * (z r o * z q' o)) (fun o => b * d * (z r o * z r' o))).
    rewrite !(ex_scal _ E). rewrite (proj2 (W q q' ltac:(auto) ltac:(auto))), (proj2 (W q r' ltac:(auto) ltac:(auto))), (proj2 (W r q' ltac:(auto) ltac:(auto))), (proj2 (W r r' ltac:(auto) ltac:(auto))). ring.
  Qed.

  (** Homoscedastic noise: centred, of variance std^2 everywhere, entries
      uncorrelated. *)
  Theorem hom_covariance unif g std T n k w t j t' j' : gaussian std g -> not_spiked g -> 0 <= std ->
    (k + T * n <= N)%nat -> (t < T)%nat -> (j < n)%nat -> (t' < T)%nat -> (j' < n)%nat ->
    let X t j o := at_ (path_of (generate_noise_path unif (fun q => z q o) g T n "homoscedastic" w k)) t j in
    E (X t j) = 0 /\
    E (fun o => X t j o * X t' j' o) = if (Nat.eqb t t' && Nat.eqb j j')%bool then std * std else 0.
  Proof.
    intros G NS P LN Ht Hj Ht' Hj' X.
    assert (V : forall t j, (t < T)%nat -> (j < n)%nat -> X t j = fun o => std * z (pos n k t j) o).
    { intros a b Ha Hb. extensionality o. unfold X.
      destruct (noise_gaussian unif (fun q => z q o) g std T n k w G NS P) as (p & -> & _ & Hv). cbn [path_of]. apply Hv; auto. }
    assert (B : forall t j, (t < T)%nat -> (j < n)%nat -> (pos n k t j < N)%nat) by (intros; unfold pos; nia).
    rewrite !V by auto. split.
    - rewrite ex_scal. destruct (W (pos n k t j) (pos n k t j)) as (-> & _); auto. ring.
    - replace (fun o => std * z (pos n k t j) o * (std * z (pos n k t' j') o))
        with (fun o => (std * z (pos n k t j) o + 0 * z (pos n k t j) o) * (std * z (pos n k t' j') o + 0 * z (pos n k t' j') o))
        by (extensionality o; ring).
      rewrite cov2 by auto. destruct (positions_distinct n k t j t' j') as (D & _); auto.
      destruct (Nat.eqb_spec (pos n k t j) (pos n k t' j')) as [Q|Q].
      + destruct (D Q) as (<- & <-). rewrite !Nat.eqb_refl. cbn [andb]. ring.
      + destruct (Nat.eqb_spec t t'), (Nat.eqb_spec j j'); subst; cbn [andb]; try ring. contradiction.
  Qed.

  (** Heteroscedastic noise: the variance of a data point is
      std^2 (1 + weight^2). *)
  Theorem het_covariance unif g std T n k w t j t' j' : gaussian std g -> not_spiked g -> 0 <= std ->
    (T <= length (weights_of w T))%nat -> (forall x, In x (weights_of w T) -> 0 <= x) ->
    (k + T * (2 * n) <= N)%nat -> (t < T)%nat -> (j < n)%nat -> (t' < T)%nat -> (j' < n)%nat ->
    let X t j o := at_ (path_of (generate_noise_path unif (fun q => z q o) g T n "heteroscedastic" w k)) t j in
    E (X t j) = 0 /\
    E (fun o => X t j o * X t' j' o)
    = if (Nat.eqb t t' && Nat.eqb j j')%bool then std * std * (1 + nth t (weights_of w T) 0 * nth t (weights_of w T) 0) else 0.
  Proof.
    intros G NS P LW PW LN Ht Hj Ht' Hj' X. set (ws := weights_of w T) in *.
    assert (V : forall t j, (t < T)%nat -> (j < n)%nat -> X t j = fun o => std * z (pos1 n k t j) o + std * nth t ws 0 * z (pos2 n k t j) o).
    { intros a b Ha Hb. extensionality o. unfold X.
      destruct (noise_het_gaussian unif (fun q => z q o) g std T n k w G NS P LW PW) as (p & -> & _ & Hv). cbn [path_of]. apply Hv; auto. }
    assert (B1 : forall t j, (t < T)%nat -> (j < n)%nat -> (pos1 n k t j < N)%nat) by (intros; unfold pos1; nia).
    assert (B2 : forall t j, (t < T)%nat -> (j < n)%nat -> (pos2 n k t j < N)%nat) by (intros; unfold pos2; nia).
    rewrite !V by auto. split.
    - rewrite (ex_plus _ E (fun o => std * z (pos1 n k t j) o) (fun o => std * nth t ws 0 * z (pos2 n k t j) o)), !ex_scal.
      destruct (W (pos1 n k t j) (pos1 n k t j)) as (-> & _); auto. destruct (W (pos2 n k t j) (pos2 n k t j)) as (-> & _); auto. ring.
    - rewrite cov2 by auto.
      destruct (positions_distinct n k t j t' j') as (_ & D1 & D2 & D3); auto.
      destruct (positions_distinct n k t' j' t j) as (_ & _ & _ & D4); auto.
      replace (Nat.eqb (pos1 n k t j) (pos2 n k t' j')) with false by (symmetry; apply Nat.eqb_neq; auto).
      replace (Nat.eqb (pos2 n k t j) (pos1 n k t' j')) with false by (symmetry; apply Nat.eqb_neq; auto).
      destruct (Nat.eqb_spec (pos1 n k t j) (pos1 n k t' j')) as [Q|Q].
      + destruct (D1 Q) as (<- & <-). rewrite !Nat.eqb_refl. cbn [andb]. ring.
      + destruct (Nat.eqb_spec (pos2 n k t j) (pos2 n k t' j')) as [Q'|Q']; [destruct (D2 Q') as (<- & <-); contradiction|].
        destruct (Nat.eqb_spec t t'), (Nat.eqb_spec j j'); subst; cbn [andb]; try ring. contradiction.
  Qed.
End Moments.

(** The documentation promises homoscedastic noise for default weights; the
    variance is twice as large and bounded noise leaves its bounds. *)
Theorem default_weights_refuted :
  (forall Omega (E : expectation Omega) z unif n k N, white E z N -> (0 < n)%nat -> (k + 2 * n <= N)%nat ->
     let g := NoiseGen (Some "gaussian"%string) (Some [("std"%string, 1)]) in
     let X v o := at_ (path_of (generate_noise_path unif (fun q => z q o) g 1 n v None k)) 0 0 in
     E (fun o => X "heteroscedastic"%string o * X "heteroscedastic"%string o)
     = 2 * E (fun o => X "homoscedastic"%string o * X "homoscedastic"%string o) /\
     E (fun o => X "homoscedastic"%string o * X "homoscedastic"%string o) = 1) /\
  (exists unif gauss path k, (forall q, 0 <= unif q <= 1) /\
     generate_noise_path unif gauss (NoiseGen (Some "uniform"%string) (Some [("amp"%string, 1)])) 1 1 "heteroscedastic" None 0 = Ok (path, k) /\
     1 / 2 < at_ path 0 0).
Proof.
  split.
  - intros Omega E z unif n k N W Hn HN g X.
    assert (G : gaussian 1 g) by (split; [left|]; reflexivity). assert (NS : not_spiked g) by (unfold not_spiked, g; cbn; discriminate).
    destruct (het_covariance E z N W unif g 1 1 n k None 0 0 0 0 G NS) as (_ & H); auto; try lra; try (cbn; lia).
    { cbn. intros x [<-|[]]. lra. }
    destruct (hom_covariance E z N W unif g 1 1 n k None 0 0 0 0 G NS) as (_ & H'); auto; try lra; try (cbn; lia).
    cbn [Nat.eqb andb weights_of repeat nth] in H, H'. unfold X. split; lra.
  - exists (fun _ => 1), (fun _ => 0).
    destruct (noise_het_uniform (fun _ => 1) (fun _ => 0) (NoiseGen (Some "uniform"%string) (Some [("amp"%string, 1)])) 1 1 1 0 None) as (p & E & _ & V).
    + split; reflexivity.
    + cbn. lia.
    + exists p, 2%nat. split; [intros; lra|]. split; [exact E|]. rewrite V by lia. cbn [weights_of repeat nth]. rewrite Rabs_R1. lra.
Qed.

(** ** Parameters *)
Definition known (d : string) : Prop := (d = "uniform" \/ d = "gaussian" \/ d = "spiked_gaussian")%string.
Definition required (d : string) : list string :=
  if String.eqb d "uniform" then ["amp"]%string else if String.eqb d "gaussian" then ["std"]%string else ["std"; "spike"; "p_spike"]%string.

Theorem noise_setup d p :
  ((exists g, rbind (set_noise_distribution noise_init d) (fun g => set_noise_parameters g p) = Ok g) <->
   known d /\ forall x, In x (required d) -> exists v, dget p x = Some v) /\
  (forall g, rbind (set_noise_distribution noise_init d) (fun g => set_noise_parameters g p) = Ok g -> g = NoiseGen (Some d) (Some p)) /\
  ((exists e, rbind (set_noise_distribution noise_init d) (fun g => set_noise_parameters g p) = Err e) ->
   rbind (set_noise_distribution noise_init d) (fun g => set_noise_parameters g p) = Err RuntimeError).
Proof.
  assert (K : forall x, existsb (String.eqb x) (dkeys p) = true <-> exists v, dget p x = Some v).
  { intros x. rewrite existsb_exists. split.
    - intros (y & I & Q). apply String.eqb_eq in Q. subst y. apply (gget_some_in String.eqb String.eqb_eq). exact I.
    - intros (v & Q). exists x. split; [|apply String.eqb_refl]. apply (gget_in String.eqb String.eqb_eq) in Q. apply (in_map fst) in Q. exact Q. }
  unfold set_noise_distribution, set_noise_parameters.
  destruct (existsb (String.eqb d) ["uniform"; "gaussian"; "spiked_gaussian"]%string) eqn:KN; cbn [negb rbind ng_dist ng_params].
  - assert (KD : known d). { apply existsb_exists in KN. destruct KN as (y & I & Q). apply String.eqb_eq in Q. subst y. cbn in I. unfold known. intuition. }
    assert (RQ : get_required_parameters (Some d) = Ok (required d)) by (destruct KD as [-> |[-> | ->]]; reflexivity).
    rewrite RQ. cbn [rbind].
    destruct (forallb (fun x => existsb (String.eqb x) (dkeys p)) (required d)) eqn:FA.
    + rewrite forallb_forall in FA. split; [|split].
      * split; [|eauto]. intros _. split; auto. intros x I. apply K, FA, I.
      * intros g Q. congruence.
      * intros (e & Q). discriminate.
    + split; [|split]; [|intros; discriminate|auto]. split; [intros (g & Q); discriminate|].
      intros (_ & A). exfalso. enough (forallb (fun x => existsb (String.eqb x) (dkeys p)) (required d) = true) by congruence.
      apply forallb_forall. intros x I. apply K, A, I.
  - split; [|split]; [|intros; discriminate|auto]. split; [intros (g & Q); discriminate|]. intros (KD & _). exfalso.
    destruct KD as [-> |[-> | ->]]; discriminate.
Qed.
(** Parameters before a distribution, and noise before parameters, are refused. *)
Theorem noise_order p unif gauss d g T n w k : set_noise_parameters noise_init p = Err RuntimeError /\
  (set_noise_distribution noise_init d = Ok g -> generate_noise_path unif gauss g T n "homoscedastic" w k = Err TypeError).
Proof.
  split; [reflexivity|]. unfold set_noise_distribution.
  destruct (existsb (String.eqb d) ["uniform"; "gaussian"; "spiked_gaussian"]%string) eqn:KN; cbn [negb]; [|discriminate].
  intros Q. injection Q as <-. apply existsb_exists in KN. destruct KN as (y & I & Q). apply String.eqb_eq in Q. subst y.
  cbn in I. destruct I as [<-|[<-|[<-|[]]]]; reflexivity.
Qed.
(** An unknown variability is not reported as such. *)
Theorem noise_variability_refuted : exists g unif gauss,
  (exists amp, uniform amp g) /\ generate_noise_path unif gauss g 1 1 "Homoscedastic" None 0 = Err NameError.
Proof.
  exists (NoiseGen (Some "uniform"%string) (Some [("amp"%string, 1)])), (fun _ => 0), (fun _ => 0).
  split; [exists 1; split; reflexivity|reflexivity].
Qed.

(** ** Injection into displacements *)
Section Inject.
  Variables unif gauss : nat -> R.
  Variable tstep : string -> option nat.

  (** A data frame of the expected kind: rows of ten entries. *)
  Definition table (d : frame) : Prop := fr_cols d = 10%nat /\ forall r, In r (fr_rows d) -> length r = 10%nat.
  (** Entry of a frame. *)
  Definition cell (d : frame) (i c : nat) : R := nth c (nth i (fr_rows d) []) 0.
  (** Noise whose entry at draw q is [F q]. *)
  Definition noise_law (g : noise_gen) (F : nat -> R) : Prop :=
    forall T k, exists path, generate_noise_path unif gauss g T 3 "homoscedastic" None k = Ok (path, (k + T * 3)%nat) /\
      shape T 3 path /\ forall t j, (t < T)%nat -> (j < 3)%nat -> at_ path t j = F (pos 3 k t j).

  Lemma disps_row (r : list R) (v : list R) c : length r = 10%nat -> length v = 3%nat -> (c < 10)%nat ->
    nth c (set_disps r (map (fun q => fst q + snd q) (combine (disps r) v))) 0
    = nth c r 0 + (if (Nat.leb 4 c && Nat.ltb c 7)%bool then nth (c - 4) v 0 else 0).
  Proof.
    intros Lr Lv Hc. do 11 (destruct r as [|? r]; try discriminate). do 4 (destruct v as [|? v]; try discriminate).
    do 10 (destruct c as [|c]; [cbn; ring|]). lia.
  Qed.

  Lemma noisy_frame_law g F d k : noise_law g F -> table d ->
    exists d', noisy_frame unif gauss g d k = Ok (d', (k + length (fr_rows d) * 3)%nat) /\ table d' /\
      length (fr_rows d') = length (fr_rows d) /\
      forall i c, (i < length (fr_rows d))%nat -> (c < 10)%nat ->
        cell d' i c = cell d i c + (if (Nat.leb 4 c && Nat.ltb c 7)%bool then F (pos 3 k i (c - 4)) else 0).
  Proof.
    intros NL (C & RW). unfold noisy_frame. rewrite C. cbn [Nat.eqb negb].
    destruct (NL (length (fr_rows d)) k) as (path & -> & (S1 & S2) & V). cbn [rbind fst snd].
    set (nd := map (fun p => map (fun q => fst q + snd q) (combine (disps (fst p)) (snd p))) (combine (fr_rows d) path)).
    set (rows := map (fun p => set_disps (fst p) (snd p)) (combine (fr_rows d) nd)).
    assert (LN : length nd = length (fr_rows d)) by (unfold nd; rewrite map_length, combine_length; lia).
    assert (LR : length rows = length (fr_rows d)) by (unfold rows; rewrite map_length, combine_length; lia).
    assert (ROW : forall i, (i < length (fr_rows d))%nat -> nth i rows [] =
       set_disps (nth i (fr_rows d) []) (map (fun q => fst q + snd q) (combine (disps (nth i (fr_rows d) [])) (nth i path [])))).
    { intros i Hi. unfold rows. set (f := fun p : list R * list R => set_disps (fst p) (snd p)).
      rewrite (nth_indep _ [] (f ([], []))) by (rewrite map_length, combine_length; lia). rewrite map_nth, combine_nth by auto.
      unfold f. cbn [fst snd]. f_equal. unfold nd. set (h := fun p : list R * list R => map (fun q => fst q + snd q) (combine (disps (fst p)) (snd p))).
      rewrite (nth_indep _ [] (h ([], []))) by (rewrite map_length, combine_length; lia). rewrite map_nth, combine_nth by auto. reflexivity. }
    eexists. split; [reflexivity|]. cbn [fr_rows fr_cols]. fold rows. split; [|split; auto].
    - split; auto. intros r I. change (In r rows) in I. destruct (In_nth _ _ [] I) as (i & Hi & <-). rewrite LR in Hi. rewrite ROW by lia.
      assert (L1 : length (nth i (fr_rows d) []) = 10%nat) by (apply RW, nth_In; lia).
      assert (L2 : length (nth i path []) = 3%nat) by (apply S2, nth_In; lia).
      unfold set_disps, disps. rewrite !app_length, map_length, combine_length, !firstn_length, !skipn_length. lia.
    - intros i c Hi Hc. unfold cell at 1. cbn [fr_rows]. rewrite ROW by auto.
      rewrite disps_row; [|apply RW, nth_In; auto|apply S2, nth_In; lia|auto].
      unfold cell. f_equal. destruct (Nat.leb_spec 4 c), (Nat.ltb_spec c 7); cbn [andb]; auto.
      rewrite <- V by lia. reflexivity.
  Qed.
  (** Rows of the files before file number m. *)
  Fixpoint offset (files : dict frame) (names : list string) (m : nat) : nat :=
    match names, m with
    | x :: rest, S m' => ((match dget files x with Some d => length (fr_rows d) | None => 0 end) + offset files rest m')%nat
    | _, _ => 0%nat
    end.

  Lemma noisy_files_law g F files : noise_law g F -> (forall x d, dget files x = Some d -> table d) ->
    forall names k, (forall x, In x names -> exists d, dget files x = Some d) ->
    exists out, noisy_files unif gauss g files names k = Ok out /\ map fst out = names /\
      forall m x d, nth_error names m = Some x -> dget files x = Some d ->
        exists d', nth_error out m = Some (x, d') /\ table d' /\ length (fr_rows d') = length (fr_rows d) /\
          forall i c, (i < length (fr_rows d))%nat -> (c < 10)%nat ->
            cell d' i c = cell d i c + (if (Nat.leb 4 c && Nat.ltb c 7)%bool then F (pos 3 (k + offset files names m * 3) i (c - 4)) else 0).
  Proof.
    intros NL TB. induction names as [|x rest IH]; intros k EX.
    - exists []. split; [reflexivity|]. split; auto. intros [|m]; discriminate.
    - cbn [noisy_files]. destruct (EX x (or_introl eq_refl)) as (d & D). rewrite D.
      destruct (noisy_frame_law g F d k NL (TB x d D)) as (d' & -> & T' & L' & V'). cbn [rbind fst snd].
      destruct (IH (k + length (fr_rows d) * 3)%nat) as (out & -> & M & V); [intros; apply EX; right; auto|].
      cbn [rbind]. eexists. split; [reflexivity|]. split; [cbn; congruence|].
      intros [|m] y e E1 E2; cbn [nth_error] in *.
      + injection E1 as <-. assert (e = d) by congruence. subst e. exists d'. cbn [offset]. rewrite Nat.add_0_r. auto.
      + destruct (V m y e E1 E2) as (e' & N' & T2 & L2 & V2). exists e'. repeat (split; auto).
        intros i c Hi Hc. rewrite V2 by auto. cbn [offset]. rewrite D.
        replace (k + (length (fr_rows d) + offset files rest m) * 3)%nat with (k + length (fr_rows d) * 3 + offset files rest m * 3)%nat by lia.
        reflexivity.
  Qed.

  Definition step_of (x : string) : Z := match tstep x with Some k => Z.of_nat k | None => 0%Z end.
  Lemma step_files_spec files : Permutation (step_files tstep files) (filter (fun x => match tstep x with Some _ => true | None => false end) files) /\
    StronglySorted (fun a b => (step_of a <= step_of b)%Z) (step_files tstep files).
  Proof. split; [apply isort_perm|apply isort_sorted]. Qed.

  (** The data directory is left as it is.  The new files are the time step
      files in the order of their steps: the first one unchanged, the others
      with noise added to the displacements only, every entry of every file with
      its own draw. *)
  Theorem inject_law files p k g F name : noise_law g F ->
    ip_dist p <> None -> ip_dirname p = Some name -> name <> ""%string -> name <> "."%string ->
    rbind (set_noise_distribution noise_init (match ip_dist p with Some d => d | None => "" end)) (fun g => set_noise_parameters g (ip_values p)) = Ok g ->
    (forall x d, dget files x = Some d -> table d) -> (exists x, In x (dkeys files) /\ tstep x <> None) ->
    exists x0 rest d0 out,
      inject unif gauss tstep (Some files) p k = (Some files, Ok ((x0, d0) :: out)) /\
      dget files x0 = Some d0 /\ map fst out = rest /\
      Permutation (x0 :: rest) (filter (fun x => match tstep x with Some _ => true | None => false end) (dkeys files)) /\
      StronglySorted (fun a b => (step_of a <= step_of b)%Z) (x0 :: rest) /\
      forall m x d, nth_error rest m = Some x -> dget files x = Some d ->
        exists d', nth_error out m = Some (x, d') /\ table d' /\ length (fr_rows d') = length (fr_rows d) /\
          forall i c, (i < length (fr_rows d))%nat -> (c < 10)%nat ->
            cell d' i c = cell d i c + (if (Nat.leb 4 c && Nat.ltb c 7)%bool then F (pos 3 (k + offset files rest m * 3) i (c - 4)) else 0).
  Proof.
    intros NL ID IN N1 N2 SG TB EX. unfold inject. destruct (ip_dist p) as [dist|]; [|congruence]. rewrite SG, IN.
    apply String.eqb_neq in N1, N2. rewrite N1, N2. cbn [orb].
    destruct (step_files_spec (dkeys files)) as (PM & SS).
    assert (IF : forall x, In x (step_files tstep (dkeys files)) -> exists d, dget files x = Some d).
    { intros x I. apply (Permutation_in _ PM) in I. apply filter_In in I. apply (gget_some_in String.eqb String.eqb_eq). apply I. }
    destruct (step_files tstep (dkeys files)) as [|x0 rest] eqn:SF.
    { exfalso. destruct EX as (x & I & T). apply Permutation_nil in PM.
      assert (In x []) by (rewrite <- PM; apply filter_In; split; auto; destruct (tstep x); congruence). contradiction. }
    destruct (IF x0 (or_introl eq_refl)) as (d0 & D0). rewrite D0.
    destruct (noisy_files_law g F files NL TB rest k) as (out & -> & M & V); [intros; apply IF; right; auto|].
    cbn [rbind]. exists x0, rest, d0, out. split; [reflexivity|]. repeat (split; auto).
  Qed.
  Lemma uniform_law g amp : uniform amp g -> noise_law g (fun q => Rabs amp * (unif q - 1 / 2)).
  Proof. intros U T k. apply (noise_uniform unif gauss g amp T 3 k None U). Qed.
  Lemma gaussian_law g std : gaussian std g -> not_spiked g -> 0 <= std -> noise_law g (fun q => std * gauss q).
  Proof. intros G NS P T k. apply (noise_gaussian unif gauss g std T 3 k None G NS P). Qed.
  (** Uniform noise moves the displacements by half the amplitude at most. *)
  Corollary inject_uniform_bounded files p k amp name : (forall q, 0 <= unif q <= 1) ->
    ip_dist p = Some "uniform"%string -> dget (ip_values p) "amp" = Some amp ->
    ip_dirname p = Some name -> name <> ""%string -> name <> "."%string ->
    (forall x d, dget files x = Some d -> table d) -> (exists x, In x (dkeys files) /\ tstep x <> None) ->
    exists out, inject unif gauss tstep (Some files) p k = (Some files, Ok out) /\
      forall x d d', In (x, d') out -> dget files x = Some d -> NoDup (dkeys files) ->
        forall i c, (i < length (fr_rows d))%nat -> (c < 10)%nat -> Rabs (cell d' i c - cell d i c) <= Rabs amp / 2.
  Proof.
    intros B ID IV IN N1 N2 TB EX. set (g := NoiseGen (Some "uniform"%string) (Some (ip_values p))).
    assert (U : uniform amp g) by (split; [reflexivity|unfold param, g; cbn [ng_params]; rewrite IV; reflexivity]).
    destruct (inject_law files p k g _ name (uniform_law g amp U)) as (x0 & rest & d0 & out & E & D0 & M & PM & SS & V); auto.
    { rewrite ID. discriminate. }
    { rewrite ID. destruct (noise_setup "uniform" (ip_values p)) as ((_ & A) & B' & _). destruct A as (g' & G').
      - split; [left; auto|]. intros x [<-|[]]. eauto.
      - rewrite G'. rewrite (B' g' G'). reflexivity. }
    exists ((x0, d0) :: out). split; auto. intros x d d' I D ND i c Hi Hc.
    pose proof (Rabs_pos amp) as AP.
    assert (NDR : NoDup (x0 :: rest)) by (apply (Permutation_NoDup (Permutation_sym PM)); apply NoDup_filter; auto).
    destruct I as [I|I].
    - injection I as <- <-. assert (d = d0) by congruence. subst. unfold Rminus. rewrite Rplus_opp_r, Rabs_R0. lra.
    - destruct (In_nth_error _ _ I) as (m & Hm).
      assert (RM : nth_error rest m = Some x) by (rewrite <- M, nth_error_map, Hm; reflexivity).
      destruct (V m x d RM D) as (d'' & N'' & _ & _ & V'). assert (d'' = d') by congruence. subst.
      rewrite V' by auto. destruct (_ && _)%bool.
      + match goal with |- Rabs (?a + ?b - ?a) <= _ => replace (a + b - a) with b by ring end.
        set (q := pos _ _ _ _). specialize (B q). rewrite Rabs_mult, (Rabs_pos_eq (Rabs amp)) by auto.
        assert (Rabs (unif q - 1 / 2) <= 1 / 2) by (apply Rabs_le; lra). nra.
      + rewrite Rplus_0_r. unfold Rminus. rewrite Rplus_opp_r, Rabs_R0. lra.
  Qed.
  (** A frame with another number of columns is refused, except for the first
      time step. *)
  Theorem noisy_frame_columns g d k : fr_cols d <> 10%nat -> noisy_frame unif gauss g d k = Err RuntimeError.
  Proof. intros H. unfold noisy_frame. apply Nat.eqb_neq in H. rewrite H. reflexivity. Qed.
  Theorem inject_missing_directory p k : inject unif gauss tstep None p k = (None, Err RuntimeError).
  Proof. reflexivity. Qed.
End Inject.

(** With a dot as directory name the data are destroyed and nothing is written. *)
Theorem inject_keeps_data_refuted : exists unif gauss tstep files p, (forall q, 0 <= unif q <= 1) /\
  (exists x, In x (dkeys files) /\ tstep x <> None) /\ (forall x d, dget files x = Some d -> table d) /\
  inject unif gauss tstep (Some files) p 0 = (Some [], Err IndexError).
Proof.
  exists (fun _ => 0), (fun _ => 0), (fun _ => Some 0%nat), [("data_tstep_0.csv"%string, Frame 10 [repeat 0 10])],
    (InjectParams (Some "uniform"%string) (Some "."%string) [("amp"%string, 1)]).
  split; [intros; lra|]. split; [exists "data_tstep_0.csv"%string; split; [left; auto|discriminate]|]. split; [|reflexivity].
  intros x d. cbn. destruct (String.eqb x _); [|discriminate]. intros Q. injection Q as <-. split; [reflexivity|]. intros r [<-|[]]. reflexivity.
Qed.

(** ** Concrete cases *)
Example ex_uniform : exists path, generate_noise_path (fun q => if Nat.eqb q 7 then 1 else 0) (fun _ => 0)
    (NoiseGen (Some "uniform"%string) (Some [("amp"%string, 4)])) 2 3 "homoscedastic" None 3 = Ok (path, 9%nat) /\
  at_ path 1 1 = 2 /\ at_ path 0 1 = -2.
Proof.
  destruct (noise_uniform (fun q => if Nat.eqb q 7 then 1 else 0) (fun _ => 0) (NoiseGen (Some "uniform"%string) (Some [("amp"%string, 4)])) 4 2 3 3 None)
    as (p & E & _ & V); [split; reflexivity|].
  exists p. split; auto. rewrite !V by lia. unfold pos. cbn [Nat.mul Nat.add Nat.eqb]. rewrite Rabs_pos_eq by lra. split; lra.
Qed.
Example ex_spiked : exists path k, generate_noise_path (fun _ => 0) (fun _ => 1)
    (NoiseGen (Some "spiked_gaussian"%string) (Some [("std"%string, 2); ("spike"%string, 10); ("p_spike"%string, 1 / 2)])) 1 1 "homoscedastic" None 0 = Ok (path, k) /\
  at_ path 0 0 = 12.
Proof.
  destruct (noise_spiked (fun _ => 0) (fun _ => 1) (NoiseGen (Some "spiked_gaussian"%string) (Some [("std"%string, 2); ("spike"%string, 10); ("p_spike"%string, 1 / 2)]))
    2 10 (1 / 2) 1 1 0 None) as (p & E & _ & V); try reflexivity; try lra.
  exists p, 2%nat. split; [exact E|]. rewrite V by lia. replace (rltb 0 (1 / 2)) with true by (symmetry; apply rltb_true; lra). ring.
Qed.

Print Assumptions het_covariance.
Print Assumptions default_weights_refuted.
Print Assumptions inject_law.
Print Assumptions inject_uniform_bounded.
Example ex_inject : exists d d', inject (fun _ => 1) (fun _ => 0) (fun x => if String.eqb x "b.csv" then Some 1%nat else if String.eqb x "a.csv" then Some 2%nat else None)
    (Some [("a.csv"%string, Frame 10 [repeat 3 10]); ("notes.txt"%string, Frame 1 []); ("b.csv"%string, Frame 10 [repeat 5 10])])
    (InjectParams (Some "uniform"%string) (Some "noisy"%string) [("amp"%string, 2)]) 0
  = (Some [("a.csv"%string, Frame 10 [repeat 3 10]); ("notes.txt"%string, Frame 1 []); ("b.csv"%string, Frame 10 [repeat 5 10])],
     Ok [("b.csv"%string, d); ("a.csv"%string, d')]) /\
  fr_rows d = [repeat 5 10] /\ length (fr_rows d') = 1%nat.
Proof. eexists. eexists. split; [lazy; reflexivity|]. split; reflexivity. Qed.
