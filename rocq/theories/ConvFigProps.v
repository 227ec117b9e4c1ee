(** Figure of the convexity domain with parameter paths (C140). *)
From Coq Require Import String Reals List Bool Arith Lia Lra.
From Verif Require Import Lib PyDict ConvFigModel.
Import ListNotations.
Local Open Scope list_scope.
Local Open Scope R_scope.

(** Consecutive points of a path. *)
Fixpoint steps (l : list pt) : list (pt * pt) := match l with p :: ((q :: _) as t) => (p, q) :: steps t | _ => [] end.
Lemma steps_nth l k : nth_error (steps l) k = match nth_error l k, nth_error l (S k) with Some p, Some q => Some (p, q) | _, _ => None end.
Proof.
  revert k. induction l as [|p l IH]; intros k; [destruct k; reflexivity|]. destruct l as [|q l].
  - destruct k as [|k]; [reflexivity|]. cbn. destruct k; reflexivity.
  - destruct k as [|k]; [reflexivity|]. cbn [steps nth_error]. rewrite IH. reflexivity.
Qed.
Lemma arrows_steps l : path_arrows l = steps l.
Proof.
  unfold path_arrows. assert (X : forall l, map (fun td : pt * (R * R) => let '(t, (u, v)) := td in (t, (fst t + u, snd t + v))) (combine (but_last l) (combine (diff (map fst l)) (diff (map snd l)))) = steps l).
  { clear l. unfold but_last. induction l as [|p l IH]; [reflexivity|]. destruct l as [|q l]; [reflexivity|].
    cbn [length Nat.sub map diff steps] in *. rewrite Nat.sub_0_r in IH. cbn [firstn combine map]. rewrite IH. f_equal. destruct p, q; cbn. f_equal. f_equal; ring. }
  destruct l as [|p [|q l]]; [reflexivity|reflexivity|]. cbn [length Nat.ltb Nat.leb]. apply X.
Qed.
(** Every path has its line with its label and points, after the boundary; its
    arrows go from every point to the next one, and there are no others. *)
Theorem convex_lines : forall boundary paths arrows domain legend, let f := convexity_figure boundary (Some paths) arrows domain legend in
  (exists first rest, v_lines f = first :: rest /\ l_points first = boundary /\ l_visible first = true /\ (l_label first <> None <-> legend = true) /\
    map (fun l => (l_label l, l_points l)) rest = map (fun kv => (Some (fst kv), snd kv)) paths /\ Forall (fun l => l_visible l = negb arrows) rest) /\
  v_legend f = legend.
Proof.
  intros boundary paths arrows domain legend f. split; [|reflexivity]. eexists. eexists. split; [reflexivity|]. cbn [l_points l_visible l_label]. split; [reflexivity|]. split; [reflexivity|].
  split; [destruct legend; split; intros H; congruence|]. split; [rewrite map_map; reflexivity|]. apply Forall_forall. intros l I. apply in_map_iff in I as (kv & <- & _). reflexivity.
Qed.
Theorem convex_arrows : forall boundary paths arrows domain legend p q, In (p, q) (v_arrows (convexity_figure boundary (Some paths) arrows domain legend)) <->
  exists name path k, In (name, path) paths /\ nth_error path k = Some p /\ nth_error path (S k) = Some q.
Proof.
  intros boundary paths arrows domain legend p q. cbn [convexity_figure v_arrows]. rewrite in_flat_map. split.
  - intros ([name path] & I & H). cbn [snd] in H. rewrite arrows_steps in H. apply In_nth_error in H as (k & H). rewrite steps_nth in H.
    destruct (nth_error path k) as [a|] eqn:A; [|discriminate]. destruct (nth_error path (S k)) as [b|] eqn:B; [|discriminate]. injection H as -> ->. eauto 6.
  - intros (name & path & k & I & A & B). exists (name, path). split; [exact I|]. cbn [snd]. rewrite arrows_steps. apply (nth_error_In _ k). rewrite steps_nth, A, B. reflexivity.
Qed.
(** A path of n points has n - 1 arrows. *)
Theorem convex_arrow_count : forall path boundary name arrows domain legend, length (v_arrows (convexity_figure boundary (Some [(name, path)]) arrows domain legend)) = (length path - 1)%nat.
Proof.
  intros. cbn [convexity_figure v_arrows flat_map snd]. rewrite app_nil_r, arrows_steps. induction path as [|p path IH]; [reflexivity|]. destruct path as [|q path]; [reflexivity|]. cbn [steps length] in *. rewrite IH. lia.
Qed.
(** The arrows cannot be switched off. *)
Theorem arrows_off_refuted : forall boundary paths domain legend, (exists name path, In (name, path) paths /\ (2 <= length path)%nat) -> v_arrows (convexity_figure boundary (Some paths) false domain legend) <> [].
Proof.
  intros boundary paths domain legend (name & path & I & L) E. destruct path as [|p [|q path]]; cbn in L; [lia|lia|].
  assert (H : In (p, q) (v_arrows (convexity_figure boundary (Some paths) false domain legend))) by (apply convex_arrows; exists name, (p :: q :: path), 0%nat; auto). rewrite E in H. destruct H.
Qed.
(** The rectangle has the limits of the search domain as opposite corners. *)
Theorem convex_domain : forall boundary paths arrows domain legend, match domain with
  | Some ((x0, x1), (y0, y1)) => v_domain (convexity_figure boundary paths arrows domain legend) = Some ((x0, y0), (x1, y1))
  | None => v_domain (convexity_figure boundary paths arrows domain legend) = None end.
Proof.
  intros boundary paths arrows domain legend. destruct domain as [[[x0 x1] [y0 y1]]|]; [|reflexivity]. cbn. do 2 f_equal; f_equal; ring.
Qed.
Theorem convex_no_paths : forall boundary arrows domain legend, let f := convexity_figure boundary None arrows domain legend in length (v_lines f) = 1%nat /\ v_arrows f = [].
Proof. intros. split; reflexivity. Qed.
Example convex_case : v_arrows (convexity_figure [(0, 0)] (Some [("a"%string, [(1, 2); (3, 5)])]) true None true) = [((1, 2), (3, 5))].
Proof. cbn. f_equal. f_equal. f_equal; lra. Qed.
Print Assumptions convex_arrows.
Print Assumptions convex_domain.
