(** dijkstra: C79. *)
From Coq Require Import Strings.String Strings.Ascii.
From Verif Require Import Base DsfModel GraphModel GraphSpec GraphProofs PathModel FlowSpec FlowProps DijkstraSpec DijkstraModel DijkstraProofs.
Import List.

(** dijkstra returns real walk costs and a consistent predecessor for every vertex *)
Theorem C79_dijkstra_sound_partial : forall (g : gview) (G : dg) (s : string), represents g G -> represents_costs g G -> network G -> In s (fst G) ->
  exists dist pred, dijkstra_all g s = Ret (dist, pred) /\ walk_tree G s dist pred.
Proof.
  intros g G s H1 H2 H3 H4. assert (K := run_ok g G H1 H2 H3 s H4 (fun _ _ => True) (fun _ _ _ => I) (fun _ _ _ _ _ _ _ => I)). apply wp_ex in K as ([dist pred] & E & st & HB & _ & -> & ->).
  exists (d_dist st), (d_pred st). split; [exact E|]. apply (B_tree g G s st H1 HB).
Qed.
Print Assumptions C79_dijkstra_sound_partial.
(** ... and the least costs, if no vertex farther away offers a cheaper way into a vertex *)
Theorem C79_dijkstra_exact_partial : forall (g : gview) (G : dg) (s : string), represents g G -> represents_costs g G -> network G -> In s (fst G) -> no_detour G s ->
  exists dist pred, dijkstra_all g s = Ret (dist, pred) /\ walk_tree G s dist pred /\ exact_distances G s dist /\
    forall t, In t (fst G) -> exists d, dijkstra_to g s t = Ret (d, pred) /\ sdget dist t = Some d.
Proof.
  intros g G s H1 H2 H3 H4 H5. assert (K := exact_run g G H1 H2 H3 s H4 H5). apply wp_ex in K as ([dist pred] & E & st & HB & F & -> & ->).
  exists (d_dist st), (d_pred st). split; [exact E|]. split; [apply (B_tree g G s st H1 HB)|]. split.
  - intros v Hv. destruct (b_dk _ _ _ _ HB v Hv) as (o & Eo). exists o. split; [exact Eo|]. assert (D : dd st v = o) by (unfold dd; rewrite Eo; reflexivity). destruct o as [d|].
    + apply (b_exact _ _ _ _ HB v d (F v d D) D).
    + intros (n & K). apply (walk_cwalk g G s n v H1 (proj1 H3)) in K as (w & K). destruct (finished_reach g G s st HB F n w v K) as (d & X). congruence.
  - intros t Ht. destruct (b_dk _ _ _ _ HB t Ht) as (o & Eo). exists o. split; [|exact Eo]. unfold dijkstra_to. rewrite E. cbn [bind]. unfold dgetE. rewrite Eo. reflexivity.
Qed.
Print Assumptions C79_dijkstra_exact_partial.
(** for instance when all edges cost the same *)
Theorem C79_dijkstra_equal_costs_partial : forall (g : gview) (G : dg) (s : string) (c : Z), represents g G -> represents_costs g G -> weighted G -> 0 <= c -> (forall u v w, has_cost G u v w -> w = c) -> In s (fst G) ->
  exists dist pred, dijkstra_all g s = Ret (dist, pred) /\ exact_distances G s dist.
Proof.
  intros g G s c H1 H2 H3 H4 H5 H6. destruct (C79_dijkstra_exact_partial g G s H1 H2) as (dist & pred & E & _ & X & _).
  - split; [exact H3|]. intros u v w Hw. rewrite (H5 u v w Hw). exact H4.
  - exact H6.
  - intros u u' v w w' d d' _ _ A A' L. rewrite (H5 u v w A), (H5 u' v w' A'). lia.
  - exists dist, pred. auto.
Qed.
Print Assumptions C79_dijkstra_equal_costs_partial.
(** in general entries left over from improved distances use up the rounds, and a reachable vertex is reported at infinity *)
Definition C79_names : list string := ["s"; "a"; "x"; "y"; "c"; "d"; "f"]%string.
Definition C79_ops : list gop := map pipe [("s", "a", 10); ("s", "x", 1); ("s", "y", 2); ("x", "a", 8); ("y", "a", 5); ("s", "c", 20); ("c", "d", 1); ("d", "f", 1)]%string.
Theorem C79_dijkstra_stale_entries_refuted : ~ (forall (g : gview) (G : dg) (s : string), represents g G -> represents_costs g G -> network G -> In s (fst G) ->
  exists dist pred, dijkstra_all g s = Ret (dist, pred) /\ exact_distances G s dist).
Proof.
  intros H. assert (N : NoDup C79_names) by (repeat constructor; simpl; intuition discriminate).
  assert (O : Forall ordinary C79_names) by (repeat constructor; simpl; intuition discriminate).
  assert (P : Forall (fun o => Forall ordinary (op_names o)) C79_ops) by (repeat constructor; simpl; intuition discriminate).
  destruct (al_wrun_ok C79_names C79_ops N O P) as (g & E & R & K & W); [repeat constructor|].
  destruct (H (al_view g) (dg_run C79_names C79_ops) "s"%string) as (dist & pred & D & X); [apply al_rep_represents; assumption|exact W| |vm_compute; tauto|].
  - split.
    + intros u v Hv. vm_compute in Hv. repeat (destruct Hv as [Hv|Hv]; [injection Hv as <- <-; eexists; vm_compute; tauto|]). destruct Hv.
    + intros u v c Hv. vm_compute in Hv. repeat (destruct Hv as [Hv|Hv]; [injection Hv as <- <- <-; lia|]). destruct Hv.
  - destruct (X "f"%string) as (o & Eo & Y); [vm_compute; tauto|]. vm_compute in E. injection E as <-. vm_compute in D. injection D as <- <-. vm_compute in Eo. injection Eo as <-. apply Y.
    exists 3%nat. apply (walk_snoc _ _ 2 "d"%string); [|vm_compute; tauto]. apply (walk_snoc _ _ 1 "c"%string); [|vm_compute; tauto]. apply (walk_snoc _ _ 0 "s"%string); [constructor|vm_compute; tauto].
Qed.
Print Assumptions C79_dijkstra_stale_entries_refuted.
(** a case that meets the hypotheses, with costs that differ and an unreachable vertex *)
Definition C79_ops2 : list gop := map pipe [("s", "a", 1); ("s", "x", 4); ("a", "y", 6); ("x", "y", 3); ("y", "c", 2); ("y", "d", 0); ("x", "d", 2)]%string.
Example C79_case : exists g, al_run C79_names C79_ops2 = Ret g /\ represents (al_view g) (dg_run C79_names C79_ops2) /\ represents_costs (al_view g) (dg_run C79_names C79_ops2) /\ network (dg_run C79_names C79_ops2) /\ no_detour (dg_run C79_names C79_ops2) "s" /\
  exists pred, dijkstra_all (al_view g) "s" = Ret ([("a", Some 1); ("x", Some 4); ("y", Some 7); ("c", Some 9); ("d", Some 6); ("f", None); ("s", Some 0)]%string, pred).
Proof.
  assert (N : NoDup C79_names) by (repeat constructor; simpl; intuition discriminate).
  assert (O : Forall ordinary C79_names) by (repeat constructor; simpl; intuition discriminate).
  assert (P : Forall (fun o => Forall ordinary (op_names o)) C79_ops2) by (repeat constructor; simpl; intuition discriminate).
  destruct (al_wrun_ok C79_names C79_ops2 N O P) as (g & E & R & K & W); [repeat constructor|]. exists g. split; [exact E|]. split; [apply al_rep_represents; assumption|]. split; [exact W|]. split.
  - split.
    + intros u v Hv. vm_compute in Hv. repeat (destruct Hv as [Hv|Hv]; [injection Hv as <- <-; eexists; vm_compute; tauto|]). destruct Hv.
    + intros u v c Hv. vm_compute in Hv. repeat (destruct Hv as [Hv|Hv]; [injection Hv as <- <- <-; lia|]). destruct Hv.
  - split; [|vm_compute in E; injection E as <-; eexists; vm_compute; reflexivity].
    set (D := fun v => match sdget [("s", 0); ("a", 1); ("x", 4); ("y", 7); ("c", 9); ("d", 6)]%string v with Some z => z | None => 0 end). set (G := dg_run C79_names C79_ops2).
    assert (ED : forall u v c, has_cost G u v c -> D v <= D u + c). { intros u v c Hv. vm_compute in Hv. repeat (destruct Hv as [Hv|Hv]; [injection Hv as <- <- <-; vm_compute; discriminate|]). destruct Hv. }
    assert (LB : forall n w v, cwalk G "s" n w v -> D v <= w). { intros n w v X. induction X as [|n w u v c X IH Hc]; [vm_compute; discriminate|]. assert (Y := ED _ _ _ Hc). lia. }
    assert (UB : forall u v c, has_cost G u v c -> exists n, cwalk G "s" n (D u) u).
    { intros u v c Hv. assert (Xs : cwalk G "s" 0 0 "s") by constructor. assert (Xa := cwalk_snoc G "s" 0 0 "s" "a" 1 Xs ltac:(vm_compute; tauto)). assert (Xx := cwalk_snoc G "s" 0 0 "s" "x" 4 Xs ltac:(vm_compute; tauto)). assert (Xy := cwalk_snoc G "s" _ _ "a" "y" 6 Xa ltac:(vm_compute; tauto)).
      vm_compute in Hv. repeat (destruct Hv as [Hv|Hv]; [injection Hv as <- <- <-; eexists; first [exact Xs|exact Xa|exact Xx|exact Xy]|]). destruct Hv. }
    assert (DE : forall u v c d, has_cost G u v c -> least_cost G "s" u d -> d = D u). { intros u v c d A ((n & X) & L). destruct (UB u v c A) as (m & Y). apply L in Y. apply LB in X. lia. }
    intros u u' v c c' d d' L L' A A' Le. rewrite (DE u v c d A L) in *. rewrite (DE u' v c' d' A' L') in *. clear - A A' Le. vm_compute in A. vm_compute in A'.
    repeat (destruct A as [A|A]; [injection A as <- <- <-; repeat (destruct A' as [A'|A']; [try discriminate A'; injection A' as <- <-; vm_compute in Le |- *; first [discriminate | exfalso; apply Le; reflexivity]|]); contradiction|]). contradiction.
Qed.
