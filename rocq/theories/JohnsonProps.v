(** johnson: C97. *)
From Coq Require Import Strings.String Strings.Ascii.
From Verif Require Import Base DsfModel GraphModel GraphSpec GraphDict GraphProofs PathModel FlowSpec FlowProps DijkstraSpec DijkstraModel DijkstraProps JohnsonModel JohnsonSpec JohnsonProofs.
Import List.

(** johnson on the adjacency-list graph after any calls that add vertices and add or remove edges. It raises exactly when there is a negative cycle (and then
    the extra vertex stays in the graph). Otherwise every finite entry is the cost of a real walk, and the entries of a row are exact
    if in the reweighted graph no vertex farther away offers a cheaper way into a vertex; the graph keeps its vertices and edges and has the reweighted costs, which are not negative *)
Theorem C97_johnson_partial : forall (names : list string) (ops : list gop), NoDup names -> Forall ordinary names -> Forall (fun o => Forall ordinary (op_names o)) ops -> Forall (fun o => is_remove_vertex o = false) ops ->
  let G := dg_run names ops in ~ In "__q__"%string (fst G) -> weighted G ->
  exists g, al_run names ops = Ret g /\
  match johnson g with
  | (g', Ret (dist, nxt)) => ~ has_negative_cycle G /\ map fst dist = fst G /\ map fst nxt = fst G /\
      exists h, potential G h /\ represents (al_view g') (reweighted G h) /\ represents_costs (al_view g') (reweighted G h) /\ network (reweighted G h) /\
      forall u v, In u (fst G) -> In v (fst G) -> exists o x, entry dist u v = Some o /\ entry nxt u v = Some x /\
        (match o with Some d => exists n, cwalk G u n d v | None => True end) /\
        (no_detour (reweighted G h) u -> match o with Some d => least_cost G u v d | None => ~ reachable G u v end) /\
        match x with
        | Some y => y = u /\ (v = u \/ o = None \/ exists c, has_cost G u v c /\ o = Some c)
        | None => exists p c d, p <> u /\ has_cost G p v c /\ least_cost G u p d /\ o = Some (d + c)
        end
  | (g', Raise e) => e = ValueError /\ has_negative_cycle G /\ represents (al_view g') (with_source G "__q__") /\ represents_costs (al_view g') (with_source G "__q__")
  | (g', OutOfFuel) => False
  end.
Proof.
  intros names ops H1 H2 H3 H4 G NQ WT. destruct (al_wrun_ok names ops H1 H2 H3 H4) as (g & E & R & OK & W). fold G in R, OK, W. exists g. split; [exact E|]. assert (K := johnson_run g G R W OK WT NQ).
  destruct (johnson g) as [g' [[dist nxt]|e|]]; [|destruct K as (-> & K1 & K2 & K3 & K4); split; [reflexivity|]; split; [exact K1|]; split; [apply al_rep_represents; assumption|exact K3]|exact K].
  destruct K as (K1 & h & K2 & K3 & K4 & K5 & K6 & _ & K7). split; [exact K1|]. split; [exact K5|]. split; [exact K6|]. exists h. split; [exact K2|]. split; [apply al_rep_represents; [exact K3|apply rw_ok; exact OK]|]. split; [exact K4|]. split; [split; [apply rw_weighted; exact WT|apply rw_nonneg; assumption]|]. exact K7.
Qed.
Print Assumptions C97_johnson_partial.
(** exact for graphs without negative cycle in which no vertex has two incoming edges ... *)
Theorem C97_johnson_one_way_in_partial : forall (names : list string) (ops : list gop), NoDup names -> Forall ordinary names -> Forall (fun o => Forall ordinary (op_names o)) ops -> Forall (fun o => is_remove_vertex o = false) ops ->
  let G := dg_run names ops in ~ In "__q__"%string (fst G) -> weighted G -> no_negative_cycle G -> (forall u u' v, is_edge G u v -> is_edge G u' v -> u = u') ->
  exists g g' dist nxt, al_run names ops = Ret g /\ johnson g = (g', Ret (dist, nxt)) /\
    forall u v, In u (fst G) -> In v (fst G) -> exists o, entry dist u v = Some o /\ match o with Some d => least_cost G u v d | None => ~ reachable G u v end.
Proof.
  intros names ops H1 H2 H3 H4 G NQ WT NN ONE. destruct (C97_johnson_partial names ops H1 H2 H3 H4 NQ WT) as (g & E & K). destruct (al_wrun_ok names ops H1 H2 H3 H4) as (g0 & _ & _ & OK & _). fold G in K, OK.
  destruct (johnson g) as [g' [[dist nxt]|e|]] eqn:EJ; [|exfalso; destruct K as (_ & (v & n & w & C & L) & _); specialize (NN v n w C); lia|destruct K].
  destruct K as (_ & _ & _ & h & _ & _ & _ & _ & K). exists g, g', dist, nxt. split; [exact E|]. split; [exact EJ|]. intros u v Hu Hv. destruct (K u v Hu Hv) as (o & x & Eo & _ & _ & X & _). exists o. split; [exact Eo|]. apply X.
  intros y y' z c c' d d' L L' A A' Le. assert (y = y') as -> by (apply (ONE y y' z); apply (rw_edge G h); eapply cost_edge; eassumption).
  assert (c = c') as -> by (apply (cost_fun (reweighted G h) y' z c c' (rw_ok G h OK) A A')). lia.
Qed.
Print Assumptions C97_johnson_one_way_in_partial.
(** ... and for non-negative costs, if no vertex farther away offers a cheaper way into a vertex *)
Theorem C97_johnson_nonnegative_partial : forall (names : list string) (ops : list gop), NoDup names -> Forall ordinary names -> Forall (fun o => Forall ordinary (op_names o)) ops -> Forall (fun o => is_remove_vertex o = false) ops ->
  let G := dg_run names ops in ~ In "__q__"%string (fst G) -> network G ->
  exists g g' dist nxt, al_run names ops = Ret g /\ johnson g = (g', Ret (dist, nxt)) /\ represents (al_view g') G /\ represents_costs (al_view g') G /\
    forall u v, In u (fst G) -> In v (fst G) -> exists o, entry dist u v = Some o /\ (match o with Some d => exists n, cwalk G u n d v | None => True end) /\ (no_detour G u -> match o with Some d => least_cost G u v d | None => ~ reachable G u v end).
Proof.
  intros names ops H1 H2 H3 H4 G NQ (WT & NW). destruct (C97_johnson_partial names ops H1 H2 H3 H4 NQ WT) as (g & E & K). destruct (al_wrun_ok names ops H1 H2 H3 H4) as (g0 & _ & _ & OK & _). fold G in K, OK.
  assert (PW : forall u n w v, cwalk G u n w v -> 0 <= w). { intros u n w v C. induction C as [|n w x y c C IH Hc]; [lia|]. specialize (NW _ _ _ Hc). lia. }
  destruct (johnson g) as [g' [[dist nxt]|e|]] eqn:EJ; [|exfalso; destruct K as (_ & (v & n & w & C & L) & _); specialize (PW _ _ _ _ C); lia|destruct K].
  destruct K as (_ & _ & _ & h & P & RR & RC & _ & K). assert (HZ : forall v, In v (fst G) -> h v = 0). { intros v Hv. destruct (P v Hv) as ((u & n & _ & C) & L). apply PW in C. assert (X := L v O 0 Hv (cwalk_nil G v)). lia. }
  assert (EG : reweighted G h = G).
  { unfold reweighted. destruct G as [V E0]. cbn [fst snd]. f_equal. rewrite <- (map_id E0) at 2. apply map_ext_in. intros [[a b] c] He. apply (in_map fst) in He. destruct (ok_in _ OK a b He) as [Ha Hb]. cbn. rewrite (HZ a Ha), (HZ b Hb). destruct c as [c|]; [|reflexivity]. cbn. do 2 f_equal. lia. }
  rewrite EG in *. exists g, g', dist, nxt. split; [exact E|]. split; [exact EJ|]. split; [exact RR|]. split; [exact RC|]. intros u v Hu Hv. destruct (K u v Hu Hv) as (o & x & Eo & _ & X & Y & _). exists o. auto.
Qed.
Print Assumptions C97_johnson_nonnegative_partial.
(** a case with a negative cost that meets the hypotheses of the first two, and the run *)
Definition C97_names : list string := ["a"; "b"; "c"; "d"]%string.
Definition C97_ops : list gop := map pipe [("a", "b", -1); ("b", "c", 3); ("c", "a", -2); ("b", "d", -4)]%string.
Example C97_case : NoDup C97_names /\ Forall ordinary C97_names /\ Forall (fun o => Forall ordinary (op_names o)) C97_ops /\ Forall (fun o => is_remove_vertex o = false) C97_ops /\
  ~ In "__q__"%string (fst (dg_run C97_names C97_ops)) /\ weighted (dg_run C97_names C97_ops) /\ no_negative_cycle (dg_run C97_names C97_ops) /\ (forall u u' v, is_edge (dg_run C97_names C97_ops) u v -> is_edge (dg_run C97_names C97_ops) u' v -> u = u') /\
  exists g g' nxt, al_run C97_names C97_ops = Ret g /\ johnson g = (g', Ret ([("a", [("a", Some 0); ("b", Some (-1)); ("c", Some 2); ("d", Some (-5))]); ("b", [("a", Some 1); ("b", Some 0); ("c", Some 3); ("d", Some (-4))]);
    ("c", [("a", Some (-2)); ("b", Some (-3)); ("c", Some 0); ("d", Some (-7))]); ("d", [("a", None); ("b", None); ("c", None); ("d", Some 0)])]%string, nxt)).
Proof.
  split; [repeat constructor; simpl; intuition discriminate|]. split; [repeat constructor; simpl; intuition discriminate|]. split; [repeat constructor; simpl; intuition discriminate|]. split; [repeat constructor|]. split; [vm_compute; intuition discriminate|]. split.
  { intros u v Hv. vm_compute in Hv. repeat (destruct Hv as [Hv|Hv]; [injection Hv as <- <-; eexists; vm_compute; tauto|]). destruct Hv. }
  split.
  { set (G := dg_run C97_names C97_ops). set (D := fun v => match sdget [("a", -2); ("b", -3); ("c", 0); ("d", -7)]%string v with Some z => z | None => 0 end).
    assert (ED : forall u v c, has_cost G u v c -> D v <= D u + c). { intros u v c Hv. vm_compute in Hv. repeat (destruct Hv as [Hv|Hv]; [injection Hv as <- <- <-; vm_compute; discriminate|]). destruct Hv. }
    assert (X : forall u n w v, cwalk G u n w v -> D v <= D u + w). { intros u n w v C. induction C as [|n w x y c C IH Hc]; [lia|]. specialize (ED _ _ _ Hc). lia. } intros v n w C. apply X in C. lia. }
  split; [|do 3 eexists; split; vm_compute; reflexivity].
  intros u u' v A B. vm_compute in A, B. repeat (destruct A as [A|A]; [injection A as <- <-; repeat (destruct B as [B|B]; [injection B as <-; try reflexivity; try discriminate|]); try destruct B; discriminate|]). destruct A.
Qed.
(** C97 fails in general. The caller's graph is changed: the costs of its edges are those of the reweighted graph *)
Theorem C97_graph_unchanged_refuted : exists g g' t, al_run ["a"; "b"]%string [GAddE "a" "b" (Some (-1))]%string = Ret g /\ johnson g = (g', Ret t) /\ al_get_edge g "a" "b" = Some ("a"%string, "b"%string, -1) /\ al_get_edge g' "a" "b" = Some ("a"%string, "b"%string, 0).
Proof. do 3 eexists. split; [vm_compute; reflexivity|]. split; [vm_compute; reflexivity|]. split; reflexivity. Qed.
Print Assumptions C97_graph_unchanged_refuted.
(** after the exception for a negative cycle the extra vertex is still there *)
Theorem C97_extra_vertex_left_refuted : exists g g', al_run ["a"; "b"]%string [GAddE "a" "b" (Some (-1)); GAddE "b" "a" (Some 0)]%string = Ret g /\ johnson g = (g', Raise ValueError) /\ al_vertices g' = ["a"; "b"; "__q__"]%string /\ al_is_adjacent g' "__q__" "a" = Ret true.
Proof. do 2 eexists. split; [vm_compute; reflexivity|]. split; [vm_compute; reflexivity|]. split; reflexivity. Qed.
Print Assumptions C97_extra_vertex_left_refuted.
(** after a vertex with an incoming edge was removed johnson raises, because the edge's cost is still stored *)
Theorem C97_removed_vertex_refuted : exists g g', al_run ["a"; "b"; "c"]%string [GAddE "a" "b" (Some 1); GAddE "b" "c" (Some 2); GRemV "c"]%string = Ret g /\ al_vertices g = ["a"; "b"]%string /\ johnson g = (g', Raise KeyError).
Proof. do 2 eexists. split; [vm_compute; reflexivity|]. split; vm_compute; reflexivity. Qed.
Print Assumptions C97_removed_vertex_refuted.
(** a reachable vertex is reported at infinity, as by dijkstra *)
Theorem C97_reachable_at_infinity_refuted : exists g g' dist nxt, al_run C79_names C79_ops = Ret g /\ johnson g = (g', Ret (dist, nxt)) /\ entry dist "s" "f" = Some None /\ reachable (dg_run C79_names C79_ops) "s" "f".
Proof.
  do 4 eexists. split; [vm_compute; reflexivity|]. split; [vm_compute; reflexivity|]. split; [reflexivity|].
  exists 3%nat. apply (walk_snoc _ _ 2 "d"%string); [|vm_compute; tauto]. apply (walk_snoc _ _ 1 "c"%string); [|vm_compute; tauto]. apply (walk_snoc _ _ 0 "s"%string); [constructor|vm_compute; tauto].
Qed.
Print Assumptions C97_reachable_at_infinity_refuted.
(** next_vertex does not tell the way: it is None for a vertex two steps away and the start for an unreachable one *)
Theorem C97_next_vertex_refuted : exists g g' dist nxt, al_run ["a"; "b"; "c"; "d"]%string [GAddE "a" "b" (Some 1); GAddE "b" "c" (Some 1)]%string = Ret g /\ johnson g = (g', Ret (dist, nxt)) /\
  entry dist "a" "c" = Some (Some 2) /\ entry nxt "a" "c" = Some None /\ entry dist "a" "d" = Some None /\ entry nxt "a" "d" = Some (Some "a"%string).
Proof. do 4 eexists. split; [vm_compute; reflexivity|]. split; [vm_compute; reflexivity|]. repeat split. Qed.
Print Assumptions C97_next_vertex_refuted.
(** for the third theorem: the graph of C79_case (where [network] and [no_detour] are shown) *)
Example C97_nonnegative_case : exists g g' dist nxt, al_run C79_names C79_ops2 = Ret g /\ network (dg_run C79_names C79_ops2) /\ no_detour (dg_run C79_names C79_ops2) "s" /\ ~ In "__q__"%string (fst (dg_run C79_names C79_ops2)) /\ johnson g = (g', Ret (dist, nxt)) /\ entry dist "s" "d" = Some (Some 6).
Proof. destruct C79_case as (g & E & _ & _ & N & D & _). exists g. assert (E' := E). vm_compute in E'. injection E' as <-. do 3 eexists. split; [exact E|]. split; [exact N|]. split; [exact D|]. split; [vm_compute; intuition discriminate|]. split; vm_compute; reflexivity. Qed.
