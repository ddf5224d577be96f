(** Strongly connected components and bridges: C82, C83, C85. *)
From Coq Require Import Strings.String Strings.Ascii Sorting.Sorted.
From Verif Require Import Base GraphModel GraphSpec GraphProofs SccModel SccSpec TarjanProofs BridgeProofs BridgeProofs2 KosarajuProofs.
Import List.

(** graphs built by calls: [represents] holds of them (C71, C72) *)
Definition one_way (l : list (string * string)) : list gop := map (fun e => GAddE (fst e) (snd e) None) l.
Definition two_way (l : list (string * string)) : list gop := flat_map (fun e => [GAddE (fst e) (snd e) None; GAddE (snd e) (fst e) None]) l.

(** C83: for every graph, in either implementation *)
Theorem C83_tarjan_components : forall (g : gview) (G : dg), represents g G -> exists comps, tarjan g = Ret comps /\ components_of G comps.
Proof. intros g G H. assert (K := tarjan_ok g G H). unfold wp in K. destruct (tarjan g) as [c| |]; [exists c; auto|contradiction|contradiction]. Qed.
Print Assumptions C83_tarjan_components.
Definition C83_names : list string := ["a"; "b"; "c"; "d"; "e"; "f"]%string.
Definition C83_edges : list (string * string) := [("a", "b"); ("b", "c"); ("c", "a"); ("c", "d"); ("d", "e"); ("e", "d"); ("a", "f"); ("f", "d")]%string.
Example C83_case :
  (exists g, al_run C83_names (one_way C83_edges) = Ret g /\ represents (al_view g) (dg_run C83_names (one_way C83_edges)) /\ tarjan (al_view g) = Ret [["e"; "d"]; ["f"]; ["c"; "b"; "a"]]%string) /\
  (exists g, am_run C83_names (one_way C83_edges) = Ret g /\ represents (am_view g) (dg_run_static C83_names (one_way C83_edges)) /\ tarjan (am_view g) = Ret [["e"; "d"]; ["f"]; ["c"; "b"; "a"]]%string).
Proof.
  assert (N : NoDup C83_names) by (repeat constructor; simpl; intuition discriminate).
  assert (O : Forall ordinary C83_names) by (repeat constructor; simpl; intuition discriminate).
  assert (P : Forall (fun o => Forall ordinary (op_names o)) (one_way C83_edges)) by (repeat constructor; simpl; intuition discriminate).
  split.
  - destruct (al_run_ok _ _ N O P) as (g & E & R & K). exists g. split; [exact E|]. split; [apply al_rep_represents; assumption|]. vm_compute in E. injection E as <-. vm_compute. reflexivity.
  - destruct (am_run_ok _ _ N O P) as (g & E & R & K & _). exists g. split; [exact E|]. split; [apply am_rep_represents; assumption|]. vm_compute in E. injection E as <-. vm_compute. reflexivity.
Qed.

(** C85: for every undirected graph the result lists, in order and once each, exactly the bridges, smaller name first *)
Theorem C85_find_bridges : forall (g : gview) (G : dg), represents g G -> undirected G ->
  exists l, find_bridges g = Ret l /\ NoDup l /\ Sorted pair_le l /\ (forall a b, In (a, b) l -> String.leb a b = true) /\
    (forall a b, bridge G a b <-> In (a, b) l \/ In (b, a) l).
Proof. exact find_bridges_ok. Qed.
Print Assumptions C85_find_bridges.
Definition C85_names : list string := ["a"; "b"; "c"; "e"; "d"]%string.
Definition C85_edges : list (string * string) := [("a", "b"); ("b", "c"); ("c", "a"); ("e", "d"); ("c", "d"); ("a", "a")]%string.
Example C85_case :
  undirected (dg_run C85_names (two_way C85_edges)) /\
  exists g, al_run C85_names (two_way C85_edges) = Ret g /\ represents (al_view g) (dg_run C85_names (two_way C85_edges)) /\ find_bridges (al_view g) = Ret [("c", "d"); ("d", "e")]%string.
Proof.
  assert (N : NoDup C85_names) by (repeat constructor; simpl; intuition discriminate).
  assert (O : Forall ordinary C85_names) by (repeat constructor; simpl; intuition discriminate).
  assert (P : Forall (fun o => Forall ordinary (op_names o)) (two_way C85_edges)) by (repeat constructor; simpl; intuition discriminate).
  split.
  - intros u v. unfold is_edge. vm_compute. intuition (try congruence).
  - destruct (al_run_ok _ _ N O P) as (g & E & R & K). exists g. split; [exact E|]. split; [apply al_rep_represents; assumption|]. vm_compute in E. injection E as <-. vm_compute. reflexivity.
Qed.
(** edges added in one direction only, as in the docstring: the edge a-b of a triangle is reported *)
Theorem C85_one_way_edges_refuted : let ends := [("a", "b"); ("a", "c"); ("b", "c")]%string in let names := ["a"; "b"; "c"]%string in
  exists g, al_run names (one_way ends) = Ret g /\ find_bridges (al_view g) = Ret [("a", "b"); ("b", "c")]%string /\ ~ bridge (dg_run names (two_way ends)) "a" "b".
Proof.
  eexists. split; [vm_compute; reflexivity|]. split; [vm_compute; reflexivity|]. intros (_ & H). apply H.
  apply linked_step with "c"%string; [apply linked_step with "a"%string; [apply linked_here| | |]| | |];
    first [vm_compute; tauto | intros (X & Y); discriminate].
Qed.
Print Assumptions C85_one_way_edges_refuted.

(** C82: kosaraju raises KeyError when some vertex has no incoming edge *)
Theorem C82_kosaraju_no_incoming_refuted : exists g, al_run ["a"; "b"]%string (one_way [("a", "b")]%string) = Ret g /\ kosaraju (al_view g) = Raise KeyError.
Proof. eexists. split; vm_compute; reflexivity. Qed.
Print Assumptions C82_kosaraju_no_incoming_refuted.
(** ... and merges components even when every vertex has one: x and y are not mutually reachable here *)
Theorem C82_kosaraju_merges_refuted : let names := ["v"; "x"; "y"]%string in let ops := one_way [("v", "v"); ("v", "x"); ("v", "y"); ("y", "x")]%string in
  exists g, al_run names ops = Ret g /\ kosaraju (al_view g) = Ret [["v"]; ["x"; "y"]]%string /\ ~ mutual (dg_run names ops) "x" "y" /\
    (forall v, In v names -> exists u, is_edge (dg_run names ops) u v).
Proof.
  eexists. split; [vm_compute; reflexivity|]. split; [vm_compute; reflexivity|]. split.
  - intros ((n & K) & _). assert (Z : forall n v, walk (dg_run ["v"; "x"; "y"] (one_way [("v", "v"); ("v", "x"); ("v", "y"); ("y", "x")]))%string "x" n v -> v = "x"%string).
    { intros m v H. induction H as [|m u v H IH HE]; [reflexivity|]. subst u. vm_compute in HE. intuition congruence. }
    specialize (Z _ _ K). discriminate.
  - intros v Hv. vm_compute in Hv. destruct Hv as [<-|[<-|[<-|[]]]]; exists "v"%string; vm_compute; tauto.
Qed.
Print Assumptions C82_kosaraju_merges_refuted.
(** what does hold when every vertex has an incoming edge: kosaraju terminates, its sets partition the vertices, no strongly connected
    component is split, and every set has a member that all its members reach *)
Theorem C82_kosaraju_partial : forall (g : gview) (G : dg), represents g G -> (forall v, In v (fst G) -> exists u, is_edge G u v) ->
  exists comps, kosaraju g = Ret comps /\ Permutation (concat comps) (fst G) /\
    forall C, In C comps -> (exists r, In r C /\ forall u, In u C -> reachable G u r) /\ (forall u v, In u C -> mutual G u v -> In v C).
Proof. intros g G H HI. assert (K := kosaraju_ok g G H HI). unfold wp in K. destruct (kosaraju g) as [c| |]; [|contradiction|contradiction]. exists c. split; [reflexivity|]. exact K. Qed.
Print Assumptions C82_kosaraju_partial.
Definition C82_edges : list (string * string) := [("a", "b"); ("b", "c"); ("c", "a"); ("c", "d"); ("d", "e"); ("e", "d"); ("a", "f"); ("f", "d")]%string.
Example C82_case : (forall v, In v C83_names -> exists u, is_edge (dg_run C83_names (one_way C82_edges)) u v) /\
  exists g, al_run C83_names (one_way C82_edges) = Ret g /\ kosaraju (al_view g) = Ret [["a"; "c"; "b"]; ["f"]; ["d"; "e"]]%string.
Proof.
  split; [|eexists; split; vm_compute; reflexivity]. intros v Hv. vm_compute in Hv. destruct Hv as [<-|[<-|[<-|[<-|[<-|[<-|[]]]]]]].
  - exists "c"%string; vm_compute; tauto.
  - exists "a"%string; vm_compute; tauto.
  - exists "b"%string; vm_compute; tauto.
  - exists "c"%string; vm_compute; tauto.
  - exists "d"%string; vm_compute; tauto.
  - exists "a"%string; vm_compute; tauto.
Qed.
