(** C89: adjacency lists under every vertex name. Specifications: GraphSpec.v, NameSpec.v. *)
From Coq Require Import Strings.String Strings.Ascii.
From Verif Require Import Base DsfModel GraphModel GraphSpec GraphDict NameSpec NameProofs.
Import List.

(** For all names that are not attributes of graph or node objects (the empty string and names with underscores included) an adjacency
    list is a set of edges, whatever the history. *)
Theorem C89_adjacency_list_any_names_partial : forall (names : list string) (ops : list gop), NoDup names -> Forall usable names -> Forall (fun o => Forall usable (op_names o)) ops ->
  let G := dg_run names ops in
  exists g, al_run names ops = Ret g /\
    al_vertices g = fst G /\ al_num_vertices g = len (fst G) /\ al_num_edges g = Ret (len (snd G)) /\
    (forall u v, usable v -> In u (fst G) -> exists b, al_is_adjacent g u v = Ret b /\ (b = true <-> is_edge G u v)) /\
    (forall u v, ~ In u (fst G) -> al_is_adjacent g u v = Raise AttributeError) /\
    (forall u, In u (fst G) -> exists l, al_neighbors g u = Ret l /\ NoDup l /\ forall v, In v l <-> is_edge G u v) /\
    (forall u v c, usable u -> usable v -> ~ (In u (fst G) /\ In v (fst G)) -> al_add_edge g u v c = Raise ValueError) /\
    (forall u v, usable u -> usable v -> In u (fst G) -> In v (fst G) -> ~ is_edge G u v -> al_remove_edge g u v = Raise ValueError).
Proof.
  intros names ops H1 H2 H3 G. destruct (al_run_ok names ops H1 H2 H3) as (g & E & R & OK). fold G in R, OK. exists g. split; [exact E|].
  split; [apply (rep_v _ _ R)|]. split; [unfold al_num_vertices; rewrite (rep_v _ _ R); reflexivity|]. split; [apply rep_num_edges; assumption|].
  split; [intros u v Hv Hu; apply (rep_is_adjacent g G u v R OK Hu Hv)|]. split; [intros u v Hu; apply (rep_is_adjacent_none g G u v R Hu)|].
  split.
  { intros u Hu. exists (GraphProofs.outs (snd G) u). split; [apply rep_neighbors; assumption|]. split; [apply GraphProofs.outs_nodup, OK|]. intros v. apply GraphProofs.outs_In. }
  split; [intros u v c Hu Hv Hn; apply (addE_absent g G u v c R Hu Hv Hn)|]. intros u v Hu Hv Hui Hvi Hn. apply (step_remove_edge_none g G u v R Hv Hui Hvi Hn).
Qed.
Print Assumptions C89_adjacency_list_any_names_partial.
Definition C89_names : list string := [""; "a_b"; "_"; "vertices_"]%string.
Definition C89_ops : list gop := [GAddE "" "_" (Some 2); GAddE "a_b" "" None; GAddV "__"; GAddE "__" "a_b" None; GRemV "_"; GAddE "" "a_b" (Some 1); GRemE "a_b" ""]%string.
Example C89_case : NoDup C89_names /\ Forall usable C89_names /\ Forall (fun o => Forall usable (op_names o)) C89_ops /\
  dg_run C89_names C89_ops = ([""; "a_b"; "vertices_"; "__"], [("__", "a_b", None); ("", "a_b", Some 1)])%string.
Proof.
  split; [repeat constructor; simpl; intuition discriminate|]. split; [repeat constructor; simpl; intuition discriminate|]. split; [repeat constructor; simpl; intuition discriminate|]. vm_compute. reflexivity.
Qed.

(** The other names never work, in any graph: every vertex is adjacent to a vertex named after a node attribute and no edge to it can be
    added; a vertex named after a graph attribute cannot be added after construction. *)
Theorem C89_attribute_names_never_work_refuted : forall (g : al) (x : string),
  (In x node_attributes -> forall u n, sdget (al_nodes g) u = Some n -> ~ In x (n_attrs n) ->
    al_is_adjacent g u x = Ret true /\ forall c, sdget (al_nodes g) x <> None -> al_add_edge g u x c = Raise AttributeError) /\
  (In x graph_attributes -> al_add_vertex g x = g).
Proof.
  intros g x. split.
  - intros Hx u n En Hn. assert (Hr : mem x node_reserved = true) by (apply mem_true; exact Hx).
    unfold al_is_adjacent, al_add_edge, al_getattr, al_hasattr, add_adjacent_node, node_hasattr. rewrite En. cbn [bind negb]. rewrite Hr, orb_true_r. split; [reflexivity|].
    intros c Hc. destruct (sdget (al_nodes g) x); [|congruence]. cbn [negb bind]. apply mem_false in Hn. rewrite Hn. reflexivity.
  - intros Hx. unfold al_add_vertex, al_hasattr. assert (Hr : mem x al_reserved = true) by (apply mem_true; exact Hx). rewrite Hr. destruct (sdget (al_nodes g) x); reflexivity.
Qed.
Print Assumptions C89_attribute_names_never_work_refuted.
Example C89_never_case : exists g, al_run ["a"; "data"]%string [GAddE "a" "data" None]%string = Ret g /\ al_is_adjacent g "a" "data" = Ret true /\ al_is_adjacent g "data" "data" = Ret true /\ al_neighbors g "a" = Ret [].
Proof. eexists. split; [vm_compute; reflexivity|]. vm_compute. auto. Qed.
