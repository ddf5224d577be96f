(** Theorems about prim's minimum spanning trees (C92, and prim's half of C90). *)
From Coq Require Import Strings.String Relations.
From Verif Require Import Base DsfModel DsfSpec GraphModel GraphSpec GraphDict GraphProofs MstModel MstSpec MstProofs KruskalProofs PrimModel PrimSpec PrimProofs PrimProofs2 PrimProofs3.
Import List.

(** a history of graph calls: distinct ordinary names *)
Definition fair_history (names : list string) (ops : list gop) : Prop := NoDup names /\ Forall ordinary names /\ Forall (fun o => Forall ordinary (op_names o)) ops.

Lemma component_exists (E : pedges) s : exists C, component E s C.
Proof.
  exists (filter (fun e => if linked_dec E s (fst (fst e)) then true else false) E). intros u v c. rewrite filter_In. cbn [fst]. destruct (linked_dec E s u); intuition congruence.
Qed.
Lemma good_out g G s C r : dg_ok G -> component (priced G) s C -> good g G s C r -> let '(mst, g') := r in g' = g /\ NoDup (al_vertices mst) /\ (forall x, In x (al_vertices mst) <-> linked (priced G) s x) /\
  exists T, minimum_spanning_forest C T /\ holds_both_ways (al_weights mst) T.
Proof.
  intros OK HC. destruct r as (mst, g'). intros (-> & T & M & EW & ND & VL). split; [reflexivity|]. split; [exact ND|]. split; [exact VL|]. exists T. split; [exact M|]. rewrite EW. destruct M as ((I & F & _) & _). apply both_ways_holds; [exact F|].
  intros a b c H. apply I, HC in H as (H & _). apply priced_In in H. destruct (cost_ord G a b c OK H). split; apply ordinary_no_us; assumption.
Qed.

(** C92: on a graph whose edges all occur in both directions at the same cost, the result is a minimum spanning tree of the component of the first vertex; the given graph does not change *)
Theorem C92_prim_partial : forall (names : list string) (ops : list gop), fair_history names ops ->
  let G := dg_run names ops in undirected G -> forall s rest, fst G = s :: rest ->
  exists g mst C T, al_run names ops = Ret g /\ prim_al g = Ret (mst, g) /\
    NoDup (al_vertices mst) /\ (forall x, In x (al_vertices mst) <-> linked (priced G) s x) /\
    component (priced G) s C /\ minimum_spanning_forest C T /\ holds_both_ways (al_weights mst) T.
Proof.
  intros names ops (H1 & H2 & H3) G UD s rest EV. destruct (al_crun_ok names ops H1 H2 H3) as (g & E & R & OK & CR). destruct (component_exists (priced G) s) as (C & HC).
  assert (W := prim_run g G R OK UD CR s (ex_intro _ rest EV) C HC). apply wp_ex in W as ((mst & g') & Ep & Gd). apply (good_out g G s C (mst, g') OK HC) in Gd as (-> & ND & VL & T & M & HB). exists g, mst, C, T. auto 10.
Qed.
Print Assumptions C92_prim_partial.
(** the same for every number of threads *)
Theorem C92_prim_parallel_partial : forall (names : list string) (ops : list gop) (num_threads : nat), (0 < num_threads)%nat -> fair_history names ops ->
  let G := dg_run names ops in undirected G -> forall s rest, fst G = s :: rest ->
  exists g mst C T, al_run names ops = Ret g /\ prim_parallel_al num_threads g = Ret (mst, g) /\
    NoDup (al_vertices mst) /\ (forall x, In x (al_vertices mst) <-> linked (priced G) s x) /\
    component (priced G) s C /\ minimum_spanning_forest C T /\ holds_both_ways (al_weights mst) T.
Proof.
  intros names ops n Hn (H1 & H2 & H3) G UD s rest EV. destruct (al_crun_ok names ops H1 H2 H3) as (g & E & R & OK & CR). destruct (component_exists (priced G) s) as (C & HC).
  assert (W := prim_par_run n g G s C Hn R OK UD CR (ex_intro _ rest EV) HC). apply wp_ex in W as ((mst & g') & Ep & Gd). apply (good_out g G s C (mst, g') OK HC) in Gd as (-> & ND & VL & T & M & HB). exists g, mst, C, T. auto 10.
Qed.
Print Assumptions C92_prim_parallel_partial.
(** ... so on a connected graph it is a minimum spanning tree of the whole graph *)
Theorem C92_prim_connected_partial : forall (names : list string) (ops : list gop), fair_history names ops ->
  let G := dg_run names ops in undirected G -> fst G <> [] -> (forall x y, In x (fst G) -> In y (fst G) -> linked (priced G) x y) ->
  exists g mst T, al_run names ops = Ret g /\ prim_al g = Ret (mst, g) /\ Permutation (al_vertices mst) (fst G) /\
    minimum_spanning_forest (priced G) T /\ holds_both_ways (al_weights mst) T.
Proof.
  intros names ops F G UD NE CN. destruct (fst G) as [|s rest] eqn:EV; [congruence|]. destruct (C92_prim_partial names ops F UD s rest EV) as (g & mst & C & T & E1 & E2 & ND & VL & HC & M & HB). exists g, mst, T. split; [exact E1|]. split; [exact E2|].
  destruct F as (H1 & H2 & H3). destruct (al_crun_ok names ops H1 H2 H3) as (g0 & _ & _ & OK & _). fold G in OK, VL, HC.
  assert (CE : forall e, In e C <-> In e (priced G)). { intros ((u, v), c). rewrite (HC u v c). split; [tauto|]. intros X. split; [exact X|]. apply CN; [left; reflexivity|]. rewrite <- EV. apply priced_In in X. apply (ok_in _ OK u v (cost_edge _ _ _ _ X)). }
  split; [|split; [|exact HB]].
  - rewrite <- EV. apply NoDup_Permutation; [exact ND|apply (ok_v _ OK)|]. intros x. rewrite VL. split.
    + intros L. destruct (mem_spec x (fst G)) as [X|X]; [exact X|]. exfalso. assert (Y : mem s (fst G) = mem x (fst G)). { apply (noncross (fst G) (priced G)); [|exact L]. intros ((a, b), c) Hp. apply priced_In in Hp. destruct (ok_in _ OK a b (cost_edge _ _ _ _ Hp)) as (A & B). apply mem_true in A, B. unfold crosses. cbn [fst snd]. rewrite A, B. reflexivity. }
      apply mem_false in X. rewrite X, EV in Y. cbn in Y. rewrite String.eqb_refl in Y. discriminate.
    + intros Hx. apply CN; [left; reflexivity|]. rewrite <- EV. exact Hx.
  - assert (SF : forall F, spanning_forest C F <-> spanning_forest (priced G) F). { intros F. assert (L : forall x y, linked C x y <-> linked (priced G) x y) by (intros x y; split; apply linked_mono; intros e He; apply CE, He). split; intros (A & B & D); (split; [intros e He; apply CE, A, He|]); (split; [exact B|]); intros x y; rewrite <- D; [symmetry; apply L|apply L]. }
    destruct M as (M1 & M2). split; [apply SF, M1|]. intros F HF. apply M2, SF, HF.
Qed.
Print Assumptions C92_prim_connected_partial.
Definition C92_both (u v : string) (c : Z) : list gop := [GAddE u v (Some c); GAddE v u (Some c)].
Definition C92_ops : list gop := List.app (C92_both "a" "b" 4) (List.app (C92_both "b" "c" 1) (List.app (C92_both "a" "c" 2) (List.app (C92_both "d" "e" (-3)) (List.app (C92_both "b" "f" 7) [GRemV "f"%string])))).
Example C92_case : fair_history ["a"; "b"; "c"; "d"; "e"; "f"]%string C92_ops /\ undirected (dg_run ["a"; "b"; "c"; "d"; "e"; "f"]%string C92_ops) /\
  exists g mst mst2, al_run ["a"; "b"; "c"; "d"; "e"; "f"]%string C92_ops = Ret g /\ prim_al g = Ret (mst, g) /\ prim_parallel_al 3 g = Ret (mst2, g) /\ al_vertices mst = ["a"; "c"; "b"]%string /\
    map snd (al_weights mst) = [("a", "c", 2); ("c", "a", 2); ("c", "b", 1); ("b", "c", 1)]%string /\ al_weights mst2 = al_weights mst.
Proof.
  split; [split; [repeat constructor; cbn; intuition discriminate|]; split; repeat constructor; cbn; intuition discriminate|]. split.
  - intros u v o H. vm_compute in H. repeat (destruct H as [H|H]; [injection H as <- <- <-; eexists; split; [reflexivity|vm_compute; tauto]|]). destruct H.
  - do 3 eexists. vm_compute. repeat split; reflexivity.
Qed.

(** With each edge added in one direction, as in the documentation, joining a vertex also changes the given graph (the node objects are shared) and the search then asks for the cost of the edge it has just added there: KeyError. Kruskal handles the same graph. *)
Theorem C92_one_way_edges_refuted : exists g, al_run ["u"; "v"]%string [GAddE "u" "v" (Some 3)]%string = Ret g /\ prim_al g = Raise KeyError /\ prim_parallel_al 2 g = Raise KeyError /\ exists mst g', kruskal_al sort_edges g = Ret (mst, g').
Proof. eexists. split; [vm_compute; reflexivity|]. split; [vm_compute; reflexivity|]. split; [vm_compute; reflexivity|]. do 2 eexists. vm_compute. reflexivity. Qed.
Print Assumptions C92_one_way_edges_refuted.
(** A graph without vertices has an empty spanning tree (kruskal returns it); prim raises StopIteration. *)
Theorem C92_no_vertices_refuted : prim_al (al_new []) = Raise StopIteration /\ prim_parallel_al 2 (al_new []) = Raise StopIteration /\ exists g, kruskal_al sort_edges (al_new []) = Ret (al_new [], g).
Proof. split; [reflexivity|]. split; [reflexivity|]. eexists. vm_compute. reflexivity. Qed.
Print Assumptions C92_no_vertices_refuted.
(** C90, prim: the tree is adjacent along the edges of the given graph that it does not contain *)
Theorem C90_prim_adjacency_refuted : exists g mst, al_run ["a"; "b"; "c"]%string (List.app (C92_both "a" "b" 4) (List.app (C92_both "b" "c" 1) (C92_both "a" "c" 2))) = Ret g /\ prim_al g = Ret (mst, g) /\
  al_get_edge mst "a" "b" = None /\ al_is_adjacent mst "a" "b" = Ret true /\ al_num_edges mst = Ret 6.
Proof. do 2 eexists. split; [vm_compute; reflexivity|]. split; [vm_compute; reflexivity|]. vm_compute. auto. Qed.
Print Assumptions C90_prim_adjacency_refuted.
