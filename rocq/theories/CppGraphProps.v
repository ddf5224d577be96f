(** C++ backend of graphs: properties C107-C109. *)
From Coq Require Import Sorted Strings.String Strings.Ascii.
From Verif Require Import Base DsfModel GraphModel GraphSpec GraphProofs MstSpec CppModel CppGraphModel CppGraphSpec CppGraphProofs CppBfsProofs CppDijProofs CppDijProofs2 DijkstraSpec DsfProofs DsfProofs2 KosarajuProofs GraphDict CppProofs.
Import List.

(** ** C107: AdjacencyList, Backend.CPP *)
(** After any history of calls (a call that raises is caught, and changes nothing) on names without underscores the graph answers like the
    digraph the calls describe. *)
Theorem C107_cpp_adjacency_list_partial : forall (names : list string) (ops : list gop), plain_history names ops ->
  exists g, cg_run names ops = Ret g /\
  let G := cdg_run names ops in
  cg_nodes g = fst G /\ NoDup (fst G) /\ cg_num_vertices g = len (fst G) /\ NoDup (dg_edges G) /\ cg_num_edges g = len (snd G) /\
  (forall u v, is_edge G u v -> In u (fst G) /\ In v (fst G)) /\
  (forall u v, In u (fst G) -> exists b, cg_is_adjacent g u v = Ret b /\ (b = true <-> is_edge G u v)) /\
  (forall u v, ~ In u (fst G) -> cg_is_adjacent g u v = Raise KeyError) /\
  (forall ord u, some_order ord -> In u (fst G) -> exists l, cg_neighbors ord g u = Ret l /\ NoDup l /\ forall v, In v l <-> is_edge G u v) /\
  (forall ord u, ~ In u (fst G) -> cg_neighbors ord g u = Raise KeyError) /\
  (forall u v, plain u -> match cg_get_edge g u v with Some e => exists c, e = (u, v, c) /\ In (u, v, c) (snd G) | None => ~ is_edge G u v end).
Proof.
  intros names ops H. destruct (c_run names ops H) as (g & E & R & OK). exists g. split; [exact E|]. cbv zeta. set (G := cdg_run names ops) in *.
  assert (HN : cg_nodes g = fst G) by (destruct R as (P & next & HV & IO & ->); exact HV).
  split; [exact HN|]. split; [apply (co_v _ OK)|]. split; [unfold cg_num_vertices; rewrite HN; reflexivity|]. split; [apply (co_e _ OK)|].
  split; [destruct R as (P & next & HV & IO & ->); unfold cg_num_edges, st; cbn [cg_edges]; unfold len; rewrite map_length; reflexivity|].
  split; [intros u v X; apply (co_in _ OK); exact X|]. split; [intros u v X; eapply rep_adj; eassumption|]. split; [intros u v X; eapply rep_adj_none; eassumption|].
  split; [|split; [intros ord u X; eapply rep_nbrs_none; eassumption|intros u v X; eapply rep_edge; eassumption]].
  intros ord u HO X. rewrite (rep_nbrs ord g G u R X). eexists. split; [reflexivity|]. split; [eapply Permutation_NoDup; [symmetry; apply HO|]; apply outs_nodup; apply (co_e _ OK)|].
  intros v. split.
  - intros Y. apply (Permutation_in _ (HO _ _)) in Y. apply outs_In. exact Y.
  - intros Y. apply (Permutation_in _ (Permutation_sym (HO _ _))). apply outs_In. exact Y.
Qed.
Print Assumptions C107_cpp_adjacency_list_partial.
(** ... and which calls raise what *)
Theorem C107_cpp_adjacency_list_errors_partial : forall (names : list string) (ops : list gop) (o : gop), plain_history names (ops ++ [o]) ->
  exists g, cg_run names ops = Ret g /\
  match call_error (cdg_run names ops) o with Some e => cg_call g o = Raise e | None => exists g', cg_call g o = Ret g' /\ cg_run names (ops ++ [o]) = Ret g' end.
Proof.
  intros names ops o (H1 & H2 & H3). apply Forall_app in H3 as [H3 H4]. apply Forall_inv in H4.
  destruct (c_run names ops (conj H1 (conj H2 H3))) as (g & E & R & OK). exists g. split; [exact E|]. assert (X := c_error g _ o R OK H4). destruct (call_error (cdg_run names ops) o); [exact X|]. destruct X as (g' & X). exists g'. split; [exact X|].
  unfold cg_run in *. destruct (cg_new names) as [g0| |]; [|discriminate E..]. cbn [bind] in *. rewrite forM_snoc, E. cbn [bind]. rewrite X. reflexivity.
Qed.
Print Assumptions C107_cpp_adjacency_list_errors_partial.
(** a duplicate vertex name is refused by the constructor too *)
Theorem C107_cpp_duplicate_names : forall names, ~ NoDup names -> cg_new names = Raise ValueError.
Proof.
  intros names H. unfold cg_new.
  assert (A : forall l g, ~ NoDup (cg_nodes g ++ l) -> NoDup (cg_nodes g) -> forM l (fun n g => cg_add_vertex g n) g = Raise ValueError).
  { induction l as [|n l IH]; intros g X Y; [rewrite app_nil_r in X; contradiction|]. cbn [forM]. unfold cg_add_vertex at 1, cg_has. destruct (mem_spec n (cg_nodes g)) as [Hn|Hn]; [reflexivity|]. cbn [bind]. apply IH; cbn [cg_nodes].
    - rewrite <- app_assoc. exact X.
    - apply NoDup_snoc; assumption. }
  apply A; [exact H|constructor].
Qed.
Print Assumptions C107_cpp_duplicate_names.
Open Scope string_scope.
Definition first_order : string -> list string -> list string := fun _ l => l.
Example C107_nonvacuous : plain_history ["a"; "b"; "c"] [GAddE "a" "b" (Some 1); GAddE "b" "c" None; GAddE "a" "b" (Some 5); GRemV "c"; GAddV "d"; GAddE "d" "a" (Some 2); GRemE "a" "d"; GAddV "a"] /\
  cdg_run ["a"; "b"; "c"] [GAddE "a" "b" (Some 1); GAddE "b" "c" None; GAddE "a" "b" (Some 5); GRemV "c"; GAddV "d"; GAddE "d" "a" (Some 2); GRemE "a" "d"; GAddV "a"] =
  (["a"; "b"; "d"], [("a", "b", Some 5); ("d", "a", Some 2)]).
Proof. split; [|reflexivity]. split; [repeat constructor; cbn; intuition discriminate|]. split; repeat constructor. Qed.
(** Names with underscores: two edges share one key; removing a vertex leaves its edges behind, and removing another one deletes an edge of a
    vertex that stays (which is_adjacent still shows). *)
Theorem C107_cpp_underscore_refuted :
  (exists g, cg_run ["a"; "b_c"; "a_b"; "c"] [GAddE "a" "b_c" (Some 1); GAddE "a_b" "c" (Some 2)] = Ret g /\ cg_num_edges g = 1 /\ cg_get_edge g "a" "b_c" = Some ("a_b", "c", Some 2)) /\
  (exists g, cg_run ["a_b"; "c"] [GAddE "a_b" "c" (Some 1); GRemV "a_b"] = Ret g /\ cg_num_vertices g = 1 /\ cg_num_edges g = 1 /\ cg_get_edge g "a_b" "c" = Some ("a_b", "c", Some 1)) /\
  (exists g, cg_run ["a"; "a_b"; "d"] [GAddE "a_b" "d" (Some 1); GRemV "a"] = Ret g /\ cg_is_adjacent g "a_b" "d" = Ret true /\ cg_num_edges g = 0 /\ cg_get_edge g "a_b" "d" = None).
Proof. repeat split; eexists; repeat split; vm_compute; reflexivity. Qed.
Print Assumptions C107_cpp_underscore_refuted.

(** ** C108: breadth_first_search, Backend.CPP *)
Theorem C108_cpp_bfs_partial : forall (names : list string) (ops : list gop) (ord : string -> list string -> list string) (s : string) (op : list (string * string) -> string -> string -> bool) (fuel : nat),
  plain_history names ops -> some_order ord -> let G := cdg_run names ops in In s (fst G) -> (length (fst G) < fuel)%nat ->
  exists calls, (g <- cg_run names ops ;; cpp_bfs ord fuel g s op) = Ret calls /\
  let D := s :: map snd calls in
  NoDup D /\ (forall v, In v D <-> reachable G s v) /\
  exists dist : string -> nat, (forall v, In v D -> distance G s v (dist v)) /\ StronglySorted (fun a b => (dist a <= dist b)%nat) D /\
    (forall c n, In (c, n) calls -> is_edge G c n /\ dist n = S (dist c)).
Proof.
  intros names ops ord s op fuel H HO G Hs Hf. destruct (c_run names ops H) as (g & E & R & OK). rewrite E. cbn [bind]. exact (cpp_bfs_main ord HO g G R OK s Hs op fuel Hf).
Qed.
Print Assumptions C108_cpp_bfs_partial.
(** an unknown source is refused *)
Theorem C108_cpp_bfs_unknown_source : forall (g : cg) ord s op fuel, ~ In s (cg_nodes g) -> cpp_bfs ord fuel g s op = Raise SystemError.
Proof. intros g ord s op fuel H. unfold cpp_bfs, cg_has. destruct (mem_spec s (cg_nodes g)); [contradiction|reflexivity]. Qed.
Print Assumptions C108_cpp_bfs_unknown_source.
Definition diamond : list gop := [GAddE "a" "b" (Some 1); GAddE "a" "c" (Some 4); GAddE "b" "d" (Some 1); GAddE "c" "d" None; GAddE "d" "a" (Some (-2)); GAddE "b" "c" (Some 2)].
Example C108_nonvacuous : (g <- cg_run ["a"; "b"; "c"; "d"; "e"] diamond ;; cpp_bfs first_order 6 g "a" (fun _ _ _ => false)) = Ret [("a", "b"); ("a", "c"); ("b", "d")] /\ some_order first_order.
Proof. split; [vm_compute; reflexivity|]. intros n l. reflexivity. Qed.
(** The operation's result is thrown away: where the Python backend stops at the first falsy result, the C++ one goes on; nor is the operation
    called for leaves. *)
Theorem C108_cpp_bfs_stop_refuted : exists op : list (string * string) -> string -> string -> bool,
  (g <- cg_run ["a"; "b"; "c"] [GAddE "a" "b" None; GAddE "b" "c" None] ;; cpp_bfs first_order 9 g "a" op) = Ret [("a", "b"); ("b", "c")] /\
  GraphSpec.upto op [] [("a", "b"); ("b", "c")] = [("a", "b")].
Proof. exists (fun _ _ n => negb (String.eqb n "b")). split; vm_compute; reflexivity. Qed.
Print Assumptions C108_cpp_bfs_stop_refuted.

(** ** C109: shortest_paths(…, 'dijkstra', Backend.CPP) *)
Theorem C109_cpp_dijkstra_partial : forall (names : list string) (ops : list gop) (ordE : list (string * cedge) -> list (string * cedge)) (s : string) (fuel : nat),
  plain_history names ops -> Forall (fun o => is_remove_vertex o = false) ops -> (forall l, Permutation (ordE l) l) ->
  let G := cdg_run names ops in let N := nonneg_part G in
  In s (fst G) -> (S (length (snd G)) < fuel)%nat ->
  exists g dist pred, cg_run names ops = Ret g /\ cpp_dijkstra ordE fuel g s = Ret (dist, pred, g) /\
    map fst dist = fst G /\ map fst pred = fst G /\ exact_distances N s dist /\
    (forall v, sdget pred v = Some None -> v = s \/ ~ reachable N s v) /\
    (forall v u, sdget pred v = Some (Some u) -> v <> s /\ exists c d, has_cost N u v c /\ least_cost N s u d /\ least_cost N s v (d + c)) /\
    (forall v, reachable N s v -> leads (sdget pred) s v) /\
    forall t, In t (fst G) -> exists o, cpp_dijkstra_to ordE fuel g s t = Ret (o, pred, g) /\ match o with Some d => least_cost N s t d | None => ~ reachable N s t end.
Proof.
  intros names ops ordE s fuel H HR HO G N Hs Hf. destruct (c_run_contiguous names ops H HR) as (g & E & R & OK & CT). destruct R as (P & next & HV & IO & EG). fold G in HV, OK, EG.
  assert (EG' : G = (map fst P, snd G)) by (rewrite HV; destruct G; reflexivity).
  assert (CT' : map snd P = zrange 0 (len P)). { destruct CT as [CT _]. rewrite EG in CT. cbn [st cg_n2i cg_nodes] in CT. unfold len in *. rewrite map_length in CT. exact CT. }
  assert (OK' : cok (map fst P, snd G)) by (rewrite <- EG'; exact OK).
  assert (EN : nonneg_part (map fst P, snd G) = N) by (rewrite <- EG'; reflexivity).
  destruct (cpp_dij_ok P (snd G) next IO OK' CT' ordE fuel s HO ltac:(rewrite HV; exact Hs) Hf) as (dv & dist & pred & ER & [S1 S2 S3 S4 S5 S6] & LV & DV).
  match type of S3 with exact_distances ?X _ _ => assert (EX : X = N) by exact EN; rewrite EX in * end. exists g, dist, pred. split; [exact E|]. rewrite EG. unfold cpp_dijkstra, cpp_dijkstra_to. rewrite ER. cbn [bind fst snd]. split; [reflexivity|]. split; [exact S1|]. split; [exact S2|]. split; [exact S3|]. split; [exact S4|]. split; [exact S5|]. split; [exact S6|].
  intros t Ht. assert (Ht' : In t (map fst P)) by (rewrite HV; exact Ht). destruct (st_lookup P (snd G) next t IO Ht') as (i & Ei & _ & _). cbn [st cg_n2i] in *. unfold n2i_at. rewrite Ei. cbn [st cg_nodes cg_n2i cg_i2n cg_adj cg_edges cg_next].
  assert (Hi : In (t, i) P) by (apply sget_In; exact Ei). assert (Ri : 0 <= i < len P). { apply zrange_in. rewrite <- CT'. apply (in_map snd) in Hi. exact Hi. }
  rewrite (cget_ok _ None) by lia. cbn [bind]. exists (zn None dv i). split; [reflexivity|]. destruct (S3 t Ht) as (o & X & Y). rewrite (DV t i Hi) in X. injection X as <-. exact Y.
Qed.
Print Assumptions C109_cpp_dijkstra_partial.
Example C109_nonvacuous : plain_history ["a"; "b"; "c"; "d"; "e"] diamond /\ Forall (fun o => is_remove_vertex o = false) diamond /\
  (g <- cg_run ["a"; "b"; "c"; "d"; "e"] diamond ;; ' (r, _) <- cpp_dijkstra (@rev _) 8 g "a" ;; Ret r) =
  Ret ([("a", Some 0); ("b", Some 1); ("c", Some 3); ("d", Some 2); ("e", None)], [("a", None); ("b", Some "a"); ("c", Some "b"); ("d", Some "b"); ("e", None)]).
Proof. split; [|split; [repeat constructor|vm_compute; reflexivity]]. split; [repeat constructor; cbn; intuition discriminate|]. split; repeat constructor. Qed.
(** Outside of that: an underscore in a name loses edges; after remove_vertex the call reads outside its arrays or reports on a vertex named ""
    instead of an existing one; an unknown source is taken for vertex 0, and from then on is_adjacent answers for it. *)
Theorem C109_cpp_dijkstra_names_refuted :
  (g <- cg_run ["x_y"; "z"] [GAddE "x_y" "z" (Some 2)] ;; ' (r, _) <- cpp_dijkstra (fun l => l) 9 g "x_y" ;; Ret r) = Ret ([("x_y", Some 0); ("z", None)], [("x_y", None); ("z", None)]) /\
  least_cost (cdg_run ["x_y"; "z"] [GAddE "x_y" "z" (Some 2)]) "x_y" "z" 2.
Proof.
  split; [vm_compute; reflexivity|]. split; [exists 1%nat; apply (cwalk_snoc _ _ 0 0 "x_y" "z" 2); [constructor|left; reflexivity]|].
  intros n w H. inversion H as [|n' w' u v c H1 H2]; subst. destruct H2 as [H2|[]]. injection H2 as <- <-.
  inversion H1 as [|n'' w'' u' v' c' H3 H4]; subst; [lia|]. destruct H4 as [H4|[]]. discriminate H4.
Qed.
Print Assumptions C109_cpp_dijkstra_names_refuted.
Theorem C109_cpp_dijkstra_removed_refuted :
  (g <- cg_run ["a"; "b"; "c"] [GAddE "a" "b" (Some 1); GAddE "b" "c" (Some 1); GRemV "a"] ;; cpp_dijkstra (fun l => l) 9 g "b") = Raise IndexError /\
  (g <- cg_run ["a"; "b"; "c"] [GRemV "a"] ;; ' (r, _) <- cpp_dijkstra (fun l => l) 9 g "b" ;; Ret r) = Ret ([("", None); ("b", Some 0)], [("", None); ("b", None)]) /\
  fst (cdg_run ["a"; "b"; "c"] [GRemV "a"]) = ["b"; "c"].
Proof. repeat split; vm_compute; reflexivity. Qed.
Print Assumptions C109_cpp_dijkstra_removed_refuted.
Theorem C109_cpp_dijkstra_unknown_source_refuted : exists g g' r, cg_run ["a"; "b"] [GAddE "a" "b" (Some 1)] = Ret g /\
  cpp_dijkstra (fun l => l) 9 g "z" = Ret (r, g') /\ r = ([("a", Some 0); ("b", Some 1)], [("a", None); ("b", Some "a")]) /\
  cg_is_adjacent g "z" "b" = Raise KeyError /\ cg_is_adjacent g' "z" "b" = Ret true.
Proof. do 3 eexists. repeat split; vm_compute; reflexivity. Qed.
Print Assumptions C109_cpp_dijkstra_unknown_source_refuted.
(** ... and an edge with a negative cost is left out, so the answer is not the least cost in the graph itself (the Python backend uses it) *)
Theorem C109_cpp_dijkstra_negative_refuted :
  let ops := [GAddE "a" "b" (Some 2); GAddE "a" "c" (Some 3); GAddE "c" "b" (Some (-2))] in
  (g <- cg_run ["a"; "b"; "c"] ops ;; ' (r, _) <- cpp_dijkstra (fun l => l) 9 g "a" ;; Ret (sdget (fst r) "b")) = Ret (Some (Some 2)) /\
  cwalk (cdg_run ["a"; "b"; "c"] ops) "a" 2 1 "b".
Proof.
  split; [vm_compute; reflexivity|]. apply (cwalk_snoc _ _ 1 3 "c" "b" (-2)); [|right; right; left; reflexivity]. apply (cwalk_snoc _ _ 0 0 "a" "c" 3); [constructor|right; left; reflexivity].
Qed.
Print Assumptions C109_cpp_dijkstra_negative_refuted.
