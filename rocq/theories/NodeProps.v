(** C139, C140: the attributes and the neighbours of the node and edge objects of graphs. *)
From Coq Require Import Strings.String.
From Verif Require Import Base DsfModel GraphModel NodeModel NodeSpec NodeProofs.
Import List.

(** C139. The name and the data of a C++ GraphNode, AdjacencyMatrixGraphNode or AdjacencyListGraphNode are the last ones assigned, after any
    history of assignments of strs without NUL and surrogates, ints within 64 bits, floats, None and other objects (an instance of a subclass
    of int, float or str comes back as the int, float or str it equals); no assignment raises. *)
Theorem C139_cpp_node_attributes_partial : forall (adjlist : bool) (name : ustr) (data : pv) (ops : list nop),
  c_safe name -> holdable data -> Forall good_nop ops ->
  exists n, cnode_run adjlist name data ops = Ret (n, map (fun _ => None) ops) /\
    cn_name n = last_name name ops /\ load (cn_data n) = plain_value (last_data data ops).
Proof.
  intros adjlist name data ops N H F. destruct (cnode_new_ok name data N H) as (d & E & L). unfold cnode_run. rewrite E. cbn [bind].
  destruct (cnode_run_loop adjlist ops F (mkcnode name d) []) as (n' & d' & E' & Nm & D). exists (mkcnode n' d'). rewrite E'. repeat split; [exact Nm|].
  apply D. cbn [cn_data]. symmetry. exact L.
Qed.
Print Assumptions C139_cpp_node_attributes_partial.
Example C139_node_case : cnode_run true (lit "a") (PInt 3) [NSetData (PStr (lit "x")); NSetName (PStr (lit "b")); NSetData (PObj 7); NSetData (PIntSub 1 1)] =
    Ret (mkcnode (lit "b") (SInt 1), [None; None; None; None]) /\
  c_safe (lit "a") /\ holdable (PInt 3) /\ Forall good_nop [NSetData (PStr (lit "x")); NSetName (PStr (lit "b")); NSetData (PObj 7); NSetData (PIntSub 1 1)].
Proof.
  split; [vm_compute; reflexivity|]. split; [intros c [<-|[]]; cbn; lia|]. split; [cbn; lia|].
  repeat (apply Forall_cons; [cbn; repeat split; try exact I; try (cbn in *; lia)|]); apply Forall_nil.
Qed.

(** C139. A C++ node made with [data] gives back the very object's value exactly if it is not an instance of a subclass of int, float or str (not
    even True), not an int beyond 64 bits, and not a str with a NUL or a surrogate. *)
Theorem C139_cpp_node_data_exact : forall (name : ustr) (data : pv), c_safe name ->
  ((exists n, cnode_new name data = Ret n /\ cn_name n = name /\ load (cn_data n) = data) <-> holdable data /\ plain_value data = data).
Proof.
  intros name data N. split.
  - intros (n & E & _ & L). unfold cnode_new in E. destruct (c_safe_string name N) as (_ & _ & X). rewrite X in E. cbn [negb] in E.
    destruct (store data) as [[d p]| |] eqn:S; cbn [bind] in E; try discriminate. destruct p; [discriminate|]. injection E as <-. exact (store_back data d S L).
  - intros [H P]. destruct (cnode_new_ok name data N H) as (d & E & L). eexists. split; [exact E|]. split; [reflexivity|]. cbn [cn_data]. rewrite L. exact P.
Qed.
Print Assumptions C139_cpp_node_data_exact.
Example C139_data_case : holdable (PStr (lit "x")) /\ plain_value (PStr (lit "x")) = PStr (lit "x") /\ c_safe (lit "ab") /\ ~ holdable (PInt (2 ^ 63)).
Proof. split; [intros c [<-|[]]; cbn; lia|]. split; [reflexivity|]. split; [intros c [<-|[<-|[]]]; cbn; lia|]. cbn. lia. Qed.

(** C139, refuted: True comes back as 1; node.data = 2**64 leaves -1 there; a str with a NUL is cut there; a str with a surrogate is a null
    pointer for GraphNode. *)
Theorem C139_cpp_node_data_refuted :
  (cnode_run false (lit "a") (PIntSub 1 1) [] = Ret (mkcnode (lit "a") (SInt 1), [])) /\
  (exists n, cnode_run false (lit "a") (PInt 5) [NSetData (PInt (2 ^ 64))] = Ret (n, [Some SystemError]) /\ load (cn_data n) = PInt (-1)) /\
  (exists n, cnode_run true (lit "a") PNone [NSetData (PStr [120; 0; 121])] = Ret (n, [None]) /\ load (cn_data n) = PStr [120]) /\
  (cnode_run false (lit "a") (PStr [56000]) [] = Raise SystemError).
Proof. repeat apply conj; try (eexists; split); vm_compute; reflexivity. Qed.
Print Assumptions C139_cpp_node_data_refuted.

(** C139. The value of a C++ GraphEdge is the last one assigned that is None, an int within 64 bits, a float or a str without NUL and surrogates;
    assigning another object raises TypeError and changes nothing. *)
Theorem C139_cpp_edge_value_partial : forall (value : pv) (ops : list pv),
  edge_value value = true -> holdable value -> Forall holdable ops ->
  exists d, edge_run value ops = Ret (d, map (fun v => if edge_value v then None else Some TypeError) ops) /\
    load d = plain_value (last (value :: filter edge_value ops) value).
Proof.
  intros value ops EV H F. destruct (store_ok value H) as (d0 & S & L).
  assert (E0 : edge_value_new value = Ret d0) by (unfold edge_value_new; destruct value; try discriminate EV; rewrite S; reflexivity).
  unfold edge_run. rewrite E0. cbn [bind].
  assert (G : forall ops, Forall holdable ops -> forall d w v0 outs, load d = plain_value w -> exists d', 
    forM ops (fun v '(d, outs) => '(d', e) <- edge_set_value d v ;; Ret (d', outs ++ [e])) (d, outs) =
      Ret (d', outs ++ map (fun v => if edge_value v then None else Some TypeError) ops) /\ load d' = plain_value (last (w :: filter edge_value ops) v0)).
  { clear. induction ops as [|v ops IH]; intros F d w v0 outs L.
    - exists d. cbn. rewrite app_nil_r. split; [reflexivity|exact L].
    - inversion F as [|? ? Hv F']; subst. cbn [forM]. destruct (edge_value v) eqn:EV.
      + destruct (store_ok v Hv) as (d1 & S & L1).
        assert (edge_set_value d v = Ret (d1, None)) as -> by (unfold edge_set_value; destruct v; try discriminate EV; rewrite S; reflexivity). cbn [bind].
        destruct (IH F' d1 v v0 (outs ++ [None]) L1) as (d' & E & R). exists d'. rewrite E, <- app_assoc. cbn [filter map]. rewrite EV. split; [reflexivity|]. exact R.
      + destruct v; try discriminate EV. cbn [edge_set_value bind]. destruct (IH F' d w v0 (outs ++ [Some TypeError]) L) as (d' & E & R). exists d'. rewrite E, <- app_assoc.
        split; [reflexivity|]. exact R. }
  exact (G ops F d0 value value [] L).
Qed.
Print Assumptions C139_cpp_edge_value_partial.
Example C139_edge_case : edge_run (PInt 4) [PStr (lit "w"); PObj 3; PFloat 8; PObj 2] = Ret (SDouble 8, [None; Some TypeError; None; Some TypeError]) /\
  edge_value (PInt 4) = true /\ holdable (PInt 4) /\ Forall holdable [PStr (lit "w"); PObj 3; PFloat 8; PObj 2].
Proof. split; [vm_compute; reflexivity|]. split; [reflexivity|]. split; [cbn; lia|]. repeat (apply Forall_cons; [cbn; repeat split; try exact I; try (cbn in *; lia)|]); apply Forall_nil. Qed.

(** C139. str of a C++ node is str of the Python node with the same name and data, for every name and every str as data without a quote or a
    backslash, and data that is None, an int of 64 bits or another object (printable ASCII; the text of floats is std::to_string's). *)
Theorem C139_cpp_node_str_partial : forall (repr_float to_string_double repr_obj : Z -> ustr) (name : ustr) (data : pv) (n : cnode),
  Forall (fun c => 32 <= c <= 126) name -> ~ In 39 name -> ~ In 92 name ->
  match data with PNone | PObj _ => True | PInt z => - 2 ^ 63 <= z < 2 ^ 63 | PStr s => Forall (fun c => 32 <= c <= 126) s /\ ~ In 39 s /\ ~ In 92 s | _ => False end ->
  cnode_new name data = Ret n -> cnode_str to_string_double repr_obj n = py_node_str repr_float repr_obj name data.
Proof.
  intros rf ts ro name data n P A B H E.
  assert (SAFE : forall s, Forall (fun c => 32 <= c <= 126) s -> c_safe s) by (intros s F c I; rewrite Forall_forall in F; specialize (F c I); cbv beta in F; lia).
  assert (HD : holdable data) by (destruct data; cbn in *; try exact I; try contradiction; try exact H; apply SAFE, H).
  destruct (store_ok data HD) as (d & S & L). destruct (cnode_new_ok name data (SAFE name P) HD) as (d' & E' & L'). rewrite E in E'. injection E' as ->.
  unfold cnode_str, py_node_str. cbn [cn_name cn_data]. rewrite (proj2 (repr_quotes name) (conj A B)).
  assert (X : match d' with SNone => lit "None" | SInt z => decimal z | SDouble f => ts f | SString s => lit "'" ++ s ++ lit "'" | SObj o => ro o end = repr rf ro data).
  { destruct data; cbn in H; try contradiction; destruct d'; cbn [load plain_value] in L'; try discriminate L'; cbn [repr].
    - reflexivity.
    - injection L' as ->. reflexivity.
    - injection L' as ->. destruct H as (_ & A' & B'). rewrite (proj2 (repr_quotes s) (conj A' B')). reflexivity.
    - injection L' as ->. reflexivity. }
  rewrite <- X. change (lit "('") with ([40; 39] : ustr). change (lit "', ") with ([39; 44; 32] : ustr). change (lit "(") with ([40] : ustr). change (lit ", ") with ([44; 32] : ustr).
  rewrite <- ?app_assoc. cbn [app]. rewrite <- ?app_assoc. reflexivity.
Qed.
Print Assumptions C139_cpp_node_str_partial.
Example C139_str_case : cnode_new (lit "ab") (PInt (-20)) = Ret (mkcnode (lit "ab") (SInt (-20))) /\
  cnode_str (fun _ => []) (fun _ => []) (mkcnode (lit "ab") (SInt (-20))) = lit "('ab', -20)" /\ Forall (fun c => 32 <= c <= 126) (lit "ab") /\ ~ In 39 (lit "ab") /\ ~ In 92 (lit "ab").
Proof. repeat apply conj; try (vm_compute; reflexivity); [repeat constructor; cbn; lia| |]; cbn; lia. Qed.

(** C139, refuted: for every name with a quote or a backslash, str of a C++ node without data is not str of the Python node. *)
Theorem C139_cpp_node_str_refuted : forall (repr_float to_string_double repr_obj : Z -> ustr) (name : ustr),
  In 39 name \/ In 92 name -> cnode_str to_string_double repr_obj (mkcnode name SNone) <> py_node_str repr_float repr_obj name PNone.
Proof.
  intros rf ts ro name H E. unfold cnode_str, py_node_str in E. cbn [cn_name cn_data repr] in E.
  assert (X : py_repr name = 39 :: name ++ [39]).
  {    assert (Y : (39 :: name ++ [39]) ++ (lit ", " ++ lit "None" ++ lit ")")%list = py_repr name ++ (lit ", " ++ lit "None" ++ lit ")")%list).
    { cbn [app]. rewrite <- app_assoc. exact (f_equal (@tl Z) E). }
    apply app_inv_tail in Y. symmetry. exact Y. }
  apply repr_quotes in X. destruct X, H; contradiction.
Qed.
Print Assumptions C139_cpp_node_str_refuted.
Example C139_str_refuted_case : In 39 (lit "o'neil") /\ cnode_str (fun _ => []) (fun _ => []) (mkcnode (lit "o'neil") SNone) = lit "('o'neil', None)".
Proof. split; [cbn; auto 10|vm_compute; reflexivity]. Qed.

(** C139, refuted: str of a C++ edge shows its value as well, so it is never str of the Python edge between the same vertices. *)
Theorem C139_cpp_edge_str_refuted : forall (to_string_double : Z -> ustr) (source target : ustr) (value : slot),
  ~ In 39 source -> ~ In 92 source -> ~ In 39 target -> ~ In 92 target ->
  cedge_str to_string_double source target value <> py_edge_str source target.
Proof.
  intros ts s t v A B C D E. unfold cedge_str, py_edge_str in E. rewrite (proj2 (repr_quotes s) (conj A B)), (proj2 (repr_quotes t) (conj C D)) in E.
  apply (f_equal (@length Z)) in E. rewrite !app_length in E. cbn [length] in E. rewrite !app_length in E. cbn in E. lia.
Qed.
Print Assumptions C139_cpp_edge_str_refuted.
Example C139_edge_str_case : cedge_str (fun _ => []) (lit "a") (lit "b") (SInt 5) = lit "('a', 'b', 5)" /\ py_edge_str (lit "a") (lit "b") = lit "('a', 'b')".
Proof. split; vm_compute; reflexivity. Qed.

(** C140. After any history of add_adjacent_node and remove_adjacent_node calls with names that are not attributes of every node, [adjacent] of a
    Python AdjacencyListGraphNode lists exactly the names added and not removed since, each once, and the node of each holds the data last given;
    remove_adjacent_node raises ValueError exactly for a name that is not adjacent, and nothing else raises. *)
Theorem C140_py_neighbours_partial : forall (ops : list aop) (n : pyadj) (outs : list (option exn)),
  Forall (fun o => ~ In (aop_name o) (map lit ["name"; "data"; "adjacent"; "_impl"; "methods"; "add_adjacent_node"; "remove_adjacent_node"]%string)) ops ->
  pyadj_run (pyadj_new []) ops = (n, outs) ->
  outcomes ops outs /\
  exists names, pa_adjacent n = map EName names /\ NoDup names /\ (forall s, In s names <-> current ops s <> None) /\
    (forall s, udget (pa_attrs n) s = current ops s).
Proof.
  intros ops n outs F E. destruct (py_run ops F n outs E) as ((G & N & A) & O). split; [exact O|]. exists (map fst (pa_attrs n)). repeat split; try assumption.
  - intros I. rewrite <- G. apply udget_in, I.
  - intros I. rewrite <- G in I. apply udget_in, I.
Qed.
Print Assumptions C140_py_neighbours_partial.
Definition case_ops : list aop := [AAdd (lit "b") (PInt 1); AAdd (lit "c") PNone; ARem (lit "d"); AAdd (lit "b") (PInt 2); ARem (lit "c"); AAdd (lit "") (PStr (lit "x"))].
Example C140_py_case : pyadj_run (pyadj_new []) case_ops =
    (mkpyadj [(lit "b", PInt 2); (lit "", PStr (lit "x"))] [EName (lit "b"); EName (lit "")], [None; None; Some ValueError; None; None; None]) /\
  Forall (fun o => ~ In (aop_name o) (map lit ["name"; "data"; "adjacent"; "_impl"; "methods"; "add_adjacent_node"; "remove_adjacent_node"]%string)) case_ops.
Proof. split; [vm_compute; reflexivity|]. repeat constructor; cbn; intuition discriminate. Qed.

(** C140, refuted: a name that is an attribute of every node cannot be added to a Python node. *)
Theorem C140_py_reserved_refuted : forall x d, In x (map lit ["name"; "data"; "adjacent"; "_impl"; "methods"; "add_adjacent_node"; "remove_adjacent_node"]%string) ->
  pyadj_add (pyadj_new []) x d = (pyadj_new [], Some AttributeError).
Proof. intros x d H. cbn in H. intuition subst; vm_compute; reflexivity. Qed.
Print Assumptions C140_py_reserved_refuted.
Example C140_py_reserved_case : In (lit "data") (map lit ["name"; "data"; "adjacent"; "_impl"; "methods"; "add_adjacent_node"; "remove_adjacent_node"]%string).
Proof. cbn. auto. Qed.

(** C140, refuted: of a Python node made with nodes in adjacency_list, no neighbour can be removed; and what is added afterwards is appended to the
    caller's list (which [pa_adjacent] is), after node objects where all others are names. *)
Theorem C140_py_adjacency_list_refuted : forall (nodes : list (ustr * pv)) (x : ustr) (d : pv), In x (map fst nodes) ->
  pyadj_remove (pyadj_new nodes) x = (pyadj_new nodes, Some ValueError) /\
  forall y, ~ In y (map fst nodes) -> ~ In y ureserved ->
    pa_adjacent (fst (pyadj_add (pyadj_new nodes) y d)) = map (fun n => ENode (fst n)) nodes ++ [EName y].
Proof.
  intros nodes x d I.
  assert (R : forall l : list (ustr * pv), entry_remove (map (fun n => ENode (fst n)) l) x = None) by (induction l as [|a l IH]; cbn; [reflexivity|rewrite IH; reflexivity]).
  assert (K : forall y (l : list (ustr * pv)) t, udget (fold_left (fun a x => udset a (fst x) (snd x)) l t) y <> None <-> In y (map fst l) \/ udget t y <> None).
  { intros y. induction l as [|a l IH]; intros t; cbn [fold_left map In]; [tauto|]. rewrite IH, udget_set. destruct (list_eq_dec Z.eq_dec y (fst a)) as [->|N].
    - split; [intros _; left; left; reflexivity|intros _; right; discriminate].
    - split; [intros [H|H]; auto|intros [[H|H]|H]; [subst; contradiction|auto|auto]]. }
  split.
  - unfold pyadj_remove, pyadj_hasattr. cbn [pyadj_new pa_attrs pa_adjacent]. destruct (udget _ x) eqn:E.
    + cbn [negb]. rewrite R. reflexivity.
    + exfalso. apply (proj2 (K x nodes [])); [left; exact I|exact E].
  - intros y NI NR. unfold pyadj_add, pyadj_hasattr. cbn [pyadj_new pa_attrs pa_adjacent]. destruct (udget _ y) eqn:E.
    + exfalso. assert (Q : In y (map fst nodes) \/ udget (@nil (ustr * pv)) y <> None) by (apply K; rewrite E; discriminate). destruct Q as [Q|Q]; [contradiction|apply Q; reflexivity].
    + destruct (umem y ureserved) eqn:M; [|reflexivity]. exfalso. apply NR. unfold umem in M. apply existsb_exists in M. destruct M as (z & Iz & Ez). apply ueqb_eq in Ez. subst. exact Iz.
Qed.
Print Assumptions C140_py_adjacency_list_refuted.
Example C140_py_list_case : In (lit "b") (map fst [(lit "b", PInt 1)]) /\ ~ In (lit "c") (map fst [(lit "b", PInt 1)]) /\ ~ In (lit "c") ureserved.
Proof. repeat apply conj; cbn; intuition discriminate. Qed.

(** C140. After any history of add_adjacent_node and remove_adjacent_node calls with names and data a C++ node can hold, [adjacent] of a C++
    AdjacencyListGraphNode has exactly the names added and not removed since; a name added once since is mapped to a node with that name and data,
    a name added again while it was adjacent is mapped to the data object itself instead of a node; remove_adjacent_node raises ValueError exactly
    for a name that is not adjacent, nothing else raises, and the node keeps its own name and data. *)
Theorem C140_cpp_neighbours_exact : forall (name : ustr) (data : pv) (ops : list aop),
  c_safe name -> holdable data -> Forall (fun o => match o with AAdd x d => c_safe x /\ holdable d | ARem x => c_safe x end) ops ->
  exists n0 n outs, cadj_new name data (ArgList []) = Ret n0 /\ cadj_run n0 ops = Ret (n, outs) /\ outcomes ops outs /\
    cn_name (ca_node n) = name /\ load (cn_data (ca_node n)) = plain_value data /\ NoDup (map fst (ca_adj n)) /\
    forall s, match current ops s with
      | None => udget (ca_adj n) s = None
      | Some d => if readded ops s then udget (ca_adj n) s = Some (ChData d)
                  else exists sl, udget (ca_adj n) s = Some (ChNode (mkcnode s sl)) /\ load sl = plain_value d
      end.
Proof.
  intros name data ops N H F. destruct (store_ok data H) as (d & S & L). exists (mkcadj (mkcnode name d) []).
  destruct (c_run (mkcadj (mkcnode name d) []) eq_refl ops F) as (n & outs & E & (D & ND & G) & O). exists n, outs.
  split; [unfold cadj_new; destruct (c_safe_string name N) as (_ & _ & ->); rewrite S; reflexivity|]. split; [exact E|]. split; [exact O|].
  rewrite D. cbn [ca_node cn_name cn_data]. repeat split; assumption.
Qed.
Print Assumptions C140_cpp_neighbours_exact.
Example C140_cpp_case : cadj_run (mkcadj (mkcnode (lit "a") SNone) []) case_ops =
    Ret (mkcadj (mkcnode (lit "a") SNone) [(lit "b", ChData (PInt 2)); (lit "", ChNode (mkcnode (lit "") (SString (lit "x"))))], [None; None; Some ValueError; None; None; None]) /\
  Forall (fun o => match o with AAdd x d => c_safe x /\ holdable d | ARem x => c_safe x end) case_ops /\ readded case_ops (lit "b") = true /\ readded case_ops (lit "") = false.
Proof.
  assert (K : forall l, forallb (fun c => (0 <? c) && (c <? 128)) l = true -> c_safe l).
  { intros l H c I. rewrite forallb_forall in H. specialize (H c I). cbv beta in H. lia. }
  split; [vm_compute; reflexivity|]. split; [|split; reflexivity]. unfold case_ops.
  apply Forall_cons; [split; [apply K; reflexivity|cbn [holdable]; lia]|]. apply Forall_cons; [split; [apply K; reflexivity|exact I]|].
  apply Forall_cons; [apply K; reflexivity|]. apply Forall_cons; [split; [apply K; reflexivity|cbn [holdable]; lia]|].
  apply Forall_cons; [apply K; reflexivity|]. apply Forall_cons; [split; [apply K; reflexivity|apply (K (lit "x")); reflexivity]|]. apply Forall_nil.
Qed.

(** C140, refuted: whatever the history, adding a name that is adjacent puts the data there instead of a node (in Python the node keeps its place and
    gets the data). *)
Theorem C140_cpp_second_add_refuted : forall (n : cadj) (name : ustr) (data : pv), c_safe name -> In name (map fst (ca_adj n)) ->
  exists n', cadj_add n name data = Ret (n', None) /\ udget (ca_adj n') name = Some (ChData data).
Proof.
  intros n name data N I. unfold cadj_add. destruct (c_safe_string name N) as (_ & _ & ->). cbn [negb]. apply udget_in in I. destruct (udget (ca_adj n) name); [|contradiction].
  eexists. split; [reflexivity|]. cbn [ca_adj]. rewrite udget_set. destruct list_eq_dec; [reflexivity|contradiction].
Qed.
Print Assumptions C140_cpp_second_add_refuted.
Example C140_cpp_second_case : In (lit "b") (map fst (ca_adj (mkcadj (mkcnode (lit "a") SNone) [(lit "b", ChNode (mkcnode (lit "b") SNone))]))).
Proof. cbn. auto. Qed.

(** C140. A C++ node made with a list of nodes with different names has exactly these neighbours, in that order; assigning a dict of nodes to
    [adjacent] replaces the neighbours by it. *)
Theorem C140_cpp_adjacency_list : forall (name : ustr) (data : pv) (nodes : list cnode) (n0 : cadj) (old : list (ustr * child)),
  c_safe name -> holdable data -> NoDup (map cn_name nodes) ->
  (exists n, cadj_new name data (ArgList (map ChNode nodes)) = Ret n /\ cn_name (ca_node n) = name /\ load (cn_data (ca_node n)) = plain_value data /\
     ca_adj n = map (fun c => (cn_name c, ChNode c)) nodes) /\
  (forall keys, NoDup keys -> length keys = length nodes ->
     cadj_set (mkcadj (ca_node n0) old) (Some (combine (map Some keys) (map ChNode nodes))) = (mkcadj (ca_node n0) (combine keys (map ChNode nodes)), None)).
Proof.
  intros name data nodes n0 old N H ND. destruct (store_ok data H) as (d & S & L). split.
  - eexists. split; [unfold cadj_new; destruct (c_safe_string name N) as (_ & _ & ->); cbn [negb]; rewrite S; cbn [bind]; rewrite forM_nodes; cbn [bind]; reflexivity|].
    cbn [ca_node ca_adj cn_name cn_data]. repeat split; [exact L|]. rewrite fold_nodes by (try exact ND; reflexivity). reflexivity.
  - intros keys NK LK. cbn [cadj_set ca_node].
    assert (X : forall (t : list (ustr * child)) k v, udget t k = None -> udset t k v = t ++ [(k, v)]).
    { induction t as [|[k' v'] t IHt]; cbn; intros k v Y; [reflexivity|]. destruct (ustr_eqb k k'); [discriminate|]. rewrite IHt by exact Y. reflexivity. }
    assert (G : forall keys (nodes : list cnode) adj, NoDup keys -> length keys = length nodes -> (forall k, In k keys -> udget adj k = None) ->
      (fix go (d : list (option ustr * child)) (adj : list (ustr * child)) : cadj * option exn :=
         match d with [] => (mkcadj (ca_node n0) adj, None) | (Some k, ChNode c) :: d' => go d' (udset adj k (ChNode c)) | _ => (mkcadj (ca_node n0) adj, Some TypeError) end)
      (combine (map Some keys) (map ChNode nodes)) adj = (mkcadj (ca_node n0) (adj ++ combine keys (map ChNode nodes)), None)).
    { clear - X. induction keys as [|k keys IH]; intros [|c nodes] adj NK LK HK; try discriminate LK; [cbn; rewrite app_nil_r; reflexivity|].
      inversion NK as [|? ? NI NK']; subst. cbn [map combine]. rewrite IH.
      - rewrite X by (apply HK; left; reflexivity). rewrite <- app_assoc. reflexivity.
      - exact NK'.
      - cbn in LK. lia.
      - intros k' I. rewrite udget_set. destruct (list_eq_dec Z.eq_dec k' k) as [->|]; [contradiction|]. apply HK. right. exact I. }
    rewrite G; [reflexivity|exact NK|exact LK|]. reflexivity.
Qed.
Print Assumptions C140_cpp_adjacency_list.
Example C140_cpp_list_case : NoDup (map cn_name [mkcnode (lit "b") (SInt 1); mkcnode (lit "c") SNone]) /\ NoDup [lit "b"; lit "x"] /\
  cadj_set (mkcadj (mkcnode (lit "a") SNone) []) (Some [(Some (lit "b"), ChNode (mkcnode (lit "b") SNone))]) = (mkcadj (mkcnode (lit "a") SNone) [(lit "b", ChNode (mkcnode (lit "b") SNone))], None).
Proof. repeat apply conj; try (vm_compute; reflexivity); repeat constructor; cbn; intuition discriminate. Qed.

(** C140, refuted: another iterable of nodes than a list is ignored without a word; and a refused assignment to [adjacent] has dropped the old
    neighbours. *)
Theorem C140_cpp_adjacency_refuted :
  (forall name data nodes, c_safe name -> holdable data -> exists n, cadj_new name data (ArgOther nodes) = Ret n /\ ca_adj n = []) /\
  (forall n k v, cadj_set n (Some [(k, ChData v)]) = (mkcadj (ca_node n) [], Some TypeError)).
Proof.
  split.
  - intros name data nodes N H. destruct (store_ok data H) as (d & S & _). eexists. split; [unfold cadj_new; destruct (c_safe_string name N) as (_ & _ & ->); rewrite S; reflexivity|reflexivity].
  - intros n [k|] v; reflexivity.
Qed.
Print Assumptions C140_cpp_adjacency_refuted.
Example C140_cpp_adjacency_case : fst (cadj_set (mkcadj (mkcnode (lit "a") SNone) [(lit "b", ChNode (mkcnode (lit "b") SNone))]) (Some [(Some (lit "c"), ChData (PInt 3))])) = mkcadj (mkcnode (lit "a") SNone) [].
Proof. reflexivity. Qed.
