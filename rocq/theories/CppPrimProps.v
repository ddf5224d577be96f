(** C++ backend of graphs: property C110. *)
From Coq Require Import Strings.String Strings.Ascii.
From Verif Require Import Base DsfModel DsfSpec GraphModel GraphSpec GraphDict GraphProofs MstSpec PrimSpec PrimProps PrimProofs CppModel CppGraphModel CppGraphSpec CppGraphProofs CppPrimProofs.
Import List.

(** ** C110: minimum_spanning_tree(…, 'prim', Backend.CPP) *)
Theorem C110_cpp_prim_partial : forall (names : list string) (ops : list gop) (ord : string -> list string -> list string) (pick : list etuple -> nat) (fuel : nat),
  plain_history names ops -> some_order ord -> tops pick ->
  let G := cdg_run names ops in undirected G -> forall s rest, fst G = s :: rest -> (S (length (snd G)) < fuel)%nat ->
  exists g mst C T, cg_run names ops = Ret g /\ cpp_prim ord pick fuel g = Ret (mst, g) /\
    NoDup (cg_nodes mst) /\ (forall x, In x (cg_nodes mst) <-> linked (priced G) s x) /\
    component (priced G) s C /\ minimum_spanning_forest C T /\ cg_num_edges mst = 2 * len T /\
    forall u v, plain u -> match cg_get_edge mst u v with
      | Some e => exists c, e = (u, v, Some c) /\ (In (u, v, c) T \/ In (v, u, c) T)
      | None => forall c, ~ In (u, v, c) T /\ ~ In (v, u, c) T end.
Proof.
  intros names ops ord pick fuel H HO HP G UD s rest EV Hf. destruct (c_run names ops H) as (g & E & (P & next & HV & IO & EG) & OK). fold G in HV, OK, EG. destruct (component_exists (priced G) s) as (C & HC).
  assert (EG' : G = (map fst P, snd G)) by (rewrite HV; destruct G; reflexivity). assert (OK' : cok (map fst P, snd G)) by (rewrite <- EG'; exact OK). assert (UD' : undirected (map fst P, snd G)) by (rewrite <- EG'; exact UD). assert (HC' : component (priced (map fst P, snd G)) s C) by (rewrite <- EG'; exact HC).
  assert (Gs : In s (map fst P)) by (rewrite HV, EV; left; reflexivity). assert (X : exists si, In (s, si) P). { apply in_map_iff in Gs as ([x i] & <- & Hi). exists i. exact Hi. } destruct X as (si & Hs).
  destruct (prim_ok P (snd G) next IO OK' UD' ord HO s si Hs C HC' pick HP fuel rest ltac:(rewrite HV; exact EV) Hf) as (MV & Q & T & ER & EQ & QP & ND & LK & MSF & FT & PT).
  exists g. eexists. exists C, T. split; [exact E|]. rewrite EG. split; [exact ER|]. cbn [cg_nodes]. split; [exact ND|]. split; [intros x; rewrite LK; rewrite EG' at 2; reflexivity|]. split; [exact HC|]. split; [exact MSF|].
  unfold cg_num_edges, cg_get_edge. cbn [cg_edges]. split.
  - unfold cboth, len. clear. induction T as [|[[u v] c] T IH]; [reflexivity|]. cbn [flat_map app length] in *. lia.
  - intros u v Pu. destruct (sdget (cboth T) (ekey u v)) as [e|] eqn:Ee.
    + apply sget_In in Ee. apply cboth_In in Ee as (a & b & c & HT & K & ->). assert (Pa : plain a) by (destruct HT as [X|X]; apply PT in X; tauto).
      assert (K' : String.eqb (ekey u v) (ekey a b) = true) by (rewrite K; apply String.eqb_refl). rewrite (ekey_eqb u v a b Pu Pa) in K'. apply andb_true_iff in K' as [K1 K2]. apply String.eqb_eq in K1, K2. subst a b. exists c. auto.
    + assert (NI : forall c, ~ (In (u, v, c) T \/ In (v, u, c) T)). { intros c X. assert (Y : In (ekey u v, (u, v, Some c)) (cboth T)) by (apply cboth_In; exists u, v, c; auto). apply In_sget in Y; [unfold cedge in *; rewrite Ee in Y; discriminate Y|]. apply cboth_nodup; assumption. }
      intros c. specialize (NI c). tauto.
Qed.
Print Assumptions C110_cpp_prim_partial.
Open Scope string_scope.
Definition C110_both (u v : string) (c : Z) : list gop := [GAddE u v (Some c); GAddE v u (Some c)].
Definition C110_ops : list gop := List.app (C110_both "a" "b" 4) (List.app (C110_both "b" "c" 1) (List.app (C110_both "a" "c" 2) (List.app (C110_both "d" "e" (-3)) (List.app (C110_both "b" "f" 7) [GRemV "f"])))).
(** the position of a smallest entry *)
Definition smallest_entry (pq : list etuple) : nat := snd (fold_left (fun '(i, best) e => (S i, match nth_error pq best with Some b => if val_gtb (snd b) (snd e) then i else best | None => best end)) pq (O, O)).
Lemma smallest_entry_tops : tops smallest_entry.
Proof.
  assert (LE : forall x y z, val_gtb x y = false -> val_gtb y z = false -> val_gtb x z = false) by (intros [x|] [y|] [z|]; cbn; rewrite ?Z.ltb_ge; try discriminate; auto; lia).
  assert (RF : forall x, val_gtb x x = false) by (intros [x|]; cbn; [apply Z.ltb_irrefl|reflexivity]).
  assert (AS : forall x y, val_gtb x y = true -> val_gtb y x = false) by (intros [x|] [y|]; cbn; rewrite ?Z.ltb_lt, ?Z.ltb_ge; try discriminate; auto; lia).
  intros pq NE. unfold smallest_entry.
  assert (A : forall (post pre : list etuple) best, pq = (pre ++ post)%list -> (exists x, nth_error pq best = Some x /\ forall y, In y pre -> val_gtb (snd x) (snd y) = false) ->
    exists x, nth_error pq (snd (fold_left (fun '(i, best) e => (S i, match nth_error pq best with Some b => if val_gtb (snd b) (snd e) then i else best | None => best end)) post (length pre, best))) = Some x /\ forall y, In y pq -> val_gtb (snd x) (snd y) = false).
  { induction post as [|e post IH]; intros pre best EP (x & Ex & Hx).
    - rewrite app_nil_r in EP. subst pre. exists x. split; [exact Ex|exact Hx].
    - cbn [fold_left]. rewrite Ex. replace (S (length pre)) with (length (pre ++ [e])%list) by (rewrite app_length; cbn [length]; lia). apply IH; [rewrite <- app_assoc; exact EP|]. destruct (val_gtb (snd x) (snd e)) eqn:V.
      + exists e. split; [rewrite EP, nth_error_app2, Nat.sub_diag by lia; reflexivity|]. intros y Y. apply in_app_or in Y as [Y|[<-|[]]]; [|apply RF]. apply (LE _ (snd x)); [apply AS; exact V|apply Hx; exact Y].
      + exists x. split; [exact Ex|]. intros y Y. apply in_app_or in Y as [Y|[<-|[]]]; [apply Hx; exact Y|exact V]. }
  destruct pq as [|e0 pq0]; [congruence|]. apply (A (e0 :: pq0) [] O eq_refl). exists e0. split; [reflexivity|intros y []].
Qed.
Example C110_nonvacuous : plain_history ["a"; "b"; "c"; "d"; "e"; "f"] C110_ops /\ undirected (cdg_run ["a"; "b"; "c"; "d"; "e"; "f"] C110_ops) /\ tops smallest_entry /\
  exists g mst, cg_run ["a"; "b"; "c"; "d"; "e"; "f"] C110_ops = Ret g /\ cpp_prim (fun _ l => rev l) smallest_entry 10 g = Ret (mst, g) /\ cg_nodes mst = ["a"; "c"; "b"] /\
    map snd (cg_edges mst) = [("a", "c", Some 2); ("c", "a", Some 2); ("c", "b", Some 1); ("b", "c", Some 1)].
Proof.
  split; [split; [repeat constructor; cbn; intuition discriminate|]; split; repeat constructor|]. split.
  - intros u v o H. vm_compute in H. repeat (destruct H as [H|H]; [injection H as <- <- <-; eexists; split; [reflexivity|vm_compute; tauto]|]). destruct H.
  - split; [apply smallest_entry_tops|]. do 2 eexists. vm_compute. repeat split; reflexivity.
Qed.
(** The tree shares its node objects with the graph, so it is adjacent along edges it does not contain. *)
Theorem C110_cpp_prim_adjacency_refuted : exists g mst, cg_run ["a"; "b"; "c"] (List.app (C110_both "a" "b" 4) (List.app (C110_both "b" "c" 1) (C110_both "a" "c" 2))) = Ret g /\
  cpp_prim (fun _ l => l) smallest_entry 9 g = Ret (mst, g) /\ cg_get_edge mst "a" "b" = None /\ cg_is_adjacent mst "a" "b" = Ret true.
Proof. do 2 eexists. split; [vm_compute; reflexivity|]. split; [vm_compute; reflexivity|]. split; reflexivity. Qed.
Print Assumptions C110_cpp_prim_adjacency_refuted.
(** With each edge added in one direction the call adds the reverse adjacencies to the given graph, without edges for them; after removing
    the first vertex a second call then follows such an adjacency to a nullptr. *)
Theorem C110_cpp_prim_one_way_refuted : exists g mst g' g'', cg_run ["s"; "v"; "u"] [GAddE "s" "u" (Some 1); GAddE "u" "v" (Some 2)] = Ret g /\
  cpp_prim (fun _ l => l) smallest_entry 9 g = Ret (mst, g') /\
  cg_is_adjacent g "v" "u" = Ret false /\ cg_is_adjacent g' "v" "u" = Ret true /\ cg_get_edge g' "v" "u" = None /\
  cg_remove_vertex g' "s" = Ret g'' /\ cpp_prim (fun _ l => l) smallest_entry 9 g'' = Raise SystemError.
Proof. do 4 eexists. repeat (split; [vm_compute; reflexivity|]). vm_compute. reflexivity. Qed.
Print Assumptions C110_cpp_prim_one_way_refuted.
(** A graph without vertices: reads nodes[0]. *)
Theorem C110_cpp_prim_no_vertices_refuted : forall ord pick fuel, cpp_prim ord pick fuel cg_empty = Raise SystemError.
Proof. reflexivity. Qed.
Print Assumptions C110_cpp_prim_no_vertices_refuted.
(** The ids of the tree are those of the graph but its next id is 0: adding a vertex to the tree takes over the id of another one. *)
Theorem C110_cpp_prim_next_id_refuted : exists g mst mst', cg_run ["a"; "b"] (C110_both "a" "b" 4) = Ret g /\ cpp_prim (fun _ l => l) smallest_entry 9 g = Ret (mst, g) /\
  cg_is_adjacent mst "a" "b" = Ret true /\ cg_add_vertex mst "x" = Ret mst' /\ cg_is_adjacent mst' "a" "b" = Ret false.
Proof. do 3 eexists. repeat (split; [vm_compute; reflexivity|]). vm_compute. reflexivity. Qed.
Print Assumptions C110_cpp_prim_next_id_refuted.
