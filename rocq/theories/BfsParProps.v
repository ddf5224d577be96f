(** breadth_first_search_parallel: C75. *)
From Coq Require Import Strings.String.
From Verif Require Import Base DsfModel GraphModel GraphSpec GraphDict GraphProofs SearchGraphModel BfsParModel BfsParProofs GraphProps.
Import List.

(** without a cycle that can be reached, the search ends and makes the discoveries of breadth_first_search, whatever the order of iteration over the sets *)
Theorem C75_parallel_bfs_acyclic_partial : forall (g : gview) (G : dg) (s : string) (order : list string -> list string), represents g G -> In s (fst G) -> (forall l, Permutation (order l) l) ->
  (forall x n, reachable G s x -> ~ walk G x (S n) x) -> forall fuel, (length (fst G) < fuel)%nat ->
  exists calls, bfs_parallel fuel order g s yes = Ret calls /\
    (forall v, In v (s :: discovered calls) <-> reachable G s v) /\
    (forall c n, n <> EmptyString -> (In (c, n) calls <-> reachable G s c /\ is_edge G c n)) /\
    (forall c, In (c, EmptyString) calls <-> reachable G s c /\ (forall v, ~ is_edge G c v)).
Proof.
  intros g G s order H1 H2 H3 H4 fuel Hf. destruct (ends g G H1 s H2 order H3 (length (fst G))) with (fuel := fuel) as (calls & E & C); [|exact Hf|].
  { intros x K. destruct (long_cycle g G H1 s H2 x K) as (y & n & A & B). apply (H4 y n A B). }
  assert (NE : forall c n, is_edge G c n -> n <> EmptyString) by (intros c n X; apply (edge_in g G H1 c n X)).
  assert (C1 : forall c n, n <> EmptyString -> (In (c, n) calls <-> reachable G s c /\ is_edge G c n)).
  { intros c n Hn. rewrite C. split; [intros (m & A & _ & [B|(B & _)]); [split; [exists m|]; assumption|contradiction]|]. intros ((m & A) & B). exists m. split; [exact A|]. split; [reflexivity|auto]. }
  exists calls. split; [exact E|]. split; [|split; [exact C1|]].
  - intros v. cbn [In]. unfold discovered. rewrite filter_In, in_map_iff. split.
    + intros [<-|(([c n] & Ev & I) & X)]; [exists 0%nat; constructor|]. cbn in Ev. subst n. destruct (SE v EmptyString) as [|Hn]; [discriminate|]. apply (C1 c v Hn) in I as ((m & A) & B). exists (S m). econstructor; eassumption.
    + intros (n & K). inversion K as [|m u w K' Hc]; subst; [auto|]. right. assert (Hn := NE u v Hc). split; [|destruct (SE v EmptyString); [contradiction|reflexivity]]. exists (u, v). split; [reflexivity|]. apply (C1 u v Hn). split; [exists m; exact K'|exact Hc].
  - intros c. rewrite C. split.
    + intros (m & A & _ & [B|(_ & B)]); [exfalso; apply (NE _ _ B); reflexivity|]. split; [exists m; exact A|exact B].
    + intros ((m & A) & B). exists m. split; [exact A|]. split; [reflexivity|auto].
Qed.
Print Assumptions C75_parallel_bfs_acyclic_partial.
(** with a cycle that can be reached it never ends, on any graph *)
Theorem C75_parallel_bfs_cycle_refuted : forall (g : gview) (G : dg) (s x : string) (n : nat) (order : list string -> list string), represents g G -> In s (fst G) -> (forall l, Permutation (order l) l) ->
  reachable G s x -> walk G x (S n) x -> forall fuel, bfs_parallel fuel order g s yes = OutOfFuel.
Proof. intros g G s x n order H1 H2 H3 H4 H5. apply (forever g G H1 s H2 order H3). eapply cycle_forever; eassumption. Qed.
Print Assumptions C75_parallel_bfs_cycle_refuted.
(** a falsy result of [operation] is forgotten if it does not come from the last node of its layer *)
Definition C75_names : list string := ["a"; "b"; "c"; "d"; "e"; "f"]%string.
Definition C75_ops : list gop := [GAddE "a" "b" None; GAddE "a" "c" None; GAddE "b" "d" None; GAddE "c" "e" None; GAddE "e" "f" None; GAddE "c" "d" None]%string.
Theorem C75_parallel_bfs_falsy_ignored_refuted : exists g calls, al_run C75_names C75_ops = Ret g /\
  bfs_parallel 10 (fun l => l) (al_view g) "a" (fun _ c n => negb (String.eqb c "b" && String.eqb n "d")) = Ret (calls ++ [("b", "d"); ("c", "e"); ("c", "d"); ("d", ""); ("e", "f"); ("f", "")]%string) /\
  breadth_first_search (al_view g) "a" (fun _ c n => negb (String.eqb c "b" && String.eqb n "d")) = Ret (calls ++ [("b", "d")]%string).
Proof. eexists. exists [("a", "b"); ("a", "c")]%string. split; [vm_compute; reflexivity|]. split; vm_compute; reflexivity. Qed.
Print Assumptions C75_parallel_bfs_falsy_ignored_refuted.

(** a case that meets the hypotheses of the first theorem, and one of the second *)
Example C75_case : exists g, al_run C75_names C75_ops = Ret g /\ represents (al_view g) (dg_run C75_names C75_ops) /\ acyclic (dg_run C75_names C75_ops) /\
  exists calls, bfs_parallel 7 (@rev string) (al_view g) "a" yes = Ret calls /\ length calls = 8%nat.
Proof.
  assert (N : NoDup C75_names) by (repeat constructor; simpl; intuition discriminate).
  assert (O : Forall ordinary C75_names) by (repeat constructor; simpl; intuition discriminate).
  assert (P : Forall (fun o => Forall ordinary (op_names o)) C75_ops) by (repeat constructor; simpl; intuition discriminate).
  destruct (C71_adjacency_list_refines_edge_set _ _ N O P) as (g & E & R & _). exists g. split; [exact E|]. split; [exact R|]. split.
  - set (rank := fun v => match sdget [("a", 0); ("b", 1); ("c", 1); ("d", 2); ("e", 2); ("f", 3)]%string v with Some z => z | None => 0 end).
    assert (ED : forall u v, is_edge (dg_run C75_names C75_ops) u v -> rank u < rank v). { intros u v H. vm_compute in H. repeat (destruct H as [H|H]; [injection H as <- <-; vm_compute; reflexivity|]). destruct H. }
    intros v n K. assert (X : forall m y, walk (dg_run C75_names C75_ops) v m y -> rank v + Z.of_nat m <= rank y). { intros m y W. induction W as [|m u y W IH Hc]; [lia|]. apply ED in Hc. lia. } apply X in K. lia.
  - vm_compute in E. injection E as <-. eexists. split; vm_compute; reflexivity.
Qed.
Example C75_cycle_case : exists g, al_run C75_names (GAddE "f" "a" None :: C75_ops) = Ret g /\ represents (al_view g) (dg_run C75_names (GAddE "f" "a" None :: C75_ops)) /\
  bfs_parallel 50 (fun l => l) (al_view g) "a" yes = OutOfFuel.
Proof.
  assert (N : NoDup C75_names) by (repeat constructor; simpl; intuition discriminate).
  assert (O : Forall ordinary C75_names) by (repeat constructor; simpl; intuition discriminate).
  assert (P : Forall (fun o => Forall ordinary (op_names o)) (GAddE "f" "a" None :: C75_ops)) by (repeat constructor; simpl; intuition discriminate).
  destruct (C71_adjacency_list_refines_edge_set _ _ N O P) as (g & E & R & _). exists g. split; [exact E|]. split; [exact R|]. vm_compute in E. injection E as <-. vm_compute. reflexivity.
Qed.
