(** More exact answers where a property is only partly true of the code: C82. Specifications: GraphSpec.v, SccSpec.v. *)
From Coq Require Import Strings.String Strings.Ascii.
From Verif Require Import Base GraphModel GraphSpec GraphProofs SccModel SccSpec SccProps TarjanProofs KosarajuProofs KosarajuProofs2.
Import List.

(** C82. kosaraju returns if and only if every vertex has an incoming edge, and otherwise raises KeyError. *)
Theorem C82_kosaraju_raises_exactly_partial : forall (g : gview) (G : dg), represents g G ->
  ((exists v, In v (fst G) /\ forall u, ~ is_edge G u v) -> kosaraju g = Raise KeyError) /\
  ((forall v, In v (fst G) -> exists u, is_edge G u v) -> exists comps, kosaraju g = Ret comps).
Proof.
  intros g G H. split.
  - intros (v & Hv & Hn). assert (K := kosaraju_key g G H). unfold wpk in K. destruct (kosaraju g) as [c|e|]; [|destruct e; first [contradiction|reflexivity]|contradiction].
    destruct (K v Hv) as (u & Hu). exfalso. exact (Hn u Hu).
  - intros HI. destruct (C82_kosaraju_partial g G H HI) as (c & Ec & _). eauto.
Qed.
Print Assumptions C82_kosaraju_raises_exactly_partial.
(** Its answer is right on every graph whose edges all lie on cycles (an undirected graph, say) if no vertex is without incoming edge. *)
Theorem C82_kosaraju_cyclic_partial : forall (g : gview) (G : dg), represents g G -> (forall v, In v (fst G) -> exists u, is_edge G u v) ->
  (forall u v, is_edge G u v -> reachable G v u) -> exists comps, kosaraju g = Ret comps /\ components_of G comps.
Proof.
  intros g G H HI HC. destruct (C82_kosaraju_partial g G H HI) as (c & Ec & P & Q). exists c. split; [exact Ec|].
  assert (NE : ~ In [] c) by (intros X; destruct (Q _ X) as ((r & [] & _) & _)).
  split; [exact P|]. intros C HCI. destruct (Q C HCI) as ((r & Hr & R) & M). split; [intros ->; destruct Hr|].
  assert (S : forall u v, reachable G u v -> reachable G v u).
  { intros u v (n & W). induction W as [|n u' v' W IH HE]; [apply reach_refl|]. eapply reach_trans; [apply HC; exact HE|exact IH]. }
  intros u Hu v. split; [|apply M; exact Hu]. intros Hv. assert (A : reachable G u v) by (eapply reach_trans; [apply R; exact Hu|apply S, R, Hv]). split; [exact A|apply S; exact A].
Qed.
Print Assumptions C82_kosaraju_cyclic_partial.
Example C82_cyclic_case : let names := ["a"; "b"; "c"; "d"]%string in let es := [("a", "b"); ("c", "d")]%string in
  (forall u v, is_edge (dg_run names (two_way es)) u v -> is_edge (dg_run names (two_way es)) v u) /\
  exists g, al_run names (two_way es) = Ret g /\ kosaraju (al_view g) = Ret [["c"; "d"]; ["a"; "b"]]%string.
Proof.
  split; [|eexists; split; vm_compute; reflexivity]. intros u v H. vm_compute in H |- *. intuition congruence.
Qed.
