(** max_flow: C84. *)
From Coq Require Import Strings.String Strings.Ascii.
From Verif Require Import Base DsfModel GraphModel GraphSpec GraphProofs PathModel FlowModel FlowSpec FlowProofs FlowProofs2 FlowProofs3.
Import List.

(** edmonds_karp terminates with the value of a feasible flow *)
Theorem C84_edmonds_karp_feasible_partial : forall (g : gview) (G : dg) (s t : string), represents g G -> represents_costs g G -> network G -> In s (fst G) -> s <> t ->
  exists N, forall fuel, (N <= fuel)%nat -> exists r f, max_flow fuel g s t "edmonds_karp" = Ret r /\ feasible G s t f /\ flow_value G s f = r.
Proof.
  intros g G s t H1 H2 H3 H4 H5. exists (S (Z.to_nat (capacity_bound g G))). intros fuel Hf.
  assert (K := edmonds_karp_ok g G H1 H2 H3 s t H4 H5 fuel Hf). apply wp_ex in K as (r & E & f & (F & V) & _). exists r, (fget f). auto.
Qed.
Print Assumptions C84_edmonds_karp_feasible_partial.
(** ... and of a maximum flow, if every pipe that neither leaves the source nor enters the sink has an opposite one *)
Theorem C84_edmonds_karp_maximum_partial : forall (g : gview) (G : dg) (s t : string), represents g G -> represents_costs g G -> network G -> In s (fst G) -> s <> t -> two_way_inside G s t ->
  exists N, forall fuel, (N <= fuel)%nat -> exists r, max_flow fuel g s t "edmonds_karp" = Ret r /\ is_max_flow G s t r.
Proof.
  intros g G s t H1 H2 H3 H4 H5 H6. exists (S (Z.to_nat (capacity_bound g G))). intros fuel Hf.
  assert (K := edmonds_karp_ok g G H1 H2 H3 s t H4 H5 fuel Hf). apply wp_ex in K as (r & E & f & FO & ST). exists r. split; [exact E|]. eapply stuck_max; eauto.
Qed.
Print Assumptions C84_edmonds_karp_maximum_partial.
(** dinic: the same, if no pipe enters the source *)
Theorem C84_dinic_feasible_partial : forall (g : gview) (G : dg) (s t : string), represents g G -> represents_costs g G -> network G -> In s (fst G) -> s <> t -> (forall v c, has_cost G v s c -> c = 0) ->
  exists N, forall fuel, (N <= fuel)%nat -> exists r f, max_flow fuel g s t "dinic" = Ret r /\ feasible G s t f /\ flow_value G s f = r.
Proof.
  intros g G s t H1 H2 H3 H4 H5 H6. exists (dinic_fuel g G). intros fuel Hf.
  assert (K := dinic_ok g G H1 H2 H3 s t H4 H5 H6 fuel Hf). apply wp_ex in K as (r & E & f & (F & V) & _). exists r, (fget f). auto.
Qed.
Print Assumptions C84_dinic_feasible_partial.
Theorem C84_dinic_maximum_partial : forall (g : gview) (G : dg) (s t : string), represents g G -> represents_costs g G -> network G -> In s (fst G) -> s <> t -> (forall v c, has_cost G v s c -> c = 0) -> two_way_inside G s t ->
  exists N, forall fuel, (N <= fuel)%nat -> exists r, max_flow fuel g s t "dinic" = Ret r /\ is_max_flow G s t r.
Proof.
  intros g G s t H1 H2 H3 H4 H5 H6 H7. exists (dinic_fuel g G). intros fuel Hf.
  assert (K := dinic_ok g G H1 H2 H3 s t H4 H5 H6 fuel Hf). apply wp_ex in K as (r & E & f & FO & ST). exists r. split; [exact E|]. eapply stuck_max; eauto.
Qed.
Print Assumptions C84_dinic_maximum_partial.

(** a case that meets all the hypotheses *)
Definition pipe (e : string * string * Z) : gop := GAddE (fst (fst e)) (snd (fst e)) (Some (snd e)).
Definition C84_names : list string := ["s"; "a"; "b"; "c"; "t"]%string.
Definition C84_ops : list gop := map pipe [("s", "a", 5); ("s", "b", 4); ("a", "b", 3); ("b", "a", 1); ("a", "c", 2); ("c", "a", 7); ("b", "t", 6); ("c", "t", 9)]%string.
Example C84_case : let G := dg_run C84_names C84_ops in
  network G /\ two_way_inside G "s" "t" /\ (forall v c, has_cost G v "s" c -> c = 0) /\
  exists g, al_run C84_names C84_ops = Ret g /\ represents (al_view g) G /\ represents_costs (al_view g) G /\ max_flow 20 (al_view g) "s" "t" "edmonds_karp" = Ret 8 /\ max_flow 20 (al_view g) "s" "t" "dinic" = Ret 8.
Proof.
  assert (N : NoDup C84_names) by (repeat constructor; simpl; intuition discriminate).
  assert (O : Forall ordinary C84_names) by (repeat constructor; simpl; intuition discriminate).
  assert (P : Forall (fun o => Forall ordinary (op_names o)) C84_ops) by (repeat constructor; simpl; intuition discriminate).
  cbv zeta. split; [|split; [|split]].
  - split.
    + intros u v H. vm_compute in H. repeat (destruct H as [H|H]; [injection H as <- <-; eexists; vm_compute; tauto|]). destruct H.
    + intros u v c H. vm_compute in H. repeat (destruct H as [H|H]; [injection H as <- <- <-; lia|]). destruct H.
  - intros u v c H Pc Us Vt. vm_compute in H. repeat (destruct H as [H|H]; [injection H as <- <- <-; try congruence; first [exists 1; vm_compute; split; [tauto|reflexivity] | exists 3; vm_compute; split; [tauto|reflexivity] | exists 7; vm_compute; split; [tauto|reflexivity] | exists 2; vm_compute; split; [tauto|reflexivity]]|]). destruct H.
  - intros v c H. vm_compute in H. repeat (destruct H as [H|H]; [discriminate|]). destruct H.
  - destruct (al_wrun_ok C84_names C84_ops N O P) as (g & E & R & K & W); [repeat constructor|]. exists g. split; [exact E|]. split; [apply al_rep_represents; assumption|]. split; [exact W|].
    vm_compute in E. injection E as <-. split; vm_compute; reflexivity.
Qed.

(** a one-way pipe inside: the flow cannot be taken back from a-b, so a smaller value is returned *)
Definition C84_pipes : list (string * string) := [("s", "a"); ("a", "b"); ("b", "t"); ("a", "c"); ("c", "d"); ("d", "t"); ("s", "e"); ("e", "f"); ("f", "b")]%string.
Definition C84_used : list (string * string) := [("s", "a"); ("a", "c"); ("c", "d"); ("d", "t"); ("s", "e"); ("e", "f"); ("f", "b"); ("b", "t")]%string.
Definition C84_uses (u v : string) : Z := if existsb (fun e => String.eqb u (fst e) && String.eqb v (snd e)) C84_used then 1 else 0.
Theorem C84_one_way_refuted : let names := ["s"; "a"; "b"; "c"; "d"; "e"; "f"; "t"]%string in let ops := map (fun e => pipe (e, 1)) C84_pipes in let G := dg_run names ops in
  exists g, al_run names ops = Ret g /\ (forall fuel, (20 <= fuel)%nat -> max_flow fuel (al_view g) "s" "t" "edmonds_karp" = Ret 1) /\ max_flow 20 (al_view g) "s" "t" "dinic" = Ret 1 /\
    let f u v := C84_uses u v - C84_uses v u in feasible G "s" "t" f /\ flow_value G "s" f = 2.
Proof.
  cbv zeta. eexists. split; [vm_compute; reflexivity|]. split; [|split; [vm_compute; reflexivity|split; [split|vm_compute; reflexivity]]].
  - intros fuel Hf. replace fuel with (20 + (fuel - 20))%nat by lia. generalize (fuel - 20)%nat. intros k. vm_compute. reflexivity.
  - intros u v. lia.
  - assert (B : forall u v, 0 <= C84_uses u v <= 1) by (intros u v; unfold C84_uses; destruct (existsb _ _); lia).
    intros u v c H. assert (B1 := B u v). assert (B2 := B v u). vm_compute in H. repeat (destruct H as [H|H]; [injection H as <- <- <-; lia|]). destruct H.
  - intros u v H. assert (C84_uses u v = 0); [|unfold C84_uses at 2; destruct (existsb _ _); lia]. unfold C84_uses. destruct (existsb _ C84_used) eqn:E; [|reflexivity]. exfalso. apply H.
    apply existsb_exists in E as ([a b] & I & E). apply andb_true_iff in E as (E1 & E2). apply String.eqb_eq in E1, E2. cbn in E1, E2. subst a b.
    vm_compute in I. repeat (destruct I as [I|I]; [injection I as <- <-; vm_compute; tauto|]). destruct I.
  - intros u H Us Ut. vm_compute in H. repeat (destruct H as [H|H]; [subst u; try congruence; vm_compute; reflexivity|]). destruct H.
Qed.
Print Assumptions C84_one_way_refuted.

(** source = sink on a cycle: neither algorithm terminates; dinic does not terminate either when a pipe enters the source *)
Definition C84_names3 : list string := ["s"; "a"; "t"]%string.
Definition C84_cycle : list gop := map (fun e => pipe (e, 1)) [("s", "a"); ("a", "s"); ("s", "t")]%string.
Theorem C84_same_endpoints_refuted : exists g, al_run C84_names3 C84_cycle = Ret g /\ forall fuel, max_flow fuel (al_view g) "s" "s" "edmonds_karp" = OutOfFuel /\ max_flow fuel (al_view g) "s" "s" "dinic" = OutOfFuel.
Proof.
  eexists. split; [vm_compute; reflexivity|]. match goal with |- forall f, max_flow _ ?g0 _ _ _ = _ /\ _ => set (g := g0) end. intros fuel. split.
  - unfold max_flow. cbn [String.eqb Ascii.eqb Bool.eqb]. unfold edmonds_karp. match goal with |- while_loop _ ?b _ = _ => set (body := b) end. enough (H : forall n m, while_loop n body (m, []) = OutOfFuel) by apply H.
    induction n as [|n IH]; intros m; [reflexivity|]. cbn [while_loop].
    assert (E : mf_bfs g "s" "s" [] false = Ret (Some 1, [("a", "s"); ("t", "s"); ("s", "a")]%string)) by (vm_compute; reflexivity).
    assert (Eb : body (m, []) = Ret (Next (m + 1, []))) by (unfold body; rewrite E; reflexivity). rewrite Eb. apply IH.
  - destruct fuel as [|n]; [reflexivity|]. unfold max_flow. cbn [String.eqb Ascii.eqb Bool.eqb]. unfold dinic. cbn [while_loop].
    assert (E : mf_bfs g "s" "s" [] true = Ret (Some 0, [("a", "s"); ("t", "s"); ("s", "a")]%string)) by (vm_compute; reflexivity). rewrite E. cbn [bind sdget String.eqb Ascii.eqb Bool.eqb]. reflexivity.
Qed.
Print Assumptions C84_same_endpoints_refuted.
Theorem C84_dinic_into_source_refuted : exists g, al_run C84_names3 C84_cycle = Ret g /\ max_flow 20 (al_view g) "s" "t" "edmonds_karp" = Ret 1 /\ forall fuel, max_flow fuel (al_view g) "s" "t" "dinic" = OutOfFuel.
Proof.
  eexists. split; [vm_compute; reflexivity|]. split; [vm_compute; reflexivity|]. match goal with |- forall f, max_flow _ ?g0 _ _ _ = _ => set (g := g0) end.
  set (P := [("a", "s"); ("t", "s"); ("s", "a")]%string).
  assert (D : forall fuel flow, dinic_dfs fuel g "s" P "t" flow [] = OutOfFuel /\ dinic_dfs fuel g "a" P "t" flow [] = OutOfFuel).
  { induction fuel as [|n IH]; intros flow; [split; reflexivity|]. cbn [dinic_dfs].
    assert (E1 : gv_neighbors g "s" = Ret ["a"; "t"]%string) by (vm_compute; reflexivity). assert (E2 : gv_neighbors g "a" = Ret ["s"]%string) by (vm_compute; reflexivity).
    assert (E3 : capacity g "s" "a" = Ret 1) by (vm_compute; reflexivity). assert (E4 : capacity g "a" "s" = Ret 1) by (vm_compute; reflexivity).
    destruct (IH (omin flow (Some (1 - fget [] "s" "a")))) as (_ & B). destruct (IH (omin flow (Some (1 - fget [] "a" "s")))) as (A & _).
    rewrite E1, E2. cbn [bind forM String.eqb Ascii.eqb Bool.eqb]. rewrite E3, E4. cbn [bind].
    change (sdget P "a"%string) with (Some "s"%string). change (sdget P "s"%string) with (Some "a"%string). cbv zeta.
    change (negb (String.eqb "s" EmptyString) && String.eqb "s" "s" && (0 <? 1 - fget [] "s" "a")) with true.
    change (negb (String.eqb "a" EmptyString) && String.eqb "a" "a" && (0 <? 1 - fget [] "a" "s")) with true. cbv iota. rewrite A, B. split; reflexivity. }
  intros [|n]; [reflexivity|]. unfold max_flow. cbn [String.eqb Ascii.eqb Bool.eqb]. unfold dinic. cbn [while_loop].
  assert (E : mf_bfs g "s" "t" [] true = Ret (Some 0, P)) by (vm_compute; reflexivity). rewrite E. cbn [bind]. destruct (D (S n) None) as (A & _). rewrite A. reflexivity.
Qed.
Print Assumptions C84_dinic_into_source_refuted.
