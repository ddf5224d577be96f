(** Property C73 on every history: exactly what get_edge answers, remove_vertex and joined names included. *)
From Coq Require Import Strings.String Strings.Ascii.
From Verif Require Import Base DsfModel GraphModel GraphSpec GraphDict GraphProofs GraphProps.
Import List.
Open Scope list_scope.

(** ** Specification *)
(** the calls of a history that returned instead of raising *)
Fixpoint accepted_calls {G} (call : G -> gop -> res G) (ops : list gop) (g : G) : list gop :=
  match ops with
  | [] => []
  | o :: ops => match call g o with Ret g' => o :: accepted_calls call ops g' | _ => accepted_calls call ops g end
  end.
(** the edge with a cost last given, and not removed since, among those whose joined name is [k] *)
Definition last_cost (k : string) (calls : list gop) : option edge :=
  fold_left (fun acc o => match o with
    | GAddE s t (Some c) => if String.eqb k (ekey s t) then Some (s, t, c) else acc
    | GRemE s t => if String.eqb k (ekey s t) then None else acc
    | _ => acc end) calls None.
(** the same for ordinary names, over the digraph [G] the calls describe: the cost last given to (u, v) while both were vertices, unless
    remove_edge(u, v) was called since while it was an edge. remove_vertex plays no part. *)
Definition remembers (u v : string) (st : dg * option Z) (o : gop) : dg * option Z :=
  (dg_step (fst st) o,
   match o with
   | GAddE s t (Some c) => if String.eqb u s && String.eqb v t && mem s (fst (fst st)) && mem t (fst (fst st)) then Some c else snd st
   | GRemE s t => if String.eqb u s && String.eqb v t && existsb (same_edge s t) (snd (fst st)) then None else snd st
   | _ => snd st end).
Definition remembered_cost (names : list string) (ops : list gop) (u v : string) : option Z := snd (fold_left (remembers u v) ops ((names, []), None)).

(** ** Proofs *)
Lemma py_remove_ran l x : py_remove l x <> OutOfFuel.
Proof. induction l as [|y l IH]; cbn [py_remove]; [discriminate|]. destruct (String.eqb x y); [discriminate|]. destruct (py_remove l x); cbn [bind]; congruence. Qed.
Lemma al_rv_loop name vs : forall g, match forM vs (fun nd g =>
      node_obj <- al_getattr g nd ;;
      if node_hasattr node_obj name then
        node_obj <- node_delattr node_obj name ;;
        adj <- py_remove (n_adjacent node_obj) name ;;
        Ret (al_setnode g nd (mknode (n_attrs node_obj) adj))
      else Ret g) g with Ret g' => al_weights g' = al_weights g | Raise _ => True | OutOfFuel => False end.
Proof.
  induction vs as [|nd vs IH]; intros g; cbn [forM]; [reflexivity|]. destruct (al_getattr g nd) as [n| |] eqn:Eg; cbn [bind]; [|exact I|].
  - destruct (node_hasattr n name); cbn [bind]; [|apply IH]. unfold node_delattr. destruct (mem name (n_attrs n)); cbn [bind n_attrs n_adjacent]; [|exact I].
    destruct (py_remove (n_adjacent n) name) as [adj| |] eqn:Ep; cbn [bind]; [|exact I|exact (py_remove_ran _ _ Ep)].
    match goal with |- match forM vs _ ?h with _ => _ end => specialize (IH h); destruct (forM vs _ h); auto end.
  - unfold al_getattr in Eg. destruct (sdget _ _); discriminate.
Qed.
Lemma al_call_weights g o : match al_call g o with
  | Ret g' => forall k, sdget (al_weights g') k = match o with
      | GAddE s t (Some c) => if String.eqb k (ekey s t) then Some (s, t, c) else sdget (al_weights g) k
      | GRemE s t => if String.eqb k (ekey s t) then None else sdget (al_weights g) k
      | _ => sdget (al_weights g) k end
  | Raise _ => True | OutOfFuel => False end.
Proof.
  destruct o as [n|n|u v c|u v]; cbn [al_call].
  - intros k. unfold al_add_vertex. destruct (negb (al_hasattr g n)); reflexivity.
  - unfold al_remove_vertex. destruct (sdget (al_nodes g) n); [|exact I]. destruct (py_remove (al_vertices g) n) as [vs| |] eqn:Ep; cbn [bind]; [|exact I|exact (py_remove_ran _ _ Ep)].
    match goal with |- match forM vs _ ?h with _ => _ end => pose proof (al_rv_loop n vs h) as H; destruct (forM vs _ h) as [g'| |]; auto end. intros k. rewrite H. reflexivity.
  - unfold al_add_edge. destruct (negb (al_hasattr g u)); [exact I|]. destruct (negb (al_hasattr g v)); [exact I|].
    unfold al_getattr. destruct (sdget (al_nodes g) u) as [nu|]; cbn [bind]; [|exact I]. destruct (sdget (al_nodes g) v); cbn [bind]; [|exact I].
    unfold add_adjacent_node. destruct (node_hasattr nu v); [destruct (mem v (n_attrs nu)); [|exact I]|]; cbn [bind]; (destruct c as [c|]; cbn [al_weights al_setnode]; intros k; [apply sget_set|reflexivity]).
  - unfold al_remove_edge, al_getattr. destruct (sdget (al_nodes g) u) as [nu|]; cbn [bind]; [|exact I]. destruct (sdget (al_nodes g) v); cbn [bind]; [|exact I].
    unfold remove_adjacent_node. destruct (negb (node_hasattr nu v)); cbn [bind]; [exact I|]. destruct (py_remove (n_adjacent nu) v) as [adj| |] eqn:Ep; cbn [bind]; [|exact I|exact (py_remove_ran _ _ Ep)].
    unfold node_delattr. cbn [n_attrs n_adjacent]. destruct (mem v (n_attrs nu)); cbn [bind]; [|exact I]. cbn [al_weights]. intros k. apply sget_pop.
Qed.
Lemma am_call_weights g o : match am_call g o with
  | Ret g' => forall k, sdget (am_weights g') k = match o with
      | GAddE s t (Some c) => if String.eqb k (ekey s t) then Some (s, t, c) else sdget (am_weights g) k
      | GRemE s t => if String.eqb k (ekey s t) then None else sdget (am_weights g) k
      | _ => sdget (am_weights g) k end
  | Raise _ => True | OutOfFuel => False end.
Proof.
  destruct o as [n|n|u v c|u v]; cbn [am_call]; try exact I.
  - unfold am_add_edge. destruct (sdget (am_matrix g) u) as [row|]; [|exact I]. destruct (sdget (am_matrix g) v); [|exact I].
    destruct c as [c|]; cbn [am_weights]; intros k; [apply sget_set|reflexivity].
  - unfold am_remove_edge. destruct (sdget (am_matrix g) u); [|exact I]. cbn [am_weights]. intros k. apply sget_pop.
Qed.

Lemma run_last {G} (call : G -> gop -> res G) (w : G -> list (string * edge)) :
  (forall g o, match call g o with
    | Ret g' => forall k, sdget (w g') k = match o with
        | GAddE s t (Some c) => if String.eqb k (ekey s t) then Some (s, t, c) else sdget (w g) k
        | GRemE s t => if String.eqb k (ekey s t) then None else sdget (w g) k
        | _ => sdget (w g) k end
    | Raise _ => True | OutOfFuel => False end) ->
  forall ops g k acc, sdget (w g) k = acc -> exists g', forM ops (fun o g => settle g (call g o)) g = Ret g' /\
    sdget (w g') k = fold_left (fun acc o => match o with
      | GAddE s t (Some c) => if String.eqb k (ekey s t) then Some (s, t, c) else acc
      | GRemE s t => if String.eqb k (ekey s t) then None else acc
      | _ => acc end) (accepted_calls call ops g) acc.
Proof.
  intros H. induction ops as [|o ops IH]; intros g k acc Ha; [exists g; auto|]. cbn [forM accepted_calls]. specialize (H g o).
  destruct (call g o) as [g'| |]; cbn [settle bind]; [|apply IH; exact Ha|contradiction]. cbn [fold_left]. apply IH. rewrite H. destruct o as [n|n|u v [c|]|u v]; rewrite ?Ha; reflexivity.
Qed.

(** C73. After every history over any names, a call that raises changing nothing, get_edge(u, v) is the edge of that joined name which was last
    given a cost and not removed since, in adjacency lists and matrices; None if there is none. *)
Theorem C73_get_edge_by_joined_name_exact : forall (names : list string) (ops : list gop),
  (exists g, al_run names ops = Ret g /\ forall u v, al_get_edge g u v = last_cost (ekey u v) (accepted_calls al_call ops (al_new names))) /\
  (exists g, am_run names ops = Ret g /\ forall u v, am_get_edge g u v = last_cost (ekey u v) (accepted_calls am_call ops (am_new names))).
Proof.
  intros names ops. split.
  - destruct (run_last al_call al_weights al_call_weights ops (al_new names) EmptyString None eq_refl) as (g & E & _). exists g. split; [exact E|]. intros u v.
    destruct (run_last al_call al_weights al_call_weights ops (al_new names) (ekey u v) None eq_refl) as (g' & E' & R). rewrite E in E'. injection E' as <-. exact R.
  - destruct (run_last am_call am_weights am_call_weights ops (am_new names) EmptyString None eq_refl) as (g & E & _). exists g. split; [exact E|]. intros u v.
    destruct (run_last am_call am_weights am_call_weights ops (am_new names) (ekey u v) None eq_refl) as (g' & E' & R). rewrite E in E'. injection E' as <-. exact R.
Qed.
Print Assumptions C73_get_edge_by_joined_name_exact.
Definition C73_joined_ops : list gop := [GAddE "a" "b_c" (Some 1); GAddE "a_b" "c" (Some 2); GRemE "c" "a"; GAddE "a" "zz" (Some 4); GRemE "a" "b_c"; GAddE "a_b" "c" (Some 5)]%string.
Example C73_joined_case :
  accepted_calls al_call C73_joined_ops (al_new ["a"; "b_c"; "a_b"; "c"]%string) = [GAddE "a" "b_c" (Some 1); GAddE "a_b" "c" (Some 2); GRemE "a" "b_c"; GAddE "a_b" "c" (Some 5)]%string /\
  last_cost "a_b_c" (accepted_calls al_call C73_joined_ops (al_new ["a"; "b_c"; "a_b"; "c"]%string)) = Some ("a_b", "c", 5)%string.
Proof. repeat apply conj; vm_compute; reflexivity. Qed.

Lemma existsb_is_edge G u v : existsb (same_edge u v) (snd G) = true <-> is_edge G u v.
Proof.
  rewrite existsb_edge. unfold is_edge, dg_edges. split; intros H; [apply outs_In, mem_true; exact H|apply mem_true, outs_In; exact H].
Qed.
Lemma al_step_remembers g G o u v acc : al_rep g G -> dg_ok G -> Forall ordinary (op_names o) -> ordinary u ->
  sdget (al_weights g) (ekey u v) = option_map (fun c => (u, v, c)) acc ->
  exists g', settle g (al_call g o) = Ret g' /\ al_rep g' (dg_step G o) /\ sdget (al_weights g') (ekey u v) = option_map (fun c => (u, v, c)) (snd (remembers u v (G, acc) o)).
Proof.
  intros HR HG HO Hu HW. destruct (al_step_ok g G o HR HG HO) as (g' & E & R'). exists g'. split; [exact E|]. split; [exact R'|].
  pose proof (al_call_weights g o) as W.
  assert (K : forall s t, Forall ordinary [s; t] -> String.eqb (ekey u v) (ekey s t) = String.eqb u s && String.eqb v t).
  { intros s t F. inversion F as [|? ? Hs _]; subst. destruct (String.eqb_spec u s) as [->|N1]; [destruct (String.eqb_spec v t) as [->|N2]|]; cbn [andb]; [apply String.eqb_refl| |];
      apply String.eqb_neq; intros Ek; apply ekey_inj in Ek; try (apply ordinary_no_us; assumption); tauto. }
  destruct o as [n|n|s t c|s t]; cbn [remembers fst snd op_names] in *.
  - cbn [al_call settle] in *. injection E as <-. rewrite W. exact HW.
  - destruct (al_call g (GRemV n)) as [g1| |]; cbn [settle] in E; [|injection E as <-; exact HW|discriminate]. injection E as <-. rewrite W. exact HW.
  - inversion HO as [|? ? Hs HO2]; subst. inversion HO2 as [|? ? Ht _]; subst. destruct c as [c|].
    + destruct (mem_spec s (fst G)) as [Hsi|Hsi], (mem_spec t (fst G)) as [Hti|Hti].
      1: { destruct (step_add_edge g G s t (Some c) HR HG Hs Ht Hsi Hti) as (g1 & E1 & _ & _). cbn [al_call] in *. rewrite E1 in E, W. cbn [settle] in E. injection E as <-. rewrite W, (K s t HO).
           destruct (String.eqb_spec u s) as [->|]; [destruct (String.eqb_spec v t) as [->|]|]; cbn [andb]; [reflexivity|exact HW|exact HW]. }
      all: cbn [al_call] in *; rewrite (addE_absent g G s t (Some c) HR Hs Ht) in E by tauto; cbn [settle] in E; injection E as <-; rewrite ?andb_false_r; exact HW.
    + destruct (al_call g (GAddE s t None)) as [g1| |]; cbn [settle] in E; [|injection E as <-; exact HW|discriminate]. injection E as <-. rewrite W. exact HW.
  - inversion HO as [|? ? Hs HO2]; subst. inversion HO2 as [|? ? Ht _]; subst. destruct (is_edge_dec G s t) as [HE|HE].
    + destruct (ok_in _ HG s t HE) as [Hsi Hti]. destruct (step_remove_edge g G s t HR HG Ht Hsi Hti HE) as (g1 & E1 & _ & _). cbn [al_call] in *. rewrite E1 in E, W. cbn [settle] in E. injection E as <-. rewrite W, (K s t HO).
      rewrite (proj2 (existsb_is_edge G s t) HE), andb_true_r. destruct (String.eqb u s && String.eqb v t); [reflexivity|exact HW].
    + assert (X : existsb (same_edge s t) (snd G) = false) by (destruct (existsb (same_edge s t) (snd G)) eqn:X; [apply existsb_is_edge in X; contradiction|reflexivity]).
      rewrite X, andb_false_r. cbn [al_call] in *.
      destruct (in_dec_s s (fst G)) as [Hsi|Hsi], (in_dec_s t (fst G)) as [Hti|Hti].
      1: rewrite (step_remove_edge_none g G s t) in E by assumption.
      2-4: rewrite (remE_absent g G s t HR) in E by tauto.
      all: cbn [settle] in E; injection E as <-; exact HW.
Qed.

(** C73. For ordinary names and every history of the four calls, remove_vertex included, get_edge on an adjacency list answers the cost last
    given to that pair while both were vertices, unless remove_edge removed that edge since. (So a cost outlives the removal of a vertex.) *)
Theorem C73_adjacency_list_get_edge_exact : forall (names : list string) (ops : list gop), NoDup names -> Forall ordinary names -> Forall (fun o => Forall ordinary (op_names o)) ops ->
  exists g, al_run names ops = Ret g /\ forall u v, ordinary u -> al_get_edge g u v = option_map (fun c => (u, v, c)) (remembered_cost names ops u v).
Proof.
  intros names ops H1 H2 H3. destruct (al_run_ok names ops H1 H2 H3) as (g & E & _). exists g. split; [exact E|]. intros u v Hu. unfold al_get_edge, remembered_cost.
  unfold al_run in E. pose proof (al_new_rep names) as R0. pose proof (dg0_ok names H1 H2) as G0.
  assert (W0 : sdget (al_weights (al_new names)) (ekey u v) = option_map (fun c => (u, v, c)) None) by reflexivity.
  revert E R0 G0 W0. generalize (al_new names) as h. generalize (names, @nil (string * string * option Z)) as G. generalize (@None Z) as acc. clear H1 H2.
  induction ops as [|o ops IH]; intros acc G h E R0 G0 W0; [injection E as <-; exact W0|]. inversion H3 as [|? ? Ho H3']; subst.
  destruct (al_step_remembers h G o u v acc R0 G0 Ho Hu W0) as (h1 & E1 & R1 & W1). cbn [forM] in E. rewrite E1 in E. cbn [bind] in E. cbn [fold_left].
  apply (IH H3' _ _ h1 E R1); [apply dg_step_ok; assumption|exact W1].
Qed.
Print Assumptions C73_adjacency_list_get_edge_exact.
Definition C73_stale_ops : list gop := [GAddE "a" "b" (Some 5); GAddE "b" "c" (Some 6); GRemV "b"; GRemE "a" "b"; GAddE "a" "b" (Some 9); GAddV "b"; GAddE "a" "b" None; GAddE "b" "c" None; GRemE "b" "c"]%string.
Example C73_stale_case : let names := ["a"; "b"; "c"]%string in
  NoDup names /\ Forall ordinary names /\ Forall (fun o => Forall ordinary (op_names o)) C73_stale_ops /\
  remembered_cost names C73_stale_ops "a" "b" = Some 5 /\ remembered_cost names C73_stale_ops "b" "c" = None /\
  (exists g, al_run names C73_stale_ops = Ret g /\ al_get_edge g "a" "b" = Some ("a", "b", 5)%string /\ al_get_edge g "b" "c" = None).
Proof.
  split; [repeat constructor; simpl; intuition discriminate|]. split; [repeat constructor; simpl; intuition discriminate|]. split; [repeat constructor; simpl; intuition discriminate|].
  split; [vm_compute; reflexivity|]. split; [vm_compute; reflexivity|]. eexists. split; [vm_compute; reflexivity|]. vm_compute. auto.
Qed.
