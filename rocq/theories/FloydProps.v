(** Property C80 continued: exactly what the table next_vertex of floyd_warshall contains. *)
From Coq Require Import Strings.String Strings.Ascii.
From Verif Require Import Base DsfModel GraphModel GraphSpec GraphDict GraphProofs PathModel PathProofs FloydProofs GraphProps.
Import List.
Open Scope list_scope.

(** next_vertex.get(i, {}).get(j): None when the key is absent, Some x when next_vertex[i][j] is x *)
Definition next_entry (n : list (string * list (string * option string))) (i j : string) : option (option string) :=
  match sdget n i with None => None | Some row => sdget row j end.

Section X.
  Context (g : gview) (G : dg) (HG : represents g G) (HC : represents_costs g G) (HN : no_negative_cycle G).
  Notation V := (fst G).
  (** against the tables [d0], [n0] at the start of the triple loop: an entry is as it was, or the distance went down and next_vertex is None *)
  Definition moved (d0 : D) (n0 : N) (st : D * N) : Prop := rows G (fst st) /\ rows G (snd st) /\ forall i j,
    (dist2 (fst st) i j = dist2 d0 i j /\ next_entry (snd st) i j = next_entry n0 i j) \/
    (exists x, dist2 (fst st) i j = Some x /\ (forall y, dist2 d0 i j = Some y -> x < y) /\ next_entry (snd st) i j = Some None).
  Lemma body_moved d0 n0 k i j st : In i V -> moved d0 n0 st -> wp (fw_body k i j st) (moved d0 n0).
  Proof.
    intros Hi (R1 & R2 & M). destruct st as [d n]. cbn [fst snd] in *. unfold fw_body. destruct (oltb (oadd (dist2 d i k) (dist2 d k j)) (dist2 d i j)) eqn:L; [|exact (conj R1 (conj R2 M))].
    destruct (set2_dist G d i j (oadd (dist2 d i k) (dist2 d k j)) R1 Hi) as (d' & -> & R1' & F1). cbn [bind].
    destruct (set2_ok G n i j None R2 Hi) as (n' & -> & R2' & F2). cbn [bind wp]. split; [exact R1'|]. split; [exact R2'|]. cbn [fst snd].
    intros a b. unfold next_entry at 1 3. rewrite F1, F2. destruct (SE a i) as [->|]; cbn [andb]; [|apply M]. destruct (SE b j) as [->|]; [|apply M].
    right. destruct (oadd (dist2 d i k) (dist2 d k j)) as [x|]; [|destruct (dist2 d i j); discriminate]. exists x. split; [reflexivity|]. split; [|reflexivity].
    intros y Ey. destruct (M i j) as [[E _]|(z & E & Z & _)]; rewrite E in L.
    - rewrite Ey in L. cbn [oltb] in L. apply Z.ltb_lt in L. exact L.
    - cbn [oltb] in L. apply Z.ltb_lt in L. specialize (Z y Ey). lia.
  Qed.
  Lemma loops_moved d0 n0 st : moved d0 n0 st -> wp (forM V (fun k st => forM V (fun i st => forM V (fw_body k i) st) st) st) (moved d0 n0).
  Proof.
    intros H. apply (wp_forM _ _ V _ (fun _ => moved d0 n0)); [|exact H]. intros _ k _ st1 _ H1.
    apply (wp_forM _ _ V _ (fun _ => moved d0 n0)); [|exact H1]. intros pre i post st2 E H2. assert (Hi : In i V) by (rewrite E; apply in_or_app; right; left; reflexivity).
    apply (wp_forM _ _ V _ (fun _ => moved d0 n0)); [|exact H2]. intros _ j _ st3 _ H3. apply body_moved; assumption.
  Qed.
  Lemma edges_next st0 : rows G (fst st0) -> rows G (snd st0) -> (forall i j, dist2 (fst st0) i j = None) -> (forall i j, next_entry (snd st0) i j = None) ->
    wp (forM (gv_weights g) (fun '(name, edge) '(dist, next_vertex) =>
      dist <- set2 dist (e_src edge) (e_tgt edge) (Some (e_val edge)) ;;
      next_vertex <- set2 next_vertex (e_src edge) (e_tgt edge) (Some (e_src edge)) ;;
      Ret (dist, next_vertex)) st0)
      (fun st => forall i j, (dist2 (fst st) i j = None /\ next_entry (snd st) i j = None) \/ (exists c, dist2 (fst st) i j = Some c) /\ next_entry (snd st) i j = Some (Some i)).
  Proof.
    intros R0 R0' D0 N0. destruct HC as [ND HW].
    eapply wp_mono; [apply (wp_forM _ _ _ _ (fun pre (st : D * N) => rows G (fst st) /\ rows G (snd st) /\
      forall i j, (dist2 (fst st) i j = None /\ next_entry (snd st) i j = None) \/ (exists c, dist2 (fst st) i j = Some c) /\ next_entry (snd st) i j = Some (Some i)))|].
    - intros pre [key e] post [d n] E (R1 & R2 & F). cbn [fst snd] in *.
      assert (Hin : In (key, e) (gv_weights g)) by (rewrite E; apply in_or_app; right; left; reflexivity).
      destruct (proj1 (HW key e) Hin) as (u & v & c & -> & -> & Hc). destruct (fw_dom g G HG _ _ _ Hc) as [Hu Hv]. unfold e_src, e_tgt, e_val. cbn [fst snd].
      destruct (set2_dist G d u v (Some c) R1 Hu) as (d' & -> & R1' & F1). cbn [bind].
      destruct (set2_ok G n u v (Some u) R2 Hu) as (n' & -> & R2' & F2). cbn [bind wp fst snd]. split; [exact R1'|]. split; [exact R2'|].
      intros a b. unfold next_entry. rewrite F1, F2. destruct (SE a u) as [->|]; cbn [andb]; [|apply F]. destruct (SE b v); [|apply F]. right. eauto.
    - split; [exact R0|]. split; [exact R0'|]. intros i j. left. auto.
    - intros st (_ & _ & F). exact F.
  Qed.
  Lemma diag_next st0 : rows G (fst st0) -> rows G (snd st0) ->
    wp (forM V (fun v '(dist, next_vertex) =>
      dist <- set2 dist v v (Some 0) ;;
      next_vertex <- set2 next_vertex v v (Some v) ;;
      Ret (dist, next_vertex)) st0)
      (fun st => forall i j, next_entry (snd st) i j = if String.eqb i j && mem i V then Some (Some i) else next_entry (snd st0) i j).
  Proof.
    intros R0 R0'. eapply wp_mono; [apply (wp_forM _ _ V _ (fun pre (st : D * N) => rows G (fst st) /\ rows G (snd st) /\ forall i j, next_entry (snd st) i j = if String.eqb i j && mem i pre then Some (Some i) else next_entry (snd st0) i j))|].
    - intros pre v post [d n] E (R1 & R2 & F). cbn [fst snd] in *. assert (Hv : In v V) by (rewrite E; apply in_or_app; right; left; reflexivity).
      destruct (set2_dist G d v v (Some 0) R1 Hv) as (d' & -> & R1' & F1). cbn [bind].
      destruct (set2_ok G n v v (Some v) R2 Hv) as (n' & -> & R2' & F2). cbn [bind wp fst snd]. split; [exact R1'|]. split; [exact R2'|].
      intros i j. specialize (F i j). specialize (F2 i j). unfold next_entry in *. rewrite F2, F, mem_app, mem_one.
      destruct (SE i v) as [Ei|Ei], (SE j v) as [Ej|Ej], (SE i j) as [Eij|Eij]; cbn [andb]; rewrite ?orb_true_r, ?orb_false_r; try reflexivity; congruence.
    - split; [exact R0|]. split; [exact R0'|]. intros i j. rewrite andb_false_r. reflexivity.
    - intros st (_ & _ & F). exact F.
  Qed.
  Lemma wp_and {A} (m : res A) P Q : wp m P -> wp m Q -> wp m (fun a => P a /\ Q a).
  Proof. destruct m; cbn [wp]; tauto. Qed.

  Lemma next_main : exists dist nxt, floyd_warshall g = Ret (dist, nxt) /\
    forall i j, In i V -> In j V ->
      match dist2 dist i j with
      | Some d => least_cost G i j d /\ (i = j \/ has_cost G i j d -> next_entry nxt i j = Some (Some i)) /\ (i <> j -> ~ has_cost G i j d -> next_entry nxt i j = Some None)
      | None => (forall n w, ~ cwalk G i n w j) /\ next_entry nxt i j = None
      end.
  Proof.
    destruct (floyd_main g G HG HC HN) as (dist & nxt & E & _ & _ & L). exists dist, nxt. split; [exact E|].
    assert (X : wp (floyd_warshall g) (fun st => exists d0 n0, moved d0 n0 st /\
       (forall i j, In i V -> In j V -> (i = j /\ dist2 d0 i j = Some 0 /\ next_entry n0 i j = Some (Some i)) \/
          i <> j /\ (forall c, dist2 d0 i j = Some c <-> has_cost G i j c) /\ next_entry n0 i j = match dist2 d0 i j with Some _ => Some (Some i) | None => None end))).
    { assert (ND : NoDup V) by apply HG. unfold floyd_warshall. rewrite (verts g G HG). apply wp_bind.
      set (e0 := fold_left (fun d v => sdset d v []) V []). set (e1 := fold_left (fun d v => sdset d v []) V []).
      assert (P0 : rows G e0) by (unfold rows, e0; rewrite fold_rows; [reflexivity|exact ND]). assert (P1 : rows G e1) by (unfold rows, e1; rewrite fold_rows; [reflexivity|exact ND]).
      assert (P2 : forall i j, dist2 e0 i j = None).
      { intros i j. unfold dist2. destruct (sdget e0 i) as [r|] eqn:E0; [|reflexivity]. apply fold_empty in E0 as [->|E0]; [reflexivity|discriminate]. }
      assert (P3 : forall i j, next_entry e1 i j = None).
      { intros i j. unfold next_entry. destruct (sdget e1 i) as [r|] eqn:E0; [|reflexivity]. apply fold_empty in E0 as [->|E0]; [reflexivity|discriminate]. }
      eapply wp_mono; [apply wp_and; [apply (edges_ok g G HG HC (e0, e1) P0 P1 P2)|apply (edges_next (e0, e1) P0 P1 P2 P3)]|].
      intros [d1 n1] ((R1 & R2 & F1) & F2). cbn [fst snd] in *. apply wp_bind.
      eapply wp_mono; [apply wp_and; [apply (diag_ok G (d1, n1) R1 R2)|apply (diag_next (d1, n1) R1 R2)]|]. intros [d2 n2] ((R1' & R2' & F3) & F4). cbn [fst snd] in *.
      change (wp (forM V (fun k st => forM V (fun i st => forM V (fw_body k i) st) st) (d2, n2)) (fun st => exists d0 n0, moved d0 n0 st /\
       (forall i j, In i V -> In j V -> (i = j /\ dist2 d0 i j = Some 0 /\ next_entry n0 i j = Some (Some i)) \/
          i <> j /\ (forall c, dist2 d0 i j = Some c <-> has_cost G i j c) /\ next_entry n0 i j = match dist2 d0 i j with Some _ => Some (Some i) | None => None end))).
      eapply wp_mono; [apply (loops_moved d2 n2 (d2, n2))|].
      - split; [exact R1'|]. split; [exact R2'|]. intros i j. left. auto.
      - intros st M. exists d2, n2. split; [exact M|]. intros i j Hi Hj. rewrite F3, F4. destruct (SE i j) as [->|Hne]; cbn [andb].
        + left. apply mem_true in Hi. rewrite Hi. auto.
        + right. split; [exact Hne|]. split; [intros c; apply F1|]. destruct (F2 i j) as [[-> ->]|[(c & ->) ->]]; reflexivity. }
    rewrite E in X. cbn [wp] in X. destruct X as (d0 & n0 & (_ & _ & M) & I0). cbn [fst snd] in M. intros i j Hi Hj. specialize (L i j Hi Hj).
    destruct (I0 i j Hi Hj) as [(<- & Ed & En)|(Hne & Ed & En)].
    - destruct (M i i) as [[Q1 Q2]|(x & Q1 & Q2 & Q3)].
      + rewrite Q1, Ed in *. split; [exact L|]. split; [rewrite Q2; auto|congruence].
      + exfalso. rewrite Q1 in L. specialize (Q2 0 Ed). destruct L as [[n Hw] _].
        assert (0 <= x); [|lia]. inversion Hw; subst; [lia|]. eapply HN. exact Hw.
    - destruct (M i j) as [[Q1 Q2]|(x & Q1 & Q2 & Q3)].
      + rewrite Q1, Q2, En. rewrite Q1 in L. destruct (dist2 d0 i j) as [d|] eqn:E0.
        * split; [exact L|]. split; [auto|]. intros _ H. exfalso. apply H, Ed. reflexivity.
        * split; [exact L|reflexivity].
      + rewrite Q1 in *. split; [exact L|]. split; [|auto]. intros [?|Hc]; [contradiction|]. exfalso. apply Ed in Hc. specialize (Q2 x Hc). lia.
  Qed.
End X.

(** C80. Without negative cycles, for every pair of vertices: dist is the least cost of a walk, or has no entry when there is none; next_vertex[i][j]
    is i itself when i = j or when the edge from i to j costs exactly that least cost, None for every other pair joined by a walk, and has no
    entry when there is no walk. *)
Theorem C80_next_vertex_exact : forall (g : gview) (G : dg), represents g G -> represents_costs g G -> no_negative_cycle G ->
  exists dist nxt, floyd_warshall g = Ret (dist, nxt) /\
    forall i j, In i (fst G) -> In j (fst G) ->
      match dist2 dist i j with
      | Some d => least_cost G i j d /\ (i = j \/ has_cost G i j d -> next_entry nxt i j = Some (Some i)) /\ (i <> j -> ~ has_cost G i j d -> next_entry nxt i j = Some None)
      | None => (forall n w, ~ cwalk G i n w j) /\ next_entry nxt i j = None
      end.
Proof. exact next_main. Qed.
Print Assumptions C80_next_vertex_exact.
(** hypotheses: C78_hyps and C80_hyps *)
Example C80_next_case : exists g, al_run C78_names (C78_ops ++ [GAddE "b" "c" (Some 3)]%string) = Ret g /\ exists d nx, floyd_warshall (al_view g) = Ret (d, nx) /\
   map (next_entry nx "a") C78_names = [Some (Some "a"); Some None; Some (Some "a"); Some None; None]%string /\
   map (next_entry nx "d") C78_names = [None; Some None; Some (Some "d"); Some (Some "d"); None]%string.
Proof. eexists. split; [vm_compute; reflexivity|]. do 2 eexists. split; [vm_compute; reflexivity|]. split; vm_compute; reflexivity. Qed.
