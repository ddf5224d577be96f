(** The C++ breadth_first_search on AdjacencyListGraph (C108). *)
From Coq Require Import Strings.String Strings.Ascii Sorting.Sorted.
From Verif Require Import Base DsfModel GraphModel GraphSpec GraphDict GraphProofs SearchGraphModel SearchGraphProofs CppModel CppGraphModel CppGraphSpec CppGraphProofs.
Import List.

Definition new_ones (visited l : list string) : list string := filter (fun x => negb (mem x visited)) l.
Lemma new_In visited l x : In x (new_ones visited l) <-> In x l /\ ~ In x visited.
Proof. unfold new_ones. rewrite filter_In. destruct (mem_spec x visited); cbn [negb]; intuition discriminate. Qed.
Lemma bfs_inner (op : list (string * string) -> string -> string -> bool) u l : NoDup l -> forall q visited calls,
  forM l (fun adj_name '(q, visited, calls) =>
          if mem adj_name visited then Ret (q, visited, calls)
          else let _ := op calls u adj_name in Ret (q ++ [adj_name], adj_name :: visited, calls ++ [(u, adj_name)])) (q, visited, calls)
  = Ret (q ++ new_ones visited l, rev (new_ones visited l) ++ visited, calls ++ map (fun x => (u, x)) (new_ones visited l)).
Proof.
  induction l as [|x l IH]; intros HN q visited calls; [unfold new_ones; cbn [forM filter rev map app]; rewrite !app_nil_r; reflexivity|].
  inversion HN; subst. cbn [forM]. unfold new_ones. cbn [filter]. destruct (mem x visited) eqn:E; cbn [negb bind].
  - apply IH. assumption.
  - rewrite IH by assumption. assert (F : new_ones (x :: visited) l = filter (fun x0 => negb (mem x0 visited)) l).
    { unfold new_ones. apply filter_ext_in. intros y Hy. cbn [mem existsb]. destruct (SE y x) as [->|]; [contradiction|]. reflexivity. }
    rewrite F. cbn [rev map]. rewrite <- !app_assoc. reflexivity.
Qed.

Lemma while_loop_ext {S R} (b1 b2 : S -> res (ctl S R)) : (forall s, b1 s = b2 s) -> forall f s, while_loop f b1 s = while_loop f b2 s.
Proof. intros H. induction f as [|f IH]; intros s; [reflexivity|]. cbn [while_loop]. rewrite H. destruct (b2 s) as [[s'|r]| |]; [apply IH|reflexivity..]. Qed.
Section B.
  Context (G : dg) (GIN : forall u v, is_edge G u v -> In u (fst G) /\ In v (fst G)) (s : string) (Hs : In s (fst G)).
  (** the order in which the neighbours of a vertex are seen *)
  Context (nb : string -> list string) (Hnb : forall u v, In v (nb u) <-> is_edge G u v) (NDnb : forall u, NoDup (nb u)).
  Lemma cwalk_in n v : walk G s n v -> In v (fst G).
  Proof. intros H. destruct H; [exact Hs|]. apply (GIN u v H0). Qed.
  Record binv (q visited : list string) (calls : list (string * string)) (done : list string) : Prop := {
    b_seen : forall x, In x visited <-> In x (s :: map snd calls);
    b_nd : NoDup (s :: map snd calls);
    b_q : s :: map snd calls = done ++ q;
    b_closed : forall u v, In u done -> is_edge G u v -> In v (s :: map snd calls);
    b_calls : forall c n, In (c, n) calls -> In c done /\ is_edge G c n;
    b_lab : exists lab : string -> nat, lab s = O /\
      (forall v, In v (s :: map snd calls) -> walk G s (lab v) v) /\
      StronglySorted (fun a b => (lab a <= lab b)%nat) (s :: map snd calls) /\
      (forall v x, In v (s :: map snd calls) -> In x q -> (lab v <= S (lab x))%nat) /\
      (forall u v, In u done -> is_edge G u v -> (lab v <= S (lab u))%nat) /\
      (forall c n, In (c, n) calls -> lab n = S (lab c)) }.
  Lemma binv_next u q visited calls done : binv (u :: q) visited calls done ->
    let F := new_ones visited (nb u) in
    binv (q ++ F) (rev F ++ visited) (calls ++ map (fun x => (u, x)) F) (done ++ [u]).
  Proof.
    intros [I1 I2 I3 I4 I5 (lab & L0 & L1 & L2 & L3 & L4 & L5)] F. set (D := s :: map snd calls) in *.
    assert (Hl := Hnb u). assert (NDl := NDnb u).
    assert (HF : forall x, In x F <-> is_edge G u x /\ ~ In x D). { intros x. unfold F. rewrite new_In, Hl, I1. reflexivity. }
    assert (NF : NoDup F) by (apply NoDup_filter; exact NDl).
    assert (ED : s :: map snd (calls ++ map (fun x => (u, x)) F) = D ++ F). { rewrite map_app, map_map. cbn [snd]. rewrite map_id. reflexivity. }
    assert (Hu : In u D) by (rewrite I3; apply in_or_app; right; left; reflexivity).
    constructor; rewrite ?ED.
    - intros x. rewrite !in_app_iff, <- in_rev, I1. tauto.
    - apply (Permutation_NoDup (l := F ++ D)); [apply Permutation_app_comm|]. assert (HF' : forall x, In x F -> ~ In x D) by (intros x Hx; apply HF; exact Hx). clear - NF HF' I2. induction F as [|x F IH]; [exact I2|]. simpl. inversion NF; subst. constructor.
      + intros X. apply in_app_or in X as [X|X]; [contradiction|]. apply (HF' x); [left; reflexivity|exact X].
      + apply IH; [assumption|intros y Hy; apply HF'; right; exact Hy].
    - rewrite I3. rewrite <- !app_assoc. reflexivity.
    - intros a v Ha Hav. apply in_or_app. apply in_app_or in Ha as [Ha|[<-|[]]]; [left; apply (I4 a v); assumption|].
      destruct (in_dec SD v D) as [X|X]; [left; exact X|]. right. apply HF. split; assumption.
    - intros c n Hc. apply in_app_or in Hc as [Hc|Hc].
      + destruct (I5 c n Hc) as [A B]. split; [apply in_or_app; left; exact A|exact B].
      + apply in_map_iff in Hc as (x & [= <- <-] & Hx). split; [apply in_or_app; right; left; reflexivity|]. apply HF. exact Hx.
    - set (lab' := fun x => if mem x F then S (lab u) else lab x). exists lab'.
      assert (LF : forall x, In x F -> lab' x = S (lab u)) by (intros x Hx; unfold lab'; apply mem_true in Hx; rewrite Hx; reflexivity).
      assert (LO : forall x, In x D -> lab' x = lab x).
      { intros x Hx. unfold lab'. destruct (mem_spec x F) as [X|X]; [|reflexivity]. exfalso. apply HF in X. tauto. }
      assert (Lur : forall x, In x q -> (lab u <= lab x)%nat).
      { intros x Hx. rewrite I3 in L2. rewrite (app_assoc3 done q u) in L2. eapply (SS_app_inv _ _ q u x L2); [apply in_or_app; right; left; reflexivity|exact Hx]. }
      split; [|split; [|split; [|split; [|split]]]].
      + rewrite LO; [exact L0|]. left. reflexivity.
      + intros v Hv. apply in_app_or in Hv as [Hv|Hv]; [rewrite LO by exact Hv; apply L1; exact Hv|]. rewrite LF by exact Hv. apply (walk_snoc G s _ u v); [apply L1; exact Hu|apply HF; exact Hv].
      + apply SS_app.
        * eapply SS_ext; [|exact L2]. intros a b Ha Hb Hab. cbv beta in *. rewrite !LO by assumption. exact Hab.
        * clearbody lab' F. clear - LF. induction F as [|x F IH]; [constructor|]. constructor.
          -- apply (SS_ext (fun a b => (lab' a <= lab' b)%nat)); [auto|]. apply IH. intros y Hy. apply LF. right. exact Hy.
          -- apply Forall_forall. intros y Hy. rewrite (LF x) by (left; reflexivity). rewrite (LF y) by (right; exact Hy). lia.
        * intros a b Ha Hb. rewrite LO by exact Ha. rewrite LF by exact Hb. apply L3; [exact Ha|left; reflexivity].
      + assert (Hr : forall x, In x q -> In x D) by (intros x Hx; rewrite I3; apply in_or_app; right; right; exact Hx).
        intros v x Hv Hx. apply in_app_or in Hv as [Hv|Hv]; apply in_app_or in Hx as [Hx|Hx].
        * rewrite !LO by auto. apply L3; [exact Hv|right; exact Hx].
        * rewrite LO by auto. rewrite LF by auto. assert (X := L3 v u Hv ltac:(left; reflexivity)). lia.
        * rewrite (LF v) by auto. rewrite LO by auto. assert (X := Lur x Hx). lia.
        * rewrite !LF by auto. lia.
      + intros a v Ha Hav. assert (Ha' : In a D) by (rewrite I3; rewrite (app_assoc3 done q u); apply in_or_app; left; exact Ha).
        rewrite (LO a) by exact Ha'. apply in_app_or in Ha as [Ha|[<-|[]]].
        * assert (Hv := I4 a v Ha Hav). rewrite LO by exact Hv. apply L4; assumption.
        * destruct (in_dec SD v D) as [X|X].
          -- rewrite LO by exact X. apply L3; [exact X|left; reflexivity].
          -- rewrite LF; [lia|]. apply HF. split; assumption.
      + intros c n Hc. apply in_app_or in Hc as [Hc|Hc].
        * destruct (I5 c n Hc) as [Hcd He]. rewrite (LO n) by (apply (I4 c n Hcd He)).
          rewrite LO; [apply L5; assumption|]. rewrite I3. apply in_or_app. left. exact Hcd.
        * apply in_map_iff in Hc as (x & [= <- <-] & Hx). rewrite LF by exact Hx. rewrite LO by exact Hu. reflexivity.
  Qed.
  Lemma binv_start : binv [s] [s] [] [].
  Proof.
    constructor; cbn [map snd app]; [reflexivity|constructor; [intros []|constructor]|reflexivity|intros u v []|intros c n []|].
    exists (fun _ => O). split; [reflexivity|]. split; [intros v [<-|[]]; constructor|]. split; [constructor; [constructor|constructor]|]. split; [intros; lia|]. split; [intros u v []|intros c n []].
  Qed.
  Lemma binv_len q visited calls done : binv q visited calls done -> (length done + length q <= length (fst G))%nat.
  Proof.
    intros [I1 I2 I3 I4 I5 (lab & L0 & L1 & _)]. rewrite <- app_length, <- I3. apply NoDup_incl_length; [exact I2|]. intros v Hv. eapply cwalk_in. apply L1. exact Hv.
  Qed.
  Context (inner : string -> list string * list string * list (string * string) -> res (list string * list string * list (string * string)))
    (Hin : forall u q visited calls, In u (fst G) -> inner u (q, visited, calls) = Ret (q ++ new_ones visited (nb u), rev (new_ones visited (nb u)) ++ visited, calls ++ map (fun x => (u, x)) (new_ones visited (nb u)))).
  Lemma bfs_loop_ok : forall fuel q visited calls done, binv q visited calls done -> (length (fst G) < fuel + length done)%nat ->
    exists calls' visited' done', while_loop fuel (fun '(q, visited, calls) =>
      match q with [] => Ret (Break calls) | node :: q => s <- inner node (q, visited, calls) ;; Ret (Next s) end) (q, visited, calls) = Ret calls' /\ binv [] visited' calls' done'.
  Proof.
    induction fuel as [|f IH]; intros q visited calls done I Hf.
    - assert (L := binv_len _ _ _ _ I). lia.
    - cbn [while_loop]. destruct q as [|u q]; [exists calls, visited, done; auto|].
      assert (Hu : In u (fst G)). { destruct I as [I1 I2 I3 I4 I5 (lab & L0 & L1 & _)]. apply (cwalk_in (lab u)). apply L1. rewrite I3. apply in_or_app. right. left. reflexivity. }
      rewrite (Hin u q visited calls Hu). cbn [bind].
      apply (IH _ _ _ (done ++ [u])); [apply binv_next; exact I|]. rewrite app_length. cbn [length]. lia.
  Qed.
  Definition bfs_result (calls : list (string * string)) : Prop :=
    let D := s :: map snd calls in NoDup D /\ (forall v, In v D <-> reachable G s v) /\
    exists dist : string -> nat, (forall v, In v D -> distance G s v (dist v)) /\ StronglySorted (fun a b => (dist a <= dist b)%nat) D /\
       (forall c n, In (c, n) calls -> is_edge G c n /\ dist n = S (dist c)).
  Lemma bfs_main fuel : (length (fst G) < fuel)%nat -> exists calls, while_loop fuel (fun '(q, visited, calls) =>
      match q with [] => Ret (Break calls) | node :: q => s <- inner node (q, visited, calls) ;; Ret (Next s) end) ([s], [s], []) = Ret calls /\ bfs_result calls.
  Proof.
    intros Hf. destruct (bfs_loop_ok fuel [s] [s] [] [] binv_start) as (calls & visited & done & E & [I1 I2 I3 I4 I5 (lab & L0 & L1 & L2 & L3 & L4 & L5)]); [cbn [length]; lia|].
    exists calls. split; [exact E|]. rewrite app_nil_r in I3. unfold bfs_result. cbv zeta. assert (RE : forall v, reachable G s v -> In v (s :: map snd calls)). { intros v [n Hn]. induction Hn as [|n u v Hn IH He]; [left; reflexivity|]. apply (I4 u v); [|exact He]. rewrite <- I3. exact IH. }
    split; [exact I2|]. split; [intros v; split; [intros Hv; exists (lab v); apply L1; exact Hv|apply RE]|]. exists lab. split; [|split; [exact L2|]].
    - intros v Hv. split; [apply L1; exact Hv|]. intros m Hm. clear Hv. induction Hm as [|m u v Hm IH He]; [rewrite L0; lia|]. assert (Hu : In u done) by (rewrite <- I3; apply RE; exists m; exact Hm). assert (X := L4 u v Hu He). lia.
    - intros c n Hc. split; [apply (I5 c n Hc)|apply L5; exact Hc].
  Qed.
End B.

Lemma cpp_bfs_main (ord : string -> list string -> list string) (Hord : some_order ord) (g : cg) (G : dg) (R : crep g G) (OK : cok G) (s : string) (Hs : In s (fst G)) op fuel :
  (length (fst G) < fuel)%nat -> exists calls, cpp_bfs ord fuel g s op = Ret calls /\ bfs_result G s calls.
Proof.
  intros Hf. unfold cpp_bfs. assert (XH : cg_has g s = true). { destruct R as (P & next & HV & IO & ->). rewrite <- HV in Hs. apply has_in. exact Hs. }
  rewrite XH. cbn [negb].
  assert (ND : forall u, NoDup (ord u (outs (snd G) u))) by (intros u; eapply Permutation_NoDup; [symmetry; apply Hord|]; apply outs_nodup; apply (co_e _ OK)).
  destruct (bfs_main G (co_in _ OK) s Hs (fun u => ord u (outs (snd G) u))) with (fuel := fuel) (inner := fun node st => l <- cg_adjacent g node ;; forM (ord node l) (fun adj_name '(q, visited, calls) =>
          if mem adj_name visited then Ret (q, visited, calls)
          else let _ := op calls node adj_name in Ret (q ++ [adj_name], adj_name :: visited, calls ++ [(node, adj_name)])) st) as (calls & E & X).
  - intros u v. transitivity (In v (outs (snd G) u)); [split; apply Permutation_in; [|symmetry]; apply Hord|]. apply outs_In.
  - exact ND.
  - intros u q visited calls Hu. assert (Ea : cg_adjacent g u = Ret (outs (snd G) u)). { destruct R as (P & next & HV & IO & ->). rewrite <- HV in Hu. destruct (st_lookup P (snd G) next u IO Hu) as (i & _ & _ & Y). exact Y. }
    rewrite Ea. cbn [bind]. apply (bfs_inner op). apply ND.
  - exact Hf.
  - exists calls. split; [|exact X]. rewrite <- E. apply while_loop_ext. intros [[q visited] calls']. destruct q as [|node q]; [reflexivity|]. destruct (cg_adjacent g node); reflexivity.
Qed.
