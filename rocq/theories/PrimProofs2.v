(** prim on the model (C92). *)
From Coq Require Import Strings.String Relations.
From Verif Require Import Base DsfModel DsfSpec GraphModel GraphSpec GraphDict GraphProofs BinomialModel BinomialSpec BinomialProofs MstSpec MstProofs KruskalProofs PrimModel PrimSpec PrimProofs.
Import List.

(** ** the costs of the edges that exist can be looked up, whatever the history *)
Definition crep (W : list (string * edge)) (G : dg) : Prop := forall u v c, has_cost G u v c -> sdget W (ekey u v) = Some (u, v, c).
Lemma cost_remV V E n a b z : has_cost (dg_step (V, E) (GRemV n)) a b z -> has_cost (V, E) a b z.
Proof. unfold has_cost. cbn [dg_step snd]. rewrite filter_In. tauto. Qed.
Lemma al_cstep_ok g G o : al_rep g G -> crep (al_weights g) G -> dg_ok G -> Forall ordinary (op_names o) ->
  exists g', settle g (al_call g o) = Ret g' /\ al_rep g' (dg_step G o) /\ crep (al_weights g') (dg_step G o).
Proof.
  intros HR HW HG HO. destruct (al_step_ok g G o HR HG HO) as (g' & Eg & R). exists g'. split; [exact Eg|]. split; [exact R|].
  destruct o as [n|n|u v c|u v]; cbn [op_names al_call] in *.
  - injection Eg as <-. unfold al_add_vertex. destruct G as [V E]. destruct (negb (al_hasattr g n)); cbn [al_weights dg_step]; destruct (mem n V); exact HW.
  - inversion HO; subst. destruct (in_dec_s n (fst G)) as [Hn|Hn].
    + destruct (step_remove_vertex g G n HR HG H1 Hn) as (g1 & E & _ & EW). rewrite E in Eg. injection Eg as <-. rewrite EW. destruct G as (V, E0). intros a b z H. apply HW. apply (cost_remV _ _ _ _ _ _ H).
    + rewrite (remV_absent g G n HR Hn) in Eg. injection Eg as <-. rewrite dg_nochange_remV by assumption. exact HW.
  - inversion HO as [|a1 a2 Hu HO2]; subst. inversion HO2 as [|a1 a2 Hv _]; subst.
    destruct (in_dec_s u (fst G)) as [Hui|Hui], (in_dec_s v (fst G)) as [Hvi|Hvi].
    1: { destruct (step_add_edge g G u v c HR HG Hu Hv Hui Hvi) as (g1 & E & _ & EW). rewrite E in Eg. injection Eg as <-. rewrite EW. intros a b z H. destruct G as (V, E0). apply mem_true in Hui, Hvi. apply cost_addE in H; [|apply (ok_e _ HG)|exact Hui|exact Hvi]. destruct c as [w|]; [|apply HW, H].
      rewrite sget_set. destruct H as [(-> & -> & ->)|(N & H)]; [rewrite String.eqb_refl; reflexivity|]. destruct (SE (ekey a b) (ekey u v)) as [X|_]; [|apply HW, H]. exfalso. apply N. apply ekey_inj in X; [exact X| |apply Hu]. apply (cost_ord _ _ _ _ HG H). }
    all: rewrite (addE_absent g G u v c HR Hu Hv) in Eg by tauto; injection Eg as <-; destruct G as [V E]; simpl in *;
      repeat match goal with H : ~ In ?x ?l |- _ => apply mem_false in H; rewrite H end; rewrite ?andb_false_r; exact HW.
  - inversion HO as [|a1 a2 Hu HO2]; subst. inversion HO2 as [|a1 a2 Hv _]; subst. destruct (is_edge_dec G u v) as [HE|HE].
    + destruct (ok_in _ HG u v HE) as [Hui Hvi]. destruct (step_remove_edge g G u v HR HG Hv Hui Hvi HE) as (g1 & E & _ & EW). rewrite E in Eg. injection Eg as <-. rewrite EW.
      intros a b z H. destruct G as (V, E0). apply cost_remE in H as (N & H). rewrite sget_pop. destruct (SE (ekey a b) (ekey u v)) as [X|_]; [|apply HW, H]. exfalso. apply N. apply ekey_inj in X; [exact X| |apply Hu]. apply (cost_ord _ _ _ _ HG H).
    + rewrite dg_nochange_remE by assumption. replace g' with g; [exact HW|].
      destruct (in_dec_s u (fst G)) as [Hui|Hui], (in_dec_s v (fst G)) as [Hvi|Hvi].
      1: rewrite (step_remove_edge_none g G u v) in Eg by assumption; simpl in Eg; congruence.
      all: rewrite (remE_absent g G u v HR) in Eg by tauto; simpl in Eg; congruence.
Qed.
Lemma al_crun_ok names ops : NoDup names -> Forall ordinary names -> Forall (fun o => Forall ordinary (op_names o)) ops ->
  exists g, al_run names ops = Ret g /\ al_rep g (dg_run names ops) /\ dg_ok (dg_run names ops) /\ crep (al_weights g) (dg_run names ops).
Proof.
  intros H1 H2 H3. unfold al_run, dg_run. assert (W0 : crep (al_weights (al_new names)) (names, [])) by (intros u v c []).
  assert (R0 := al_new_rep names). assert (G0 := dg0_ok names H1 H2). revert W0 R0 G0 H3. generalize (al_new names) as g. generalize (names, @nil (string * string * option Z)) as G.
  induction ops as [|o ops IH]; intros G g HW HR HG HO; [exists g; cbn [forM fold_left]; auto|].
  inversion HO; subst. destruct (al_cstep_ok g G o HR HW HG) as (g1 & E & R1 & W1); [assumption..|]. cbn [forM fold_left]. rewrite E. cbn [bind].
  apply IH; [exact W1|exact R1|apply dg_step_ok; assumption|assumption].
Qed.

(** ** joining a vertex to the tree *)
Lemma sset_same {A} (t : list (string * A)) k v : sdget t k = Some v -> sdset t k v = t.
Proof. induction t as [|(k', v') t IH]; cbn [dget dset]; [discriminate|]. destruct (SE k k') as [->|N]; [intros [= ->]; reflexivity|]. intros H. rewrite (IH H). reflexivity. Qed.
Lemma sget_filter {A} (t : list (string * A)) (l : list string) k : sdget (filter (fun x => mem (fst x) l) t) k = if mem k l then sdget t k else None.
Proof.
  induction t as [|(k', v') t IH]; cbn [filter dget fst]; [destruct (mem k l); reflexivity|]. destruct (mem k' l) eqn:M; cbn [dget].
  - destruct (SE k k') as [->|N]; [rewrite M; reflexivity|exact IH].
  - rewrite IH. destruct (SE k k') as [->|N]; [rewrite M; reflexivity|reflexivity].
Qed.
Section Join.
  Context (g : al) (G : dg) (R : al_rep g G) (OK : dg_ok G).
  Lemma ord_in x : In x (fst G) -> ordinary x.
  Proof. intros H. assert (O := ok_ord _ OK). rewrite Forall_forall in O. apply O, H. Qed.
  Lemma mst_hasattr_ord mv v : In v (fst G) -> mst_hasattr mv v = mem v mv.
  Proof. intros H. unfold mst_hasattr. rewrite (ordinary_not_al v (ord_in v H)), orb_false_r. reflexivity. Qed.
  Lemma mst_add_edge_ok mv w u v c : incl mv (fst G) -> In u mv -> In v mv -> is_edge G u v -> mst_add_edge g mv w u v c = Ret (g, sdset w (ekey u v) (u, v, c)).
  Proof.
    intros I Hu Hv He. assert (Gu : sdget (al_nodes g) u = Some (nd (snd G) u)). { rewrite (rep_n _ _ R). assert (X := I u Hu). apply mem_true in X. rewrite X. reflexivity. }
    assert (Gv : sdget (al_nodes g) v = Some (nd (snd G) v)). { rewrite (rep_n _ _ R). assert (X := I v Hv). apply mem_true in X. rewrite X. reflexivity. }
    apply mem_true in Hu, Hv. assert (Vu : sdget (al_nodes (mst_view g mv w)) u = Some (nd (snd G) u)) by (cbn [mst_view al_nodes]; rewrite sget_filter, Hu; exact Gu). assert (Vv : sdget (al_nodes (mst_view g mv w)) v = Some (nd (snd G) v)) by (cbn [mst_view al_nodes]; rewrite sget_filter, Hv; exact Gv).
    assert (Hm : mem v (outs (snd G) u) = true) by (apply mem_true, outs_In, He).
    unfold mst_add_edge, al_add_edge, al_hasattr, al_getattr. rewrite Vu, Vv. cbn [negb bind]. unfold add_adjacent_node, node_hasattr. cbn [nd n_attrs]. rewrite Hm. cbn [orb bind al_setnode al_vertices al_nodes al_weights mst_view]. rewrite sget_set_eq. cbn [bind]. unfold al_setnode. rewrite sset_same by exact Gu. destruct g; reflexivity.
  Qed.
  Lemma mst_join_ok mv T u v c : undirected G -> incl mv (fst G) -> In u mv -> ~ In v mv -> has_cost G u v c -> ~ linked T u v -> (forall a b d, In (a, b, d) T -> has_cost G a b d) ->
    mst_join g mv (both_ways T) v (Some (u, v, c)) = Ret (g, mv ++ [v], both_ways (T ++ [(u, v, c)])).
  Proof.
    intros UD I Hu Hv Hc NL HT. assert (Vv : In v (fst G)) by apply (ok_in _ OK _ _ (cost_edge _ _ _ _ Hc)). assert (Vu : In u (fst G)) by auto. unfold mst_join. rewrite (rep_getattr g G v R). apply mem_true in Vv as Mv. rewrite Mv. cbn [bind]. cbn [e_tgt e_src e_val fst snd].
    assert (A1 : mst_add_vertex mv v = mv ++ [v]). { unfold mst_add_vertex. rewrite mst_hasattr_ord by exact Vv. apply mem_false in Hv. rewrite Hv. reflexivity. } rewrite A1.
    assert (A2 : mst_add_vertex (mv ++ [v]) v = mv ++ [v]). { unfold mst_add_vertex. rewrite mst_hasattr_ord by exact Vv. assert (X : mem v (mv ++ [v]) = true) by (apply mem_true, in_elt). rewrite X. reflexivity. } rewrite A2.
    assert (I2 : incl (mv ++ [v]) (fst G)) by (intros x Hx; apply in_app1 in Hx as [Hx| ->]; auto). assert (Hu2 : In u (mv ++ [v])) by (apply in_app1; auto). assert (Hv2 : In v (mv ++ [v])) by apply in_elt.
    rewrite mst_add_edge_ok; [|exact I2|exact Hu2|exact Hv2|apply (cost_edge _ _ _ _ Hc)]. cbn [bind]. rewrite mst_add_edge_ok; [|exact I2|exact Hv2|exact Hu2|apply (cost_edge _ _ _ c), (cost_sym _ UD _ _ _ Hc)]. cbn [bind]. rewrite sset_both; [reflexivity| | | |exact NL].
    - intros a b d X. destruct (cost_ord _ _ _ _ OK (HT a b d X)) as (X1 & X2). split; apply ordinary_no_us; assumption.
    - apply ordinary_no_us, ord_in, Vu.
    - apply ordinary_no_us, ord_in, Vv.
  Qed.
  Lemma mst_join_first mv w v : In v (fst G) -> ~ In v mv -> mst_join g mv w v None = Ret (g, mv ++ [v], w).
  Proof.
    intros Vv Hv. unfold mst_join. rewrite (rep_getattr g G v R). apply mem_true in Vv as Mv. rewrite Mv. cbn [bind]. unfold mst_add_vertex. rewrite mst_hasattr_ord by exact Vv. apply mem_false in Hv. rewrite Hv. reflexivity.
  Qed.
End Join.
Lemma keep_get e w vw x : sdget (keep_cheaper e w vw) x = if String.eqb x w then Some (cheaper (sdget e w) vw) else sdget e x.
Proof.
  unfold keep_cheaper. destruct (sdget e w) as [y|] eqn:Ew; cbn [cheaper]; [destruct (e_val vw <? e_val y)|]; rewrite ?sget_set; [reflexivity| |reflexivity]. destruct (SE x w) as [->|]; [exact Ew|reflexivity].
Qed.

(** ** the sequential loop *)
Section Run.
  Context (g : al) (G : dg) (R : al_rep g G) (OK : dg_ok G) (UD : undirected G) (CR : crep (al_weights g) G) (s : string) (VS : exists rest, fst G = s :: rest) (E : pedges) (HE : component (priced G) s E).
  Lemma Hs : In s (fst G).
  Proof. destruct VS as (rest & ->). left. reflexivity. Qed.
  Definition N : nat := length (fst G).
  Lemma push_loop MV v q e : In v (fst G) -> bh_ok q -> qinv G s (MV ++ [v]) (seen MV v []) (bh_elems q) (sdget e) ->
    wp (forM (outs (snd G) v) (fun x '(q, e) => match sdget (al_weights g) (ekey v x) with None => Raise KeyError | Some vw => q <- bh_insert q (e_val vw) x ;; Ret (q, keep_cheaper e x vw) end) (q, e))
      (fun '(q', e') => bh_ok q' /\ qinv G s (MV ++ [v]) (all (MV ++ [v])) (bh_elems q') (sdget e') /\ (length (bh_elems q') <= length (bh_elems q) + N)%nat).
  Proof.
    intros Hv Bq Q0. eapply wp_mono; [apply (wp_forM _ _ (outs (snd G) v) _ (fun pre '(q', e') => bh_ok q' /\ qinv G s (MV ++ [v]) (seen MV v pre) (bh_elems q') (sdget e') /\ length (bh_elems q') = (length (bh_elems q) + length pre)%nat))|].
    - intros pre w post (q1, e1) El (B1 & Q1 & L1). assert (Hw : is_edge G v w) by (apply outs_In; rewrite El; apply in_elt). destruct (edge_cost G UD v w Hw) as (c & Hc). rewrite (CR v w c Hc). apply wp_bind. eapply wp_mono; [apply BinomialProofs.insert_ok; exact B1|]. cbn beta. intros q2 (B2 & P2). cbn [wp e_val snd] in *.
      split; [exact B2|]. split; [|rewrite <- (Permutation_length P2); cbn [length]; rewrite app_length; cbn [length]; lia]. eapply qinv_perm; [exact P2| |apply (loop_step G OK s MV v pre _ _ w c Q1 Hc)]. intros x. rewrite keep_get. reflexivity.
    - split; [exact Bq|]. split; [exact Q0|]. cbn [length]. lia.
    - intros (q', e') (B & Q & L). split; [exact B|]. split; [apply (loop_done G s MV v _ _ Q)|]. rewrite L. assert (X : (length (outs (snd G) v) <= N)%nat); [|lia]. apply NoDup_incl_length; [apply outs_nodup, (ok_e _ OK)|]. intros y Hy. apply outs_In in Hy. apply (ok_in _ OK v y Hy).
  Qed.
  Definition good (r : al * al) : Prop := let '(mst, g') := r in g' = g /\ exists T, minimum_spanning_forest E T /\ al_weights mst = both_ways T /\ NoDup (al_vertices mst) /\ forall x, In x (al_vertices mst) <-> linked (priced G) s x.
  Lemma finish MV T e : tinv G s E MV T -> MV <> [] -> qinv G s MV (all MV) [] e -> good (mst_view g MV (both_ways T), g).
  Proof.
    intros I NE Q. split; [reflexivity|]. destruct (prim_done G UD s E HE MV T e I NE Q) as (A & B). exists T. split; [exact A|]. split; [reflexivity|]. split; [apply (t_nd _ _ _ _ _ I)|exact B].
  Qed.
  Lemma size_step (MV : list string) v : NoDup (MV ++ [v]) -> incl (MV ++ [v]) (fst G) -> (S (N * (N - length (MV ++ [v])) + N) <= S (N * (N - length MV)))%nat.
  Proof. intros ND I. assert (X := NoDup_incl_length ND I). rewrite app_length in *. cbn [length] in *. fold N in X. nia. Qed.
  Lemma prim_run : wp (prim_al g) good.
  Proof.
    unfold prim_al. rewrite (rep_v _ _ R). destruct VS as (rest & EV). rewrite EV. rewrite <- EV. fold N. apply wp_bind. eapply wp_mono; [apply BinomialProofs.insert_ok; split; [exact I|constructor]|]. cbn beta. intros q0 (B0 & P0).
    apply (wp_while _ _ (fun '(q, e, MV, W, g1) => g1 = g /\ bh_ok q /\ exists T, W = both_ways T /\ tinv G s E MV T /\ qinv G s MV (all MV) (bh_elems q) (sdget e) /\ (MV = [] -> bh_elems q <> []))
      (fun '(q, _, MV, _, _) => (length (bh_elems q) + N * (N - length MV))%nat)).
    - intros ((((q & e) & MV) & W) & g1) (-> & Bq & T & -> & TI & QI & NE). destruct (bh_is_empty q) eqn:Eq.
      + destruct q; [|discriminate]. cbn [wp]. apply (finish MV T (sdget e)); [exact TI| |exact QI]. intros X. apply (NE X). reflexivity.
      + assert (Nq : q <> []) by (intros ->; discriminate). destruct (delete_min_ok q Bq Nq) as (m & mi & q' & Ef & Ed & Bq' & P & L). rewrite Ef, Ed. cbn [bind]. set (v := b_data m) in *. set (p := b_key m) in *.
        assert (Hv : In v (fst G)). { destruct (q_Q _ _ _ _ _ _ QI p v) as [X|[(u & _ & X)|(_ & ->)]]; [eapply Permutation_in; [apply Permutation_sym, P|left; reflexivity]|apply (t_in _ _ _ _ _ TI), X|apply (ok_in _ OK u v (cost_edge _ _ _ _ X))|apply Hs]. }
        rewrite (mst_hasattr_ord G OK MV v Hv). destruct (mem_spec v MV) as [Mv|Mv]; cbn [negb].
        * cbn [wp]. split; [|rewrite (Permutation_length P); cbn [length]; lia]. split; [reflexivity|]. split; [exact Bq'|]. exists T. split; [reflexivity|]. split; [exact TI|]. split; [apply (qinv_skip G s MV _ _ p v _ QI Mv P)|]. intros ->. destruct Mv.
        * destruct (pop_add G OK UD s E HE MV T _ _ p v _ TI QI Mv P L) as (Q1 & J).
          assert (Step : exists T', mst_join g MV (both_ways T) v (sdget e v) = Ret (g, MV ++ [v], both_ways T') /\ tinv G s E (MV ++ [v]) T').
          { destruct (sdget e v) as [x|].
            - destruct J as (u & c & -> & Hu & Hc & NL & TI'). exists (T ++ [(u, v, c)]). split; [|exact TI']. apply (mst_join_ok g G R OK); [exact UD|apply (t_in _ _ _ _ _ TI)|exact Hu|exact Mv|exact Hc|exact NL|]. intros a b d X. apply (t_T _ _ _ _ _ TI a b d X).
            - destruct J as (-> & -> & ->). exists []. split; [apply (mst_join_first g G R OK); assumption|apply (tinv_first G s Hs E)]. }
          destruct Step as (T' & EJ & TI'). rewrite EJ. cbn [bind]. rewrite (rep_neighbors g G v R OK Hv). cbn [bind]. apply wp_bind. eapply wp_mono; [apply (push_loop MV v q' e Hv Bq' Q1)|]. intros (q2 & e2) (B2 & Q2 & L2). cbn [wp]. split.
          -- split; [reflexivity|]. split; [exact B2|]. exists T'. split; [reflexivity|]. split; [exact TI'|]. split; [exact Q2|]. intros X. destruct MV; discriminate.
          -- assert (SZ := size_step MV v (t_nd _ _ _ _ _ TI') (t_in _ _ _ _ _ TI')). rewrite (Permutation_length P). cbn [length]. lia.
    - split; [reflexivity|]. split; [exact B0|]. exists []. split; [reflexivity|]. split; [apply tinv_init|]. split; [eapply qinv_perm; [exact P0| |apply qinv_init]; reflexivity|]. intros _ X. rewrite X in P0. apply Permutation_sym, Permutation_nil in P0. discriminate.
    - rewrite <- (Permutation_length P0). cbn [bh_elems flat_map length]. lia.
  Qed.
End Run.
