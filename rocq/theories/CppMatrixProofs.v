(** Proofs for the C++ AdjacencyMatrixGraph (C111, C112). *)
From Coq Require Import Strings.String Strings.Ascii Sorting.Sorted.
From Verif Require Import Base DsfModel GraphModel GraphSpec GraphDict GraphProofs PrimProofs CppModel CppGraphModel CppGraphSpec CppGraphProofs CppBfsProofs CppMatrixModel.
Import List.

Definition the_cost (c : option Z) : option Z := match c with Some z => if fits z then Some z else None | None => None end.
Lemma mdg_addE G u v c : mdg_step G (GAddE u v c) = dg_step G (GAddE u v (the_cost c)).
Proof. destruct c as [z|]; [|reflexivity]. cbn [mdg_step the_cost]. destruct (fits z); reflexivity. Qed.
Lemma fst_mdg G o : fst (mdg_step G o) = fst G.
Proof.
  destruct G as [V E]. destruct o as [n|n|u v c|u v]; [reflexivity|reflexivity| |reflexivity]. rewrite mdg_addE. cbn [dg_step fst]. destruct (mem u V && mem v V); [|reflexivity]. destruct (existsb (same_edge u v) E); reflexivity.
Qed.
Lemma addE_absent_id V E u v c : ~ (In u V /\ In v V) -> dg_step (V, E) (GAddE u v c) = (V, E).
Proof. intros H. cbn [dg_step]. destruct (mem_spec u V) as [Hu|Hu]; [destruct (mem_spec v V) as [Hv|Hv]|]; [tauto|reflexivity..]. Qed.
Lemma mdg_ok G o : gr_ok G -> gr_ok (mdg_step G o).
Proof.
  destruct G as [V E]. intros [A B C]. destruct o as [n|n|u v c|u v].
  - constructor; assumption.
  - constructor; assumption.
  - rewrite mdg_addE. destruct (in_dec SD u V) as [Hu|Hu]; [destruct (in_dec SD v V) as [Hv|Hv]|]; [|rewrite addE_absent_id by tauto; constructor; assumption..].
    apply mem_true in Hu as Mu. apply mem_true in Hv as Mv. constructor.
    + rewrite <- mdg_addE, fst_mdg. exact A.
    + cbn [dg_step]. rewrite Mu, Mv. cbn [andb]. rewrite existsb_edge. unfold dg_edges in *. cbn [snd] in *. destruct (mem_spec v (outs E u)) as [He|He]; cbn [snd].
      * assert (EQ : map fst (map (fun e => if same_edge u v e then (u, v, match the_cost c with Some _ => the_cost c | None => snd e end) else e) E) = map fst E). { rewrite map_map. apply map_ext. intros e. destruct (same_edge_spec u v e); simpl; congruence. }
        rewrite EQ. exact B.
      * rewrite map_app. apply (Permutation_NoDup (l := (u, v) :: map fst E)); [apply Permutation_cons_append|]. constructor; [|exact B]. intros H. apply He. apply outs_In. exact H.
    + intros a b H. rewrite <- mdg_addE, fst_mdg. cbn [fst]. apply is_edge_addE in H; [|exact Mu|exact Mv]. destruct H as [[-> ->]|H]; [tauto|apply C; exact H].
  - cbn [mdg_step dg_step_static]. constructor.
    + exact A.
    + unfold dg_edges in *. cbn [dg_step snd] in *. apply map_fst_filter. exact B.
    + intros a b H. apply is_edge_remE in H as [_ H]. apply C. exact H.
Qed.

Record mrep (g : cmg) (G : dg) : Prop := {
  mr_n : cm_nodes g = fst G; mr_map : cm_map g = fst G; mr_k : map fst (cm_matrix g) = fst G; mr_f : cm_freed g = [];
  mr_r : forall u row, sdget (cm_matrix g) u = Some row -> NoDup (map fst row) /\ forall v, sdget row v = Some true <-> is_edge G u v }.
Lemma mrow g G u : mrep g G -> In u (fst G) -> exists row, sdget (cm_matrix g) u = Some row.
Proof. intros R H. rewrite <- (mr_k _ _ R) in H. apply sget_some. exact H. Qed.
Lemma mrow_none g G u : mrep g G -> ~ In u (fst G) -> sdget (cm_matrix g) u = None.
Proof. intros R H. apply sget_none. rewrite (mr_k _ _ R). exact H. Qed.
Lemma fits_too_big z : too_big z = negb (fits z).
Proof. unfold too_big, fits. rewrite Z.leb_antisym. reflexivity. Qed.
Lemma set_keys_in {A} (t : list (string * A)) k v w : sdget t k = Some w -> map fst (sdset t k v) = map fst t.
Proof. intros H. rewrite sset_keys. apply sget_key in H. apply mem_true in H. rewrite H. reflexivity. Qed.
Lemma m_set g G u v row b W F G' : mrep g G -> sdget (cm_matrix g) u = Some row -> fst G' = fst G -> F = [] ->
  (forall a c, is_edge G' a c <-> (if String.eqb a u && String.eqb c v then b = true else is_edge G a c)) ->
  mrep (mkcmg (cm_nodes g) (sdset (cm_matrix g) u (sdset row v b)) (cm_map g) W F) G'.
Proof.
  intros R Er EV -> HE. constructor; cbn [cm_nodes cm_matrix cm_map cm_w cm_freed].
  - rewrite EV. apply (mr_n _ _ R).
  - rewrite EV. apply (mr_map _ _ R).
  - rewrite EV, (set_keys_in _ _ _ _ Er). apply (mr_k _ _ R).
  - reflexivity.
  - intros a row'. rewrite sget_set. destruct (SE a u) as [->|N].
    + intros [= <-]. destruct (mr_r _ _ R u row Er) as [A B]. split; [apply sset_nodup; exact A|]. intros c. rewrite sget_set, HE, String.eqb_refl. cbn [andb]. destruct (SE c v) as [->|]; [split; [intros [= ->]; reflexivity|intros ->; reflexivity]|apply B].
    + intros Ea. destruct (mr_r _ _ R a row' Ea) as [A B]. split; [exact A|]. intros c. rewrite B, HE. destruct (SE a u); [contradiction|reflexivity].
Qed.
Lemma m_step g G o : mrep g G -> gr_ok G -> mrep (fst (cm_call g o)) (mdg_step G o).
Proof.
  intros R OK. destruct o as [n|n|u v c|u v]; [destruct G; exact R|destruct G; exact R| |].
  - cbn [cm_call]. unfold cm_add_edge. destruct (in_dec SD u (fst G)) as [Hu|Hu]; [destruct (in_dec SD v (fst G)) as [Hv|Hv]|].
    + destruct (mrow g G u R Hu) as (row & Er). destruct (mrow g G v R Hv) as (row2 & Er2). rewrite Er, Er2.
      assert (X : forall W F, F = [] -> mrep (mkcmg (cm_nodes g) (sdset (cm_matrix g) u (sdset row v true)) (cm_map g) W F) (mdg_step G (GAddE u v c))).
      { intros W F HF. apply (m_set g G); [exact R|exact Er|apply fst_mdg|exact HF|]. intros a b. rewrite mdg_addE. destruct G as [V E]. apply mem_true in Hu, Hv. rewrite is_edge_addE by assumption. destruct (SE a u) as [->|], (SE b v) as [->|]; cbn [andb]; intuition congruence. }
      destruct c as [z|]; [destruct (too_big z)|]; cbn [fst cm_nodes cm_matrix cm_map cm_w cm_freed]; apply X; rewrite (mr_f _ _ R); reflexivity.
    + destruct (mrow g G u R Hu) as (row & Er). rewrite Er, (mrow_none g G v R Hv). cbn [fst]. rewrite mdg_addE. destruct G as [V E]. rewrite addE_absent_id by tauto. exact R.
    + rewrite (mrow_none g G u R Hu). cbn [fst]. rewrite mdg_addE. destruct G as [V E]. rewrite addE_absent_id by tauto. exact R.
  - cbn [cm_call]. unfold cm_remove_edge. destruct (in_dec SD u (fst G)) as [Hu|Hu].
    + destruct (mrow g G u R Hu) as (row & Er). rewrite Er. cbn [fst]. apply (m_set g G); [exact R|exact Er|apply fst_mdg|rewrite (mr_f _ _ R); reflexivity|]. intros a b. cbn [mdg_step dg_step_static]. destruct G as [V E]. rewrite is_edge_remE. destruct (SE a u) as [->|], (SE b v) as [->|]; cbn [andb]; intuition congruence.
    + rewrite (mrow_none g G u R Hu). cbn [fst]. replace (mdg_step G (GRemE u v)) with G; [exact R|]. destruct G as [V E]. cbn [mdg_step dg_step_static dg_step]. f_equal. symmetry. apply forallb_filter_id. apply forallb_forall. intros e He.
      destruct (same_edge_spec u v e) as [X|]; [|reflexivity]. exfalso. apply Hu. apply (gk_in _ OK u v). unfold is_edge, dg_edges. cbn [snd]. rewrite <- X. apply in_map. exact He.
Qed.
Lemma m_new names : NoDup names -> mrep (cm_new names) (names, []) /\ cm_w (cm_new names) = [].
Proof.
  intros ND. unfold cm_new.
  assert (A : forall l pre, NoDup (pre ++ l) -> fold_left (fun g n => mkcmg (cm_nodes g ++ [n]) (sdset (cm_matrix g) n []) (if mem n (cm_map g) then cm_map g else cm_map g ++ [n]) (cm_w g) (cm_freed g)) l (mkcmg pre (map (fun x => (x, [])) pre) pre [] []) = mkcmg (pre ++ l) (map (fun x => (x, [])) (pre ++ l)) (pre ++ l) [] []).
  { induction l as [|n l IH]; intros pre H; [rewrite app_nil_r; reflexivity|]. cbn [fold_left cm_nodes cm_matrix cm_map cm_w cm_freed]. assert (Hn : ~ In n pre). { apply NoDup_remove_2 in H. intros X. apply H. apply in_or_app. left. exact X. }
    rewrite (proj2 (mem_false n pre) Hn). rewrite sset_new by (rewrite map_map, map_id; exact Hn). assert (H' : NoDup ((pre ++ [n]) ++ l)) by (rewrite <- app_assoc; exact H). specialize (IH (pre ++ [n]) H'). rewrite map_app in IH. cbn [map] in IH. rewrite IH. rewrite <- app_assoc. reflexivity. }
  specialize (A names [] ND). cbn [map app] in A. rewrite A. split; [|reflexivity]. constructor; cbn [cm_nodes cm_matrix cm_map cm_w cm_freed fst]; [reflexivity|reflexivity|rewrite map_map, map_id; reflexivity|reflexivity|].
  intros u row X. apply sget_In in X. apply in_map_iff in X as (x & [= <- <-] & _). split; [constructor|]. intros v. split; [discriminate|intros []].
Qed.
Lemma gr0 names : NoDup names -> gr_ok (names, []).
Proof. intros H. constructor; [exact H|constructor|intros u v []]. Qed.
Lemma m_run names ops : NoDup names -> mrep (cm_run names ops) (mdg_run names ops) /\ gr_ok (mdg_run names ops).
Proof.
  intros ND. unfold cm_run, mdg_run. assert (R := proj1 (m_new names ND)). assert (OK := gr0 names ND). revert R OK. generalize (cm_new names) as g. generalize (names, @nil (string * string * option Z)) as G.
  induction ops as [|o ops IH]; intros G g R OK; [split; assumption|]. cbn [fold_left]. apply IH; [apply m_step; assumption|apply mdg_ok; exact OK].
Qed.

(** ** answers *)
Lemma m_adj g G u v : mrep g G -> gr_ok G -> (cm_is_adjacent g u v = true <-> is_edge G u v).
Proof.
  intros R OK. unfold cm_is_adjacent. destruct (sdget (cm_matrix g) u) as [row|] eqn:E.
  - rewrite <- (proj2 (mr_r _ _ R u row E) v). destruct (sdget row v) as [b|]; [split; [intros ->; reflexivity|intros [= ->]; reflexivity]|split; discriminate].
  - split; [discriminate|]. intros H. apply (gk_in _ OK) in H as [H _]. destruct (mrow g G u R H) as (row & X). congruence.
Qed.
Lemma row_In (row : list (string * bool)) v : NoDup (map fst row) -> (In (v, true) row <-> sdget row v = Some true).
Proof. intros ND. split; [apply In_sget; exact ND|apply sget_In]. Qed.
Definition trues (l : list (string * bool)) : list string := map fst (filter snd l).
Lemma trues_In l v : In v (trues l) <-> In (v, true) l.
Proof.
  unfold trues. rewrite in_map_iff. split.
  - intros ([x b] & <- & H). apply filter_In in H as [H X]. cbn [fst snd] in *. rewrite X in H. exact H.
  - intros H. exists (v, true). split; [reflexivity|]. apply filter_In. auto.
Qed.
Lemma trues_nodup l : NoDup (map fst l) -> NoDup (trues l).
Proof. unfold trues. induction l as [|[x b] l IH]; intros H; [constructor|]. inversion H; subst. cbn [filter snd]. destruct b; cbn [map fst]; [|auto]. constructor; [|auto]. intros X. apply H2. apply in_map_iff in X as (y & E & Y). apply filter_In in Y as [Y _]. apply in_map_iff. exists y. auto. Qed.
Lemma m_nbrs ord g G u : mrep g G -> gr_ok G -> some_order ord -> In u (fst G) -> exists l, cm_neighbors ord g u = Ret l /\ NoDup l /\ forall v, In v l <-> is_edge G u v.
Proof.
  intros R OK HO Hu. unfold cm_neighbors. destruct (mrow g G u R Hu) as (row & E). rewrite E. destruct (mr_r _ _ R u row E) as [A B].
  assert (K : forall l acc, (forall v, In (v, true) l -> In v (fst G)) -> forM l (fun '(n, b) l => if b then (if mem n (cm_map g) then Ret (l ++ [n]) else Raise SystemError) else Ret l) acc = Ret (acc ++ trues l)).
  { induction l as [|[x b] l IH]; intros acc H; [cbn; rewrite app_nil_r; reflexivity|]. cbn [forM]. unfold trues. cbn [filter snd]. destruct b.
    - assert (X : mem x (cm_map g) = true) by (rewrite (mr_map _ _ R); apply mem_true, H; left; reflexivity). rewrite X. cbn [bind map fst]. rewrite IH by (intros v Hv; apply H; right; exact Hv). rewrite <- app_assoc. reflexivity.
    - cbn [bind]. apply IH. intros v Hv. apply H. right. exact Hv. }
  assert (KE : forall v, In (v, true) (ord u row) <-> is_edge G u v). { intros v. rewrite <- B, <- (row_In row v A). split; apply Permutation_in; [|symmetry]; apply HO. }
  rewrite K by (intros v Hv; apply KE in Hv; apply (gk_in _ OK u v Hv)). cbn [app]. eexists. split; [reflexivity|]. split.
  - apply trues_nodup. eapply Permutation_NoDup; [|exact A]. symmetry. apply Permutation_map. apply HO.
  - intros v. rewrite trues_In. apply KE.
Qed.
Lemma m_count g G : mrep g G -> gr_ok G -> cm_num_edges g = len (snd G).
Proof.
  intros R OK. unfold cm_num_edges.
  assert (C1 : forall (row : list (string * bool)) n, fold_left (fun count (entry : string * bool) => if snd entry then count + 1 else count) row n = n + len (trues row)).
  { induction row as [|[x b] row IH]; intros n; [unfold len; cbn; lia|]. cbn [fold_left snd]. rewrite IH. unfold trues, len. cbn [filter snd]. destruct b; cbn [map length]; lia. }
  set (L := flat_map (fun r => map (pair (fst r)) (trues (snd r))) (cm_matrix g)).
  assert (C2 : forall M n, fold_left (fun count row => fold_left (fun count (entry : string * bool) => if snd entry then count + 1 else count) (snd row) count) M n = n + len (flat_map (fun r : string * list (string * bool) => map (pair (fst r)) (trues (snd r))) M)).
  { induction M as [|r M IH]; intros n; [unfold len; cbn; lia|]. cbn [fold_left flat_map]. rewrite C1, IH. unfold len. rewrite app_length, map_length. lia. }
  rewrite C2. fold L. assert (P : Permutation L (dg_edges G)).
  { apply NoDup_Permutation.
    - unfold L. assert (RR : forall u row, In (u, row) (cm_matrix g) -> NoDup (map fst row)). { intros u row X. apply In_sget in X; [apply (mr_r _ _ R u row X)|]. rewrite (mr_k _ _ R). apply (gk_v _ OK). }
      assert (NK : NoDup (map fst (cm_matrix g))) by (rewrite (mr_k _ _ R); apply (gk_v _ OK)). clear - RR NK. induction (cm_matrix g) as [|[u row] M IH]; [constructor|]. cbn [flat_map fst snd]. inversion NK; subst. 
      assert (N1 : NoDup (map (pair u) (trues row))). { assert (X := trues_nodup row (RR u row ltac:(left; reflexivity))). clear - X. induction X; cbn [map]; constructor; auto. intros Y. apply in_map_iff in Y as (y & [= ->] & Y). contradiction. }
      assert (N2 := IH (fun a b X => RR a b (or_intror X)) H2).
      assert (N3 : forall x, In x (map (pair u) (trues row)) -> ~ In x (flat_map (fun r => map (pair (fst r)) (trues (snd r))) M)). { intros x X Y. apply in_map_iff in X as (v & <- & _). apply in_flat_map in Y as ([u' row'] & Y & Z). apply in_map_iff in Z as (w & [= E _] & _). cbn [fst] in E. subst u'. apply H1. apply (in_map fst) in Y. exact Y. }
      clear - N1 N2 N3. induction (map (pair u) (trues row)) as [|x l IH]; [exact N2|]. cbn [app]. inversion N1; subst. constructor; [|apply IH; auto; intros y Y; apply N3; right; exact Y]. intros X. apply in_app_or in X as [X|X]; [contradiction|]. apply (N3 x); [left; reflexivity|exact X].
    - apply (gk_e _ OK).
    - intros [u v]. change (In (u, v) (dg_edges G)) with (is_edge G u v). unfold L. rewrite in_flat_map. split.
      + intros ([u' row] & X & Y). cbn [fst snd] in Y. apply in_map_iff in Y as (w & [= -> ->] & Y). apply In_sget in X; [|rewrite (mr_k _ _ R); apply (gk_v _ OK)]. destruct (mr_r _ _ R u row X) as [A B]. apply B. apply row_In; [exact A|]. apply trues_In. exact Y.
      + intros H. destruct (gk_in _ OK u v H) as [Hu _]. destruct (mrow g G u R Hu) as (row & E). exists (u, row). split; [apply sget_In; exact E|]. cbn [fst snd]. apply in_map. apply trues_In. destruct (mr_r _ _ R u row E) as [A B]. apply row_In; [exact A|]. apply B. exact H. }
  apply Permutation_length in P. unfold len, dg_edges in *. rewrite P, map_length. lia.
Qed.

(** ** costs, for plain names *)
Definition wrep (W : list (string * (string * string * Z))) (G : dg) : Prop := forall u v, plain u -> match sdget W (ekey u v) with Some e => exists c, e = (u, v, c) /\ has_cost G u v c | None => forall c, ~ has_cost G u v c end.
Lemma w_step g G o : mrep g G -> gr_ok G -> Forall plain (op_names o) -> wrep (cm_w g) G -> wrep (cm_w (fst (cm_call g o))) (mdg_step G o).
Proof.
  intros R OK HO W. destruct o as [n|n|u v c|u v]; [destruct G; exact W|destruct G; exact W| |].
  - apply Forall_inv in HO. cbn [cm_call]. unfold cm_add_edge. rewrite mdg_addE.
    destruct (in_dec SD u (fst G)) as [Hu|Hu]; [destruct (in_dec SD v (fst G)) as [Hv|Hv]|].
    + destruct (mrow g G u R Hu) as (row & Er). destruct (mrow g G v R Hv) as (row2 & Er2). rewrite Er, Er2. destruct G as [V E]. apply mem_true in Hu, Hv.
      destruct c as [z|]; [rewrite fits_too_big; cbn [the_cost]; destruct (fits z)|]; cbn [negb fst cm_w].
      * intros a b Pa. rewrite sget_set, (ekey_eqb a b u v Pa HO). specialize (W a b Pa). destruct (SE a u) as [->|Na]; [destruct (SE b v) as [->|Nb]|]; cbn [andb].
        -- exists z. split; [reflexivity|]. apply cost_addE; [apply (gk_e _ OK)|assumption..|]. auto.
        -- destruct (sdget (cm_w g) (ekey u b)) as [e|]; [destruct W as (c & -> & W); exists c; split; [reflexivity|]; apply cost_addE; [apply (gk_e _ OK)|assumption..|]; right; split; [tauto|exact W]|]. intros c X. apply cost_addE in X; [|apply (gk_e _ OK)|assumption..]. destruct X as [(_ & X & _)|(_ & X)]; [congruence|apply (W c X)].
        -- destruct (sdget (cm_w g) (ekey a b)) as [e|]; [destruct W as (c & -> & W); exists c; split; [reflexivity|]; apply cost_addE; [apply (gk_e _ OK)|assumption..|]; right; split; [tauto|exact W]|]. intros c X. apply cost_addE in X; [|apply (gk_e _ OK)|assumption..]. destruct X as [(X & _ & _)|(_ & X)]; [congruence|apply (W c X)].
      * intros a b Pa. specialize (W a b Pa). destruct (sdget (cm_w g) (ekey a b)) as [e|]; [destruct W as (c & -> & W); exists c; split; [reflexivity|]; apply cost_addE; [apply (gk_e _ OK)|assumption..]|]. intros c X. apply cost_addE in X; [|apply (gk_e _ OK)|assumption..]. apply (W c X).
      * intros a b Pa. specialize (W a b Pa). destruct (sdget (cm_w g) (ekey a b)) as [e|]; [destruct W as (c & -> & W); exists c; split; [reflexivity|]; apply cost_addE; [apply (gk_e _ OK)|assumption..]|]. intros c X. apply cost_addE in X; [|apply (gk_e _ OK)|assumption..]. apply (W c X).
    + destruct (mrow g G u R Hu) as (row & Er). rewrite Er, (mrow_none g G v R Hv). cbn [fst]. destruct G as [V E]. rewrite addE_absent_id by tauto. exact W.
    + rewrite (mrow_none g G u R Hu). cbn [fst]. destruct G as [V E]. rewrite addE_absent_id by tauto. exact W.
  - apply Forall_inv in HO. cbn [cm_call]. unfold cm_remove_edge. cbn [mdg_step dg_step_static]. destruct (in_dec SD u (fst G)) as [Hu|Hu].
    + destruct (mrow g G u R Hu) as (row & Er). rewrite Er. destruct G as [V E]. cbn [fst cm_w]. intros a b Pa. rewrite sget_pop, (ekey_eqb a b u v Pa HO). specialize (W a b Pa). destruct (SE a u) as [->|Na]; [destruct (SE b v) as [->|Nb]|]; cbn [andb].
      * intros c X. apply cost_remE in X as [X _]. apply X. auto.
      * destruct (sdget (cm_w g) (ekey u b)) as [e|]; [destruct W as (c & -> & W); exists c; split; [reflexivity|]; apply cost_remE; tauto|]. intros c X. apply cost_remE in X as [_ X]. apply (W c X).
      * destruct (sdget (cm_w g) (ekey a b)) as [e|]; [destruct W as (c & -> & W); exists c; split; [reflexivity|]; apply cost_remE; tauto|]. intros c X. apply cost_remE in X as [_ X]. apply (W c X).
    + rewrite (mrow_none g G u R Hu). cbn [fst]. destruct G as [V E]. intros a b Pa. specialize (W a b Pa). destruct (sdget (cm_w g) (ekey a b)) as [e|].
      * destruct W as (c & -> & W). exists c. split; [reflexivity|]. apply cost_remE. split; [|exact W]. intros [-> _]. apply Hu. apply (gk_in _ OK u b (cost_edge _ _ _ _ W)).
      * intros c X. apply cost_remE in X as [_ X]. apply (W c X).
Qed.
Lemma w_run names ops : NoDup names -> Forall (fun o => Forall plain (op_names o)) ops -> wrep (cm_w (cm_run names ops)) (mdg_run names ops).
Proof.
  intros ND HO. unfold cm_run, mdg_run. destruct (m_new names ND) as [R EW]. assert (OK := gr0 names ND). assert (W : wrep (cm_w (cm_new names)) (names, [])) by (rewrite EW; intros u v Pu; cbn; intros c []). clear EW. revert R OK W. generalize (cm_new names) as g. generalize (names, @nil (string * string * option Z)) as G.
  induction HO as [|o ops H HO IH]; intros G g R OK W; [exact W|]. cbn [fold_left]. apply IH; [apply m_step; assumption|apply mdg_ok; exact OK|apply w_step; assumption].
Qed.

(** ** breadth-first search *)
Lemma cm_bfs_main ord g G s op fuel : mrep g G -> gr_ok G -> some_order ord -> In s (fst G) -> (length (fst G) < fuel)%nat -> exists calls, cm_bfs ord fuel g s op = Ret calls /\ bfs_result G s calls.
Proof.
  intros R OK HO Hs Hf. unfold cm_bfs. assert (M : mem s (cm_map g) = true) by (rewrite (mr_map _ _ R); apply mem_true; exact Hs). rewrite M. cbn [negb].
  set (row := fun u => match sdget (cm_matrix g) u with Some row => row | None => [] end). set (nb := fun u => trues (ord u (row u))).
  assert (RW : forall u, NoDup (map fst (row u)) /\ forall v, sdget (row u) v = Some true <-> is_edge G u v).
  { intros u. unfold row. destruct (sdget (cm_matrix g) u) as [r|] eqn:E; [apply (mr_r _ _ R u r E)|]. split; [constructor|]. intros v. split; [discriminate|]. intros X. apply (gk_in _ OK) in X as [X _]. destruct (mrow g G u R X). congruence. }
  assert (NB : forall u v, In v (nb u) <-> is_edge G u v). { intros u v. unfold nb. rewrite trues_In. destruct (RW u) as [A B]. rewrite <- B, <- (row_In _ v A). split; apply Permutation_in; [|symmetry]; apply HO. }
  assert (ND : forall u, NoDup (nb u)). { intros u. apply trues_nodup. eapply Permutation_NoDup; [|apply (RW u)]. symmetry. apply Permutation_map. apply HO. }
  destruct (bfs_main G (gk_in _ OK) s Hs nb NB ND) with (fuel := fuel) (inner := fun node st => forM (ord node (row node)) (fun '(adj_name, connected) '(q, visited, calls) =>
          if negb connected || mem adj_name visited then Ret (q, visited, calls)
          else if negb (mem adj_name (cm_map g)) then Ret (q, visited, calls)
          else let _ := op calls node adj_name in Ret (q ++ [adj_name], adj_name :: visited, calls ++ [(node, adj_name)])) st) as (calls & E & X).
  - intros u q visited calls Hu. rewrite <- (bfs_inner op u (nb u) (ND u)). unfold nb.
    assert (IN : forall v, In (v, true) (ord u (row u)) -> In v (fst G)). { intros v Hv. apply (gk_in _ OK u v). apply NB. apply trues_In. exact Hv. }
    revert q visited calls IN. generalize (ord u (row u)). clear - R. induction l as [|[x b] l IH]; intros q visited calls IN; [reflexivity|]. unfold trues. cbn [forM filter snd]. assert (IN' : forall v, In (v, true) l -> In v (fst G)) by (intros v Hv; apply IN; right; exact Hv). destruct b; cbn [negb orb].
    + cbn [map fst forM]. destruct (mem x visited); [cbn [bind]; apply IH; exact IN'|]. assert (X : mem x (cm_map g) = true) by (rewrite (mr_map _ _ R); apply mem_true, IN; left; reflexivity). rewrite X. cbn [negb bind]. apply IH. exact IN'.
    + cbn [bind]. apply IH. exact IN'.
  - exact Hf.
  - exists calls. split; [|exact X]. rewrite <- E. apply while_loop_ext. intros [[q visited] calls']. destruct q as [|node q]; reflexivity.
Qed.
