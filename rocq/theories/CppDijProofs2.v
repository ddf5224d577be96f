(** The C++ dijkstra from ids to names (C109). *)
From Coq Require Import Strings.String Sorting.Sorted.
From Verif Require Import Base ArraysProofs DsfModel GraphModel GraphSpec GraphDict GraphProofs DijkstraSpec CppModel CppProofs CppGraphModel CppGraphSpec CppGraphProofs CppDijProofs.
Import List.

Lemma NoDup_zrange lo hi : NoDup (zrange lo hi).
Proof. unfold zrange. apply FinFun.Injective_map_NoDup; [intros a b; lia|apply seq_NoDup]. Qed.
Lemma list_sum_bump (f h : Z -> nat) l a : NoDup l -> In a l -> h a = S (f a) -> (forall x, x <> a -> h x = f x) -> list_sum (map h l) = S (list_sum (map f l)).
Proof.
  induction l as [|x l IH]; intros ND HI Ha Ho; [destruct HI|]. inversion ND; subst. change (list_sum (map h (x :: l))) with (h x + list_sum (map h l))%nat. change (list_sum (map f (x :: l))) with (f x + list_sum (map f l))%nat. destruct HI as [->|HI].
  - rewrite Ha. rewrite (map_ext_in h f); [lia|]. intros y Hy. apply Ho. intros ->. contradiction.
  - rewrite (IH H2 HI Ha Ho). rewrite Ho by (intros ->; contradiction). lia.
Qed.

Section N.
  Context (P : list (string * Z)) (E : list cedge) (next : Z) (IO : ids_ok P next) (OK : cok (map fst P, E)) (CT : map snd P = zrange 0 (len P)).
  Let V := len P.
  Let G := nonneg_part (map fst P, E).
  Lemma id_range x i : In (x, i) P -> 0 <= i < V.
  Proof. intros H. apply In_snd in H. rewrite CT in H. apply zrange_in in H. exact H. Qed.
  Lemma id_name i : 0 <= i < V -> exists x, In (x, i) P.
  Proof. intros H. assert (X : In i (map snd P)) by (rewrite CT; apply zrange_in; exact H). apply in_map_iff in X as ([x j] & <- & X). exists x. exact X. Qed.
  Lemma id_fun x i j : In (x, i) P -> In (x, j) P -> i = j.
  Proof. intros H1 H2. assert (N := co_v _ OK). cbn [fst] in N. apply (In_sget P x i N) in H1. apply (In_sget P x j N) in H2. congruence. Qed.
  Lemma name_fun x y i : In (x, i) P -> In (y, i) P -> x = y.
  Proof. intros H1 H2. assert (A := node_of P next x i IO H1). assert (B := node_of P next y i IO H2). congruence. Qed.
  Lemma id_of x : In x (map fst P) -> exists i, sdget P x = Some i /\ In (x, i) P /\ 0 <= i < V.
  Proof. intros H. destruct (sget_some P x H) as [i Ei]. exists i. split; [exact Ei|]. assert (X := sget_In _ _ _ Ei). split; [exact X|]. apply (id_range x i X). Qed.

  (** the adjacency vectors hold the edges of [pre] with a non-negative cost *)
  Definition adj_of (adj : list (list (Z * Z))) (pre : list (string * cedge)) : Prop :=
    len adj = V /\ (forall i j w, 0 <= i < V -> (In (j, w) (zn [] adj i) <-> exists a b, In (a, i) P /\ In (b, j) P /\ 0 <= w /\ In (ent (a, b, Some w)) pre)) /\
    (list_sum (map (degree adj) (zrange 0 V)) <= length pre)%nat.
  Lemma build_adj_ok es : Permutation es (map ent E) -> exists adj, build_adj es V P = Ret (adj, P) /\ adj_of adj es.
  Proof.
    intros PE. assert (HIN : forall k e, In (k, e) es -> exists a b c, e = (a, b, c) /\ k = ekey a b /\ In (a, b, c) E).
    { intros k e H. apply (Permutation_in _ PE) in H. apply in_map_iff in H as ([[a b] c] & [= <- <-] & H). exists a, b, c. auto. }
    assert (V0 : 0 <= V) by (unfold V, len; lia).
    assert (W : wp (build_adj es V P) (fun r => snd r = P /\ adj_of (fst r) es)).
    { unfold build_adj. apply (wp_forM _ _ es _ (fun pre r => snd r = P /\ adj_of (fst r) pre)).
      - intros pre [k e] post [adj n2i] EL [EP (A1 & A2 & A3)]. cbn [fst snd] in *. subst n2i. destruct (HIN k e) as (a & b & c & -> & -> & He); [rewrite EL; apply in_or_app; right; left; reflexivity|].
        assert (Hab : In a (map fst P) /\ In b (map fst P)) by (apply (co_in _ OK a b); apply (in_map fst) in He; exact He). destruct Hab as [Ha Hb]. assert (Pa : plain a) by (apply (plain_in _ a OK Ha)).
        rewrite (key_src_ekey a b Pa), (key_dst_ekey a b Pa). destruct (id_of a Ha) as (i & Ei & Hi & Ri). destruct (id_of b Hb) as (j & Ej & Hj & Rj). unfold n2i_at. rewrite Ei. rewrite Ej.
        assert (SKIP : (forall w, 0 <= w -> c <> Some w) -> adj_of adj (pre ++ [(ekey a b, (a, b, c))])).
        { intros N. split; [exact A1|]. split; [|rewrite app_length; lia]. intros i' j' w Hi'. rewrite (A2 i' j' w Hi'). split; intros (a' & b' & X1 & X2 & X3 & X4); exists a', b'; (split; [exact X1|]; split; [exact X2|]; split; [exact X3|]).
          - apply in_or_app. left. exact X4.
          - apply in_app_or in X4 as [X4|[X4|[]]]; [exact X4|]. exfalso. injection X4 as _ _ _ X4. exact (N w X3 X4). }
        destruct c as [w|]; [|split; [reflexivity|]; apply SKIP; intros; discriminate]. destruct (Z.ltb_spec w 0) as [Hw|Hw]; [split; [reflexivity|]; apply SKIP; intros w' Hw' [= ->]; lia|].
        rewrite (cget_ok _ []) by lia. cbn [bind]. rewrite cset_ok by lia. cbn [bind wp fst snd]. split; [reflexivity|]. split; [rewrite len_zupd; exact A1|]. split.
        + intros i' j' w' Hi'. destruct (Z.eq_dec i' i) as [->|Hn].
          * rewrite zn_zupd_eq by lia. rewrite in_app_iff, (A2 i j' w' Ri). split.
            -- intros [(a' & b' & X1 & X2 & X3 & X4)|[[= <- <-]|[]]]; [exists a', b'; repeat split; auto; apply in_or_app; left; exact X4|]. exists a, b. repeat split; auto. apply in_or_app. right. left. reflexivity.
            -- intros (a' & b' & X1 & X2 & X3 & X4). apply in_app_or in X4 as [X4|[X4|[]]]; [left; exists a', b'; auto|]. right. injection X4 as _ <- <- <-. left. f_equal. apply (id_fun b); assumption.
          * rewrite zn_zupd_ne by lia. rewrite (A2 i' j' w' Hi'). split; intros (a' & b' & X1 & X2 & X3 & X4); exists a', b'; (split; [exact X1|]; split; [exact X2|]; split; [exact X3|]).
            -- apply in_or_app. left. exact X4.
            -- apply in_app_or in X4 as [X4|[X4|[]]]; [exact X4|]. exfalso. injection X4 as _ <- <- <-. apply Hn. apply (id_fun a); assumption.
        + rewrite app_length. cbn [length]. assert (X : list_sum (map (degree (zupd adj i (zn [] adj i ++ [(j, w)]))) (zrange 0 V)) = S (list_sum (map (degree adj) (zrange 0 V)))); [|lia].
          transitivity (list_sum (map (fun x => if x =? i then S (degree adj i) else degree adj x) (zrange 0 V))).
          * f_equal. apply map_ext_in. intros x Hx. apply zrange_in in Hx. unfold degree. destruct (Z.eqb_spec x i) as [->|]; [rewrite zn_zupd_eq by lia; rewrite app_length; cbn [length]; lia|]. rewrite zn_zupd_ne by lia. reflexivity.
          * apply list_sum_bump with (a := i); [apply NoDup_zrange|apply zrange_in; lia|rewrite Z.eqb_refl; reflexivity|]. intros x Hx. destruct (Z.eqb_spec x i); congruence.
      - cbn [fst snd]. split; [reflexivity|]. split; [rewrite len_repeat; lia|]. assert (Z0 : forall i, 0 <= i < V -> zn [] (repeat (@nil (Z * Z)) (Z.to_nat V)) i = []) by (intros i Hi; apply zn_repeat; lia). split.
        + intros i j w Hi. rewrite Z0 by exact Hi. split; [intros []|intros (a & b & _ & _ & _ & [])].
        + rewrite (map_ext_in _ (fun _ => 0%nat)); [induction (zrange 0 V); [cbn; lia|assumption]|]. intros x Hx. apply zrange_in in Hx. unfold degree. rewrite Z0 by exact Hx. reflexivity. }
    apply wp_ex in W as ([adj n2i] & W & HP & HA). cbn [fst snd] in *. subst n2i. exists adj. split; assumption.
  Qed.
  Lemma cost_G a b w : has_cost G a b w <-> 0 <= w /\ In (a, b, Some w) E.
  Proof. unfold has_cost, G, nonneg_part. cbn [snd]. rewrite filter_In. cbn [snd]. rewrite Z.leb_le. tauto. Qed.

  Section A.
    Context (es : list (string * cedge)) (HE : Permutation es (map ent E)) (adj : list (list (Z * Z))) (HA : adj_of adj es) (s : string) (si : Z) (Hs : In (s, si) P).
    Lemma adj_edge a i b j w : In (a, i) P -> In (b, j) P -> (In (j, w) (zn [] adj i) <-> has_cost G a b w).
    Proof.
      intros Ha Hb. destruct HA as (A1 & A2 & _). rewrite (A2 i j w (id_range a i Ha)), cost_G. split.
      - intros (a' & b' & X1 & X2 & X3 & X4). split; [exact X3|]. rewrite (name_fun a a' i Ha X1), (name_fun b b' j Hb X2). apply (Permutation_in _ HE) in X4. apply in_map_iff in X4 as (e & X4 & X5). injection X4 as _ ->. exact X5.
      - intros [X1 X2]. exists a, b. repeat split; auto. apply (Permutation_in _ (Permutation_sym HE)). apply in_map. exact X2.
    Qed.
    Lemma adj_ok u v w : 0 <= u < V -> In (v, w) (zn [] adj u) -> 0 <= v < V /\ 0 <= w.
    Proof. intros Hu H. destruct HA as (A1 & A2 & _). apply (A2 u v w Hu) in H as (a & b & _ & Hb & Hw & _). split; [apply (id_range b v Hb)|exact Hw]. Qed.
    Lemma iw_cwalk i d : iw adj si i d -> exists x n, In (x, i) P /\ cwalk G s n d x.
    Proof.
      intros H. induction H as [|u d v w H (x & n & Hx & IH) He]; [exists s, 0%nat; split; [exact Hs|constructor]|]. assert (Hv := adj_ok u v w (id_range x u Hx) He). destruct (id_name v (proj1 Hv)) as (y & Hy).
      exists y, (S n). split; [exact Hy|]. econstructor; [exact IH|]. apply (adj_edge x u y v w Hx Hy). exact He.
    Qed.
    Lemma cwalk_iw n d x : cwalk G s n d x -> exists i, In (x, i) P /\ iw adj si i d.
    Proof.
      intros H. induction H as [|n w u v c H (i & Hi & IH) He]; [exists si; split; [exact Hs|constructor]|].
      assert (Hv : In v (map fst P)). { assert (X := proj1 (cost_G u v c) He). apply (co_in _ OK u v). destruct X as [_ X]. apply (in_map fst) in X. exact X. }
      destruct (id_of v Hv) as (j & _ & Hj & _). exists j. split; [exact Hj|]. econstructor; [exact IH|]. apply (adj_edge u i v j c Hi Hj). exact He.
    Qed.
    Lemma iw_iff x i d : In (x, i) P -> (iw adj si i d <-> exists n, cwalk G s n d x).
    Proof.
      intros Hx. split.
      - intros H. destruct (iw_cwalk i d H) as (y & n & Hy & W). rewrite (name_fun x y i Hx Hy). eauto.
      - intros [n W]. destruct (cwalk_iw n d x W) as (j & Hj & H). rewrite (id_fun x i j Hx Hj). exact H.
    Qed.
  End A.

  Lemma i2n_of x i : In (x, i) P -> i2n_at (map swap P) i = x.
  Proof. intros H. unfold i2n_at. rewrite (node_of P next x i IO H). reflexivity. Qed.
  Lemma dict_ok {X Y} (d0 : X) (vec : list X) (h : X -> Y) : len vec = V -> 
    forM (zrange 0 V) (fun id d => x <- cget vec id ;; Ret (sdset d (i2n_at (map swap P) id) (h x))) [] = Ret (map (fun xi => (fst xi, h (zn d0 vec (snd xi)))) P).
  Proof.
    intros HL. unfold V at 1. rewrite <- CT.
    assert (A : forall post pre, P = pre ++ post -> forM (map snd post) (fun id d => x <- cget vec id ;; Ret (sdset d (i2n_at (map swap P) id) (h x))) (map (fun xi => (fst xi, h (zn d0 vec (snd xi)))) pre) = Ret (map (fun xi => (fst xi, h (zn d0 vec (snd xi)))) P)).
    { induction post as [|[x i] post IH]; intros pre EP; [rewrite app_nil_r in EP; subst pre; reflexivity|]. cbn [map snd forM]. assert (HI : In (x, i) P) by (rewrite EP; apply in_or_app; right; left; reflexivity).
      rewrite (cget_ok _ d0) by (rewrite HL; apply (id_range x i HI)). cbn [bind]. rewrite (i2n_of x i HI). rewrite sset_new.
      - specialize (IH (pre ++ [(x, i)])). rewrite map_app in IH. cbn [map fst snd] in IH. apply IH. rewrite <- app_assoc. exact EP.
      - rewrite map_map. cbn [fst]. assert (N := co_v _ OK). cbn [fst] in N. rewrite EP, map_app in N. cbn [map fst] in N. apply NoDup_remove_2 in N. intros XX. apply N. apply in_or_app. left. exact XX. }
    apply (A P []). reflexivity.
  Qed.

  (** the dictionaries, for the rest of the world *)
  Record shortest (s : string) (dist : list (string * option Z)) (pred : list (string * option string)) : Prop := {
    sh_keys : map fst dist = fst G; sh_keysp : map fst pred = fst G;
    sh_exact : exact_distances G s dist;
    sh_none : forall v, sdget pred v = Some None -> v = s \/ ~ reachable G s v;
    sh_some : forall v u, sdget pred v = Some (Some u) -> v <> s /\ exists c d, has_cost G u v c /\ least_cost G s u d /\ least_cost G s v (d + c);
    sh_leads : forall v, reachable G s v -> leads (sdget pred) s v }.
  Lemma edge_G u v : is_edge G u v -> exists c, has_cost G u v c.
  Proof.
    unfold is_edge, dg_edges, has_cost, G, nonneg_part. cbn [snd]. intros H. apply in_map_iff in H as ([[a b] [c|]] & X & H); cbn [fst] in X; injection X as -> ->; [exists c; exact H|]. apply filter_In in H as [_ H]. discriminate H.
  Qed.
  Lemma reach_cost s v : reachable G s v <-> exists n d, cwalk G s n d v.
  Proof.
    split.
    - intros [n H]. induction H as [|n u v H (m & d & IH) He]; [exists 0%nat, 0; constructor|]. destruct (edge_G u v He) as (c & Hc). exists (S m), (d + c). econstructor; eassumption.
    - intros (n & d & H). exists n. induction H as [|n w u v c H IH He]; [constructor|]. econstructor; [exact IH|]. unfold is_edge, dg_edges. apply (in_map fst) in He. exact He.
  Qed.
  Lemma map_get {Y} (f : string * Z -> Y) x i : In (x, i) P -> sdget (map (fun xi => (fst xi, f xi)) P) x = Some (f (x, i)).
  Proof. intros H. apply In_sget; [rewrite map_map; cbn [fst]; rewrite map_ext with (g := fst) by reflexivity; apply (co_v _ OK)|]. apply in_map_iff. exists (x, i). auto. Qed.

  Lemma cpp_dij_ok ordE fuel s : (forall l, Permutation (ordE l) l) -> In s (map fst P) -> (S (length E) < fuel)%nat ->
    exists dv dist pred, cpp_dijkstra_run ordE fuel (st P E next) s = Ret (dv, (dist, pred), st P E next) /\ shortest s dist pred /\ len dv = V /\ forall x i, In (x, i) P -> sdget dist x = Some (zn None dv i).
  Proof.
    intros HO Hs Hf. unfold cpp_dijkstra_run. cbn [st cg_nodes cg_edges cg_n2i cg_i2n cg_adj cg_next]. assert (HL : len (map fst P) = V) by (unfold V, len; rewrite map_length; reflexivity). rewrite HL.
    destruct (build_adj_ok (ordE (map ent E)) (HO _)) as (adj & -> & HA). cbn [bind]. destruct (id_of s Hs) as (si & Ei & Hsi & Ri). unfold n2i_at. rewrite Ei. assert (V0 : 0 <= V) by (unfold V, len; lia).
    rewrite cset_ok by (rewrite len_repeat; lia). cbn [bind]. assert (HW := adj_ok _ adj HA).
    assert (W : wp (dij_loop fuel adj (zupd (repeat None (Z.to_nat V)) si (Some 0)) (repeat (-1) (Z.to_nat V)) [(0, si)]) (outcome V adj si)).
    { apply (dij_loop_ok V adj si (proj1 HA) HW Ri) with (S := []); [apply rec_start; assumption|]. rewrite (pending_all V adj). destruct HA as (_ & _ & A3). rewrite (Permutation_length (HO _)), map_length in A3. cbn [length]. lia. }
    apply wp_ex in W as ([dv pv] & -> & S & R). cbn [bind fst snd] in *. rewrite (dict_ok None dv (fun x => x)) by apply (r_len _ _ _ _ _ _ _ _ R). cbn [bind].
    rewrite (dict_ok (-1) pv (fun p => if p =? -1 then None else Some (i2n_at (map swap P) p))) by apply (r_lenp _ _ _ _ _ _ _ _ R). cbn [bind]. do 3 eexists. split; [reflexivity|].
    assert (GD : forall x i, In (x, i) P -> sdget (map (fun xi : string * Z => (fst xi, zn None dv (snd xi))) P) x = Some (zn None dv i)) by (intros x i Hx; apply (map_get (fun xi => zn None dv (snd xi)) x i Hx)).
    assert (GP : forall x i, In (x, i) P -> sdget (map (fun xi : string * Z => (fst xi, if zn (-1) pv (snd xi) =? -1 then None else Some (i2n_at (map swap P) (zn (-1) pv (snd xi))))) P) x = Some (if zn (-1) pv i =? -1 then None else Some (i2n_at (map swap P) (zn (-1) pv i)))) by (intros x i Hx; apply (map_get (fun xi => if zn (-1) pv (snd xi) =? -1 then None else Some (i2n_at (map swap P) (zn (-1) pv (snd xi)))) x i Hx)).
    assert (OD := fun x i (H : In (x, i) P) => out_dist V adj si HW Ri S dv pv R i (id_range x i H)).
    assert (LC : forall x i d, In (x, i) P -> zn None dv i = Some d -> least_cost G s x d).
    { intros x i d Hx Ed. assert (X := OD x i Hx). rewrite Ed in X. destruct X as [X Y]. split; [apply (iw_iff _ (HO _) adj HA s si Hsi x i d Hx); exact X|]. intros n w H. apply Y. apply (iw_iff _ (HO _) adj HA s si Hsi x i w Hx). eauto. }
    assert (NR : forall x i, In (x, i) P -> zn None dv i = None -> ~ reachable G s x).
    { intros x i Hx Ed. assert (X := OD x i Hx). rewrite Ed in X. intros Y. apply reach_cost in Y as (n & d & Y). apply (X d). apply (iw_iff _ (HO _) adj HA s si Hsi x i d Hx). eauto. }
    assert (KEY : forall {Y} (f : string * Z -> Y) x o, sdget (map (fun xi => (fst xi, f xi)) P) x = Some o -> In x (map fst P)). { intros Y f x o X. apply sget_key in X. rewrite map_map in X. exact X. }
    assert (PR : forall i, 0 <= i < V -> zn (-1) pv i <> -1 -> exists y, In (y, zn (-1) pv i) P /\ i2n_at (map swap P) (zn (-1) pv i) = y).
    { intros i Hi N. destruct (r_pred _ _ _ _ _ _ _ _ R i Hi) as [(X & _)|(_ & B & _)]; [contradiction|]. assert (B' := proj1 (r_set _ _ _ _ _ _ _ _ R _ B)). destruct (id_name _ B') as (y & Hy). exists y. split; [exact Hy|]. apply (i2n_of y). exact Hy. }
    split; [|split; [apply (r_len _ _ _ _ _ _ _ _ R)|exact GD]]. constructor.
    - rewrite map_map. reflexivity.
    - rewrite map_map. reflexivity.
    - intros x Hx. destruct (id_of x Hx) as (i & _ & Hi & _). exists (zn None dv i). split; [apply (GD x i Hi)|]. destruct (zn None dv i) as [d|] eqn:Ed; [apply (LC x i d Hi Ed)|apply (NR x i Hi Ed)].
    - intros v Ev. assert (Hv := KEY _ _ _ _ Ev). destruct (id_of v Hv) as (i & _ & Hi & Ri'). rewrite (GP v i Hi) in Ev. destruct (Z.eqb_spec (zn (-1) pv i) (-1)) as [E1|E1]; [|discriminate].
      destruct (r_pred _ _ _ _ _ _ _ _ R i Ri') as [(_ & [->|X])|(_ & B & _)]; [left; apply (name_fun v s si Hi Hsi)|right; apply (NR v i Hi X)|]. exfalso. assert (B' := proj1 (r_set _ _ _ _ _ _ _ _ R _ B)). lia.
    - intros v u Ev. assert (Hv := KEY _ _ _ _ Ev). destruct (id_of v Hv) as (i & _ & Hi & Ri'). rewrite (GP v i Hi) in Ev. destruct (Z.eqb_spec (zn (-1) pv i) (-1)) as [E1|E1]; [discriminate|]. injection Ev as Ev.
      destruct (PR i Ri' E1) as (y & Hy & Ey). rewrite Ey in Ev. subst y. destruct (r_pred _ _ _ _ _ _ _ _ R i Ri') as [(X & _)|(N & B & _ & w & dp & X1 & X2 & X3)]; [contradiction|].
      split; [intros ->; apply N; apply (id_fun s); assumption|]. exists w, dp. split; [apply (adj_edge _ (HO _) adj HA u (zn (-1) pv i) v i w Hy Hi); exact X1|]. split; [apply (LC u _ dp Hy X2)|apply (LC v i (dp + w) Hi X3)].
    - intros v Hv. apply reach_cost in Hv as (n & d & Hv). destruct (cwalk_iw _ (HO _) adj HA s si Hsi n d v Hv) as (i & Hi & W). destruct (out_bound V adj si HW Ri S dv pv R i d W) as (d' & Ed & _).
      assert (C := out_chain V adj si S dv pv R i d' (id_range v i Hi) Ed). clear n d Hv W d' Ed. revert v Hi. induction C as [|i N C IH]; intros v Hi; [rewrite (name_fun v s si Hi Hsi); constructor|].
      destruct (PR i (id_range v i Hi) N) as (y & Hy & Ey). apply leads_step with (u := y); [|apply IH; exact Hy]. rewrite (GP v i Hi). destruct (Z.eqb_spec (zn (-1) pv i) (-1)); [contradiction|]. rewrite Ey. reflexivity.
  Qed.
End N.
