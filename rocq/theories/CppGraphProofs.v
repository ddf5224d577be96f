(** Refinement proofs for the C++ AdjacencyListGraph (C107). *)
From Coq Require Import Strings.String Strings.Ascii.
From Verif Require Import Base DsfModel GraphModel GraphSpec GraphDict GraphProofs CppModel CppGraphModel CppGraphSpec.
Import List.

(** ** the abstract digraph *)
Record cok (G : dg) : Prop := {
  co_v : NoDup (fst G); co_p : Forall plain (fst G); co_e : NoDup (dg_edges G);
  co_in : forall u v, is_edge G u v -> In u (fst G) /\ In v (fst G) }.
Lemma cdg_step_ok G o : cok G -> Forall plain (op_names o) -> cok (cdg_step G o).
Proof.
  destruct G as [V E]. intros [H1 H2 H3 H4] HO. unfold dg_edges, is_edge in *. destruct o as [n|n|u v c|u v]; cbn [cdg_step dg_step op_names fst snd] in *.
  - destruct (mem_spec n V) as [Hn|Hn]; [constructor; assumption|]. constructor; simpl; [|..|exact H3|].
    + apply (Permutation_NoDup (l := n :: V)); [apply Permutation_cons_append|constructor; assumption].
    + apply Forall_app. split; [exact H2|exact HO].
    + intros u v H. destruct (H4 u v H) as [A B]. split; apply in_or_app; left; assumption.
  - constructor; simpl.
    + apply NoDup_filter. exact H1.
    + apply Forall_forall. intros x Hx. apply filter_In in Hx as [Hx _]. rewrite Forall_forall in H2. auto.
    + apply map_fst_filter. exact H3.
    + intros u v H. assert (HE := in_edges_filter _ _ _ _ H). destruct (H4 u v HE) as [A B].
      unfold is_edge, dg_edges in H. simpl in H. apply in_map_iff in H as (e & He & HI). apply filter_In in HI as [_ HI]. rewrite He in HI. simpl in HI.
      apply negb_true_iff, orb_false_iff in HI as [X Y]. split; apply filter_In; split; auto; [rewrite X|rewrite Y]; reflexivity.
  - destruct (mem_spec u V) as [Hu|]; simpl; [|constructor; assumption]. destruct (mem_spec v V) as [Hv|]; simpl; [|constructor; assumption]. destruct (storable c); [|constructor; assumption].
    rewrite existsb_edge. destruct (mem_spec v (outs E u)) as [He|He].
    + assert (EQ : map fst (map (fun e => if same_edge u v e then (u, v, c) else e) E) = map fst E).
      { rewrite map_map. apply map_ext. intros e. destruct (same_edge_spec u v e); simpl; congruence. }
      constructor; unfold dg_edges, is_edge; simpl; [exact H1|exact H2|rewrite EQ; exact H3|]. intros a b. unfold dg_edges. simpl. rewrite EQ. apply H4.
    + constructor; unfold dg_edges, is_edge; simpl; [exact H1|exact H2| |].
      * rewrite map_app. apply (Permutation_NoDup (l := (u, v) :: map fst E)); [apply Permutation_cons_append|]. constructor; [|exact H3].
        intros H. apply He. apply outs_In. exact H.
      * intros a b. unfold dg_edges. simpl. rewrite map_app. intros H. apply in_app_or in H as [H|[[= <- <-]|[]]]; [apply H4; exact H|tauto].
  - constructor; unfold dg_edges, is_edge; simpl; [exact H1|exact H2|apply map_fst_filter; exact H3|].
    intros a b H. apply H4. eapply in_edges_filter. exact H.
Qed.

(** ** the state that goes with a digraph: [P] pairs the names with their ids *)
Definition swap {A B} (x : A * B) : B * A := (snd x, fst x).
Definition ent (e : cedge) : string * cedge := (ekey (fst (fst e)) (snd (fst e)), e).
Definition st (P : list (string * Z)) (E : list cedge) (next : Z) : cg :=
  mkcg (map fst P) P (map swap P) (map (fun x => (x, outs E x)) (map fst P)) (map ent E) next.
Record ids_ok (P : list (string * Z)) (next : Z) : Prop := { io_n : NoDup (map snd P); io_lt : Forall (fun x => 0 <= snd x < next) P; io_next : 0 <= next }.
Definition crep (g : cg) (G : dg) : Prop := exists P next, map fst P = fst G /\ ids_ok P next /\ g = st P (snd G) next.

(** keys *)
Lemma key_src_ekey u v : plain u -> key_src (ekey u v) = u.
Proof. unfold plain, key_src, ekey. induction u as [|c u IH]; intros H; [reflexivity|]. simpl in *. apply andb_true_iff in H as [A B]. apply negb_true_iff in A. rewrite A, (IH B). reflexivity. Qed.
Lemma key_dst_ekey u v : plain u -> key_dst (ekey u v) = v.
Proof.
  unfold plain, key_dst. intros H. assert (X : after_us (ekey u v) = Some v); [|rewrite X; reflexivity]. unfold ekey. induction u as [|c u IH]; [reflexivity|]. simpl in *. apply andb_true_iff in H as [A B]. apply negb_true_iff in A. rewrite A. apply IH. exact B.
Qed.
Lemma iget_In {V} (t : list (Z * V)) k v : NoDup (map fst t) -> In (k, v) t -> idget t k = Some v.
Proof.
  induction t as [|[a w] t IH]; simpl; intros HN HI; [destruct HI|]. inversion HN; subst. destruct HI as [[= -> ->]|HI]; [rewrite Z.eqb_refl; reflexivity|].
  destruct (Z.eqb_spec k a) as [->|]; [|auto]. exfalso. apply H1. apply (in_map fst) in HI. exact HI.
Qed.
Lemma iget_some {V} (t : list (Z * V)) k v : idget t k = Some v -> In (k, v) t.
Proof. induction t as [|[a w] t IH]; simpl; [discriminate|]. destruct (Z.eqb_spec k a) as [->|]; [intros [= ->]; left; reflexivity|right; auto]. Qed.
Lemma iset_new {V} (t : list (Z * V)) k v : ~ In k (map fst t) -> idset t k v = t ++ [(k, v)].
Proof. induction t as [|[a w] t IH]; intros H; [reflexivity|]. simpl in *. destruct (Z.eqb_spec k a) as [->|Hk]; [tauto|]. rewrite IH by tauto. reflexivity. Qed.
Lemma map_fst_swap {A B} (P : list (A * B)) : map fst (map swap P) = map snd P.
Proof. rewrite map_map. reflexivity. Qed.
Lemma node_of P next x i : ids_ok P next -> In (x, i) P -> idget (map swap P) i = Some x.
Proof. intros [H _ _] HI. apply iget_In; [rewrite map_fst_swap; exact H|]. apply (in_map swap) in HI. exact HI. Qed.
Lemma adj_get V E x : sdget (map (fun x => (x, outs E x)) V) x = if mem x V then Some (outs E x) else None.
Proof.
  induction V as [|a V IH]; [reflexivity|]. cbn [map dget mem existsb]. fold (mem x V). destruct (SE x a) as [->|]; [reflexivity|]. exact IH.
Qed.
Lemma st_lookup P E next x : ids_ok P next -> In x (map fst P) ->
  exists i, sdget (cg_n2i (st P E next)) x = Some i /\ cg_node (st P E next) i = Ret x /\ cg_adjacent (st P E next) x = Ret (outs E x).
Proof.
  intros H HI. destruct (sget_some P x HI) as [i Ei]. exists i. split; [exact Ei|]. unfold cg_node, cg_adjacent. cbn [st cg_i2n cg_adj]. rewrite (node_of P next x i H (sget_In _ _ _ Ei)). split; [reflexivity|].
  rewrite adj_get. apply mem_true in HI. rewrite HI. reflexivity.
Qed.

Lemma outs_none E n : (forall v, ~ In (n, v) (map fst E)) -> outs E n = [].
Proof. intros H. destruct (outs E n) as [|y l] eqn:X; [reflexivity|]. exfalso. apply (H y). apply outs_In. rewrite X. left. reflexivity. Qed.
Lemma In_snd {A B} (x : A) (i : B) P : In (x, i) P -> In i (map snd P).
Proof. intros H. apply (in_map snd) in H. exact H. Qed.

(** ** calls *)
Lemma settle_ret {S} (g : S) m g' : m = Ret g' -> settle g m = Ret g'.
Proof. intros ->. reflexivity. Qed.
Lemma c_addV P E next n : ids_ok P next -> cok (map fst P, E) -> plain n -> ~ In n (map fst P) ->
  cg_add_vertex (st P E next) n = Ret (st (P ++ [(n, next)]) E (next + 1)) /\ ids_ok (P ++ [(n, next)]) (next + 1).
Proof.
  intros [A B C] OK Hp Hn. unfold cg_add_vertex, cg_has. cbn [st cg_n2i cg_nodes cg_i2n cg_adj cg_edges cg_next]. rewrite (proj2 (mem_false n _) Hn).
  assert (NX : ~ In next (map snd P)). { intros X. apply in_map_iff in X as ([x i] & <- & HI). rewrite Forall_forall in B. apply B in HI. simpl in HI. lia. }
  split.
  - f_equal. unfold st. rewrite !map_app. rewrite (sset_new P n next Hn). rewrite iset_new by (rewrite map_fst_swap; exact NX). rewrite sset_new.
    + cbn [map fst]. rewrite (outs_none E n); [reflexivity|]. intros v X. apply (co_in _ OK) in X. tauto.
    + rewrite map_map. cbn [fst]. rewrite map_id. exact Hn.
  - constructor; [|apply Forall_app; split; [|repeat constructor; cbn [snd]; lia]|lia].
    + rewrite map_app. apply (Permutation_NoDup (l := next :: map snd P)); [apply Permutation_cons_append|constructor; assumption].
    + eapply Forall_impl; [|exact B]. intros [x i] X. cbn [snd] in *. lia.
Qed.
Lemma plain_in G x : cok G -> In x (fst G) -> plain x.
Proof. intros OK H. pose proof (co_p _ OK) as F. rewrite Forall_forall in F. auto. Qed.
Lemma ekey_eqb u v a b : plain u -> plain a -> String.eqb (ekey u v) (ekey a b) = String.eqb u a && String.eqb v b.
Proof.
  intros Hu Ha. destruct (SE (ekey u v) (ekey a b)) as [E|N].
  - apply ekey_inj_clean in E as [-> ->]; [|exact Hu|exact Ha]. rewrite !String.eqb_refl. reflexivity.
  - destruct (SE u a) as [->|]; [|reflexivity]. destruct (SE v b) as [->|]; [congruence|reflexivity].
Qed.
Lemma ent_get E u v : plain u -> (forall a b, In (a, b) (map fst E) -> plain a) -> NoDup (map fst E) ->
  forall c, sdget (map ent E) (ekey u v) = Some (u, v, c) <-> In (u, v, c) E.
Proof.
  intros Hu. induction E as [|[[a b] d] E IH]; intros HP HN c; [split; [discriminate|intros []]|]. cbn [map dget ent fst snd]. inversion HN; subst.
  assert (Ha : plain a) by (apply (HP a b); left; reflexivity). rewrite (ekey_eqb u v a b Hu Ha). assert (HP' : forall a b, In (a, b) (map fst E) -> plain a) by (intros x y X; apply (HP x y); right; exact X). specialize (IH HP' H2 c).
  destruct (SE u a) as [->|Hx]; [destruct (SE v b) as [->|Hy]|]; cbn [andb].
  - split; [intros [= <-]; left; reflexivity|]. intros [[= <-]|X]; [reflexivity|]. exfalso. apply H1. apply (in_map fst) in X. exact X.
  - rewrite IH. split; [right; assumption|]. intros [X|X]; [congruence|exact X].
  - rewrite IH. split; [right; assumption|]. intros [X|X]; [congruence|exact X].
Qed.
Lemma ent_get_shape E u v e : plain u -> (forall a b, In (a, b) (map fst E) -> plain a) -> sdget (map ent E) (ekey u v) = Some e -> fst e = (u, v).
Proof.
  intros Hu. induction E as [|[[a b] d] E IH]; intros HP; [discriminate|]. cbn [map dget ent fst snd].
  assert (Ha : plain a) by (apply (HP a b); left; reflexivity). rewrite (ekey_eqb u v a b Hu Ha). destruct (SE u a) as [->|Hx]; [destruct (SE v b) as [->|Hy]|]; cbn [andb].
  - intros [= <-]. reflexivity.
  - apply IH. intros x y X. apply (HP x y). right. exact X.
  - apply IH. intros x y X. apply (HP x y). right. exact X.
Qed.
Lemma ent_set E u v c : plain u -> (forall a b, In (a, b) (map fst E) -> plain a) -> NoDup (map fst E) ->
  sdset (map ent E) (ekey u v) (u, v, c) =
  map ent (if existsb (same_edge u v) E then map (fun e => if same_edge u v e then (u, v, c) else e) E else E ++ [(u, v, c)]).
Proof.
  intros Hu. induction E as [|[[a b] d] E IH]; intros HP HN; [reflexivity|]. cbn [map dset ent fst snd existsb]. inversion HN; subst.
  assert (Ha : plain a) by (apply (HP a b); left; reflexivity). rewrite (ekey_eqb u v a b Hu Ha). assert (HP' : forall a b, In (a, b) (map fst E) -> plain a) by (intros x y X; apply (HP x y); right; exact X). specialize (IH HP' H2).
  change (same_edge u v (a, b, d)) with (String.eqb u a && String.eqb v b). destruct (String.eqb u a && String.eqb v b) eqn:Q; cbn [orb].
  - apply andb_true_iff in Q as [Q1 Q2]. destruct (SE u a) as [->|]; [|discriminate]. destruct (SE v b) as [->|]; [|discriminate]. cbn [map]. f_equal.
    rewrite (map_ext_in (fun e => if same_edge a b e then (a, b, c) else e) (fun e => e)); [rewrite map_id; reflexivity|]. intros e He. destruct (same_edge_spec a b e) as [X|]; [|reflexivity]. exfalso. apply H1. rewrite <- X. apply in_map. exact He.
  - rewrite IH. destruct (existsb (same_edge u v) E); reflexivity.
Qed.
Lemma ent_pop E u v : plain u -> (forall a b, In (a, b) (map fst E) -> plain a) -> dpop (map ent E) (ekey u v) = map ent (filter (fun e => negb (same_edge u v e)) E).
Proof.
  intros Hu. unfold dpop. induction E as [|[[a b] d] E IH]; intros HP; [reflexivity|]. cbn [map filter ent fst snd]. assert (Ha : plain a) by (apply (HP a b); left; reflexivity). rewrite (ekey_eqb u v a b Hu Ha).
  change (same_edge u v (a, b, d)) with (String.eqb u a && String.eqb v b). assert (HP' : forall a b, In (a, b) (map fst E) -> plain a) by (intros x y X; apply (HP x y); right; exact X). specialize (IH HP').
  destruct (String.eqb u a && String.eqb v b); cbn [negb map]; rewrite IH; reflexivity.
Qed.
Lemma adj_set V E E' u l : NoDup V -> In u V -> outs E' u = l -> (forall x, x <> u -> outs E' x = outs E x) ->
  sdset (map (fun x => (x, outs E x)) V) u l = map (fun x => (x, outs E' x)) V.
Proof.
  intros HN HI Hu Ho. induction V as [|a V IH]; [destruct HI|]. inversion HN; subst. cbn [map dset]. destruct (SE u a) as [->|Hx].
  - f_equal. apply map_ext_in. intros x Hx. rewrite Ho; [reflexivity|]. intros ->. contradiction.
  - destruct HI as [->|HI]; [congruence|]. rewrite IH by assumption. rewrite Ho by congruence. reflexivity.
Qed.
Lemma eplain V E : cok (V, E) -> forall a b, In (a, b) (map fst E) -> plain a.
Proof. intros OK a b H. apply (plain_in _ a OK). apply (co_in _ OK a b H). Qed.
Lemma outs_addE E u v c x : outs (if existsb (same_edge u v) E then map (fun e => if same_edge u v e then (u, v, c) else e) E else E ++ [(u, v, c)]) x =
  if String.eqb x u then adj_insert (outs E x) v else outs E x.
Proof.
  unfold adj_insert. rewrite existsb_edge. destruct (mem_spec v (outs E u)) as [Hm|Hm].
  - rewrite outs_map.
    + destruct (SE x u) as [->|]; [|reflexivity]. apply mem_true in Hm. rewrite Hm. reflexivity.
    + intros e He. destruct (same_edge_spec u v e); cbn [fst]; congruence.
  - rewrite outs_app. unfold outs at 2. cbn [filter fst snd]. destruct (SE x u) as [->|]; cbn [map]; [|apply app_nil_r]. apply mem_false in Hm. rewrite Hm. reflexivity.
Qed.
Lemma graph_edge_ok u v c : storable c = true -> graph_edge u v c = Ret (u, v, c).
Proof. unfold graph_edge, storable. destruct c as [z|]; [|reflexivity]. intros H. apply andb_true_iff in H as [A B]. destruct (z <? - 2 ^ 63) eqn:X; [lia|]. destruct (2 ^ 63 <=? z) eqn:Y; [lia|]. reflexivity. Qed.
Lemma graph_edge_big u v c : storable c = false -> graph_edge u v c = Raise SystemError.
Proof. unfold graph_edge, storable. destruct c as [z|]; [|discriminate]. intros H. destruct (z <? - 2 ^ 63) eqn:X; [reflexivity|]. destruct (2 ^ 63 <=? z) eqn:Y; [reflexivity|]. lia. Qed.
Lemma n2i_none P E next x : ~ In x (map fst P) -> sdget (cg_n2i (st P E next)) x = None.
Proof. intros H. apply sget_none. exact H. Qed.

Lemma has_in P E next x : In x (map fst P) -> cg_has (st P E next) x = true.
Proof. intros H. apply mem_true. exact H. Qed.
Lemma has_out P E next x : ~ In x (map fst P) -> cg_has (st P E next) x = false.
Proof. intros H. apply mem_false. exact H. Qed.
Lemma c_addE P E next u v c : ids_ok P next -> cok (map fst P, E) -> In u (map fst P) -> In v (map fst P) -> storable c = true ->
  cg_add_edge (st P E next) u v c = Ret (st P (if existsb (same_edge u v) E then map (fun e => if same_edge u v e then (u, v, c) else e) E else E ++ [(u, v, c)]) next).
Proof.
  intros IO OK Hu Hv Hc. unfold cg_add_edge. destruct (st_lookup P E next u IO Hu) as (i & Ei & _ & Ea). rewrite (has_in P E next u Hu), (has_in P E next v Hv), (graph_edge_ok u v c Hc), Ea. cbn [andb bind].
  f_equal. unfold st. cbn [cg_nodes cg_n2i cg_i2n cg_adj cg_edges cg_next]. f_equal.
  - apply adj_set; [apply (co_v _ OK)|exact Hu| |]; [rewrite outs_addE, String.eqb_refl; reflexivity|]. intros x Hx. rewrite outs_addE. destruct (SE x u); congruence.
  - apply ent_set; [apply (plain_in _ u OK); exact Hu|apply (eplain _ _ OK)|apply (co_e _ OK)].
Qed.
Lemma c_remE P E next u v : ids_ok P next -> cok (map fst P, E) -> In u (map fst P) -> In v (map fst P) ->
  cg_remove_edge (st P E next) u v = Ret (st P (filter (fun e => negb (same_edge u v e)) E) next).
Proof.
  intros IO OK Hu Hv. unfold cg_remove_edge. destruct (st_lookup P E next u IO Hu) as (i & Ei & _ & Ea). rewrite (has_in P E next u Hu), (has_in P E next v Hv), Ea. cbn [andb bind].
  f_equal. unfold st. cbn [cg_nodes cg_n2i cg_i2n cg_adj cg_edges cg_next]. f_equal.
  - apply adj_set; [apply (co_v _ OK)|exact Hu| |]; [rewrite outs_rem_edge, String.eqb_refl; reflexivity|]. intros x Hx. rewrite outs_rem_edge. destruct (SE x u); congruence.
  - apply ent_pop; [apply (plain_in _ u OK); exact Hu|apply (eplain _ _ OK)].
Qed.
Lemma ipop_swap P n i : NoDup (map fst P) -> NoDup (map snd P) -> In (n, i) P -> ipop (map swap P) i = map swap (dpop P n).
Proof.
  intros H1 H2 HI. unfold ipop, dpop. induction P as [|[x j] P IH]; [destruct HI|]. cbn [map filter swap fst snd]. inversion H1; subst. inversion H2; subst. cbn [fst snd] in *. destruct HI as [[= -> ->]|HI].
  - rewrite Z.eqb_refl, String.eqb_refl. cbn [negb].
    assert (F1 : filter (fun x => negb (i =? fst x)) (map swap P) = map swap P). { clear - H5. induction P as [|[x j] P IH]; [reflexivity|]. cbn [map filter swap fst snd]. cbn [map snd] in H5. destruct (Z.eqb_spec i j) as [->|]; [exfalso; apply H5; left; reflexivity|]. cbn [negb]. f_equal. apply IH. intros X. apply H5. right. exact X. }
    assert (F2 : filter (fun x => negb (String.eqb n (fst x))) P = P). { clear - H3. induction P as [|[x j] P IH]; [reflexivity|]. cbn [map filter swap fst snd]. cbn [map fst] in H3. destruct (SE n x) as [->|]; [exfalso; apply H3; left; reflexivity|]. cbn [negb]. f_equal. apply IH. intros X. apply H3. right. exact X. }
    rewrite F1, F2. reflexivity.
  - destruct (Z.eqb_spec i j) as [->|]; [exfalso; apply H5; apply (In_snd n); exact HI|]. destruct (SE n x) as [->|]; [exfalso; apply H3; apply (in_map fst) in HI; exact HI|]. cbn [negb map swap fst snd]. f_equal. apply IH; assumption.
Qed.
Lemma c_remV P E next n : ids_ok P next -> cok (map fst P, E) -> In n (map fst P) ->
  cg_remove_vertex (st P E next) n = Ret (st (dpop P n) (filter (fun e => negb (String.eqb n (fst (fst e)) || String.eqb n (snd (fst e)))) E) next) /\ ids_ok (dpop P n) next.
Proof.
  intros IO OK Hn. destruct IO as [A B C]. assert (IO : ids_ok P next) by (constructor; assumption). unfold cg_remove_vertex. destruct (st_lookup P E next n IO Hn) as (i & Ei & En & _). rewrite Ei, En. cbn [bind]. split.
  - f_equal. unfold st. cbn [cg_nodes cg_n2i cg_i2n cg_adj cg_edges cg_next]. rewrite pop_keys. f_equal.
    + apply ipop_swap; [apply (co_v _ OK)|exact A|]. apply sget_In. exact Ei.
    + generalize (map fst P). intros V. unfold dpop. induction V as [|x V IH]; [reflexivity|]. cbn [map filter fst snd]. destruct (SE n x) as [->|Hx]; cbn [negb map filter fst snd]; [exact IH|].
      rewrite (outs_rem_vertex E n x) by congruence. rewrite IH. reflexivity.
    + assert (HP := eplain _ _ OK). cbn [snd] in HP. clear - HP. induction E as [|[[a b] d] E IH]; [reflexivity|]. cbn [map filter ent fst snd].
      assert (Ha : plain a) by (apply (HP a b); left; reflexivity). rewrite (key_src_ekey a b Ha), (key_dst_ekey a b Ha).
      assert (HP' : forall a b, In (a, b) (map fst E) -> plain a) by (intros x y X; apply (HP x y); right; exact X). destruct (negb (String.eqb n a || String.eqb n b)); cbn [map]; rewrite (IH HP'); reflexivity.
  - constructor; [| |exact C].
    + unfold dpop. clear - A. induction P as [|x P IH]; [constructor|]. cbn [map filter] in *. inversion A; subst. destruct (negb (String.eqb n (fst x))); cbn [map]; [|auto]. constructor; [|auto]. intros X. apply H1.
      apply in_map_iff in X as (y & <- & Y). apply filter_In in Y as [Y _]. apply in_map. exact Y.
    + apply Forall_forall. intros x Hx. apply filter_In in Hx as [Hx _]. rewrite Forall_forall in B. auto.
Qed.

Lemma forallb_filter_id {X} (f : X -> bool) l : forallb f l = true -> filter f l = l.
Proof. induction l as [|x l IH]; [reflexivity|]. cbn [forallb filter]. intros H. apply andb_true_iff in H as [-> H]. f_equal. auto. Qed.
Lemma c_step g G o : crep g G -> cok G -> Forall plain (op_names o) -> exists g', settle g (cg_call g o) = Ret g' /\ crep g' (cdg_step G o).
Proof.
  destruct G as [V E]. intros (P & next & HV & IO & ->) OK HO. cbn [fst snd] in *. subst V. destruct o as [n|n|u v c|u v]; cbn [cg_call cdg_step dg_step op_names fst snd] in *.
  - apply Forall_inv in HO. destruct (mem_spec n (map fst P)) as [Hn|Hn].
    + eexists. split; [|exists P, next; auto]. unfold cg_add_vertex. rewrite (has_in P E next n Hn). reflexivity.
    + destruct (c_addV P E next n IO OK HO Hn) as [X Y]. eexists. split; [apply settle_ret; exact X|]. exists (P ++ [(n, next)]), (next + 1). split; [rewrite map_app; reflexivity|]. split; [exact Y|]. reflexivity.
  - destruct (mem_spec n (map fst P)) as [Hn|Hn].
    + destruct (c_remV P E next n IO OK Hn) as [X Y]. eexists. split; [apply settle_ret; exact X|]. exists (dpop P n), next. cbn [fst snd]. split; [apply pop_keys|]. split; [exact Y|reflexivity].
    + exists (st P E next). split; [unfold cg_remove_vertex; rewrite (n2i_none P E next n Hn); reflexivity|]. exists P, next. cbn [fst snd]. split; [|split; [exact IO|]].
      * symmetry. apply filter_id. intros x Hx. destruct (SE n x) as [->|]; [contradiction|reflexivity].
      * f_equal. symmetry. apply forallb_filter_id. apply forallb_forall. intros [[a b] d] He. assert (X : In a (map fst P) /\ In b (map fst P)) by (apply (co_in _ OK a b); apply (in_map fst) in He; exact He). cbn [fst snd].
        destruct (SE n a) as [->|]; [tauto|]. destruct (SE n b) as [->|]; [tauto|]. reflexivity.
  - destruct (mem_spec u (map fst P)) as [Hu|Hu]; cbn [andb].
    2: { eexists. split; [|exists P, next; cbn [fst snd]; auto]. unfold cg_add_edge. rewrite (has_out P E next u Hu). reflexivity. }
    destruct (mem_spec v (map fst P)) as [Hv|Hv]; cbn [andb].
    2: { eexists. split; [|exists P, next; cbn [fst snd]; auto]. unfold cg_add_edge. rewrite (has_out P E next v Hv), andb_false_r. reflexivity. }
    destruct (storable c) eqn:Ec.
    2: { eexists. split; [|exists P, next; cbn [fst snd]; auto]. unfold cg_add_edge. rewrite (has_in P E next u Hu), (has_in P E next v Hv), (graph_edge_big u v c Ec). reflexivity. }
    eexists. split; [apply settle_ret; apply c_addE; assumption|]. exists P, next. destruct (existsb (same_edge u v) E); cbn [fst snd]; auto.
  - destruct (mem_spec u (map fst P)) as [Hu|Hu]; [destruct (mem_spec v (map fst P)) as [Hv|Hv]|].
    + eexists. split; [apply settle_ret; apply c_remE; assumption|]. exists P, next. cbn [fst snd]. auto.
    + exists (st P E next). split; [unfold cg_remove_edge; rewrite (has_out P E next v Hv), andb_false_r; reflexivity|]. exists P, next. cbn [fst snd]. split; [reflexivity|]. split; [exact IO|]. f_equal.
      symmetry. apply forallb_filter_id. apply forallb_forall. intros e He. destruct (same_edge_spec u v e) as [X|]; [|reflexivity]. exfalso. apply Hv. apply (co_in _ OK u v). unfold is_edge, dg_edges. cbn [snd]. rewrite <- X. apply in_map. exact He.
    + exists (st P E next). split; [unfold cg_remove_edge; rewrite (has_out P E next u Hu); reflexivity|]. exists P, next. cbn [fst snd]. split; [reflexivity|]. split; [exact IO|]. f_equal.
      symmetry. apply forallb_filter_id. apply forallb_forall. intros e He. destruct (same_edge_spec u v e) as [X|]; [|reflexivity]. exfalso. apply Hu. apply (co_in _ OK u v). unfold is_edge, dg_edges. cbn [snd]. rewrite <- X. apply in_map. exact He.
Qed.

(** the same for the ids: without remove_vertex they are 0, 1, 2, ... *)
Definition contiguous (g : cg) : Prop := map snd (cg_n2i g) = zrange 0 (len (cg_nodes g)) /\ cg_next g = len (cg_nodes g).
Lemma c_new_go names : forall P next, ids_ok P next -> cok (map fst P, []) -> NoDup (map fst P ++ names) -> Forall plain names -> map snd P = zrange 0 next -> len P = next ->
  exists g, forM names (fun n g => cg_add_vertex g n) (st P [] next) = Ret g /\ crep g (map fst P ++ names, []) /\ contiguous g.
Proof.
  induction names as [|n names IH]; intros P next IO OK HN HP HZ HL.
  - exists (st P [] next). split; [reflexivity|]. split; [exists P, next; cbn [fst snd]; rewrite app_nil_r; auto|]. unfold contiguous, st, len in *. cbn [cg_n2i cg_nodes cg_next]. rewrite map_length. subst next. auto.
  - inversion HP; subst. assert (Hn : ~ In n (map fst P)). { apply NoDup_remove_2 in HN. intros X. apply HN. apply in_or_app. left. exact X. }
    destruct (c_addV P [] (len P) n IO OK H1 Hn) as [X Y]. cbn [forM]. change (cg_add_vertex (st P [] (len P)) n) with (cg_add_vertex (st P (@nil cedge) (len P)) n) in X.
    rewrite X. cbn [bind].
    destruct (IH (P ++ [(n, len P)]) (len P + 1) Y) as (g & E & R & CT).
    + apply (cdg_step_ok _ (GAddV n)) in OK; [|constructor; [exact H1|constructor]]. cbn [cdg_step dg_step] in OK. apply mem_false in Hn. rewrite Hn in OK. rewrite map_app. exact OK.
    + rewrite map_app. cbn [map fst]. rewrite <- app_assoc. exact HN.
    + exact H2.
    + rewrite map_app, HZ. cbn [map snd]. rewrite (zrange_snoc 0 (len P + 1)) by (unfold len; lia). rewrite Z.add_simpl_r. reflexivity.
    + unfold len in *. rewrite app_length. cbn [length]. lia.
    + exists g. split; [exact E|]. split; [|exact CT]. rewrite map_app in R. cbn [map fst] in R. rewrite <- app_assoc in R. exact R.
Qed.
Lemma c_new names : NoDup names -> Forall plain names -> exists g, cg_new names = Ret g /\ crep g (names, []) /\ contiguous g.
Proof.
  intros H1 H2. destruct (c_new_go names [] 0) as (g & E & R); [constructor; [constructor|constructor|lia]|constructor; cbn; [constructor|constructor|constructor|intros u v []]|exact H1|exact H2|reflexivity|reflexivity|].
  exists g. split; [exact E|]. exact R.
Qed.
Lemma c_steps ops : forall g G, crep g G -> cok G -> Forall (fun o => Forall plain (op_names o)) ops ->
  exists g', forM ops (fun o g => settle g (cg_call g o)) g = Ret g' /\ crep g' (fold_left cdg_step ops G) /\ cok (fold_left cdg_step ops G).
Proof.
  induction ops as [|o ops IH]; intros g G R OK H; [exists g; split; [reflexivity|split; assumption]|]. inversion H; subst. destruct (c_step g G o R OK H2) as (g1 & E1 & R1). cbn [forM fold_left]. rewrite E1. cbn [bind].
  apply IH; [exact R1| |exact H3]. apply cdg_step_ok; assumption.
Qed.
Lemma c_run names ops : plain_history names ops -> exists g, cg_run names ops = Ret g /\ crep g (cdg_run names ops) /\ cok (cdg_run names ops).
Proof.
  intros (H1 & H2 & H3). destruct (c_new names H1 H2) as (g0 & E0 & R0 & _). unfold cg_run. rewrite E0. cbn [bind]. apply c_steps; [exact R0| |exact H3].
  constructor; cbn; [exact H1|exact H2|constructor|intros u v []].
Qed.
(** without remove_vertex *)
Lemma contiguous_step g G o g' : crep g G -> cok G -> Forall plain (op_names o) -> is_remove_vertex o = false -> contiguous g -> settle g (cg_call g o) = Ret g' -> contiguous g'.
Proof.
  destruct G as [V E]. intros (P & next & HV & IO & ->) OK HO NR CT. cbn [fst snd] in *. subst V. destruct o as [n|n|u v c|u v]; try discriminate; cbn [cg_call op_names] in *.
  - apply Forall_inv in HO. destruct (mem_spec n (map fst P)) as [Hn|Hn].
    + unfold cg_add_vertex. rewrite (has_in P E next n Hn). cbn [settle]. intros [= <-]. exact CT.
    + destruct (c_addV P E next n IO OK HO Hn) as [X _]. rewrite X. cbn [settle]. intros [= <-]. destruct CT as [A B]. unfold contiguous, st in *. cbn [cg_n2i cg_nodes cg_next] in *. rewrite !map_app. unfold len in *. rewrite app_length. cbn [map fst snd length].
      rewrite Nat2Z.inj_add. change (Z.of_nat 1) with 1. split; [|lia]. rewrite zrange_snoc by lia. rewrite Z.add_simpl_r, A, B. reflexivity.
  - unfold cg_add_edge. destruct (_ && _); try (cbn [settle]; intros [= <-]; exact CT). destruct (graph_edge u v c); cbn [bind settle]; try (intros [= <-]; exact CT).
    destruct (cg_adjacent _ u); cbn [bind settle]; intros [= <-]; exact CT.
  - unfold cg_remove_edge. destruct (_ && _); try (cbn [settle]; intros [= <-]; exact CT).
    destruct (cg_adjacent _ u); cbn [bind settle]; intros [= <-]; exact CT.
Qed.
Lemma c_steps_contiguous ops : forall g G g', crep g G -> cok G -> Forall (fun o => Forall plain (op_names o)) ops -> Forall (fun o => is_remove_vertex o = false) ops -> contiguous g ->
  forM ops (fun o g => settle g (cg_call g o)) g = Ret g' -> contiguous g'.
Proof.
  induction ops as [|o ops IH]; intros g G g' R OK H HR CT EQ; [injection EQ as <-; exact CT|]. inversion H; subst. inversion HR; subst. destruct (c_step g G o R OK H2) as (g1 & E1 & R1). cbn [forM] in EQ. rewrite E1 in EQ. cbn [bind] in EQ.
  apply (IH g1 _ g' R1 (cdg_step_ok _ _ OK H2) H3 H5); [|exact EQ]. apply (contiguous_step g G o g1); assumption.
Qed.
Lemma c_run_contiguous names ops : plain_history names ops -> Forall (fun o => is_remove_vertex o = false) ops ->
  exists g, cg_run names ops = Ret g /\ crep g (cdg_run names ops) /\ cok (cdg_run names ops) /\ contiguous g.
Proof.
  intros H HR. destruct (c_run names ops H) as (g & E & R & OK). exists g. split; [exact E|]. split; [exact R|]. split; [exact OK|]. destruct H as (H1 & H2 & H3). destruct (c_new names H1 H2) as (g0 & E0 & R0 & CT). unfold cg_run in E. rewrite E0 in E. cbn [bind] in E.
  apply (c_steps_contiguous ops g0 _ g R0); [constructor; cbn; [exact H1|exact H2|constructor|intros u v []]|exact H3|exact HR|exact CT|exact E].
Qed.

(** ** what the graph answers *)
Lemma rep_adj g G u v : crep g G -> In u (fst G) -> exists b, cg_is_adjacent g u v = Ret b /\ (b = true <-> is_edge G u v).
Proof.
  intros (P & next & HV & IO & ->) Hu. rewrite <- HV in Hu. unfold cg_is_adjacent. destruct (st_lookup P (snd G) next u IO Hu) as (i & Ei & En & Ea). rewrite Ei, En. cbn [bind]. rewrite Ea. cbn [bind]. eexists. split; [reflexivity|].
  rewrite mem_true. apply outs_In.
Qed.
Lemma rep_adj_none g G u v : crep g G -> ~ In u (fst G) -> cg_is_adjacent g u v = Raise KeyError.
Proof. intros (P & next & HV & IO & ->) Hu. rewrite <- HV in Hu. unfold cg_is_adjacent. rewrite (n2i_none _ _ _ _ Hu). reflexivity. Qed.
Lemma rep_nbrs ord g G u : crep g G -> In u (fst G) -> cg_neighbors ord g u = Ret (ord u (outs (snd G) u)).
Proof. intros (P & next & HV & IO & ->) Hu. rewrite <- HV in Hu. unfold cg_neighbors. destruct (st_lookup P (snd G) next u IO Hu) as (i & Ei & En & Ea). rewrite Ei, En. cbn [bind]. rewrite Ea. reflexivity. Qed.
Lemma rep_nbrs_none ord g G u : crep g G -> ~ In u (fst G) -> cg_neighbors ord g u = Raise KeyError.
Proof. intros (P & next & HV & IO & ->) Hu. rewrite <- HV in Hu. unfold cg_neighbors. rewrite (n2i_none _ _ _ _ Hu). reflexivity. Qed.
Lemma rep_edge g G u v : crep g G -> cok G -> plain u -> match cg_get_edge g u v with Some e => exists c, e = (u, v, c) /\ In (u, v, c) (snd G) | None => ~ is_edge G u v end.
Proof.
  intros (P & next & HV & IO & ->) OK Hu. unfold cg_get_edge. cbn [st cg_edges]. destruct G as [V E]. cbn [fst snd] in *. assert (HP := eplain _ _ OK). assert (HN := co_e _ OK). unfold dg_edges in HN. cbn [snd] in HN.
  destruct (sdget (map ent E) (ekey u v)) as [e|] eqn:X.
  - assert (Y := ent_get_shape E u v e Hu HP X). destruct e as [[a b] c]. injection Y as -> ->. exists c. split; [reflexivity|]. apply (ent_get E u v Hu HP HN c). exact X.
  - unfold is_edge, dg_edges. cbn [snd]. intros Y. apply in_map_iff in Y as ([[a b] c] & Z & Y). injection Z as -> ->. apply (ent_get E u v Hu HP HN c) in Y. congruence.
Qed.
Lemma c_error g G o : crep g G -> cok G -> Forall plain (op_names o) ->
  match call_error G o with Some e => cg_call g o = Raise e | None => exists g', cg_call g o = Ret g' end.
Proof.
  destruct G as [V E]. intros (P & next & HV & IO & ->) OK HO. cbn [fst snd] in *. subst V. destruct o as [n|n|u v c|u v]; cbn [cg_call call_error op_names fst snd] in *.
  - apply Forall_inv in HO. destruct (mem_spec n (map fst P)) as [Hn|Hn]; [unfold cg_add_vertex; rewrite (has_in P E next n Hn); reflexivity|]. destruct (c_addV P E next n IO OK HO Hn) as [X _]. rewrite X. eauto.
  - destruct (mem_spec n (map fst P)) as [Hn|Hn]; [destruct (c_remV P E next n IO OK Hn) as [X _]; rewrite X; eauto|]. unfold cg_remove_vertex. rewrite (n2i_none P E next n Hn). reflexivity.
  - destruct (mem_spec u (map fst P)) as [Hu|Hu]; cbn [andb]; [|unfold cg_add_edge; rewrite (has_out P E next u Hu); reflexivity].
    destruct (mem_spec v (map fst P)) as [Hv|Hv]; cbn [andb]; [|unfold cg_add_edge; rewrite (has_out P E next v Hv), andb_false_r; reflexivity].
    destruct (storable c) eqn:Ec; [eexists; apply c_addE; assumption|]. unfold cg_add_edge. rewrite (has_in P E next u Hu), (has_in P E next v Hv), (graph_edge_big u v c Ec). reflexivity.
  - destruct (mem_spec u (map fst P)) as [Hu|Hu]; cbn [andb]; [|unfold cg_remove_edge; rewrite (has_out P E next u Hu); reflexivity].
    destruct (mem_spec v (map fst P)) as [Hv|Hv]; cbn [andb]; [|unfold cg_remove_edge; rewrite (has_out P E next v Hv), andb_false_r; reflexivity]. eexists. apply c_remE; assumption.
Qed.
