(** Prim's algorithm of the C++ backend (C110). *)
From Coq Require Import Strings.String Strings.Ascii Relations.
From Verif Require Import Base DsfModel DsfSpec GraphModel GraphSpec GraphDict GraphProofs MstSpec MstProofs KruskalProofs PrimSpec PrimProofs CppModel CppGraphModel CppGraphSpec CppGraphProofs.
Import List.

Definition cboth (T : pedges) : list (string * cedge) := flat_map (fun e => let '(u, v, c) := e in [(ekey u v, (u, v, Some c)); (ekey v u, (v, u, Some c))]) T.
Lemma cboth_In T k e : In (k, e) (cboth T) <-> exists u v c, (In (u, v, c) T \/ In (v, u, c) T) /\ k = ekey u v /\ e = (u, v, Some c).
Proof.
  unfold cboth. rewrite in_flat_map. split.
  - intros ([[u v] c] & H & [[= <- <-]|[[= <- <-]|[]]]); [exists u, v, c|exists v, u, c]; auto.
  - intros (u & v & c & [H|H] & -> & ->); [exists (u, v, c)|exists (v, u, c)]; split; auto; [left|right; left]; reflexivity.
Qed.
Lemma cboth_fresh T u v : (forall a b c, In (a, b, c) T -> plain a /\ plain b) -> plain u -> ~ linked T u v -> ~ In (ekey u v) (map fst (cboth T)).
Proof.
  intros HN Hu NL X. apply in_map_iff in X as ([k e] & E & X). cbn [fst] in E. subst k. apply cboth_In in X as (a & b & c & HT & E & ->).
  assert (Pa : plain a) by (destruct HT as [H|H]; apply HN in H; tauto). assert (K : String.eqb (ekey u v) (ekey a b) = true) by (rewrite E; apply String.eqb_refl). rewrite (ekey_eqb u v a b Hu Pa) in K.
  apply andb_true_iff in K as [K1 K2]. apply String.eqb_eq in K1, K2. subst a b. apply NL. destruct HT as [H|H]; [apply (linked_edge _ u v c H)|apply rst_sym, (linked_edge _ v u c H)].
Qed.
Lemma cset_both T u v c : (forall a b c, In (a, b, c) T -> plain a /\ plain b) -> plain u -> plain v -> ~ linked T u v ->
  sdset (sdset (cboth T) (ekey u v) (u, v, Some c)) (ekey v u) (v, u, Some c) = cboth (T ++ [(u, v, c)]).
Proof.
  intros HN Hu Hv NL. rewrite (sset_new (cboth T)) by (apply cboth_fresh; assumption). rewrite sset_new.
  - unfold cboth. rewrite flat_map_app, <- app_assoc. reflexivity.
  - rewrite map_app. intros X. apply in_app_or in X as [X|[X|[]]].
    + apply (cboth_fresh T v u); [exact HN|exact Hv| |exact X]. intros L. apply NL, rst_sym. exact L.
    + cbn [fst] in X. assert (K : String.eqb (ekey u v) (ekey v u) = true) by (rewrite X; apply String.eqb_refl). rewrite (ekey_eqb u v v u Hu Hv) in K. apply andb_true_iff in K as [K1 _]. apply String.eqb_eq in K1. subst v. apply NL, rst_refl.
Qed.
Lemma cboth_nodup T : forest T -> (forall a b c, In (a, b, c) T -> plain a /\ plain b) -> NoDup (map fst (cboth T)).
Proof.
  induction T as [|[[u v] c] T IH] using rev_ind; intros F HN; [constructor|].
  assert (HT : forall a b c, In (a, b, c) T -> plain a /\ plain b) by (intros a b d X; apply (HN a b d), in_or_app; left; exact X).
  assert (NL : ~ linked T u v). { assert (X := F T u v c [] eq_refl). rewrite app_nil_r in X. exact X. }
  destruct (HN u v c ltac:(apply in_or_app; right; left; reflexivity)) as [Hu Hv].
  rewrite <- cset_both by assumption. apply sset_nodup, sset_nodup. apply IH; [eapply forest_prefix; exact F|exact HT].
Qed.

Section P.
  Context (P : list (string * Z)) (E : list cedge) (next : Z) (IO : ids_ok P next) (OK : cok (map fst P, E)).
  Let G : dg := (map fst P, E).
  Context (UD : undirected G) (ord : string -> list string -> list string) (Hord : some_order ord) (s : string) (si : Z) (Hs : In (s, si) P) (C : pedges) (HC : component (priced G) s C).
  Let g := st P E next.
  Lemma gr : gr_ok G.
  Proof. constructor; [apply (co_v _ OK)|apply (co_e _ OK)|apply (co_in _ OK)]. Qed.
  Lemma pid_fun x i j : In (x, i) P -> In (x, j) P -> i = j.
  Proof. intros H1 H2. assert (N := co_v _ OK). cbn [fst] in N. apply (In_sget P) in H1, H2; [congruence|exact N..]. Qed.
  Lemma pname_fun x y i : In (x, i) P -> In (y, i) P -> x = y.
  Proof. intros H1 H2. apply (node_of P next x i IO) in H1. apply (node_of P next y i IO) in H2. congruence. Qed.
  Lemma pid_of x : In x (map fst P) -> exists i, sdget P x = Some i /\ In (x, i) P.
  Proof. intros H. destruct (st_lookup P E next x IO H) as (i & Ei & _ & _). cbn [st cg_n2i] in Ei. exists i. split; [exact Ei|apply sget_In; exact Ei]. Qed.
  Lemma pid_get x i : In (x, i) P -> sdget P x = Some i.
  Proof. intros H. apply In_sget; [apply (co_v _ OK)|exact H]. Qed.
  Lemma pnode x i : In (x, i) P -> cg_node g i = Ret x.
  Proof. intros H. unfold cg_node, g, st. cbn [cg_i2n]. rewrite (node_of P next x i IO H). reflexivity. Qed.
  Lemma padj x : In x (map fst P) -> cg_adjacent g x = Ret (outs E x).
  Proof. intros H. destruct (st_lookup P E next x IO H) as (i & _ & _ & X). exact X. Qed.
  Lemma cost_in u v c : has_cost G u v c -> In u (map fst P) /\ In v (map fst P).
  Proof. intros H. apply (gk_in _ gr u v). apply (cost_edge _ _ _ _ H). Qed.
  Lemma pedge u v c : has_cost G u v c -> sdget (cg_edges g) (ekey u v) = Some (u, v, Some c).
  Proof.
    intros H. unfold g, st. cbn [cg_edges]. assert (Pu : plain u) by (apply (plain_in _ u OK); apply (cost_in u v c H)).
    apply ent_get; [exact Pu|apply (eplain _ _ OK)|apply (co_e _ OK)|exact H].
  Qed.
  Lemma plink u v c : has_cost G u v c -> cg_link g u v = Ret g.
  Proof.
    intros H. unfold cg_link. destruct (cost_in u v c H) as [Hu Hv]. rewrite (padj u Hu). cbn [bind]. f_equal. unfold adj_insert. assert (M : mem v (outs E u) = true) by (apply mem_true, outs_In, (cost_edge _ _ _ _ H)). rewrite M.
    unfold g, st. cbn [cg_nodes cg_n2i cg_i2n cg_adj cg_edges cg_next]. f_equal. assert (X := padj u Hu). unfold cg_adjacent, g, st in X. cbn [cg_adj] in X.
    destruct (sdget (map (fun x => (x, outs E x)) (map fst P)) u) as [l|] eqn:El; [|discriminate]. injection X as ->. 
    clear - El. induction (map fst P) as [|y V IH]; cbn [map dget dset] in *; [discriminate|]. destruct (SE u y) as [->|N]; [reflexivity|]. rewrite (IH El). reflexivity.
  Qed.

  (** pushing the edges of a vertex *)
  Definition unseen (v : string) (vi : Z) (skip : Z -> bool) (l : list string) (e : etuple) : Prop :=
    exists w wi c, In w l /\ In (w, wi) P /\ skip wi = false /\ has_cost G v w c /\ e = (vi, wi, Some c).
  Lemma push_ok v vi (skip : Z -> bool) l : (forall w, In w l -> is_edge G v w) -> forall pq : list etuple,
    exists R, forM l (fun adj_name (pq : list etuple) => match sdget (cg_n2i g) adj_name with
        | Some adj_id => if skip adj_id then Ret pq else prim_push g v vi adj_name adj_id pq | None => Raise SystemError end) pq = Ret (pq ++ R) /\
      (length R <= length l)%nat /\ forall e, In e R <-> unseen v vi skip l e.
  Proof.
    induction l as [|w l IH]; intros HE pq.
    - exists []. rewrite app_nil_r. split; [reflexivity|]. split; [cbn; lia|]. intros e. split; [intros []|intros (w & wi & c & [] & _)].
    - destruct (edge_cost G UD v w (HE w ltac:(left; reflexivity))) as (c & Hc). destruct (pid_of w (proj2 (cost_in v w c Hc))) as (wi & Ew & Hw). cbn [forM]. change (cg_n2i g) with P. rewrite Ew.
      assert (HE' : forall w, In w l -> is_edge G v w) by (intros x X; apply HE; right; exact X).
      destruct (skip wi) eqn:Sk.
      + cbn [bind]. destruct (IH HE' pq) as (R & ER & LR & HR). exists R. split; [exact ER|]. split; [cbn [length]; lia|]. intros e. rewrite HR. split.
        * intros (x & xi & d & X1 & X2). exists x, xi, d. split; [right; exact X1|exact X2].
        * intros (x & xi & d & [<-|X1] & X2 & X3 & X4); [|exists x, xi, d; auto]. rewrite (pid_fun w xi wi X2 Hw) in X3. congruence.
      + unfold prim_push at 1. rewrite (pedge v w c Hc). cbn [bind]. destruct (IH HE' (pq ++ [(vi, wi, Some c)])) as (R & ER & LR & HR). exists ((vi, wi, Some c) :: R). split; [change (cg_n2i g) with P in ER; rewrite ER, <- app_assoc; reflexivity|]. split; [cbn [length]; lia|].
        intros e. cbn [In]. rewrite HR. split.
        * intros [<-|(x & xi & d & X1 & X2)]; [exists w, wi, c; split; [left; reflexivity|]; auto|exists x, xi, d; split; [right; exact X1|exact X2]].
        * intros (x & xi & d & [<-|X1] & X2 & X3 & X4 & ->); [left|right; exists x, xi, d; auto 6]. rewrite (pid_fun w xi wi X2 Hw), (gcost_fun G v w c d gr Hc X4). reflexivity.
  Qed.

  (** ** the invariant *)
  Record pinv (m : pmst) (visited : list Z) (pq : list etuple) (MV : list string) (T : pedges) : Prop := {
    p_t : tinv G s C MV T; p_s : In s MV;
    p_m : exists Q, map fst Q = MV /\ incl Q P /\ m = mkpmst MV Q (map swap Q) (cboth T);
    p_v : forall x i, In (x, i) P -> (zmem i visited = true <-> In x MV);
    p_a : forall ui vi o, In (ui, vi, o) pq -> exists u v c, In (u, ui) P /\ In (v, vi) P /\ In u MV /\ has_cost G u v c /\ o = Some c;
    p_b : forall u ui w wi c, In (u, ui) P -> In (w, wi) P -> In u MV -> ~ In w MV -> has_cost G u w c -> In (ui, wi, Some c) pq }.
  Definition pending (MV : list string) : nat := length (filter (fun e : cedge => negb (mem (fst (fst e)) MV)) E).
  Lemma pending_le MV : (pending MV <= length E)%nat.
  Proof. unfold pending. clear. induction E as [|e E0 IH]; [cbn; lia|]. cbn [filter]. destruct (negb _); cbn [length] in *; lia. Qed.
  Lemma pending_add MV v : ~ In v MV -> pending MV = (pending (MV ++ [v]) + length (outs E v))%nat.
  Proof.
    intros Hv. unfold pending, outs. clear - Hv. induction E as [|[[a b] d] E0 IH]; [reflexivity|]. cbn [filter map fst snd].
    assert (M : mem a (MV ++ [v]) = mem a MV || String.eqb v a). { destruct (mem_spec a (MV ++ [v])) as [X|X], (mem_spec a MV) as [Y|Y], (SE v a) as [->|N]; try reflexivity; exfalso; rewrite in_app_iff in X; cbn in X; intuition congruence. }
    rewrite M. destruct (SE v a) as [->|N].
    - apply mem_false in Hv as Mv. rewrite Mv. cbn [orb negb length map]. try rewrite String.eqb_refl. cbn [length map]. lia.
    - rewrite orb_false_r. destruct (mem a MV); cbn [negb length map]; try (destruct (SE a v); [congruence|]); cbn [length map]; lia.
  Qed.

  Context (pick : list etuple -> nat) (Hpick : tops pick).
  Lemma nth_split_perm {X} (l : list X) i x : nth_error l i = Some x -> Permutation l (x :: remove_nth i l) /\ length l = S (length (remove_nth i l)).
  Proof.
    intros H. unfold remove_nth. assert (L : l = firstn i l ++ x :: skipn (S i) l). { revert i H. induction l as [|y l IH]; intros [|i] H; cbn in *; try discriminate; [injection H as ->; reflexivity|]. f_equal. apply IH. exact H. }
    split; [rewrite L at 1; symmetry; apply Permutation_middle|]. rewrite L at 1. rewrite !app_length. cbn [length]. lia.
  Qed.
  Definition body : pmst * cg * list Z * list etuple -> res (ctl (pmst * cg * list Z * list etuple) (pmst * cg)) := fun '(m, g, visited, pq) =>
        match pq with
        | [] => Ret (Break (m, g))
        | _ =>
          match nth_error pq (pick pq) with
          | None => Raise SystemError
          | Some (u_id, v_id, value) =>
            let pq := remove_nth (pick pq) pq in
            if zmem v_id visited then Ret (Next (m, g, visited, pq))
            else
              let visited := v_id :: visited in
              u_name <- cg_node g u_id ;;
              v_name <- cg_node g v_id ;;
              let m := pm_add (pm_add m u_id u_name) v_id v_name in
              g <- cg_link g u_name v_name ;;
              g <- cg_link g v_name u_name ;;
              let m := mkpmst (pm_nodes m) (pm_n2i m) (pm_i2n m)
                (sdset (sdset (pm_edges m) (ekey u_name v_name) (u_name, v_name, value)) (ekey v_name u_name) (v_name, u_name, value)) in
              l <- cg_adjacent g v_name ;;
              pq <- forM (ord v_name l) (fun adj_name pq =>
                match sdget (cg_n2i g) adj_name with
                | None => Raise SystemError
                | Some adj_id => if zmem adj_id visited then Ret pq else prim_push g v_name v_id adj_name adj_id pq
                end) pq ;;
              Ret (Next (m, g, visited, pq))
          end
        end.
  Lemma pm_add_old MV Q W u ui : incl Q P -> In (u, ui) P -> map fst Q = MV -> In u MV -> pm_add (mkpmst MV Q (map swap Q) W) ui u = mkpmst MV Q (map swap Q) W.
  Proof.
    intros QP Hu EQ HM. unfold pm_add. cbn [pm_i2n]. assert (HQ : In (u, ui) Q). { rewrite <- EQ in HM. apply in_map_iff in HM as ((x & i) & Ex & HI). cbn [fst] in Ex. subst x. rewrite (pid_fun u ui i Hu (QP _ HI)). exact HI. }
    destruct (idget (map swap Q) ui) eqn:X; [reflexivity|]. exfalso. clear - HQ X. induction Q as [|[y j] Q IH]; [destruct HQ|]. cbn [map swap dget fst snd] in *. destruct (Z.eqb_spec ui j) as [->|N]; [discriminate|]. destruct HQ as [[= -> ->]|HQ]; [congruence|auto].
  Qed.
  Lemma pm_add_new MV Q W v vi : incl Q P -> In (v, vi) P -> map fst Q = MV -> ~ In v MV -> pm_add (mkpmst MV Q (map swap Q) W) vi v = mkpmst (MV ++ [v]) (Q ++ [(v, vi)]) (map swap (Q ++ [(v, vi)])) W.
  Proof.
    intros QP Hv EQ HM. unfold pm_add. cbn [pm_i2n pm_nodes pm_n2i pm_edges]. assert (NI : ~ In vi (map snd Q)). { intros X. apply in_map_iff in X as ((x & i) & Ex & HI). cbn [snd] in Ex. subst i. apply HM. rewrite (pname_fun v x vi Hv (QP _ HI)), <- EQ. apply (in_map fst) in HI. exact HI. }
    destruct (idget (map swap Q) vi) eqn:X; [exfalso; apply NI; apply iget_some in X; rewrite <- map_fst_swap; apply (in_map fst) in X; exact X|].
    rewrite sset_new by (rewrite EQ; exact HM). rewrite iset_new by (rewrite map_fst_swap; exact NI). rewrite map_app. reflexivity.
  Qed.
  Lemma zmem_cons i v l : zmem i (v :: l) = (i =? v) || zmem i l.
  Proof. reflexivity. Qed.
  Lemma loop_ok : forall fuel m visited pq MV T, pinv m visited pq MV T -> (length pq + pending MV < fuel)%nat ->
    exists m' visited' MV' T', while_loop fuel body (m, g, visited, pq) = Ret (m', g) /\ pinv m' visited' [] MV' T'.
  Proof.
    induction fuel as [|f IH]; intros m visited pq MV T I Hf; [lia|]. cbn [while_loop]. unfold body at 1. destruct pq as [|e0 pq0] eqn:Epq.
    { cbn [bind]. exists m, visited, MV, T. split; [reflexivity|exact I]. }
    rewrite <- Epq in *. assert (NE : pq <> []) by (rewrite Epq; discriminate). destruct (Hpick pq NE) as (((ui & vi) & o) & En & Mn). rewrite En. destruct (nth_split_perm _ _ _ En) as (PP & LP). set (pq' := remove_nth (pick pq) pq) in *.
    assert (I0 := I). destruct I as [A B D V PA PB]. assert (IN : In (ui, vi, o) pq) by (eapply Permutation_in; [symmetry; exact PP|left; reflexivity]).
    destruct (PA ui vi o IN) as (u & v & c & Hu & Hv & Mu & Hc & ->). clear Epq. cbv zeta. destruct (zmem vi visited) eqn:Z.
    - cbn [bind]. apply (IH m visited pq' MV T); [|lia]. assert (Mv : In v MV) by (apply (V v vi Hv); exact Z). constructor; auto.
      + intros a b x X. apply (PA a b x). eapply Permutation_in; [symmetry; exact PP|right; exact X].
      + intros a ai w wi d Ha Hw Ma Mw Hd. assert (X := PB a ai w wi d Ha Hw Ma Mw Hd). eapply Permutation_in in X; [|exact PP]. destruct X as [[= <- <- <-]|X]; [|exact X]. exfalso. apply Mw. rewrite (pname_fun w v vi Hw Hv). exact Mv.
    - assert (Mv : ~ In v MV). { intros X. apply (V v vi Hv) in X. congruence. }
      rewrite (pnode u ui Hu), (pnode v vi Hv). cbn [bind]. rewrite (plink u v c Hc). cbn [bind]. rewrite (plink v u c (cost_sym G UD u v c Hc)). cbn [bind].
      destruct D as (Q & EQ & QP & ->). rewrite (pm_add_old MV Q _ u ui QP Hu EQ Mu), (pm_add_new MV Q _ v vi QP Hv EQ Mv). cbn [pm_nodes pm_n2i pm_i2n pm_edges].
      destruct (tinv_add G gr UD s C HC MV T u v c A Mu Mv Hc) as (NL & A').
      { intros a b d Ma Mb Hd. destruct (cost_in a b d Hd) as [Ga Gb]. destruct (pid_of a Ga) as (ai & _ & Ha). destruct (pid_of b Gb) as (bi & _ & Hb). assert (X := Mn _ (PB a ai b bi d Ha Hb Ma Mb Hd)). cbn [snd val_gtb] in X. apply Z.ltb_ge in X. exact X. }
      assert (PT : forall a b d, In (a, b, d) T -> plain a /\ plain b). { intros a b d X. destruct (t_T _ _ _ _ _ A a b d X) as (X1 & _). destruct (cost_in a b d X1). split; apply (plain_in _ _ OK); assumption. }
      destruct (cost_in u v c Hc) as [Gu Gv]. rewrite cset_both; [|exact PT|apply (plain_in _ _ OK); exact Gu|apply (plain_in _ _ OK); exact Gv|exact NL].
      rewrite (padj v Gv). cbn [bind].
      destruct (push_ok v vi (fun i => zmem i (vi :: visited)) (ord v (outs E v))) with (pq := pq') as (R & ER & LR & HR).
      { intros w X. apply (Permutation_in _ (Hord _ _)) in X. apply outs_In in X. exact X. }
      rewrite ER. cbn [bind]. assert (V' : forall x i, In (x, i) P -> zmem i (vi :: visited) = true <-> In x (MV ++ [v])).
      { intros x i Hx. rewrite zmem_cons, orb_true_iff, in_app1, (V x i Hx). rewrite Z.eqb_eq. split.
        - intros [->|X]; [right; apply (pname_fun x v vi Hx Hv)|left; exact X].
        - intros [X| ->]; [right; exact X|left; apply (pid_fun v i vi Hx Hv)]. }
      apply (IH _ _ _ (MV ++ [v]) (T ++ [(u, v, c)])).
      + constructor.
        * exact A'.
        * apply in_app1. left. exact B.
        * exists (Q ++ [(v, vi)]). split; [rewrite map_app, EQ; reflexivity|]. split; [|reflexivity]. intros x X. apply in_app_or in X as [X|[<-|[]]]; [apply QP; exact X|exact Hv].
        * exact V'.
        * intros a b x X. apply in_app_or in X as [X|X].
          -- destruct (PA a b x) as (a' & b' & d & Y1 & Y2 & Y3 & Y4); [eapply Permutation_in; [symmetry; exact PP|right; exact X]|]. exists a', b', d. split; [exact Y1|]. split; [exact Y2|]. split; [apply in_app1; left; exact Y3|exact Y4].
          -- apply HR in X as (w & wi & d & X1 & X2 & X3 & X4 & X5). injection X5 as -> -> ->. exists v, w, d. split; [exact Hv|]. split; [exact X2|]. split; [apply in_app1; right; reflexivity|]. split; [exact X4|reflexivity].
        * intros a ai w wi d Ha Hw Ma Mw Hd. apply in_or_app. assert (Mw' : ~ In w MV) by (intros X; apply Mw, in_app1; left; exact X). apply in_app1 in Ma as [Ma| ->].
          -- left. assert (X := PB a ai w wi d Ha Hw Ma Mw' Hd). eapply Permutation_in in X; [|exact PP]. destruct X as [[= <- <- <-]|X]; [|exact X]. exfalso. apply Mw, in_app1. right. apply (pname_fun w v vi Hw Hv).
          -- right. apply HR. exists w, wi, d. rewrite (pid_fun v ai vi Ha Hv). repeat split; auto.
             ++ apply (Permutation_in _ (Permutation_sym (Hord _ _))). apply outs_In. apply (cost_edge _ _ _ _ Hd).
             ++ destruct (zmem wi (vi :: visited)) eqn:Y; [|reflexivity]. exfalso. apply Mw. apply (V' w wi Hw). exact Y.
      + rewrite app_length. rewrite (Permutation_length (Hord _ _)) in LR. rewrite (pending_add MV v Mv) in Hf. lia.
  Qed.
  Lemma prim_ok fuel rest : map fst P = s :: rest -> (S (length E) < fuel)%nat ->
    exists MV Q T, cpp_prim ord pick fuel g = Ret (mkcg MV Q (map swap Q) (filter (fun x => mem (fst x) MV) (cg_adj g)) (cboth T) 0, g) /\
      map fst Q = MV /\ incl Q P /\ NoDup MV /\ (forall x, In x MV <-> linked (priced G) s x) /\ minimum_spanning_forest C T /\
      forest T /\ forall a b c, In (a, b, c) T -> plain a /\ plain b.
  Proof.
    intros EV Hf. unfold cpp_prim. change (cg_nodes g) with (map fst P). rewrite EV. change (cg_n2i g) with P. rewrite (pid_get s si Hs).
    assert (Gs : In s (map fst P)) by (rewrite EV; left; reflexivity). rewrite (padj s Gs). cbn [bind].
    destruct (push_ok s si (fun _ => false) (ord s (outs E s))) with (pq := @nil etuple) as (R & ER & LR & HR).
    { intros w X. apply (Permutation_in _ (Hord _ _)) in X. apply outs_In in X. exact X. }
    cbv iota in ER. change (cg_n2i g) with P in ER. rewrite ER. cbn [bind app].
    destruct (loop_ok fuel (mkpmst [s] [(s, si)] [(si, s)] []) [si] R [s] []) as (m' & visited' & MV & T & EL & I).
    - constructor.
      + apply tinv_first; exact Gs.
      + left. reflexivity.
      + exists [(s, si)]. split; [reflexivity|]. split; [intros x [<-|[]]; exact Hs|reflexivity].
      + intros x i Hx. cbn [zmem existsb]. rewrite orb_false_r, Z.eqb_eq. split; [intros ->; left; apply (pname_fun s x si Hs Hx)|intros [<-|[]]; apply (pid_fun s i si Hx Hs)].
      + intros a b x X. apply HR in X as (w & wi & d & X1 & X2 & X3 & X4 & X5). injection X5 as -> -> ->. exists s, w, d. split; [exact Hs|]. split; [exact X2|]. split; [left; reflexivity|]. split; [exact X4|reflexivity].
      + intros a ai w wi d Ha Hw [<-|[]] Mw Hd. apply HR. exists w, wi, d. rewrite (pid_fun s ai si Ha Hs). repeat split; auto. apply (Permutation_in _ (Permutation_sym (Hord _ _))). apply outs_In. apply (cost_edge _ _ _ _ Hd).
    - assert (X := pending_add [] s ltac:(intros [])). cbn [app] in X. rewrite (Permutation_length (Hord _ _)) in LR. assert (Y : (pending [] <= length E)%nat) by apply pending_le. lia.
    - unfold body in EL. change (cg_n2i g) with P in EL. 
      match goal with |- context [while_loop fuel ?b ?x] => change (while_loop fuel b x) with (while_loop fuel body (mkpmst [s] [(s, si)] [(si, s)] [], g, [si], R)) end. fold body in EL. rewrite EL. cbn [bind].
      destruct I as [A B (Q & EQ & QP & ->) V PA PB]. exists MV, Q, T. split; [reflexivity|]. split; [exact EQ|]. split; [exact QP|]. split; [apply (t_nd _ _ _ _ _ A)|].
      destruct (tinv_done G UD s C HC MV T A) as (M & L).
      + intros ->. destruct B.
      + intros u w p Hu Hw Hp. destruct (cost_in u w p Hp) as [Gu Gw]. destruct (pid_of u Gu) as (ui & _ & Iu). destruct (pid_of w Gw) as (wi & _ & Iw). destruct (PB u ui w wi p Iu Iw Hu Hw Hp).
      + split; [exact L|]. split; [exact M|]. split; [apply (t_for _ _ _ _ _ A)|]. intros a b d X. destruct (t_T _ _ _ _ _ A a b d X) as (X1 & _). destruct (cost_in a b d X1). split; apply (plain_in _ _ OK); assumption.
  Qed.
End P.
