(** Proofs: histories of inserts and then deletes on the C++ CartesianTree, Treap, SplayTree and RedBlackTree. *)
From Coq Require Import Sorting.Sorted.
From Verif Require Import Base ArraysProofs TreeModel TreeModel2 TreeSpec TreeProofs TreeRotate TreeBst TreeTrav TreeQuery TreeDel TreeHist TreeBalSpec TreeAvl TreeAvl2 TreeSim TreeTreap TreeSplay TreeRb TreeReins TreeMulti TreeDel2 TreeDel3 TreeDelSpec TreeDel4 TreeDel5 TreeSplaySpec TreeSplayDel TreeRbDel TreeRbDel2 TreeHist2 CppArrayModel CppTreeModel CppTreeModel2 CppTreeQuery CppTreeSim CppTreeSim2 CppTreeSpec CppTreeSpec2 CppTreeProofs CppTreeHist.

(** ** lengths: a delete that does not compact leaves the array as long as it was *)
Section Len.
  Context {D : Type}.
  Notation bst := (bst D). Notation mem := (mem D).
  Lemma tmod_length (t t' : mem) i f : tmod t i f = Ret t' -> len t' = len t.
  Proof. unfold tmod. destruct i as [i|]; [|discriminate]. destruct (tget t (Some i)) as [n| |]; try discriminate. cbn [bind]. apply aset_len. Qed.
  Lemma aft_delete_len (a a' : aft D) i d : dense a -> aft_delete a i = Ret (a', d) -> len (a_data a') = len (a_data a) /\ d = None.
  Proof.
    unfold dense, aft_delete. intros HD. destruct i as [i|]; [|discriminate]. destruct (_ && _); [|intros [= <- <-]; auto]. destruct (aget (a_data a) i) as [[n|]| |]; try discriminate; cbn [bind]; [|intros [= <- <-]; auto].
    destruct (aset (a_data a) i None) as [u| |] eqn:Es; try discriminate. cbn [bind]. apply aset_len in Es. unfold aft_modify. cbn [a_num a_data]. rewrite Es. destruct (Z.ltb_spec (4 * (a_num a - 1)) (len (a_data a))); [lia|]. intros [= <- <-]. auto.
  Qed.
  Ltac inv := repeat match goal with
    | H : bind ?m _ = Ret _ |- _ => let E := fresh "E" in destruct m eqn:E; try discriminate H; cbn [bind] in H
    | H : (let '(_, _) := ?x in _) = Ret _ |- _ => destruct x
    | H : (if ?x then _ else _) = Ret _ |- _ => destruct x
    | H : (match ?x with Some _ => _ | None => _ end) = Ret _ |- _ => destruct x eqn:?; try discriminate H
    end.
  Lemma delete_info_len (b b' : bst) k a : dense (b_arr b) -> delete_info b k = Ret (b', a) -> len (b_mem b') = len (b_mem b).
  Proof.
    intros HD H. assert (DS : forall t, len t = len (b_mem b) -> dense (b_arr (set_mem b t))) by (intros t Et; unfold dense, b_mem in *; cbn; rewrite Et; exact HD).
    assert (Fin : forall (b1 b2 : bst) s, update_size b1 s = Ret b2 -> len (b_mem b1) = len (b_mem b) -> len (b_mem b2) = len (b_mem b)) by (intros b1 b2 s E1 E2; destruct (update_size_used b1 b2 s E1) as (_ & -> & _); exact E2).
    assert (AD : forall t i arr d, len t = len (b_mem b) -> aft_delete (b_arr (set_mem b t)) i = Ret (arr, d) -> len (a_data arr) = len (b_mem b) /\ d = None).
    { intros t i arr d Et Ea. destruct (aft_delete_len _ _ _ _ (DS t Et) Ea) as [X ->]. split; [|reflexivity]. rewrite X. exact Et. }
    unfold delete_info in H. cbv zeta in H. inv;
    repeat match goal with H : tmod _ _ _ = Ret _ |- _ => apply tmod_length in H end.
    all: try (injection H as <- <-); try reflexivity.
    all: repeat match goal with H : _ /\ _ |- _ => destruct H end.
    all: try match goal with H : aft_delete _ _ = Ret ?x |- _ => is_var x; destruct x end.
    all: try match goal with H : aft_delete (b_arr (set_mem _ ?t)) _ = Ret _ |- _ => let Q := fresh "Q" in let Q2 := fresh "Q2" in destruct (AD t _ _ _ ltac:(congruence) H) as [Q Q2]; first [discriminate Q2 | subst] end.
    all: unfold after_delete in *; cbn [bind] in *.
    all: repeat match goal with H : Ret _ = Ret _ |- _ => injection H; clear H; intros; subst end.
    all: try (eapply Fin; [eassumption|]).
    all: try match goal with Q : len (a_data ?arr) = _ |- _ => exact Q end.
    all: cbn [b_mem set_mem b_arr a_data]; try congruence.
  Qed.
  Lemma delete_len (b b' : bst) k f : dense_for b k -> delete b k = Ret (b', f) -> len (b_mem b') = len (b_mem b).
  Proof.
    intros HD. unfold delete. destruct (search_parent b k) as [[[w|] p]| |] eqn:Es.
    - specialize (HD _ _ Es). destruct (delete_info b k) as [[b1 a]| |] eqn:Ed; try discriminate. cbn [bind]. intros [= <- _]. eapply delete_info_len; eassumption.
    - unfold delete_info. rewrite Es. cbn [bind]. intros [= <- _]. reflexivity.
    - unfold delete_info. rewrite Es. discriminate.
    - unfold delete_info. rewrite Es. discriminate.
  Qed.
End Len.

Section H2.
  Context {K D : Type} (same : K -> K -> bool) (val : K -> Z) (rk : K -> Z).
  Hypothesis same_ok : forall x y, same x y = true <-> x = y.
  Hypothesis rk_inj : forall x y, rk x = rk y -> x = y.
  Notation bt := (bt D). Notation bst := (bst D). Notation ktree := (ktree K D). Notation ctree := (ctree K D). Notation itree := (itree K D).
  Notation RB := (RB (D := D) rk). Notation dm := (dm rk). Notation dn := (dn rk). Notation dt := (dt rk).
  (** ** the nodes as a tree *)
  Fixpoint itwin (T : bt) (V : itree) : Prop :=
    match T, V with
    | E, IE => True
    | N l _ x r, IN l' y r' => x = di rk y /\ itwin l l' /\ itwin r r'
    | _, _ => False
    end.
  Lemma itwin_ex (t : cmem K D) T : forall p, rep (dm t) T p -> exists V, iheld t (root T) p V /\ itwin T V.
  Proof.
    induction T as [|l IHl i x r IHr]; intros p; [intros _; exists IE; cbn; auto|]. cbn [rep root]. intros (HC & HL & HR).
    destruct (IHl _ HL) as (Ul & H1 & W1). destruct (IHr _ HR) as (Ur & H2 & W2). destruct (get_back rk _ _ _ HC) as (n & En & Ed). destruct n as [y lf rg pr]. unfold CppTreeSim.dn in Ed. cbn [cn_inf cn_left cn_right cn_parent] in Ed. injection Ed as Ex1 Ex2 Ex3 Ex4. subst x lf rg pr.
    exists (IN Ul y Ur). split; [|cbn [itwin]; auto]. cbn [iheld]. eexists. split; [exact En|]. cbn [cn_inf cn_left cn_right cn_parent]. auto 6.
  Qed.
  Lemma itwin_shows T : forall U V, twin rk T U -> itwin T V -> cshows (inodes V) (kents U).
  Proof.
    unfold cshows. induction T as [|l IHl i x r IHr]; intros [|l1 k d r1] [|l2 y r2]; cbn [twin itwin]; try tauto. intros (Ek & Ed & H1 & H2) (-> & H3 & H4). cbn [inodes kents]. rewrite !map_app. cbn [map fst snd]. rewrite (IHl _ _ H1 H3), (IHr _ _ H2 H4). f_equal. f_equal. cbn [di k_key k_data] in *. destruct (ck_key y) as [k1|]; [|discriminate]. injection Ek as Ek. apply rk_inj in Ek. congruence.
  Qed.
  Lemma itwin_heap T : forall V, itwin T V -> heap_ordered T -> iheap V.
  Proof.
    induction T as [|l IHl i x r IHr]; intros [|l2 y r2]; cbn [itwin]; try tauto. intros (-> & H3 & H4). cbn [heap_ordered iheap]. intros ((p & Ep & HP) & HL & HR). split; [|split; [apply IHl; assumption|apply IHr; assumption]]. exists p. split; [exact Ep|].
    assert (Q : forall S W, itwin S W -> (match S with E => True | N _ _ z _ => exists q, k_prio z = Some q /\ p <= q end) -> no_smaller p W). { intros [|a1 a2 a3 a4] [|b1 b2 b3]; cbn [itwin no_smaller]; try tauto. intros (-> & _ & _) X. exact X. }
    split; [apply (Q l _ H3); apply HP; auto|apply (Q r _ H4); apply HP; auto].
  Qed.
  Lemma itwin_black T V : itwin T V -> black T -> icolor 0 V.
  Proof. destruct T, V; cbn; try tauto. intros (-> & _ & _) X. exact X. Qed.
  Lemma itwin_red T V : itwin T V -> red T -> icolor 1 V.
  Proof. destruct T, V; cbn; try tauto. intros (-> & _ & _) X. exact X. Qed.
  Lemma itwin_nrr T : forall V, itwin T V -> no_red_red T -> ino_red_red V.
  Proof.
    induction T as [|l IHl i x r IHr]; intros [|l2 y r2]; try (cbn; tauto). intros HT. assert (HT' := HT). cbn [itwin] in HT'. destruct HT' as (-> & H3 & H4). cbn [no_red_red]. intros (HC & HL & HR). change ((icolor 0 (IN l2 y r2) \/ (icolor 1 (IN l2 y r2) /\ icolor 0 l2 /\ icolor 0 r2)) /\ ino_red_red l2 /\ ino_red_red r2).
    split; [|auto]. destruct HC as [HC|(HC & H5 & H6)]; [left; eapply itwin_black; eassumption|right]. split; [eapply itwin_red; eassumption|]. split; [apply (itwin_black l)|apply (itwin_black r)]; assumption.
  Qed.
  Lemma itwin_blacks T : forall V n, itwin T V -> black_count T n -> iblacks V n.
  Proof.
    induction T as [|l IHl i x r IHr]; intros [|l2 y r2] n; cbn [itwin]; try tauto. intros (-> & H3 & H4). cbn [black_count iblacks di k_color]. cbv zeta. intros (HL & HR).
    destruct (ck_color y) as [[|q|q]|]; cbn [Z.eqb] in HL, HR; split; auto.
  Qed.
  Lemma itwin_root T V : itwin T V -> rkey T = option_map rk (iroot V).
  Proof. destruct T, V; cbn; try tauto. intros (-> & _). reflexivity. Qed.

  (** ** inserts *)
  Section Ins.
    Context {E0 : Type} (ek : E0 -> K * option D) (cins : ctree -> E0 -> res ctree) (pins : bst -> E0 -> res bst) (J : bst -> bt -> list (Z * option D) -> Prop) (may : list (Z * option D) -> Z -> Prop).
    Hypothesis j_grown : forall b T h, J b T h -> grown b T.
    Hypothesis j_sim : forall c b e, RB c b -> room (b_arr b) -> sim RB (cins c e) (pins b e).
    Definition nm (e : E0) : Z * option D := (rk (fst (ek e)), snd (ek e)).
    Hypothesis j_step : forall b T h e, J b T h -> may h (fst (nm e)) -> exists b' T', pins b e = Ret b' /\ J b' T' (h ++ [nm e]).
    Lemma ins_gen h : forall c b T h0, RB c b -> J b T h0 -> (forall h1 e h2, h = h1 ++ e :: h2 -> may (h0 ++ map nm h1) (fst (nm e))) ->
      exists c' b' T', insert_each cins c h = Ret c' /\ RB c' b' /\ J b' T' (h0 ++ map nm h).
    Proof.
      induction h as [|e h IH]; intros c b T h0 HB HJ HM; cbn [insert_each map].
      - exists c, b, T. rewrite app_nil_r. auto.
      - destruct (j_step b T h0 e HJ) as (b1 & T1 & E1 & J1); [specialize (HM [] e h eq_refl); rewrite app_nil_r in HM; exact HM|]. destruct (j_sim c b e HB (room_g _ _ (j_grown _ _ _ HJ)) _ E1) as (c1 & F1 & HB1). rewrite F1. cbn [bind].
        destruct (IH c1 b1 T1 (h0 ++ [nm e]) HB1 J1) as (c2 & b2 & T2 & F2 & HB2 & J2); [|rewrite <- app_assoc in J2; exists c2, b2, T2; auto]. intros h1 e1 h2 ->. rewrite <- app_assoc. apply (HM (e :: h1) e1 h2). reflexivity.
    Qed.
    Lemma empty_start comp os : order_of rk comp -> exists b0 : ctree, cpp_bst_new None None comp os = Ret b0 /\ RB b0 (fresh os).
    Proof. intros HC. eexists. split; [reflexivity|]. split; [reflexivity|]. split; [reflexivity|]. split; [reflexivity|]. intros x y. cbn [ct_comp]. rewrite HC. destruct (rk x <? rk y); reflexivity. Qed.
    Lemma fresh_room os : room (b_arr (fresh (D := D) os)).
    Proof. cbv. intuition discriminate. Qed.
    Hypothesis j_first : forall os e, exists b T, pins (fresh os) e = Ret b /\ J b T [nm e].
    Lemma build_gen comp os h : order_of rk comp -> h <> [] -> (forall h1 e h2, h = h1 ++ e :: h2 -> h1 <> [] -> may (map nm h1) (fst (nm e))) ->
      exists b0 c b T, cpp_bst_new None None comp os = Ret b0 /\ insert_each cins b0 h = Ret c /\ RB c b /\ J b T (map nm h).
    Proof.
      intros HC NE HM. destruct (empty_start comp os HC) as (b0 & E0' & HB0). destruct h as [|e h]; [congruence|]. destruct (j_first os e) as (b1 & T1 & E1 & J1). destruct (j_sim b0 _ e HB0 (fresh_room os) _ E1) as (c1 & F1 & HB1).
      destruct (ins_gen h c1 b1 T1 [nm e] HB1 J1) as (c2 & b2 & T2 & F2 & HB2 & J2).
      - intros h1 e1 h2 ->. apply (HM (e :: h1) e1 h2); [reflexivity|discriminate].
      - exists b0, c2, b2, T2. split; [exact E0'|]. split; [cbn [insert_each]; rewrite F1; exact F2|]. auto.
    Qed.
  End Ins.
  (** a history without repeated keys *)
  Lemma nodup_new {E0 : Type} (ek : E0 -> K * option D) (h : list E0) : NoDup (map (fun e => fst (ek e)) h) -> forall h1 e h2, h = h1 ++ e :: h2 -> last_data (map (nm ek) h1) (fst (nm ek e)) = None.
  Proof.
    intros ND h1 e h2 ->. rewrite map_app in ND. cbn [map] in ND. apply NoDup_remove_2 in ND. destruct (last_data (map (nm ek) h1) (fst (nm ek e))) as [d|] eqn:EL; [|reflexivity]. exfalso. apply ND. apply in_or_app. left. clear ND. revert d EL. induction h1 as [|a h1 IH]; cbn [map last_data]; [discriminate|]. intros d. unfold nm at 1. cbn [nm fst snd]. revert d.
    intros d. cbn [In]. destruct (last_data (map (nm ek) h1) (rk (fst (ek e)))) as [o|] eqn:EL.
    - intros _. right. apply (IH o). exact EL.
    - destruct (Z.eqb_spec (rk (fst (ek e))) (rk (fst (ek a)))) as [X|X]; [|discriminate]. intros _. left. symmetry. apply rk_inj. exact X.
  Qed.

  (** ** deletes *)
  Section Del.
    Context (cdel : ctree -> K -> res (ctree * bool)) (pdel : bst -> Z -> res (bst * bool)) (I : bst -> bt -> Prop) (ok : list (Z * option D) -> Z -> Prop).
    Hypothesis i_slim : forall b T, I b T -> slim b T.
    Hypothesis i_ord : forall b T, I b T -> ordered (infos T).
    Hypothesis i_sim : forall c b k, RB c b -> dense (b_arr b) -> sim (fun x y => RB (fst x) (fst y) /\ snd y = snd x) (cdel c k) (pdel b (rk k)).
    Hypothesis i_step : forall c b T k, RB c b -> I b T -> ok (entries T) k -> len (b_mem b) <= 4 * (nodes T - 1) ->
      exists b' T' f, pdel b k = Ret (b', f) /\ (f = true <-> In (Some k) (map fst (ents T))) /\ I b' T' /\ ents T' = without k (ents T) /\ len (b_mem b') = len (b_mem b) /\ b_os b' = b_os b.
    Fixpoint ok_all (l : list (Z * option D)) (ks : list Z) : Prop := match ks with [] => True | k :: ks' => ok l k /\ ok_all (filter (fun e => negb (fst e =? k)) l) ks' end.
    Lemma del_gen ks : forall c b T, RB c b -> I b T -> ok_all (entries T) (map rk ks) -> len (b_mem b) <= 4 * (nodes T - len ks) ->
      exists c' b' T', delete_each cdel c ks = Ret (c', snd (deleted (entries T) (map rk ks))) /\ RB c' b' /\ I b' T' /\ b_os b' = b_os b /\ entries T' = fst (deleted (entries T) (map rk ks)).
    Proof.
      induction ks as [|k ks IH]; intros c b T HB HI HK HL; cbn [delete_each map deleted ok_all] in *; [exists c, b, T; cbn [fst snd]; auto|]. destruct HK as [HK1 HK2].
      assert (LK : len (k :: ks) = len ks + 1) by (unfold len; cbn [length]; lia). pose proof (len_nonneg _ ks). assert (HO := i_ord _ _ HI).
      destruct (i_step c b T (rk k) HB HI HK1 ltac:(lia)) as (b1 & T1 & f & E1 & Hf & I1 & EE & HN & HOs). assert (HO1 := i_ord _ _ I1).
      assert (DN : dense (b_arr b)) by (unfold dense; rewrite (sl_num _ _ (i_slim _ _ HI)); unfold b_mem in *; lia).
      destruct (i_sim c b k HB DN _ E1) as ([c1 f1] & F1 & HB1 & Ef). cbn [fst snd] in *. subst f1. rewrite F1. cbn [bind].
      assert (EN : entries T1 = filter (fun e => negb (fst e =? rk k)) (entries T)). { apply okeys_inj. rewrite <- ents_okeys, EE, ents_okeys, without_okeys by assumption. reflexivity. }
      assert (NN := without_nodes T T1 (rk k) HO EE). rewrite <- EN in *. destruct (IH c1 b1 T1 HB1 I1 HK2 ltac:(lia)) as (c2 & b2 & T2 & F2 & HB2 & I2 & O2 & EN2). rewrite F2. cbn [bind].
      destruct (deleted (entries T1) (map rk ks)) as [l' fs]. cbn [fst snd] in *. exists c2, b2, T2. split; [|split; [exact HB2|]; split; [exact I2|]; split; [congruence|exact EN2]].
      f_equal. f_equal. f_equal. rewrite ents_okeys, has_okeys in Hf by assumption. destruct f, (existsb (fun e => fst e =? rk k) (entries T)); try reflexivity; [symmetry; apply Hf; reflexivity|apply Hf; reflexivity].
    Qed.
  End Del.

  (** ** what can be seen of the tree *)
  Lemma cpost c b T : RB c b -> tree_at (b_mem b) (b_root b) T -> a_num (b_arr b) = nodes T -> ordered (infos T) -> T <> E ->
    exists U V, cgood rk c T U /\ iheld (ct_mem c) (ct_root c) None V /\ itwin T V /\ cshows (inodes V) (kents U) /\ named_entries rk (kents U) = entries T.
  Proof.
    intros HB HT HN HO HE. destruct (cgood_of rk c b T HB HT HN HO HE) as (U & G & HU). assert (HR := cg_at _ _ _ _ G). destruct HR as (HR & _ & ER). destruct (itwin_ex (ct_mem c) T None HR) as (V & HV & TV). exists U, V. split; [exact G|]. split; [rewrite ER; exact HV|]. split; [exact TV|]. split; [apply (itwin_shows T); [apply (cg_twin _ _ _ _ G)|exact TV]|]. symmetry. apply (cg_ents val rk _ _ _ G).
  Qed.
  Lemma nm_id (h : list (K * option D)) : map (nm (fun e => e)) h = named_entries rk h.
  Proof. reflexivity. Qed.

  (** ** RedBlackTree *)
  Definition irb (b : bst) (T : bt) : Prop := default b /\ slim b T /\ ordered (infos T) /\ marked T /\ black T /\ exists n, rb T n.
  Definition c_rb_ins (b : ctree) (e : K * option D) : res ctree := c_rb_insert same val b (fst e) (snd e).
  Lemma crb_build comp os h : order_of rk comp -> h <> [] -> NoDup (map fst h) ->
    exists b0 c b T, cpp_bst_new None None comp os = Ret b0 /\ insert_each c_rb_ins b0 h = Ret c /\ RB c b /\ rgood b T (named_entries rk h) /\ marked T.
  Proof.
    intros HC NE ND. destruct (build_gen (fun e : K * option D => e) c_rb_ins (fun b e => rb_insert b (rk (fst e)) (snd e)) (fun b T h => rgood b T h /\ wgood b T h) (fun h k => last_data h k = None)) with (comp := comp) (os := os) (h := h) as (b0 & c & b & T & E1 & E2 & HB & G & GW); try assumption.
    - intros b T h0 (G & _). apply (r_grown _ _ _ G).
    - intros c b [k d] HB HR. apply (sim_rb_insert same val rk same_ok rk_inj); assumption.
    - intros b T h0 [k d] (G & GW) HL. cbn [nm fst snd] in *. destruct (rb_insert_ok b T h0 (rk k) d G HL) as (b1 & T1 & F1 & G1 & _). destruct (rb_insert_w b T h0 (rk k) d GW) as (b2 & T2 & F2 & G2 & _). rewrite F1 in F2. injection F2 as <-. assert (T2 = T1) by (eapply tree_unique; [apply (g_at _ _ (w_grown _ _ _ G2))|apply (g_at _ _ (r_grown _ _ _ G1))]). subst T2. exists b1, T1. auto.
    - intros o [k d]. cbn [fst snd nm]. exists (one o (mkinfo (Some (rk k)) d 0 1 true None (Some 0))), (N E 0 (mkinfo (Some (rk k)) d 0 1 true None (Some 0)) E). split; [apply rb_first|]. split.
      + split; [reflexivity|apply one_grown|apply one_cont; reflexivity|discriminate|split; constructor|reflexivity|]. exists 1. cbn. left. auto.
      + split; [reflexivity|apply one_grown|apply one_cont; reflexivity|discriminate|split; [split; constructor|reflexivity]| |reflexivity]. apply tinted_N. unfold tint. cbn. split; [auto|]. split; constructor.
    - intros h1 e h2 HE _. apply (nodup_new (fun e : K * option D => e) h ND h1 e h2 HE).
    - exists b0, c, b, T. split; [exact E1|]. split; [exact E2|]. split; [exact HB|]. split; [exact G|apply (w_tail _ _ _ GW)].
  Qed.
  Lemma cpp_rb_ok comp os h ks (l : list (Z * option D)) : order_of rk comp -> sorted_map l (named_entries rk h) -> NoDup (map fst h) -> 2 * len ks <= len l -> 0 < len l ->
    exists c T U V n, from_empty c_rb_ins (c_rb_delete same val) comp os h ks = Ret (c, snd (deleted l (map rk ks))) /\ cgood rk c T U /\ iheld (ct_mem c) (ct_root c) None V /\ cshows (inodes V) (kents U) /\ named_entries rk (kents U) = fst (deleted l (map rk ks)) /\ icolor 0 V /\ ino_red_red V /\ iblacks V n.
  Proof.
    intros HC SM ND HL HP. assert (NE : h <> []). { intros X. destruct SM as [_ SM]. rewrite X in SM. destruct l as [|[k d] l]; [cbn in HP; lia|]. destruct (SM k d) as [A _]. specialize (A (or_introl eq_refl)). discriminate. }
    destruct (crb_build comp os h HC NE ND) as (b0 & c & b & T & E1 & E2 & HB & G & MK). assert (SG := cont_map _ _ (r_cont _ _ _ G)). assert (EL := sorted_map_unique _ _ _ SM SG). subst l. rewrite len_entries in *.
    assert (GG := r_grown _ _ _ G). assert (GC := g_cap _ _ GG). assert (GN := g_nodes _ _ GG). pose proof (len_nonneg _ ks).
    destruct (del_gen (c_rb_delete same val) rb_delete irb (fun _ _ => True)) with (ks := ks) (c := c) (b := b) (T := T) as (c' & b' & T' & E3 & HB' & I' & _ & EN').
    - intros b1 T1 X. apply X.
    - intros b1 T1 X. apply X.
    - intros c1 b1 k HB1 DN. apply (sim_rb_delete same val rk same_ok rk_inj); [exact HB1|]. intros e _. exact DN.
    - intros c1 b1 T1 k HB1 (D1 & S1 & O1 & M1 & B1 & n1 & R1) _ HN. destruct (rb_delete_ok b1 T1 k n1 D1 S1 O1 M1 B1 R1 HN) as (b2 & f & F1 & Hf & T2 & SP2 & EE & (K1 & K2 & K3) & MK2 & BK2 & RB2). exists b2, T2, f. split; [exact F1|]. split; [exact Hf|]. split; [|auto]. split; [unfold default in *; congruence|]. split; [exact SP2|]. split; [apply (ordered_without k (infos T1)); assumption|]. auto.
    - exact HB.
    - split; [apply (r_def _ _ _ G)|]. split; [apply grown_slim; exact GG|]. split; [apply (proj1 (r_cont _ _ _ G))|]. split; [exact MK|]. split; [apply (r_black _ _ _ G)|apply (r_rb _ _ _ G)].
    - clear. generalize (entries T). induction ks as [|k ks IH]; intros q; cbn; auto.
    - lia.
    - destruct I' as (D1 & S1 & O1 & M1 & B1 & n1 & R1). assert (HE : T' <> E) by (intros ->; destruct M1). destruct (cpost c' b' T' HB' (sl_at _ _ S1) (sl_num _ _ S1) O1 HE) as (U & V & CG & HV & TV & SH & EN). exists c', T', U, V, n1. split; [unfold from_empty; rewrite E1; cbn [bind]; rewrite E2; cbn [bind]; exact E3|]. split; [exact CG|]. split; [exact HV|]. split; [exact SH|]. split; [rewrite EN; exact EN'|]. destruct (rb_spec T' n1 R1) as [R2 R3].
      split; [apply (itwin_black T'); assumption|]. split; [apply (itwin_nrr T'); assumption|apply (itwin_blacks T'); assumption].
  Qed.
  (** any history of inserts *)
  Lemma cpp_rb_w comp os h (l : list (Z * option D)) : order_of rk comp -> sorted_map l (named_entries rk h) -> h <> [] ->
    exists c T U V, from_empty c_rb_ins (c_rb_delete same val) comp os h [] = Ret (c, []) /\ cgood rk c T U /\ iheld (ct_mem c) (ct_root c) None V /\ cshows (inodes V) (kents U) /\ named_entries rk (kents U) = l /\ icolor 0 V.
  Proof.
    intros HC SM NE. destruct (build_gen (fun e : K * option D => e) c_rb_ins (fun b e => rb_insert b (rk (fst e)) (snd e)) wgood (fun _ _ => True)) with (comp := comp) (os := os) (h := h) as (b0 & c & b & T & E1 & E2 & HB & G); try assumption; auto.
    - intros b T h0 G. apply (w_grown _ _ _ G).
    - intros c b [k d] HB HR. apply (sim_rb_insert same val rk same_ok rk_inj); assumption.
    - intros b T h0 [k d] GW _. cbn [nm fst snd] in *. destruct (rb_insert_w b T h0 (rk k) d GW) as (b2 & T2 & F2 & G2 & _). exists b2, T2. auto.
    - intros o [k d]. cbn [fst snd nm]. exists (one o (mkinfo (Some (rk k)) d 0 1 true None (Some 0))), (N E 0 (mkinfo (Some (rk k)) d 0 1 true None (Some 0)) E). split; [apply rb_first|].
      split; [reflexivity|apply one_grown|apply one_cont; reflexivity|discriminate|split; [split; constructor|reflexivity]| |reflexivity]. apply tinted_N. unfold tint. cbn. split; [auto|]. split; constructor.
    - rewrite nm_id in G. assert (GG := w_grown _ _ _ G). destruct (cpost c b T HB (g_at _ _ GG) ltac:(rewrite (g_num _ _ GG), (g_nodes _ _ GG); reflexivity) (proj1 (w_cont _ _ _ G)) (w_ne _ _ _ G)) as (U & V & CG & HV & TV & SH & EN). exists c, T, U, V. split; [unfold from_empty; rewrite E1; cbn [bind]; rewrite E2; reflexivity|]. split; [exact CG|]. split; [exact HV|]. split; [exact SH|].
      split; [rewrite EN; symmetry; apply (sorted_map_unique _ _ _ SM); apply cont_map; apply (w_cont _ _ _ G)|]. apply (itwin_black T); [exact TV|apply (w_black _ _ _ G)].
  Qed.

  (** ** CartesianTree, Treap *)
  Definition c_cart_ins (b : ctree) (e : K * Z * option D) : res ctree := c_cart_insert same val b (fst (fst e)) (snd (fst e)) (snd e).
  Definition eprio (e : K * Z * option D) : K * option D := (fst (fst e), snd e).
  Lemma ccart_build comp os h : order_of rk comp -> h <> [] ->
    exists b0 c b T, cpp_bst_new None None comp os = Ret b0 /\ insert_each c_cart_ins b0 h = Ret c /\ RB c b /\ TreeReins.cgood b T (map (nm eprio) h) /\ (NoDup (map (fun e => fst (fst e)) h) -> heap None T).
  Proof.
    intros HC NE.
    assert (S1 : forall b T h (e : K * Z * option D), TreeReins.cgood b T h -> exists b' T', cart_insert b (rk (fst (fst e))) (snd (fst e)) (snd e) = Ret b' /\ TreeReins.cgood b' T' (h ++ [nm eprio e])).
    { intros b T h0 [[k p] d] G. cbn [fst snd]. destruct (cart_insert_w b T h0 (rk k) p d G) as (b1 & T1 & F1 & G1 & _). exists b1, T1. auto. }
    destruct (build_gen eprio c_cart_ins (fun b e => cart_insert b (rk (fst (fst e))) (snd (fst e)) (snd e)) (fun b T h => TreeReins.cgood b T h /\ (NoDup (map fst h) -> heap None T)) (fun _ _ => True)) with (comp := comp) (os := os) (h := h) as (b0 & c & b & T & E1 & E2 & HB & G & GH); try assumption; auto.
    - intros b T h0 (G & _). apply (c_grown _ _ _ G).
    - intros c b [[k p] d] HB HR. apply (sim_cart_insert same val rk same_ok rk_inj); assumption.
    - intros b T h0 [[k p] d] (G & GH) _. destruct (S1 b T h0 (k, p, d) G) as (b1 & T1 & F1 & G1). exists b1, T1. split; [exact F1|]. split; [exact G1|]. unfold nm, eprio. cbn [fst snd]. intros ND.
      assert (ND0 : NoDup (map fst h0)). { rewrite map_app in ND. cbn [map fst] in ND. apply NoDup_remove_1 in ND. rewrite app_nil_r in ND. exact ND. }
      assert (TG : tgood b T h0). { split; [apply (c_def _ _ _ G)|apply (c_grown _ _ _ G)|apply (c_cont _ _ _ G)|apply (c_ne _ _ _ G)|apply GH; exact ND0]. }
      destruct (cart_insert_ok b T h0 (rk k) p d TG (last_absent h0 (rk k) d ND)) as (b2 & T2 & F2 & G2 & _). cbn [fst snd] in F1. rewrite F1 in F2. injection F2 as <-. assert (T2 = T1) by (eapply tree_unique; [apply (g_at _ _ (t_grown _ _ _ G2))|apply (g_at _ _ (c_grown _ _ _ G1))]). subst T2. apply (t_heap _ _ _ G2).
    - intros o [[k p] d]. cbn [fst snd nm eprio]. exists (one o (mkinfo (Some (rk k)) d 0 1 true (Some p) None)), (N E 0 (mkinfo (Some (rk k)) d 0 1 true (Some p) None) E). split; [apply cart_first|]. split.
      + split; [reflexivity|apply one_grown|apply one_cont; reflexivity|discriminate|reflexivity|]. apply ranked_N. split; [discriminate|]. split; constructor.
      + intros _. cbn. eauto 10.
    - exists b0, c, b, T. split; [exact E1|]. split; [exact E2|]. split; [exact HB|]. split; [exact G|]. intros ND. apply GH. rewrite map_map. unfold nm, eprio. cbn [fst]. rewrite <- (map_map (fun e : K * Z * option D => fst (fst e)) rk). apply FinFun.Injective_map_NoDup; [exact rk_inj|exact ND].
  Qed.
  Lemma cart_del_len c b k b' f : RB c b -> dense (b_arr b) -> cart_delete b k = Ret (b', f) -> len (b_mem b') = len (b_mem b).
  Proof.
    intros HB HD. unfold cart_delete. destruct (search b k) as [[e|]| |]; try discriminate; cbn [bind]; [|intros [= <- _]; reflexivity]. destruct (trickle_down b (Some e)) as [b1| |] eqn:E1; try discriminate. cbn [bind]. intros E2. destruct (sx_trickle_down rk _ _ _ _ (Some e) (RB_RX rk _ _ HB) _ E1) as (c1 & _ & _ & L1 & N1).
    rewrite (delete_len b1 b' k f); [unfold len; rewrite L1; reflexivity| |exact E2]. intros w p _. unfold dense, b_mem, len in *. rewrite L1, N1. exact HD.
  Qed.
  Lemma splay_del_len c b k b' f : RB c b -> dense (b_arr b) -> splay_delete b k = Ret (b', f) -> len (b_mem b') = len (b_mem b).
  Proof.
    intros HB HD. unfold splay_delete. destruct (search_parent b k) as [[[e|] p]| |]; try discriminate; cbn [bind]; [|intros [= <- _]; reflexivity]. destruct (splay b (Some e) p) as [b1| |] eqn:E1; try discriminate. cbn [bind]. intros E2. destruct (sx_splay rk _ _ _ _ (Some e) p (RB_RX rk _ _ HB) _ E1) as (c1 & _ & _ & L1 & N1).
    rewrite (delete_len b1 b' k f); [unfold len; rewrite L1; reflexivity| |exact E2]. intros w q _. unfold dense, b_mem, len in *. rewrite L1, N1. exact HD.
  Qed.
  Definition icart (b : bst) (T : bt) : Prop := default b /\ snug b T /\ ordered (infos T) /\ T <> E /\ ranked T.
  Lemma two_left (b : bst) T k : slim b T -> ordered (infos T) -> T <> E -> len (b_mem b) <= 4 * (nodes T - 1) -> without k (ents T) <> [].
  Proof.
    intros S1 HO HE HL X. assert (L2 : 2 <= nodes T). { assert (0 < len (b_mem b)). { destruct (sl_at _ _ S1) as (HR & _ & _). destruct T as [|l i x r]; [congruence|]. cbn [rep] in HR. destruct HR as (HC & _). unfold cell, aget in HC. destruct (Z.ltb_spec i 0); [discriminate|]. destruct (Z.leb_spec (len (b_mem b)) i); [discriminate|]. lia. } lia. }
    destruct T as [|l i x r]; [congruence|]. assert (Q := without_nodes (N l i x r) E k HO). cbn [nodes] in *. change (ents E) with (@nil (option Z * option D)) in Q. specialize (Q (eq_sym X)). cbn [nodes] in Q. lia.
  Qed.
  Lemma cpp_cart_ok comp os h ks (l : list (Z * option D)) : order_of rk comp -> sorted_map l (named_entries rk (map eprio h)) -> h <> [] -> 2 * len ks <= len l ->
    exists c T U V, from_empty c_cart_ins (c_cart_delete same val) comp os h ks = Ret (c, snd (deleted l (map rk ks))) /\ cgood rk c T U /\ iheld (ct_mem c) (ct_root c) None V /\ cshows (inodes V) (kents U) /\ named_entries rk (kents U) = fst (deleted l (map rk ks)) /\ (NoDup (map (fun e => fst (fst e)) h) -> iheap V).
  Proof.
    intros HC SM NE HL. destruct (ccart_build comp os h HC NE) as (b0 & c & b & T & E1 & E2 & HB & G & GH). assert (SG := cont_map _ _ (c_cont _ _ _ G)). unfold named_entries in SM. rewrite map_map in SM. assert (EL := sorted_map_unique _ _ _ SM SG). subst l. rewrite len_entries in *.
    assert (GG := c_grown _ _ _ G). assert (GC := g_cap _ _ GG). assert (GN := g_nodes _ _ GG). pose proof (len_nonneg _ ks).
    destruct (del_gen (c_cart_delete same val) cart_delete (fun b T => icart b T /\ (NoDup (map (fun e => fst (fst e)) h) -> heap None T)) (fun _ _ => True)) with (ks := ks) (c := c) (b := b) (T := T) as (c' & b' & T' & E3 & HB' & (I' & H') & _ & EN').
    - intros b1 T1 ((_ & X & _) & _). apply (sn_slim _ _ X).
    - intros b1 T1 X. apply X.
    - intros c1 b1 k HB1 DN. apply (sim_cart_delete same val rk same_ok rk_inj); [exact HB1|]. intros e _. exact DN.
    - intros c1 b1 T1 k HB1 ((D1 & S1 & O1 & N1 & R1) & H1) _ HN. destruct (cart_delete_ok b1 T1 k D1 S1 O1 N1 R1 (two_left b1 T1 k (sn_slim _ _ S1) O1 N1 HN)) as (b2 & T2 & f & F1 & Hf & SP2 & EE & HE2 & RK2 & CC & OO & HH). exists b2, T2, f. split; [exact F1|]. split; [exact Hf|]. split.
      + split; [|intros ND; apply HH, H1, ND]. split; [unfold default in *; congruence|]. split; [exact SP2|]. split; [apply (ordered_without k (infos T1)); assumption|]. auto.
      + split; [exact EE|]. split; [|exact OO]. eapply cart_del_len; [exact HB1| |exact F1]. unfold dense. rewrite (sl_num _ _ (sn_slim _ _ S1)). unfold b_mem in *. lia.
    - exact HB.
    - split; [|exact GH]. split; [apply (c_def _ _ _ G)|]. split; [apply grown_snug; exact GG|]. split; [apply (proj1 (c_cont _ _ _ G))|]. split; [apply (c_ne _ _ _ G)|apply (TreeReins.c_rank _ _ _ G)].
    - clear. generalize (entries T). induction ks as [|k ks IH]; intros q; cbn; auto.
    - assert (0 < nodes T) by (assert (NT := c_ne _ _ _ G); destruct T as [|a1 a2 a3 a4]; [congruence|cbn [nodes]; pose proof (nodes_nonneg a1); pose proof (nodes_nonneg a4); lia]). lia.
    - destruct I' as (D1 & S1 & O1 & N1 & R1). destruct (cpost c' b' T' HB' (sl_at _ _ (sn_slim _ _ S1)) (sl_num _ _ (sn_slim _ _ S1)) O1 N1) as (U & V & CG & HV & TV & SH & EN). exists c', T', U, V. split; [unfold from_empty; rewrite E1; cbn [bind]; rewrite E2; cbn [bind]; exact E3|]. split; [exact CG|]. split; [exact HV|]. split; [exact SH|]. split; [rewrite EN; exact EN'|].
      intros ND. apply (itwin_heap T'); [exact TV|]. apply (heap_spec T' None). apply H'. exact ND.
  Qed.

  (** ** SplayTree *)
  Definition c_splay_ins (b : ctree) (e : K * option D) : res ctree := c_splay_insert same val b (fst e) (snd e).
  Lemma cpp_splay_ok comp os h ks (l : list (Z * option D)) : order_of rk comp -> sorted_map l (named_entries rk h) -> NoDup (map fst h) -> h <> [] -> 2 * len ks <= len l -> safe_all l (map rk ks) ->
    exists c T U V, from_empty c_splay_ins (c_splay_delete same val) comp os h ks = Ret (c, snd (deleted l (map rk ks))) /\ cgood rk c T U /\ iheld (ct_mem c) (ct_root c) None V /\ cshows (inodes V) (kents U) /\ named_entries rk (kents U) = fst (deleted l (map rk ks)) /\
      (ks = [] -> iroot V = option_map fst (last (map Some h) None)).
  Proof.
    intros HC SM ND NE HL HS.
    destruct (build_gen (fun e : K * option D => e) c_splay_ins (fun b e => splay_insert b (rk (fst e)) (snd e)) (fun b T h => pgood b T h /\ rkey T = option_map fst (last (map Some h) None)) (fun h k => last_data h k = None)) with (comp := comp) (os := os) (h := h) as (b0 & c & b & T & E1 & E2 & HB & G & RK); try assumption.
    { intros b T h0 (G & _). apply (p_grown _ _ _ G). }
    { intros c b [k d] HB HR. apply (sim_splay_insert same val rk same_ok rk_inj); assumption. }
    { intros b T h0 [k d] (G & _) HL0. cbn [nm fst snd] in *. destruct (splay_insert_ok b T h0 (rk k) d G HL0) as (b1 & T1 & F1 & G1 & _ & R1). exists b1, T1. split; [exact F1|]. split; [exact G1|]. rewrite map_app. cbn [map]. rewrite last_last. exact R1. }
    { intros o [k d]. cbn [fst snd nm]. exists (one o (with_isroot true (new_info (Some (rk k)) d))), (N E 0 (with_isroot true (new_info (Some (rk k)) d)) E). split; [apply splay_first|]. split; [apply one_pgood; reflexivity|reflexivity]. }
    { intros h1 e h2 HE _. apply (nodup_new (fun e : K * option D => e) h ND h1 e h2 HE). }
    rewrite nm_id in G. assert (SG := cont_map _ _ (p_cont _ _ _ G)). assert (EL := sorted_map_unique _ _ _ SM SG). subst l. rewrite len_entries in *.
    assert (GG := p_grown _ _ _ G). assert (GC := g_cap _ _ GG). assert (GN := g_nodes _ _ GG). pose proof (len_nonneg _ ks).
    destruct (del_gen (c_splay_delete same val) splay_delete (fun b1 T1 => (default b1 /\ snug b1 T1 /\ ordered (infos T1) /\ T1 <> E)) safe) with (ks := ks) (c := c) (b := b) (T := T) as (c' & b' & T' & E3 & HB' & I' & _ & EN').
    - intros b1 T1 (_ & X & _). apply (sn_slim _ _ X).
    - intros b1 T1 X. apply X.
    - intros c1 b1 k HB1 DN. apply (sim_splay_delete same val rk same_ok rk_inj); [exact HB1|]. intros e p _. exact DN.
    - intros c1 b1 T1 k HB1 (D1 & S1 & O1 & N1) HK HN. destruct (splay_delete_ok b1 T1 k D1 S1 O1 N1 HK) as (b2 & T2 & f & F1 & Hf & SP2 & EE & HE2 & CC & OO). exists b2, T2, f. split; [exact F1|]. split; [exact Hf|]. split.
      + split; [unfold default in *; congruence|]. split; [exact SP2|]. split; [apply (ordered_without k (infos T1)); assumption|]. auto.
      + split; [exact EE|]. split; [|exact OO]. eapply splay_del_len; [exact HB1| |exact F1]. unfold dense. rewrite (sl_num _ _ (sn_slim _ _ S1)). unfold b_mem in *. lia.
    - exact HB.
    - split; [apply (p_def _ _ _ G)|]. split; [apply grown_snug; exact GG|]. split; [apply (proj1 (p_cont _ _ _ G))|apply (p_ne _ _ _ G)].
    - clear - HS. revert HS. generalize (entries T). induction ks as [|k ks IH]; intros q; cbn [map safe_all ok_all]; [auto|]. intros [X Y]. split; [exact X|]. apply IH. exact Y.
    - assert (0 < nodes T) by (assert (NT := p_ne _ _ _ G); destruct T as [|a1 a2 a3 a4]; [congruence|cbn [nodes]; pose proof (nodes_nonneg a1); pose proof (nodes_nonneg a4); lia]). lia.
    - destruct I' as (D1 & S1 & O1 & N1). destruct (cpost c' b' T' HB' (sl_at _ _ (sn_slim _ _ S1)) (sl_num _ _ (sn_slim _ _ S1)) O1 N1) as (U & V & CG & HV & TV & SH & EN). exists c', T', U, V. split; [unfold from_empty; rewrite E1; cbn [bind]; rewrite E2; cbn [bind]; exact E3|]. split; [exact CG|]. split; [exact HV|]. split; [exact SH|]. split; [rewrite EN; exact EN'|].
      intros ->. cbn [delete_each map] in E3. assert (c' = c) by (cbn in E3; congruence). subst c'. destruct (cpost c b T HB (g_at _ _ GG) ltac:(rewrite (g_num _ _ GG), (g_nodes _ _ GG); reflexivity) (proj1 (p_cont _ _ _ G)) (p_ne _ _ _ G)) as (U2 & V2 & CG2 & HV2 & TV2 & _).
      assert (T' = T). { eapply tree_unique; [apply (cg_at _ _ _ _ CG)|apply (cg_at _ _ _ _ CG2)]. } subst T'. assert (RV := itwin_root T V TV). rewrite RK in RV. rewrite map_map in RV. clear - RV rk_inj. assert (X : forall q : list (K * option D), last (map (fun x => Some (nm (fun e => e) x)) q) None = option_map (fun e => (rk (fst e), snd e)) (last (map Some q) None)). { induction q as [|a q IH]; [reflexivity|]. cbn [map]. destruct q as [|a2 q]; [reflexivity|]. exact IH. }
      rewrite X in RV. destruct (last (map Some h) None) as [e|]; destruct (iroot V) as [z|]; cbn in RV |- *; try discriminate; [|reflexivity]. injection RV as RV. apply rk_inj in RV. congruence.
  Qed.
End H2.
