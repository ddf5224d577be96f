(** CartesianTree and Treap: insertions keep both orders. *)
From Coq Require Import Sorting.Sorted.
From Verif Require Import Base TreeModel TreeModel2 TreeSpec TreeProofs TreeRotate TreeBst TreeTrav TreeQuery TreeLca TreeDel TreeHist TreeBalSpec TreeAvl TreeAvl2 TreeSim.

Section Treap.
  Context {D : Type}.
  Notation info := (info D). Notation node := (node D). Notation mem := (mem D). Notation bst := (bst D). Notation bt := (bt D). Notation ctx := (ctx D).
  Definition ole (lo : option Z) (p : Z) : Prop := match lo with None => True | Some q => q <= p end.
  Fixpoint heap (lo : option Z) (T : bt) : Prop := match T with E => True | N l _ x r => exists p, k_prio x = Some p /\ ole lo p /\ heap (Some p) l /\ heap (Some p) r end.
  Definition ctop (c : ctx) : option Z := match c with Top => None | CL _ _ y _ | CR _ _ _ y => k_prio y end.
  Fixpoint cheap (c : ctx) : Prop :=
    match c with
    | Top => True
    | CL c _ y r => exists p, k_prio y = Some p /\ ole (ctop c) p /\ heap (Some p) r /\ cheap c
    | CR c l _ y => exists p, k_prio y = Some p /\ ole (ctop c) p /\ heap (Some p) l /\ cheap c
    end.
  Lemma heap_mono T lo p : ole lo p -> heap (Some p) T -> heap lo T.
  Proof. destruct T as [|l i x r]; cbn [heap]; [auto|]. intros H (q & A & B & C & F). exists q. cbn [ole] in B. repeat split; try assumption. destruct lo; cbn [ole] in *; [lia|exact I]. Qed.
  Lemma heap_plug c : forall S : bt, heap None (plug c S) <-> cheap c /\ heap (ctop c) S.
  Proof.
    induction c as [|c IH i y r|c IH l i y]; intros S; cbn [plug cheap ctop]; [tauto|..]; rewrite IH; cbn [heap]; split.
    - intros (A & p & B & C & F & G). rewrite B. eauto 10.
    - intros ((p & A & B & C & F) & G). rewrite A in G. eauto 10.
    - intros (A & p & B & C & F & G). rewrite B. eauto 10.
    - intros ((p & A & B & C & F) & G). rewrite A in G. eauto 10.
  Qed.
  Lemma heap_sim T : forall lo T', sim T T' -> heap lo T -> heap lo T'.
  Proof. induction T as [|l IHl i x r IHr]; intros lo [|l' i' x' r']; cbn [sim heap]; try tauto. intros (_ & E1 & A & B) (p & C & F & G & H). injection E1 as _ _ E1 _. exists p. rewrite <- E1. split; [exact C|]. split; [exact F|]. split; [eapply IHl|eapply IHr]; eassumption. Qed.
  Lemma cheap_sim (c : ctx) : forall c', csim c c' -> cheap c -> cheap c' /\ ctop c' = ctop c.
  Proof.
    induction c as [|c IH i x r|c IH l i x]; intros [|c' i' x' r'|c' l' i' x']; cbn [csim cheap ctop]; try tauto; intros (_ & E1 & A & B) (p & C & F & G & H); injection E1 as _ _ E1 _; rewrite <- E1; (split; [|reflexivity]); exists p; destruct (IH _ B H) as [I1 I2]; rewrite I2; (split; [exact C|]); (split; [exact F|]); (split; [apply (heap_sim _ _ _ A G)|exact I1]).
  Qed.
  (** the new node rises *)
  Lemma bubble_up_ok (b : bst) (c : ctx) (l : bt) s x (r : bt) np : grown b (plug c (N l s x r)) -> c <> Top -> k_prio x = Some np -> cheap c -> heap (ctop c) l -> heap (ctop c) r -> heap (Some np) l -> heap (Some np) r ->
    exists b' T', bubble_up b (Some s) = Ret b' /\ grown b' T' /\ heap None T' /\ ents T' = ents (plug c (N l s x r)) /\ keepsb b b'.
  Proof.
    intros G NT HP HC H1 H2 H3 H4. unfold bubble_up. rewrite (tget_at _ _ _ _ _ _ G). cbn [bind n_parent].
    assert (exists pc, cpar c = Some pc /\ exists n, aget (b_mem b) pc = Ret n) as (pc & -> & n0 & ->).
    { destruct c as [|c j y q|c q j y]; [congruence|..]; cbn [cpar plug] in *; exists j; (split; [reflexivity|]); assert (HX := sub_cell _ _ _ _ _ _ _ (g_at _ _ G)); unfold cell in HX; destruct (aget (b_mem b) j) as [[n|]| |]; try discriminate; eauto. }
    cbn [bind]. remember (ents (plug c (N l s x r))) as EN eqn:EEN. symmetry in EEN.
    match goal with |- context [while_loop ?f ?bd ?s0] => assert (W : wp (while_loop f bd s0) (fun b' => exists c l r, grown b' (plug c (N l s x r)) /\ heap None (plug c (N l s x r)) /\ keepsb b b' /\ ents (plug c (N l s x r)) = EN)) end.
    { eapply (wp_while_g (fun n b' => exists c l r, n = clen c /\ grown b' (plug c (N l s x r)) /\ keepsb b b' /\ ents (plug c (N l s x r)) = EN /\ cheap c /\ heap (ctop c) l /\ heap (ctop c) r /\ heap (Some np) l /\ heap (Some np) r)) with (n := clen c).
      - clear c l r G NT HC H1 H2 H3 H4 EEN. intros n b1 (c & l & r & -> & G & K & EN1 & HC & H1 & H2 & H3 & H4). rewrite (tget_at _ _ _ _ _ _ G). cbn [bind n_parent].
        assert (DONE : ole (ctop c) np -> exists c0 l0 r0, grown b1 (plug c0 (N l0 s x r0)) /\ heap None (plug c0 (N l0 s x r0)) /\ keepsb b b1 /\ ents (plug c0 (N l0 s x r0)) = EN).
        { intros HO. exists c, l, r. split; [exact G|]. split; [|auto]. apply heap_plug. split; [exact HC|]. cbn [heap]. eauto 10. }
        assert (ND := grown_neq _ _ G). destruct c as [|c j y q|c q j y]; cbn [cpar plug clen cheap ctop] in *.
        + cbn [wp]. apply DONE. exact I.
        + destruct HC as (p & HC1 & HC2 & HC3 & HC4). rewrite HC1 in *. rewrite (tget_at b1 c _ j y q G). cbn [bind n_inf]. unfold n_prio. cbn [n_inf]. rewrite HC1, HP. cbn [bind]. destruct (Z.ltb_spec np p) as [L|L]; [|cbn [wp]; apply DONE; cbn [ole]; exact L].
          cbn [n_right]. rewrite oeqb_no by (intros X; apply root_In in X; dj ND). destruct (rot_right b1 c l s x r j y q G) as (b2 & E2 & G2 & K2). rewrite E2. cbn [bind wp].
          exists (clen c). split; [lia|]. exists c, l, (N r j y q). split; [reflexivity|]. split; [exact G2|]. split; [eapply keepsb_trans; eassumption|]. split; [rewrite <- EN1; apply ents_plug; rewrite !ents_N, <- app_assoc; reflexivity|]. split; [exact HC4|]. cbn [heap ole].
          split; [apply (heap_mono _ _ p HC2 H1)|]. split; [eauto 10|]. split; [exact H3|]. exists p. split; [exact HC1|]. split; [lia|]. auto.
        + destruct HC as (p & HC1 & HC2 & HC3 & HC4). rewrite HC1 in *. rewrite (tget_at b1 c q j y _ G). cbn [bind n_inf]. unfold n_prio. cbn [n_inf]. rewrite HC1, HP. cbn [bind]. destruct (Z.ltb_spec np p) as [L|L]; [|cbn [wp]; apply DONE; cbn [ole]; exact L].
          cbn [n_right root]. rewrite oeqb_yes. destruct (rot_left b1 c q s x l j y r G) as (b2 & E2 & G2 & K2). rewrite E2. cbn [bind wp].
          exists (clen c). split; [lia|]. exists c, (N q j y l), r. split; [reflexivity|]. split; [exact G2|]. split; [eapply keepsb_trans; eassumption|]. split; [rewrite <- EN1; apply ents_plug; rewrite !ents_N, <- app_assoc; reflexivity|]. split; [exact HC4|]. cbn [heap ole].
          split; [eauto 10|]. split; [apply (heap_mono _ _ p HC2 H2)|]. split; [|exact H4]. exists p. split; [exact HC1|]. split; [lia|]. auto.
      - exists c, l, r. split; [reflexivity|]. split; [exact G|]. split; [apply keepsb_refl|]. auto 10.
      - assert (HF := clen_fuel _ _ _ _ _ _ _ (g_at _ _ G)). lia. }
    apply wp_ex in W as (b1 & E1 & c1 & l1 & r1 & G1 & HH & K1 & EN1). rewrite E1. cbn [bind]. rewrite (tget_at _ _ _ _ _ _ G1). cbn [bind n_parent]. destruct (cpar c1) eqn:Ec.
    - exists b1, (plug c1 (N l1 s x r1)). auto.
    - destruct (on_mem_info b1 c1 l1 s x r1 (with_isroot true) G1) as (b2 & E2 & G2 & K2 & _). exists b2, (plug c1 (N l1 s (with_isroot true x) r1)). split; [exact E2|]. split; [exact G2|]. split; [|split; [rewrite <- EN1; apply ents_plug; rewrite !ents_N; reflexivity|eapply keepsb_trans; eassumption]].
      rewrite heap_plug in *. exact HH.
  Qed.
  Record tgood (b : bst) (T : bt) (h : list (Z * option D)) : Prop := { t_def : default b; t_grown : grown b T; t_cont : cont T h; t_ne : T <> E; t_heap : heap None T }.
  Definition drop_prio (h : list (Z * Z * option D)) : list (Z * option D) := map (fun e => (fst (fst e), snd e)) h.
  Lemma cart_insert_ok (b : bst) T h k p d : tgood b T h -> last_data h k = None -> exists b' T', cart_insert b k p d = Ret b' /\ tgood b' T' (h ++ [(k, d)]) /\ b_os b' = b_os b.
  Proof.
    intros [TD TG TC TN TH] HL. destruct (insert_any b T h k d TD TG TC TN HL) as (c & c' & b1 & x & ET & NT & E1 & B1 & B2 & B3 & B4 & CS & G1 & FX & _ & C1 & _ & ES). unfold cart_insert. rewrite E1. cbn [bind]. rewrite ES. cbn [bind]. rewrite (tget_at _ _ _ _ _ _ G1). cbn [bind].
    destruct (on_mem_info b1 c' E (b_size b) x E (fun _ => mkinfo (Some k) d 0 1 false (Some p) None) G1) as (b2 & E2 & G2 & K2 & _).
    change (fun t => tmod t (Some (b_size b)) (cart_node k p d)) with (fun t : mem => tmod t (Some (b_size b)) (set_inf (fun _ => mkinfo (Some k) d 0 1 false (Some p) None))). rewrite E2. cbn [bind n_inf]. destruct FX as [FX ->].
    rewrite ET in TH. apply heap_plug in TH as [HC _]. destruct (cheap_sim c c' CS HC) as [HC' EC].
    destruct (bubble_up_ok b2 c' E (b_size b) _ E p G2) as (b3 & T3 & E3 & G3 & H3 & N3 & K3); try exact I; [intros X; apply NT; apply (csim_facts c c' CS); exact X|reflexivity|exact HC'|].
    exists b3, T3. split; [exact E3|]. destruct K2 as (K21 & K22 & K23 & K24), K3 as (K31 & K32 & K33 & K34). split; [|congruence]. split; [unfold default in *; congruence|exact G3| | |exact H3].
    - eapply cont_ents; [|exact C1]. rewrite N3. apply ents_plug. rewrite !ents_N. unfold ent. injection FX as FX1 FX2 _ _. rewrite FX1, FX2. reflexivity.
    - intros X. rewrite X in G3. assert (GN := g_nodes _ _ G3). assert (GB := g_nodes _ _ TG). pose proof (nodes_nonneg T). cbn [nodes] in GN. lia.
  Qed.
  Lemma cart_all_ok h : forall (b : bst) T h0, tgood b T h0 -> NoDup (map fst (h0 ++ drop_prio h)) -> exists b' T', insert_prio b h = Ret b' /\ tgood b' T' (h0 ++ drop_prio h) /\ b_os b' = b_os b.
  Proof.
    induction h as [|[[k p] d] h IH]; intros b T h0 G ND; cbn [insert_prio drop_prio map] in *; [exists b, T; rewrite app_nil_r; auto|].
    assert (HL : last_data h0 k = None). { destruct (last_data h0 k) as [d0|] eqn:EL; [|reflexivity]. exfalso. rewrite map_app in ND. cbn [map fst snd] in ND. apply NoDup_remove_2 in ND. apply ND. apply in_or_app. left. clear - EL. induction h0 as [|[k1 d1] h0 IH]; cbn [last_data] in EL; [discriminate|]. cbn [map fst In]. destruct (last_data h0 k); [right; apply IH; exact EL|]. destruct (Z.eqb_spec k k1); [left; auto|discriminate]. }
    destruct (cart_insert_ok b T h0 k p d G HL) as (b1 & T1 & E1 & G1 & O1). rewrite E1. cbn [bind fst snd] in *. change (h0 ++ (k, d) :: map _ h) with (h0 ++ [(k, d)] ++ drop_prio h) in *. rewrite app_assoc in *. destruct (IH _ _ _ G1 ND) as (b2 & T2 & E2 & G2 & O2). exists b2, T2. split; [exact E2|]. split; [exact G2|congruence].
  Qed.
  Definition one (os : bool) (x : info) : bst := mkbst (mkaft [Some (mknode x None None None)] 1 0) (Some 0) 1 None os.
  Lemma one_grown os x : grown (one os x) (N E 0 x E).
  Proof. split; try (cbn; lia). split; [cbn; auto|]. split; [|reflexivity]. constructor; [intros []|constructor]. Qed.
  Lemma cart_first os k p d : cart_insert (fresh os) k p d = Ret (one os (mkinfo (Some k) d 0 1 true (Some p) None)).
  Proof. unfold cart_insert. rewrite fresh_insert. cbn [bind]. unfold search, search_loop. cbn. rewrite Z.eqb_refl. reflexivity. Qed.
  Lemma cart_build_ok os h : h <> [] -> NoDup (map fst (drop_prio h)) -> exists b T, (b0 <- bst_new None None None os ;; insert_prio b0 h) = Ret b /\ tgood b T (drop_prio h) /\ b_os b = os.
  Proof.
    intros NE ND. destruct h as [|[[k p] d] h]; [congruence|]. change (bst_new None None None os) with (Ret (fresh (D := D) os)). cbn [bind insert_prio]. rewrite cart_first. cbn [bind].
    destruct (cart_all_ok h (one os (mkinfo (Some k) d 0 1 true (Some p) None)) (N E 0 (mkinfo (Some k) d 0 1 true (Some p) None) E) [(k, d)]) as (b & T & E1 & G & O); [|exact ND|exists b, T; auto].
    split; [reflexivity|apply one_grown|apply one_cont; reflexivity|discriminate|]. cbn. eauto 10.
  Qed.
  Lemma heap_spec T : forall lo, heap lo T -> heap_ordered T.
  Proof.
    induction T as [|l IHl i x r IHr]; intros lo; cbn [heap heap_ordered]; [auto|]. intros (p & A & B & C & F). split; [|eauto]. exists p. split; [exact A|]. intros S [-> | ->]; [destruct l as [|? ? y ?]; [exact I|destruct C as (q & C1 & C2 & _)]|destruct r as [|? ? y ?]; [exact I|destruct F as (q & C1 & C2 & _)]]; exists q; auto.
  Qed.
End Treap.
