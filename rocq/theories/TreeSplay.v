(** SplayTree: insertion of a new key brings it to the root. *)
From Coq Require Import Sorting.Sorted.
From Verif Require Import Base TreeModel TreeModel2 TreeSpec TreeProofs TreeRotate TreeBst TreeTrav TreeQuery TreeLca TreeDel TreeHist TreeBalSpec TreeAvl TreeAvl2 TreeSim TreeTreap.

Section Splay.
  Context {D : Type}.
  Notation info := (info D). Notation node := (node D). Notation mem := (mem D). Notation bst := (bst D). Notation bt := (bt D). Notation ctx := (ctx D).
  Ltac ents_go EN1 := rewrite <- EN1; cbn [plug]; try apply ents_plug; rewrite ?ents_N; repeat (rewrite <- ?app_assoc; cbn [app]); reflexivity.
  Lemma splay_ok (b : bst) (c : ctx) (l : bt) s x (r : bt) : grown b (plug c (N l s x r)) ->
    exists b' l' r', splay b (Some s) (cpar c) = Ret b' /\ grown b' (N l' s x r') /\ ents (N l' s x r') = ents (plug c (N l s x r)) /\ keepsb b b'.
  Proof.
    intros G. unfold splay. remember (ents (plug c (N l s x r))) as EN eqn:EEN. symmetry in EEN.
    match goal with |- context [while_loop ?f ?bd ?s0] => assert (W : wp (while_loop f bd s0) (fun b' => exists l' r', grown b' (N l' s x r') /\ ents (N l' s x r') = EN /\ keepsb b b')) end.
    { eapply (wp_while_g (fun n st => exists c l r, n = clen c /\ snd st = cpar c /\ grown (fst st) (plug c (N l s x r)) /\ keepsb b (fst st) /\ ents (plug c (N l s x r)) = EN)) with (n := clen c).
      - clear c l r G EEN. intros n [b1 p] (c & l & r & -> & Ep & G & K & EN1). cbn [fst snd] in *. subst p. rewrite (tget_at _ _ _ _ _ _ G). cbn [bind n_parent]. assert (ND := grown_neq _ _ G).
        assert (FIN : forall (c2 : ctx) (l2 r2 : bt) b2, (clen c2 < clen c)%nat -> grown b2 (plug c2 (N l2 s x r2)) -> keepsb b1 b2 -> ents (plug c2 (N l2 s x r2)) = EN ->
           wp (xn <- tget (b_mem b2) (Some s) ;; Ret (Next (b2, n_parent xn))) (fun r0 => match r0 with Next s' => exists n', (n' < clen c)%nat /\ exists c l r, n' = clen c /\ snd s' = cpar c /\ grown (fst s') (plug c (N l s x r)) /\ keepsb b (fst s') /\ ents (plug c (N l s x r)) = EN | Break b' => exists l' r', grown b' (N l' s x r') /\ ents (N l' s x r') = EN /\ keepsb b b' end)).
        { intros c2 l2 r2 b2 L G2 K2 EN2. rewrite (tget_at _ _ _ _ _ _ G2). cbn [bind n_parent wp fst snd]. exists (clen c2). split; [exact L|]. exists c2, l2, r2. do 2 (split; [reflexivity|]). split; [exact G2|]. split; [eapply keepsb_trans; eassumption|exact EN2]. }
        destruct c as [|c j y q|c q j y]; cbn [cpar plug clen] in *; [cbn [wp]; eauto|..].
        + rewrite (tget_at b1 c _ j y q G). cbn [bind n_parent]. destruct c as [|c g z w|c w g z]; cbn [cpar plug clen] in *.
          * unfold zig. rewrite (tget_at b1 Top _ j y q G). cbn [bind n_left root]. rewrite oeqb_yes. destruct (rot_right b1 Top l s x r j y q G) as (b2 & E2 & G2 & K2). rewrite E2. cbn [bind]. eapply (FIN Top); [cbn; lia|exact G2|exact K2|ents_go EN1].
          * rewrite (tget_at b1 c _ g z w G). cbn [bind n_left n_right root]. rewrite !oeqb_yes. cbn [andb]. unfold zig_zig. rewrite (tget_at b1 (CL c g z w) _ j y q G). cbn [bind n_parent cpar].
            destruct (rot_right b1 c (N l s x r) j y q g z w G) as (b2 & E2 & G2 & K2). rewrite E2. cbn [bind]. destruct (rot_right b2 c l s x r j y (N q g z w) G2) as (b3 & E3 & G3 & K3). rewrite E3. cbn [bind]. eapply (FIN c); [lia|exact G3|eapply keepsb_trans; eassumption|ents_go EN1].
          * rewrite (tget_at b1 c w g z _ G). cbn [bind n_left n_right root]. rewrite !oeqb_yes. rewrite (oeqb_no (root w) (Some j)) by (intros X; apply root_In in X; dj ND). rewrite (oeqb_no (root q) (Some s)) by (intros X; apply root_In in X; dj ND). cbn [andb]. unfold zag_zig. rewrite (tget_at b1 (CR c w g z) _ j y q G). cbn [bind n_parent cpar].
            destruct (rot_right_left b1 c w j y l s x r g z q G) as (b2 & E2 & G2 & K2). rewrite E2. cbn [bind]. eapply (FIN c); [lia|exact G2|exact K2|ents_go EN1].
        + rewrite (tget_at b1 c q j y _ G). cbn [bind n_parent]. destruct c as [|c g z w|c w g z]; cbn [cpar plug clen] in *.
          * unfold zig. rewrite (tget_at b1 Top q j y _ G). cbn [bind n_left root]. rewrite oeqb_no by (intros X; apply root_In in X; dj ND). destruct (rot_left b1 Top q s x l j y r G) as (b2 & E2 & G2 & K2). rewrite E2. cbn [bind]. eapply (FIN Top); [cbn; lia|exact G2|exact K2|ents_go EN1].
          * rewrite (tget_at b1 c _ g z w G). cbn [bind n_left n_right root]. rewrite !oeqb_yes. rewrite (oeqb_no (root q) (Some s)) by (intros X; apply root_In in X; dj ND). rewrite (oeqb_no (root w) (Some j)) by (intros X; apply root_In in X; dj ND). cbn [andb]. unfold zig_zag. rewrite (tget_at b1 (CL c g z w) q j y _ G). cbn [bind n_parent cpar].
            destruct (rot_left_right b1 c q j y l s x r g z w G) as (b2 & E2 & G2 & K2). rewrite E2. cbn [bind]. eapply (FIN c); [lia|exact G2|exact K2|ents_go EN1].
          * rewrite (tget_at b1 c w g z _ G). cbn [bind n_left n_right root]. rewrite !oeqb_yes. rewrite (oeqb_no (root q) (Some s)) by (intros X; apply root_In in X; dj ND). cbn [andb]. unfold zag_zag. rewrite (tget_at b1 (CR c w g z) q j y _ G). cbn [bind n_parent cpar].
            destruct (rot_left b1 c w j y q g z (N l s x r) G) as (b2 & E2 & G2 & K2). rewrite E2. cbn [bind]. destruct (rot_left b2 c (N w g z q) s x l j y r G2) as (b3 & E3 & G3 & K3). rewrite E3. cbn [bind]. eapply (FIN c); [lia|exact G3|eapply keepsb_trans; eassumption|ents_go EN1].
      - exists c, l, r. split; [reflexivity|]. split; [reflexivity|]. split; [exact G|]. split; [apply keepsb_refl|exact EEN].
      - assert (HF := clen_fuel _ _ _ _ _ _ _ (g_at _ _ G)). lia. }
    apply wp_ex in W as (b1 & E1 & l1 & r1 & G1 & EN1 & K1). rewrite E1. exists b1, l1, r1. auto.
  Qed.
  Record pgood (b : bst) (T : bt) (h : list (Z * option D)) : Prop := { p_def : default b; p_grown : grown b T; p_cont : cont T h; p_ne : T <> E }.
  Lemma splay_insert_ok (b : bst) T h k d : pgood b T h -> last_data h k = None -> exists b' T', splay_insert b k d = Ret b' /\ pgood b' T' (h ++ [(k, d)]) /\ b_os b' = b_os b /\ rkey T' = Some k.
  Proof.
    intros [PD PG PC PN] HL. destruct (insert_any b T h k d PD PG PC PN HL) as (c & c' & b1 & x & ET & NT & E1 & B1 & B2 & B3 & B4 & CS & G1 & FX & _ & C1 & ES & _). unfold splay_insert. rewrite E1. cbn [bind]. rewrite ES. cbn [bind]. rewrite B3. replace (b_size b + 1 - 1) with (b_size b) by lia.
    destruct (on_mem_info b1 c' E (b_size b) x E (fun y => y) G1) as (b2 & E2 & G2 & K2 & _). unfold on_mem in E2.
    assert (HC := sub_cell _ _ _ _ _ _ _ (g_at _ _ G1)). rewrite (tmod_ok _ _ _ _ HC) in E2. cbn [bind] in E2. rewrite (tmod_ok _ _ _ _ HC). cbn [bind]. injection E2 as E2. match goal with |- context [splay ?m _ _] => replace m with b2 by (rewrite <- E2; reflexivity) end.
    destruct (splay_ok b2 c' E (b_size b) x E G2) as (b3 & l' & r' & E3 & G3 & N3 & K3). rewrite E3. exists b3, (N l' (b_size b) x r'). split; [reflexivity|]. destruct K2 as (K21 & K22 & K23 & K24), K3 as (K31 & K32 & K33 & K34).
    split; [|split; [congruence|cbn [rkey]; destruct FX as [FX _]; injection FX as FX _ _ _; exact FX]]. split; [unfold default in *; congruence|exact G3| |discriminate]. eapply cont_ents; [symmetry; exact N3|exact C1].
  Qed.
  Lemma last_absent (h0 : list (Z * option D)) k h : NoDup (map fst (h0 ++ (k, h) :: [])) -> last_data h0 k = None.
  Proof.
    intros ND. destruct (last_data h0 k) as [d0|] eqn:EL; [|reflexivity]. exfalso. rewrite map_app in ND. cbn [map fst snd] in ND. apply NoDup_remove_2 in ND. apply ND. apply in_or_app. left. clear - EL. induction h0 as [|[k1 d1] h0 IH]; cbn [last_data] in EL; [discriminate|]. cbn [map fst In]. destruct (last_data h0 k); [right; apply IH; exact EL|]. destruct (Z.eqb_spec k k1); [left; auto|discriminate].
  Qed.
  (** a class whose insert of a new key preserves an invariant *)
  Lemma new_all (f : bst -> Z -> option D -> res bst) (I : bst -> bt -> list (Z * option D) -> Prop) :
    (forall b T h k d, I b T h -> last_data h k = None -> exists b' T', f b k d = Ret b' /\ I b' T' (h ++ [(k, d)])) ->
    forall h b T h0, I b T h0 -> NoDup (map fst (h0 ++ h)) -> exists b' T', insert_with f b h = Ret b' /\ I b' T' (h0 ++ h).
  Proof.
    intros Hf. induction h as [|[k d] h IH]; intros b T h0 G ND; cbn [insert_with]; [exists b, T; rewrite app_nil_r; auto|].
    assert (HL : last_data h0 k = None). { apply (last_absent h0 k d). rewrite map_app in *. cbn [map fst] in *. change (k :: map fst h) with ([k] ++ map fst h) in ND. rewrite app_assoc in ND. clear - ND. induction (map fst h) as [|z a IHa] using rev_ind; [rewrite app_nil_r in ND; exact ND|]. apply IHa. rewrite app_assoc in ND. apply NoDup_remove_1 in ND. rewrite app_nil_r in ND. exact ND. }
    destruct (Hf b T h0 k d G HL) as (b1 & T1 & E1 & G1). rewrite E1. cbn [bind]. change (h0 ++ (k, d) :: h) with (h0 ++ [(k, d)] ++ h) in *. rewrite app_assoc in *. apply (IH _ _ _ G1 ND).
  Qed.
  Lemma one_pgood os (x : info) k d : ent x = (Some k, d) -> pgood (one os x) (N E 0 x E) [(k, d)].
  Proof. intros Ex. split; [reflexivity|apply one_grown|apply one_cont; exact Ex|discriminate]. Qed.
  Lemma splay_first os k (d : option D) : splay_insert (fresh os) k d = Ret (one os (with_isroot true (new_info (Some k) d))).
  Proof. unfold splay_insert. rewrite fresh_insert. cbn [bind]. unfold search_parent, search_loop. cbn. rewrite Z.eqb_refl. reflexivity. Qed.
  Lemma splay_build_ok start os h : started start ++ h <> [] -> NoDup (map fst (started start ++ h)) -> exists b T, build_with splay_insert start os h = Ret b /\ pgood b T (started start ++ h) /\ b_os b = os /\ rkey T = option_map fst (last (map Some (started start ++ h)) None).
  Proof.
    intros NE ND. set (I := fun (b : bst) (T : bt) (h : list (Z * option D)) => pgood b T h /\ b_os b = os /\ rkey T = option_map fst (last (map Some h) None)).
    assert (ST : forall b T h k d, I b T h -> last_data h k = None -> exists b' T', splay_insert b k d = Ret b' /\ I b' T' (h ++ [(k, d)])).
    { intros b T h1 k d (H1 & H2 & H3) HL. destruct (splay_insert_ok b T h1 k d H1 HL) as (b' & T' & E1 & G1 & O1 & R1). exists b', T'. split; [exact E1|]. split; [exact G1|]. split; [congruence|]. rewrite map_app. cbn [map]. rewrite last_last. exact R1. }
    assert (NA := new_all splay_insert I ST). unfold build_with. destruct start as [[k d]|]; cbn [option_map fst snd bst_new bind started app] in *.
    - destruct (NA h (one os (with_isroot true (new_info (Some k) (Some d)))) (N E 0 (with_isroot true (new_info (Some k) (Some d))) E) [(k, Some d)]) as (b & T & E1 & G & O & R); [split; [apply one_pgood; reflexivity|split; reflexivity]|exact ND|]. exists b, T. split; [exact E1|]. auto.
    - fold (fresh (D := D) os). destruct h as [|[k d] h]; [congruence|]. cbn [insert_with]. rewrite splay_first. cbn [bind].
      destruct (NA h (one os (with_isroot true (new_info (Some k) d))) (N E 0 (with_isroot true (new_info (Some k) d)) E) [(k, d)]) as (b & T & E1 & G & O & R); [split; [apply one_pgood; reflexivity|split; reflexivity]|exact ND|]. exists b, T. auto.
  Qed.
End Splay.
